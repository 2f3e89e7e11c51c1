(* Example data for C62. *)
From Verif Require Import Base Life LifeSpec LifeProofs.

(* Allocators: one that always finds memory, one that fails at the k-th try. *)
Definition top (m : mem) : Z := fold_right Z.max 0 (map fst m).
Definition bump : allocator := fun _ m => Some (top m + 1).
Definition fails (k : Z) : allocator := fun i m => if i =? k then None else Some (top m + 1).
Lemma top_max : forall m p, alive m p -> p <= top m.
Proof.
  unfold alive, top. intros m p. generalize (map fst m). intro l. induction l as [|a r IH]; intro I; [destruct I|]. cbn [fold_right].
  destruct I as [->|I]; [lia|]. specialize (IH I). lia.
Qed.
Lemma top_nonneg : forall m, 0 <= top m.
Proof. intro m. unfold top. generalize (map fst m). intro l. induction l; cbn [fold_right]; lia. Qed.
Lemma bump_fair : fair bump.
Proof. intros i m p E. injection E as <-. pose proof (top_nonneg m). split; [lia|]. intro A. pose proof (top_max m _ A). lia. Qed.
Lemma bump_plenty : plenty bump.
Proof. intros i m. discriminate. Qed.
Lemma fails_fair : forall k, fair (fails k).
Proof. intros k i m p E. unfold fails in E. destruct (i =? k); [discriminate E|]. exact (bump_fair i m p E). Qed.

(* Deciding what a client may do. *)
Definition in_b (x : handle) (h : list handle) : bool := if in_dec handle_eq_dec x h then true else false.
Lemma in_b_in : forall x h, in_b x h = true -> In x h.
Proof. intros x h E. unfold in_b in E. destruct (in_dec handle_eq_dec x h) as [I|N]; [exact I|discriminate E]. Qed.
Definition may_b (h : list handle) (c : call) : bool :=
  (zlen h <? 2 ^ 62) &&
  match c with
  | ScrNew => true
  | ScrRef p | ScrUnref p | ClearSb p | AltScr p _ | VteNew p | ScrollUp p _ _ => in_b (HScr p) h
  | Resize p x y => in_b (HScr p) h && (0 <=? x) && (x <? 2 ^ 32) && (0 <=? y) && (y <? 2 ^ 32)
  | MaxSb p m => in_b (HScr p) h && (0 <=? m) && (m <? 2 ^ 32)
  | VteRef v | VteUnref v | Palette _ _ v => in_b (HVte v) h
  end.
Lemma may_b_may : forall h c, may_b h c = true -> may h c.
Proof.
  intros h c E. unfold may_b in E. apply andb_prop in E. destruct E as (L & E). split; [lia|].
  destruct c; try exact Logic.I; try (apply in_b_in; exact E).
  - apply andb_prop in E. destruct E as (E & E4). apply andb_prop in E. destruct E as (E & E3). apply andb_prop in E. destruct E as (E & E2).
    apply andb_prop in E. destruct E as (E & E1). split; [apply in_b_in; exact E|]. lia.
  - apply andb_prop in E. destruct E as (E & E2). apply andb_prop in E. destruct E as (E & E1). split; [apply in_b_in; exact E|]. lia.
Qed.
Fixpoint lawful_b (al : allocator) (w : world) (h : list handle) (cs : list call) : bool :=
  match cs with
  | [] => true
  | c :: r => may_b h c && match lstep al w c with Ok (w', got) => lawful_b al w' (held h c got) r | Ub => true end
  end.
Lemma lawful_b_ok : forall al cs w h, lawful_b al w h cs = true -> lawful al w h cs.
Proof.
  intros al. induction cs as [|c r IH]; intros w h E; cbn [lawful_b lawful] in *; [exact Logic.I|]. apply andb_prop in E. destruct E as (A & B).
  split; [apply may_b_may; exact A|]. intros w' got E. rewrite E in B. apply IH. exact B.
Qed.

(* A screen, a terminal on it, and all kinds of calls; the client lets go of the
   screen while the terminal is still there. *)
Definition story : list call :=
  [ScrNew; VteNew 1; MaxSb 1 2; Palette false true 104; Palette true true 104; Resize 1 90 30; ScrRef 1; ScrollUp 1 0 5; VteRef 104;
   Resize 1 70 12; Palette false true 104; Palette true false 104; AltScr 1 true; ScrollUp 1 1 3; ScrUnref 1; VteUnref 104; ScrUnref 1].
Definition after : res (world * list handle) := history bump nothing [] story.
