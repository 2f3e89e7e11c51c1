From Verif Require Import Base BaseProofs Symbol.

Lemma str_eqb_eq a b : str_eqb a b = true <-> a = b.
Proof.
  revert b; induction a as [|x a IH]; intros [|y b]; cbn [str_eqb]; try (split; congruence).
  rewrite andb_true_iff, IH, Z.eqb_eq. split; [intros [-> ->]; auto|intros H; inversion H; auto].
Qed.

(* The strings interned so far, oldest first. *)
Definition interned (t : symtab) : list (list Z) := rev (map fst (t_syms t)).
(* The id given to the n-th (from 0) interned string. *)
Definition nth_id (n : Z) : Z := UCS4_MAX + 3 + n.

Definition sym_inv (t : symtab) : Prop :=
  t_next t = UCS4_MAX + 2 + zlen (t_syms t) /\
  zlen (t_syms t) <= 2147483646 /\
  t_index t = None :: map Some (interned t) /\
  NoDup (map fst (t_syms t)) /\
  map snd (rev (t_syms t)) = map (fun n => nth_id (Z.of_nat n)) (seq 0 (length (t_syms t))).

Lemma sym_inv_new : sym_inv symtab_new.
Proof. unfold sym_inv, symtab_new; cbn. repeat split; try lia; try constructor. Qed.

Lemma lookup_none l k : syms_lookup l k = None -> ~ In k (map fst l).
Proof.
  induction l as [|[k' v] l IH]; cbn; [auto|].
  destruct (str_eqb k' k) eqn:E; [discriminate|]. intros H [->|H1].
  - assert (str_eqb k k = true) by (apply str_eqb_eq; auto). congruence.
  - exact (IH H H1).
Qed.
Lemma lookup_some l k v : syms_lookup l k = Some v -> In (k, v) l.
Proof.
  induction l as [|[k' v'] l IH]; cbn; [discriminate|].
  destruct (str_eqb k' k) eqn:E.
  - intros H; inversion H; subst. apply str_eqb_eq in E. subst. auto.
  - auto.
Qed.
Lemma lookup_in l k v : NoDup (map fst l) -> In (k, v) l -> syms_lookup l k = Some v.
Proof.
  induction l as [|[k' v'] l IH]; cbn; [tauto|]. intros Hn [H|H].
  - inversion H; subst. assert (E : str_eqb k k = true) by (apply str_eqb_eq; auto). now rewrite E.
  - inversion Hn; subst. destruct (str_eqb k' k) eqn:E; [|auto].
    apply str_eqb_eq in E; subst. exfalso. apply H2. now apply (in_map fst) in H.
Qed.

Lemma sym_inv_append t sym u : 0 <= t_next t -> sym_inv t -> sym_inv (fst (symbol_append t sym u)).
Proof.
  intros Hp (H1 & H2 & H3 & H4 & H5). unfold symbol_append.
  destruct (UCS4_MAX <? u); [cbn; unfold sym_inv; auto|].
  destruct (UCS4_MAXLEN <=? _); [cbn; unfold sym_inv; auto|].
  set (key := symbol_get t sym ++ [u]).
  destruct (syms_lookup (t_syms t) key) eqn:L; [cbn; unfold sym_inv; auto|].
  apply lookup_none in L.
  destruct (u32 (t_next t + 1) <=? t_next t) eqn:E; [cbn; unfold sym_inv; auto|].
  unfold u32 in E. unfold UCS4_MAX in *.
  assert (Hn : u32 (t_next t + 1) = t_next t + 1).
  { rewrite u32_small; [reflexivity|]. lia. }
  cbn [fst]. unfold sym_inv, interned; cbn [t_next t_index t_syms length map rev fst].
  rewrite Hn. repeat split.
  - unfold UCS4_MAX; lia.
  - lia.
  - rewrite H3. unfold interned. rewrite map_app. reflexivity.
  - constructor; auto.
  - rewrite map_app, H5. cbn [map]. rewrite seq_S, map_app. cbn [map]. f_equal.
    f_equal. cbn [snd]. unfold nth_id, UCS4_MAX. lia.
Qed.

Lemma next_nonneg t : sym_inv t -> 0 <= t_next t.
Proof. intros (H & _). rewrite H. unfold UCS4_MAX. lia. Qed.

Lemma sym_inv_run l : sym_inv (symbol_run l).
Proof.
  unfold symbol_run.
  assert (G : forall l t, sym_inv t -> sym_inv (fold_left (fun t a => fst (symbol_append t (fst a) (snd a))) l t)).
  { induction l0 as [|[a b] l0 IH]; intros t H; cbn [fold_left]; [exact H|].
    apply IH. apply sym_inv_append; auto using next_nonneg. }
  apply G, sym_inv_new.
Qed.

Lemma syms_nth t n k : sym_inv t -> znth (interned t) n = Some k ->
  In (k, nth_id n) (t_syms t).
Proof.
  intros (H1 & H2 & H3 & H4 & H5) H. unfold interned in H. rewrite <- map_rev in H.
  pose proof (znth_Some_range _ _ _ H) as R.
  rewrite map_length, rev_length in R.
  rewrite znth_map in H. destruct (znth (rev (t_syms t)) n) as [[k' v]|] eqn:E; [|discriminate].
  cbn in H. inversion H; subst.
  assert (Hv : znth (map snd (rev (t_syms t))) n = Some v) by (rewrite znth_map, E; reflexivity).
  rewrite H5, znth_map in Hv.
  assert (Hs : znth (seq 0 (length (t_syms t))) n = Some (Z.to_nat n)).
  { rewrite znth_pos by lia.
    rewrite (nth_error_nth' _ 0%nat) by (rewrite seq_length; lia). rewrite seq_nth by lia. reflexivity. }
  rewrite Hs in Hv. cbn [option_map] in Hv. rewrite Z2Nat.id in Hv by lia.
  assert (v = nth_id n) by congruence. subst v.
  apply in_rev. eapply znth_In; eauto.
Qed.

Lemma syms_in t k v : sym_inv t -> In (k, v) (t_syms t) ->
  exists n, znth (interned t) n = Some k /\ v = nth_id n /\ 0 <= n < zlen (t_syms t).
Proof.
  intros Hi Hin. apply in_rev in Hin. apply In_znth in Hin as [n Hn].
  exists n. pose proof (znth_Some_range _ _ _ Hn) as R. rewrite rev_length in R.
  assert (K : znth (interned t) n = Some k).
  { unfold interned. rewrite <- map_rev, znth_map, Hn. reflexivity. }
  split; [exact K|]. split; [|lia].
  pose proof (syms_nth t n k Hi K) as Hin2. apply znth_In, in_rev in Hn.
  destruct Hi as (_ & _ & _ & H4 & _).
  pose proof (lookup_in _ _ _ H4 Hn). pose proof (lookup_in _ _ _ H4 Hin2). congruence.
Qed.

(* The text that an append is meant to produce. *)
Definition appended_text (t : symtab) (sym u : Z) : list Z := symbol_get t sym ++ [u].

(* The append really interns: not refused for being too long or out of range. *)
Definition appendable (t : symtab) (sym u : Z) : Prop :=
  0 <= u <= UCS4_MAX /\ zlen (symbol_get t sym) < UCS4_MAXLEN /\ zlen (t_syms t) < 2147483645.

Lemma append_interns t sym u : sym_inv t -> appendable t sym u ->
  exists n, znth (interned (fst (symbol_append t sym u))) n = Some (appended_text t sym u)
    /\ snd (symbol_append t sym u) = nth_id n
    /\ (forall m k, znth (interned t) m = Some k ->
          znth (interned (fst (symbol_append t sym u))) m = Some k).
Proof.
  intros Hi (Hu & Hl & Hc). unfold symbol_append, appended_text.
  destruct (UCS4_MAX <? u) eqn:E1; [lia|].
  destruct (UCS4_MAXLEN <=? zlen (symbol_get t sym)) eqn:E2; [lia|].
  set (key := symbol_get t sym ++ [u]).
  destruct (syms_lookup (t_syms t) key) as [v|] eqn:L.
  - apply lookup_some in L. destruct (syms_in t key v Hi L) as (n & K & -> & _).
    exists n. cbn. auto.
  - destruct Hi as (H1 & H2 & H3 & H4 & H5).
    assert (Hn : u32 (t_next t + 1) = t_next t + 1).
    { rewrite u32_small; [reflexivity|]. unfold UCS4_MAX in *. lia. }
    rewrite Hn. destruct (t_next t + 1 <=? t_next t) eqn:E3; [lia|].
    cbn [fst snd]. exists (zlen (t_syms t)). unfold interned; cbn [t_syms map rev fst].
    split; [|split].
    + rewrite znth_app by lia. rewrite rev_length, map_length, Z.ltb_irrefl, Z.sub_diag. reflexivity.
    + rewrite H1. unfold nth_id. lia.
    + intros m k Hm. pose proof (znth_Some_range _ _ _ Hm) as R. unfold interned in *.
      rewrite znth_app by lia.
      destruct (m <? zlen (rev (map fst (t_syms t)))) eqn:E; [exact Hm|lia].
Qed.

Lemma interned_NoDup t : sym_inv t -> forall n m k,
  znth (interned t) n = Some k -> znth (interned t) m = Some k -> n = m.
Proof.
  intros Hi n m k Hn Hm.
  pose proof (syms_nth t n k Hi Hn). pose proof (syms_nth t m k Hi Hm).
  destruct Hi as (_ & _ & _ & H4 & _).
  pose proof (lookup_in _ _ _ H4 H). pose proof (lookup_in _ _ _ H4 H0).
  unfold nth_id in *. assert (Some (UCS4_MAX + 3 + n) = Some (UCS4_MAX + 3 + m)) by congruence.
  inversion H3. lia.
Qed.

(* Equal texts give equal symbols, different texts different symbols. *)
Lemma intern_injective l s1 u1 s2 u2 :
  let t := symbol_run l in
  let t1 := fst (symbol_append t s1 u1) in
  appendable t s1 u1 -> appendable t1 s2 u2 ->
  (snd (symbol_append t s1 u1) = snd (symbol_append t1 s2 u2)
   <-> appended_text t s1 u1 = appended_text t1 s2 u2).
Proof.
  intros t t1 A1 A2. assert (Hi : sym_inv t) by apply sym_inv_run.
  assert (Hi1 : sym_inv t1) by (apply sym_inv_append; auto using next_nonneg).
  destruct (append_interns t s1 u1 Hi A1) as (n & Kn & En & _). fold t1 in Kn.
  destruct (append_interns t1 s2 u2 Hi1 A2) as (m & Km & Em & Hold).
  apply Hold in Kn. rewrite En, Em. split.
  - intros H. unfold nth_id in H. assert (n = m) by lia. subst. congruence.
  - intros H. rewrite H in Kn. f_equal.
    eapply interned_NoDup; [|exact Kn|exact Km]. apply sym_inv_append; auto using next_nonneg.
Qed.

(* What reading a symbol back gives: the text interned right after it. *)
Lemma readback_shifted l n :
  let t := symbol_run l in
  0 <= n < zlen (interned t) ->
  symbol_get t (nth_id n) =
  match znth (interned t) (n + 1) with Some k => k | None => [0] end.
Proof.
  intros t Hn. assert (Hi : sym_inv t) by apply sym_inv_run.
  destruct Hi as (H1 & H2 & H3 & H4 & H5).
  unfold interned in Hn. rewrite rev_length, map_length in Hn.
  unfold symbol_get, nth_id. destruct (UCS4_MAX + 3 + n <=? UCS4_MAX) eqn:E; [lia|].
  rewrite u32_small by (unfold UCS4_MAX; lia). rewrite H3, znth_cons by lia.
  destruct (UCS4_MAX + 3 + n - (UCS4_MAX + 1) =? 0) eqn:E2; [lia|].
  replace (UCS4_MAX + 3 + n - (UCS4_MAX + 1) - 1) with (n + 1) by lia.
  rewrite znth_map. destruct (znth (interned t) (n + 1)); reflexivity.
Qed.

Lemma make_get t u : 0 <= u <= UCS4_MAX -> symbol_get t (symbol_make u) = [u].
Proof.
  intros H. unfold symbol_make, symbol_get. destruct (UCS4_MAX <? u) eqn:E; [lia|].
  destruct (u <=? UCS4_MAX) eqn:E1; [reflexivity|lia].
Qed.

(* Interned ids stay distinct from code points and unchanged by later appends. *)
Lemma append_stable l l' n k :
  znth (interned (symbol_run l)) n = Some k -> znth (interned (symbol_run (l ++ l'))) n = Some k.
Proof.
  intros H. unfold symbol_run in *. rewrite fold_left_app. fold (symbol_run l) in *.
  assert (G : forall l' t, sym_inv t -> znth (interned t) n = Some k ->
     znth (interned (fold_left (fun t a => fst (symbol_append t (fst a) (snd a))) l' t)) n = Some k).
  { induction l'0 as [|[a b] l0 IH]; intros t Hi Hk; cbn [fold_left]; [exact Hk|].
    apply IH; [apply sym_inv_append; auto using next_nonneg|]. cbn [fst snd].
    unfold symbol_append. destruct (UCS4_MAX <? b); [exact Hk|].
    destruct (UCS4_MAXLEN <=? _); [exact Hk|].
    destruct (syms_lookup _ _); [exact Hk|]. destruct (_ <=? _); [exact Hk|].
    cbn [fst]. unfold interned in *; cbn [t_syms map rev fst].
    pose proof (znth_Some_range _ _ _ Hk) as R. rewrite znth_app by lia.
    destruct (n <? zlen (rev (map fst (t_syms t)))) eqn:E; [exact Hk|lia]. }
  apply G; auto. apply sym_inv_run.
Qed.

(* Full claim of C05: appending yields a symbol reading back as the longer text. *)
Definition append_reads_back : Prop :=
  forall l sym u, let t := symbol_run l in appendable t sym u ->
  let '(t', s') := symbol_append t sym u in symbol_get t' s' = symbol_get t sym ++ [u].

Lemma append_reads_back_false : ~ append_reads_back.
Proof.
  intros H. specialize (H [] 0x65 0x301).
  assert (A : appendable (symbol_run []) 0x65 0x301).
  { unfold appendable. repeat split; try (vm_compute; congruence); vm_compute; reflexivity. }
  specialize (H A). vm_compute in H. discriminate.
Qed.
