(* Proofs about opening ptys. *)
From Verif Require Import Base BaseProofs Spawn SpawnSpec.

(* -- tables of descriptors --------------------------------------------------- *)
Lemma get_neg t f : f < 0 -> fd_get t f = None.
Proof. intros H. unfold fd_get, znth. now replace (f <? 0) with true by lia. Qed.
Lemma get_nat t n : fd_get t (Z.of_nat n) = match nth_error t n with Some x => x | None => None end.
Proof. unfold fd_get. now rewrite znth_of_nat. Qed.
Lemma put_get t n x m : match nth_error (fd_put t n x) m with Some y => y | None => None end =
  if Nat.eqb m n then x else match nth_error t m with Some y => y | None => None end.
Proof.
  revert t m. induction n as [|n IH]; intros [|y t] [|m]; cbn; try reflexivity; try (rewrite IH; reflexivity).
  - now destruct m.
  - rewrite IH. destruct (Nat.eqb m n); [reflexivity|]. now destruct m.
Qed.
Lemma get_set t f x g : 0 <= f -> fd_get (fd_set t f x) g = if g =? f then x else fd_get t g.
Proof.
  intros H. unfold fd_set. replace (f <? 0) with false by lia.
  destruct (Z.ltb_spec g 0); [rewrite !get_neg by lia; now replace (g =? f) with false by lia|].
  replace g with (Z.of_nat (Z.to_nat g)) by lia. rewrite !get_nat, put_get. replace (Z.of_nat (Z.to_nat g) =? f) with (Nat.eqb (Z.to_nat g) (Z.to_nat f)); [reflexivity|].
  destruct (Nat.eqb_spec (Z.to_nat g) (Z.to_nat f)); lia.
Qed.
Lemma free_pos t : 0 <= fd_free t.
Proof. induction t as [|[x|] t IH]; cbn [fd_free]; lia. Qed.
Lemma free_none t : fd_get t (fd_free t) = None.
Proof.
  induction t as [|[x|] t IH]; [reflexivity| |reflexivity]. cbn [fd_free]. pose proof (free_pos t).
  replace (1 + fd_free t) with (Z.of_nat (S (Z.to_nat (fd_free t)))) by lia. rewrite get_nat. cbn [nth_error].
  rewrite <- get_nat. now replace (Z.of_nat (Z.to_nat (fd_free t))) with (fd_free t) by lia.
Qed.
Lemma free_below t f : 0 <= f < fd_free t -> fd_get t f <> None.
Proof.
  revert f. induction t as [|[x|] t IH]; intros f H; cbn [fd_free] in H; [lia| |lia].
  destruct (Z.eq_dec f 0) as [->|N]; [discriminate|]. specialize (IH (f - 1) ltac:(lia)).
  replace f with (Z.of_nat (S (Z.to_nat (f - 1)))) by lia. rewrite get_nat. cbn [nth_error]. rewrite <- get_nat.
  now replace (Z.of_nat (Z.to_nat (f - 1))) with (f - 1) by lia.
Qed.
Lemma get_new t o b g : fd_get (fst (fd_new t o b)) g = if g =? fd_free t then Some (mkF o b) else fd_get t g.
Proof. apply get_set, free_pos. Qed.
Lemma free_new t o b : fd_free t < fd_free (fst (fd_new t o b)).
Proof.
  destruct (Z.lt_ge_cases (fd_free t) (fd_free (fst (fd_new t o b)))) as [H|H]; [exact H|exfalso].
  pose proof (free_none (fst (fd_new t o b))) as N. rewrite get_new in N. pose proof (free_pos (fst (fd_new t o b))).
  destruct (Z.eqb_spec (fd_free (fst (fd_new t o b))) (fd_free t)); [discriminate|].
  apply (free_below t) in N; [exact N|lia].
Qed.
Lemma get_close t f g : fd_get (fd_close t f) g = if g =? f then None else fd_get t g.
Proof.
  unfold fd_close. destruct (fd_get t f) eqn:E.
  - destruct (Z.ltb_spec f 0); [rewrite get_neg in E by lia; discriminate|]. apply get_set. lia.
  - destruct (Z.eqb_spec g f) as [->|]; [exact E|reflexivity].
Qed.
Lemma get_dup2 t a b d g : fd_get t a = Some d -> 0 <= b -> a <> b ->
  fd_get (fd_dup2 t a b) g = if g =? b then Some (mkF (f_obj d) false) else fd_get t g.
Proof. intros E H N. unfold fd_dup2. rewrite E. replace (a =? b) with false by lia. now apply get_set. Qed.
Lemma holds_spec n t : holds_pipe n t = true <-> exists f b, fd_get t f = Some (mkF (PipeW n) b).
Proof.
  unfold holds_pipe. rewrite existsb_exists. split.
  - intros (x & Hx & E). apply In_nth_error in Hx as [k K]. destruct x as [[[]?]|]; try discriminate. apply Z.eqb_eq in E. subst.
    exists (Z.of_nat k), f_cloexec. now rewrite get_nat, K.
  - intros (f & b & E). destruct (Z.ltb_spec f 0); [rewrite get_neg in E by lia; discriminate|].
    replace f with (Z.of_nat (Z.to_nat f)) in E by lia. rewrite get_nat in E. destruct (nth_error t (Z.to_nat f)) as [x|] eqn:K; [|discriminate].
    subst x. exists (Some (mkF (PipeW n) b)). split; [now apply nth_error_In in K|]. apply Z.eqb_refl.
Qed.

(* -- the child ----------------------------------------------------------------- *)
Lemma send_put es c fd d : interrupted es -> pty_send es c fd d = put_byte c fd d.
Proof.
  induction 1 as [|e es He _ IH]; cbn [pty_send]; [reflexivity|]. replace ((e =? 4) || (e =? 11)) with true by lia. exact IH.
Qed.
Lemma recv_got es g : interrupted es -> pty_recv es g = match g with GByte d => Some d | GEnd => Some SHL_PTY_FAILED | GWait => None end.
Proof.
  induction 1 as [|e es He _ IH]; cbn [pty_recv]; [reflexivity|]. replace ((e =? 4) || (e =? 11)) with true by lia. exact IH.
Qed.
(* The table of the child when the terminal is set up. *)
Definition dups (t : fdt) (n fd comm0 : Z) : fdt :=
  let x := fd_new t (Slave n) true in let sl := snd x in
  fd_close (fd_dup2 (fd_dup2 (fd_dup2 (fd_close (fd_close (fst x) comm0) fd) sl 0) sl 1) sl 2) sl.
Lemma get_dups t n fd comm0 g : 3 <= fd_free t -> fd <> fd_free t -> comm0 <> fd_free t ->
  fd_get (dups t n fd comm0) g =
    if (0 <=? g) && (g <=? 2) then Some (mkF (Slave n) false)
    else if (g =? fd_free t) || (g =? fd) || (g =? comm0) then None else fd_get t g.
Proof.
  intros H N1 N2. unfold dups. cbv zeta. change (snd (fd_new t (Slave n) true)) with (fd_free t). set (x := fst (fd_new t (Slave n) true)).
  set (d := mkF (Slave n) true). set (b := fd_close (fd_close x comm0) fd).
  assert (G : forall k, fd_get b k = if (k =? fd) || (k =? comm0) then None else if k =? fd_free t then Some d else fd_get t k).
  { intros k. unfold b. rewrite !get_close. unfold x. rewrite get_new. destruct (k =? fd), (k =? comm0); reflexivity. }
  assert (G0 : fd_get b (fd_free t) = Some d).
  { rewrite G. replace (fd_free t =? fd) with false by lia. replace (fd_free t =? comm0) with false by lia. cbn. now rewrite Z.eqb_refl. }
  assert (E0 : forall k, fd_get (fd_dup2 b (fd_free t) 0) k = if k =? 0 then Some (mkF (Slave n) false) else fd_get b k).
  { intros k. rewrite (get_dup2 _ _ _ d) by (auto; lia). reflexivity. }
  assert (G1 : fd_get (fd_dup2 b (fd_free t) 0) (fd_free t) = Some d) by (rewrite E0; replace (fd_free t =? 0) with false by lia; exact G0).
  assert (E1 : forall k, fd_get (fd_dup2 (fd_dup2 b (fd_free t) 0) (fd_free t) 1) k = if (k =? 0) || (k =? 1) then Some (mkF (Slave n) false) else fd_get b k).
  { intros k. rewrite (get_dup2 _ _ _ d) by (auto; lia). rewrite E0. destruct (k =? 1), (k =? 0); reflexivity. }
  assert (G2 : fd_get (fd_dup2 (fd_dup2 b (fd_free t) 0) (fd_free t) 1) (fd_free t) = Some d).
  { rewrite E1. replace (fd_free t =? 0) with false by lia. replace (fd_free t =? 1) with false by lia. exact G0. }
  rewrite get_close, (get_dup2 _ _ _ d) by (auto; lia). rewrite E1, G. cbn [f_obj d].
  destruct (Z.eqb_spec g (fd_free t)); [replace ((0 <=? g) && (g <=? 2)) with false by lia; reflexivity|].
  destruct (Z.eqb_spec g 2); [replace ((0 <=? g) && (g <=? 2)) with true by lia; reflexivity|].
  destruct (Z.eqb_spec g 0); [replace ((0 <=? g) && (g <=? 2)) with true by lia; reflexivity|].
  destruct (Z.eqb_spec g 1); [replace ((0 <=? g) && (g <=? 2)) with true by lia; reflexivity|].
  replace ((0 <=? g) && (g <=? 2)) with false by lia. reflexivity.
Qed.

(* The child got as far as telling the parent. *)
Definition told (n width height : Z) (before : proc) (c : child) : Prop := c_pipe c = [SHL_PTY_SETUP] /\ ready n width height before c.
Definition result (n width height : Z) (before : proc) (comm1 : Z) (d : did) : Prop :=
  (c_pipe (child_of d) = [] /\ ((exists c, d = Gone c) \/ comm1 <= 2 /\ holds_pipe n (c_fds (child_of d)) = false)) \/
  (2 < comm1 /\ told n width height before (child_of d)).
Lemma gone_done n w h before comm1 c : c_pipe c = [] -> result n w h before comm1 (Gone c).
Proof. intros E. left. split; [exact E|]. left. now exists c. Qed.
Lemma mapi_from_nth {A B} (f : Z -> A -> B) l : forall k i, znth (mapi_from k f l) i = match znth l i with Some x => Some (f (k + i) x) | None => None end.
Proof.
  induction l as [|x l IH]; intros k i; cbn [mapi_from].
  - unfold znth. destruct (i <? 0); [reflexivity|]. now destruct (Z.to_nat i).
  - destruct (Z.ltb_spec i 0); [unfold znth; now replace (i <? 0) with true by lia|].
    destruct (Z.eq_dec i 0) as [->|N]; [cbn; now rewrite Z.add_0_r|].
    rewrite !znth_cons by lia. replace (i =? 0) with false by lia. rewrite IH. destruct (znth l (i - 1)); [|reflexivity]. do 2 f_equal. lia.
Qed.

Lemma init_spec ev n p fd : env_ok ev ->
  (exists c, pty_init_child ev n (mkC p term_new []) fd = Gone c /\ c_pipe c = []) \/
  (exists c e, pty_init_child ev n (mkC p term_new []) fd = Ret c e /\ e < 0 /\ c_pipe c = []) \/
  pty_init_child ev n (mkC p term_new []) fd =
    Ret (mkC (mkProc (fst (fd_new (p_fds p) (Slave n) true)) (sig_default (p_sigs p)) [] true (Some n)) (mkT true (0, 0) false 127 []) []) (fd_free (p_fds p)).
Proof.
  intros [K _ _ _ _ _ _]. unfold pty_init_child, sys, c_fds, c_setfds, p_setfds. cbv zeta. cbn [c_proc c_term c_pipe p_fds p_sigs p_mask p_leader p_ctty t_size t_utf8 t_erase t_bytes term_new].
  repeat match goal with |- context [match e_child ev ?k with _ => _ end] => let E := fresh "E" in destruct (e_child ev k) as [|e|] eqn:E;
    [|right; left; eexists; exists (- e); split; [reflexivity|split; [specialize (K _ _ E); lia|reflexivity]]|left; eexists; split; reflexivity] end.
  right. right. reflexivity.
Qed.
Lemma setup_spec ev c sl w h : env_ok ev ->
  (exists c', pty_setup_child ev c sl w h = Gone c' /\ c_pipe c' = c_pipe c) \/
  (exists c' e, pty_setup_child ev c sl w h = Ret c' e /\ e < 0 /\ c_pipe c' = c_pipe c) \/
  pty_setup_child ev c sl w h =
    Ret (mkC (p_setfds (c_proc c) (fd_dup2 (fd_dup2 (fd_dup2 (c_fds c) sl 0) sl 1) sl 2)) (mkT (t_unlocked (c_term c)) (w, h) true 8 (t_bytes (c_term c))) (c_pipe c)) 0.
Proof.
  intros [K _ _ _ _ _ _]. unfold pty_setup_child, sys, c_fds, c_setfds, p_setfds. cbv zeta. cbn [c_proc c_term c_pipe p_fds p_sigs p_mask p_leader p_ctty t_unlocked t_size t_utf8 t_erase t_bytes].
  repeat match goal with |- context [match e_child ev ?k with _ => _ end] => let E := fresh "E" in destruct (e_child ev k) as [|e|] eqn:E;
    [|right; left; eexists; exists (- e); split; [reflexivity|split; [specialize (K _ _ E); lia|reflexivity]]|left; eexists; split; reflexivity] end.
  right. right. reflexivity.
Qed.
Lemma child_spec ev n before t fd comm0 comm1 w h :
  env_ok ev -> 0 <= fd < comm0 -> comm0 < comm1 < fd_free t ->
  fd_get t comm1 = Some (mkF (PipeW n) true) ->
  (forall f, f <> fd -> f <> comm0 -> f <> comm1 -> fd_get t f = fd_get (p_fds before) f) ->
  own_or_master (p_fds before) -> fd_get (p_fds before) fd = None -> fd_get (p_fds before) comm0 = None -> fd_get (p_fds before) comm1 = None ->
  result n w h before comm1 (child_main ev n (mkC (p_setfds before t) term_new []) fd comm0 comm1 w h).
Proof.
  intros Ev H1 H2 C1 Rest Own N1 N2 N3. unfold child_main. pose proof Ev as [_ _ _ _ _ Es _].
  destruct (init_spec ev n (p_setfds before t) fd Ev) as [(c & E & X)|[(c & e & E & L & X)|E]]; rewrite E; clear E.
  { apply gone_done; exact X. }
  { replace (e <? 0) with true by lia. apply gone_done; exact X. }
  cbn [p_setfds p_fds p_sigs p_mask p_leader p_ctty]. replace (fd_free t <? 0) with false by lia.
  unfold c_setfds at 1. unfold c_fds at 1. cbn [c_proc c_term c_pipe p_fds p_setfds p_sigs p_mask p_leader p_ctty].
  match goal with |- context [pty_setup_child ev ?c _ _ _] => destruct (setup_spec ev c (fd_free t) w h Ev) as [(c' & E & X)|[(c' & e & E & L & X)|E]]; rewrite E; clear E end.
  { apply gone_done; exact X. }
  { replace (e <? 0) with true by lia. apply gone_done; exact X. }
  change (0 <? 0) with false. cbv iota. replace (2 <? fd_free t) with true by lia.
  unfold c_setfds, c_fds, p_setfds. cbn [c_proc c_term c_pipe p_fds p_sigs p_mask p_leader p_ctty t_unlocked t_bytes].
  pose (x := dups t n fd comm0).
  change (fd_close (fd_dup2 (fd_dup2 (fd_dup2 (fd_close (fd_close (fst (fd_new t (Slave n) true)) comm0) fd) (fd_free t) 0) (fd_free t) 1) (fd_free t) 2) (fd_free t)) with x.
  assert (G : forall g, fd_get x g = if (0 <=? g) && (g <=? 2) then Some (mkF (Slave n) false)
    else if (g =? fd_free t) || (g =? fd) || (g =? comm0) then None else fd_get t g) by (intros g; apply get_dups; lia).
  clearbody x. destruct (e_child ev 13) eqn:E13; [|apply gone_done; reflexivity|apply gone_done; reflexivity]. rewrite (send_put _ _ _ _ Es). clear E13.
  destruct (Z.le_gt_cases comm1 2) as [L|L].
  - left. unfold put_byte, c_fds. cbn [c_proc c_term c_pipe p_fds p_sigs p_mask p_leader p_ctty]. rewrite (G comm1).
    replace ((0 <=? comm1) && (comm1 <=? 2)) with true by lia. cbn [c_proc c_term c_pipe p_fds p_sigs p_mask p_leader p_ctty].
    assert (Hp : holds_pipe n (fd_close x comm1) = false).
    { destruct (holds_pipe n (fd_close x comm1)) eqn:E; [|reflexivity]. exfalso. apply holds_spec in E as (f & b & E). rewrite get_close, G in E.
      destruct (Z.eqb_spec f comm1); [discriminate|]. destruct (_ && _); [discriminate|]. destruct ((f =? fd_free t) || (f =? fd) || (f =? comm0)) eqn:O; [discriminate|].
      rewrite Rest in E by lia. specialize (Own _ _ E). exact Own. }
    destruct (e_child ev 14); (split; [reflexivity|right; split; [exact L|exact Hp]]).
  - right. split; [lia|]. unfold put_byte, c_fds. cbn [c_proc c_term c_pipe p_fds p_sigs p_mask p_leader p_ctty]. rewrite (G comm1).
    replace ((0 <=? comm1) && (comm1 <=? 2)) with false by lia. replace ((comm1 =? fd_free t) || (comm1 =? fd) || (comm1 =? comm0)) with false by lia.
    rewrite C1. cbn [c_proc c_term c_pipe p_fds p_sigs p_mask p_leader p_ctty app].
    match goal with |- told _ _ _ _ ?c => assert (Z0 : c = mkC (mkProc (fd_close x comm1) (sig_default (p_sigs before)) [] true (Some n)) (mkT true (w, h) true 8 []) [SHL_PTY_SETUP]) by (destruct (e_child ev 14); reflexivity); rewrite Z0; clear Z0 end.
    split; [reflexivity|]. constructor; unfold c_fds; cbn [c_proc c_term c_pipe p_fds p_sigs p_mask p_leader p_ctty].
    + intros f Hf. rewrite get_close, G. replace (f =? comm1) with false by lia. now replace ((0 <=? f) && (f <=? 2)) with true by lia.
    + intros f Hf. rewrite get_close, G. replace ((0 <=? f) && (f <=? 2)) with false by lia. destruct (Z.eqb_spec f comm1) as [->|Nf]; [now rewrite N3|].
      destruct ((f =? fd_free t) || (f =? fd) || (f =? comm0)) eqn:O; [|apply Rest; lia]. symmetry.
      assert (D : f = fd_free t \/ f = fd \/ f = comm0) by lia. destruct D as [D|[D|D]]; subst f; auto. rewrite <- Rest by lia. apply free_none.
    + intros i Hi Hl. unfold sig_default. rewrite mapi_from_nth. destruct (znth_some (p_sigs before) i ltac:(lia)) as [v ->]. unfold SIGSYS. now replace (1 + i <? 31) with true by lia.
    + intros i Hi. unfold sig_default. rewrite mapi_from_nth. unfold SIGSYS. replace (1 + i <? 31) with false by lia. now destruct (znth (p_sigs before) i).
    + reflexivity.
    + now split.
    + reflexivity.
Qed.

(* -- the parent ---------------------------------------------------------------- *)
Lemma mapi_from_same {A} k (f : Z -> A -> A) l : (forall i x, k <= i < k + zlen l -> f i x = x) -> mapi_from k f l = l.
Proof.
  revert k. induction l as [|x l IH]; intros k H; cbn [mapi_from]; [reflexivity|]. cbn [length] in H. f_equal; [apply H; lia|].
  apply IH. intros i y Hi. apply H. lia.
Qed.
Lemma mapi_from_app {A B} k (f : Z -> A -> B) l r : mapi_from k f (l ++ r) = mapi_from k f l ++ mapi_from (k + zlen l) f r.
Proof.
  revert k. induction l as [|x l IH]; intros k; cbn [app mapi_from length]; [now rewrite Z.add_0_r|]. rewrite IH. do 2 f_equal. f_equal. lia.
Qed.
Lemma zupd_last {A} (l : list A) x f : zupd (l ++ [x]) (zlen l) f = l ++ [f x].
Proof.
  unfold zupd, mapi. rewrite mapi_from_app. cbn [mapi_from]. rewrite Z.add_0_l, Z.eqb_refl. f_equal.
  apply mapi_from_same. intros i y Hi. now replace (i =? zlen l) with false by lia.
Qed.
Lemma at_last w l y : w_ptys w = l ++ [Some y] -> at_pty w (zlen l) = Ok y.
Proof.
  intros E. unfold at_pty. rewrite E. unfold znth. replace (zlen l <? 0) with false by lia. rewrite Nat2Z.id, nth_error_app2 by lia.
  now rewrite Nat.sub_diag.
Qed.
Lemma leave_spec p l nx kids yfd pid fd r d :
  exists t, leave (mkW p (l ++ [Some (mkY 1 yfd pid)]) nx kids) (zlen l) fd r d = Ok (Opened (mkW (p_setfds p t) (l ++ [None]) nx kids) r None d) /\
    forall g, fd_get t g = if ((g =? fd) && (0 <=? fd)) || ((g =? yfd) && (0 <=? yfd)) then None else fd_get (p_fds p) g.
Proof.
  unfold leave. set (w0 := if 0 <=? fd then _ else _).
  assert (W : exists t, w0 = mkW (p_setfds p t) (l ++ [Some (mkY 1 yfd pid)]) nx kids /\ forall g, fd_get t g = if (g =? fd) && (0 <=? fd) then None else fd_get (p_fds p) g).
  { unfold w0. destruct (0 <=? fd).
    - eexists. split; [reflexivity|]. intros g. cbn. rewrite get_close, andb_true_r. reflexivity.
    - exists (p_fds p). split; [now destruct p|]. intros g. now rewrite andb_false_r. }
  destruct W as (t & E0 & G). rewrite E0. clear E0 w0. unfold shl_pty_unref. rewrite (at_last _ l (mkY 1 yfd pid)) by reflexivity. cbn [bind y_ref y_fd y_child].
  change (1 =? 0) with false. change (u64 (1 - 1)) with 0. cbv iota. change (negb (0 =? 0)) with false. cbv iota.
  unfold put_pty, set_ptys. cbn [w_proc w_ptys w_next w_kids]. rewrite zupd_last.
  unfold shl_pty_close. rewrite (at_last _ l (mkY 0 yfd pid)) by reflexivity. cbn [bind y_ref y_fd y_child].
  destruct (Z.ltb_spec yfd 0) as [L|L].
  - cbn [bind]. unfold put_pty, set_ptys. cbn [w_proc w_ptys w_next w_kids]. rewrite zupd_last. exists t. split; [reflexivity|].
    intros g. rewrite G. replace (0 <=? yfd) with false by lia. now rewrite andb_false_r, orb_false_r.
  - cbn [bind]. unfold put_pty, set_ptys, set_fds, w_fds. cbn [w_proc w_ptys w_next w_kids]. rewrite !zupd_last.
    exists (fd_close t yfd). split; [reflexivity|]. intros g. rewrite get_close, G. replace (0 <=? yfd) with true by lia. rewrite andb_true_r.
    destruct (g =? yfd); [now rewrite orb_true_r|now rewrite orb_false_r].
Qed.

(* How a call ends. *)
Inductive ends (ev : env) (w : world) (width height : Z) : opened -> Prop :=
| EFail w' r d : r < 0 -> same_fds (w_fds w') (w_fds w) -> (exists t, w_proc w' = p_setfds (w_proc w) t) ->
    (w_ptys w' = w_ptys w \/ w_ptys w' = w_ptys w ++ [None]) -> (w_next w <= w_next w') ->
    (runs d -> ~ some_std (w_fds w)) -> (w_kids w' = w_kids w /\ d = None \/ w_kids w' = e_pid ev :: w_kids w /\ d <> None) ->
    ends ev w width height (Opened w' r None d)
| EDone w' f d : f = fd_free (w_fds w) ->
    (forall g, fd_get (w_fds w') g = if g =? f then Some (mkF (Master (w_next w)) true) else fd_get (w_fds w) g) ->
    (exists t, w_proc w' = p_setfds (w_proc w) t) ->
    w_ptys w' = w_ptys w ++ [Some (mkY 1 f (e_pid ev))] -> w_next w' = w_next w + 1 -> w_kids w' = e_pid ev :: w_kids w ->
    ready (w_next w) width height (w_proc w) (child_of d) ->
    ends ev w width height (Opened w' (e_pid ev) (Some (zlen (w_ptys w))) (Some d)).
Lemma open_ends ev w x y : env_ok ev -> own_or_master (w_fds w) ->
  exists o, shl_pty_open ev w x y = Ok o /\ ends ev w x y o.
Proof.
  intros Ev Own. pose proof Ev as [_ Ko Kp Kf Kpid Ks Kr]. destruct w as [p l n kids]. unfold w_fds in Own. cbn [w_proc] in Own.
  unfold shl_pty_open. cbn [w_proc w_ptys w_next w_kids].
  destruct (e_mem ev); cbn [negb].
  2: { eexists. split; [reflexivity|]. apply EFail; [lia|intros g; reflexivity|exists (p_fds p); now destruct p|now left|cbn; lia|intros []|now left]. }
  destruct (Z.eqb_spec (e_open ev) 0) as [Eo|Eo]; cbn [negb].
  2: { destruct (leave_spec p l (n + 1) kids (-1) 0 (-1) (- e_open ev) None) as (t & -> & G). eexists. split; [reflexivity|].
       apply EFail; [lia|intros g; unfold w_fds; cbn; rewrite G; change (0 <=? -1) with false; rewrite !andb_false_r; reflexivity|now exists t|now right|cbn; lia|intros []|now left]. }
  unfold set_fds, w_fds. cbn [w_proc w_ptys w_next w_kids].
  set (t1 := fst (fd_new (p_fds p) (Master n) true)). set (fd := snd (fd_new (p_fds p) (Master n) true)).
  assert (F0 : fd = fd_free (p_fds p)) by reflexivity. assert (Fp : 0 <= fd) by apply free_pos.
  assert (G1 : forall g, fd_get t1 g = if g =? fd then Some (mkF (Master n) true) else fd_get (p_fds p) g) by apply get_new.
  assert (L1 : fd < fd_free t1) by apply free_new. clearbody t1. clearbody fd.
  destruct (Z.eqb_spec (e_pipe ev) 0) as [Ep|Ep]; cbn [negb].
  2: { destruct (leave_spec (p_setfds p t1) l (n + 1) kids (-1) 0 fd (- e_pipe ev) None) as (t & -> & G). eexists. split; [reflexivity|].
       apply EFail; [lia| |now exists t|now right|cbn; lia|intros []|now left].
       intros g. unfold w_fds. cbn. rewrite G. change (0 <=? -1) with false. rewrite andb_false_r, orb_false_r. replace (0 <=? fd) with true by lia. rewrite andb_true_r.
       cbn. rewrite G1. destruct (Z.eqb_spec g fd) as [->|]; [|reflexivity]. rewrite F0. symmetry. apply free_none. }
  cbn [p_setfds p_fds].
  set (t2 := fst (fd_new t1 (PipeR n) true)). set (c0 := snd (fd_new t1 (PipeR n) true)).
  assert (C0 : c0 = fd_free t1) by reflexivity.
  assert (G2 : forall g, fd_get t2 g = if g =? c0 then Some (mkF (PipeR n) true) else fd_get t1 g) by apply get_new.
  assert (L2 : c0 < fd_free t2) by apply free_new. clearbody t2. clearbody c0.
  set (t3 := fst (fd_new t2 (PipeW n) true)). set (c1 := snd (fd_new t2 (PipeW n) true)).
  assert (C1 : c1 = fd_free t2) by reflexivity.
  assert (G3 : forall g, fd_get t3 g = if g =? c1 then Some (mkF (PipeW n) true) else fd_get t2 g) by apply get_new.
  assert (L3 : c1 < fd_free t3) by apply free_new. clearbody t3. clearbody c1.
  assert (Z1 : fd_get (p_fds p) fd = None) by (rewrite F0; apply free_none).
  assert (Z2 : fd_get (p_fds p) c0 = None).
  { pose proof (free_none t1) as K. rewrite <- C0, G1 in K. replace (c0 =? fd) with false in K by lia. exact K. }
  assert (Z3 : fd_get (p_fds p) c1 = None).
  { pose proof (free_none t2) as K. rewrite <- C1, G2, G1 in K. replace (c1 =? c0) with false in K by lia. replace (c1 =? fd) with false in K by lia. exact K. }
  assert (Gall : forall g, g <> fd -> g <> c0 -> g <> c1 -> fd_get t3 g = fd_get (p_fds p) g).
  { intros g N1 N2 N3. rewrite G3, G2, G1. replace (g =? c1) with false by lia. replace (g =? c0) with false by lia. now replace (g =? fd) with false by lia. }
  destruct (Z.eqb_spec (e_fork ev) 0) as [Ef|Ef]; cbn [negb].
  2: { destruct (leave_spec (p_setfds p (fd_close (fd_close t3 c0) c1)) l (n + 1) kids (-1) 0 fd (- e_fork ev) None) as (t & G0 & G).
       unfold p_setfds in *. cbn [p_fds p_sigs p_mask p_leader p_ctty] in *. rewrite G0. eexists. split; [reflexivity|].
       apply EFail; [lia| |now exists t|now right|cbn; lia|intros []|now left].
       intros g. unfold w_fds. cbn. rewrite G. change (0 <=? -1) with false. rewrite andb_false_r, orb_false_r. replace (0 <=? fd) with true by lia. rewrite andb_true_r, !get_close.
       destruct (Z.eqb_spec g fd) as [->|]; [auto|]. destruct (Z.eqb_spec g c1) as [->|]; [auto|]. destruct (Z.eqb_spec g c0) as [->|]; [auto|]. now apply Gall. }
  unfold p_setfds. cbn [p_fds p_sigs p_mask p_leader p_ctty]. rewrite zupd_last.
  assert (Hc : fd_get t3 c1 = Some (mkF (PipeW n) true)) by (rewrite G3; now rewrite Z.eqb_refl).
  pose proof (child_spec ev n p t3 fd c0 c1 x y Ev ltac:(lia) ltac:(lia) Hc Gall Own Z1 Z2 Z3) as R. unfold p_setfds in R.
  set (d := child_main _ _ _ _ _ _ _ _) in *. clearbody d.
  rewrite (recv_got _ _ Kr). unfold read_pipe. rewrite get_close. replace (c0 =? c1) with false by lia. rewrite G3, G2. replace (c0 =? c1) with false by lia. rewrite Z.eqb_refl.
  assert (Hp : holds_pipe n (fd_close t3 c1) = false).
  { destruct (holds_pipe n (fd_close t3 c1)) eqn:E; [|reflexivity]. exfalso. apply holds_spec in E as (f & b & E). rewrite get_close, G3, G2, G1 in E.
    destruct (Z.eqb_spec f c1); [discriminate|]. destruct (Z.eqb_spec f c0); [discriminate|]. destruct (Z.eqb_spec f fd); [discriminate|].
    specialize (Own _ _ E). exact Own. }
  rewrite Hp. cbn [orb].
  assert (Gp : forall g, fd_get (fd_close (fd_close t3 c1) c0) g = if g =? fd then Some (mkF (Master n) true) else fd_get (p_fds p) g).
  { intros g. rewrite !get_close. destruct (Z.eqb_spec g c0) as [->|]; [replace (c0 =? fd) with false by lia; now rewrite Z2|].
    destruct (Z.eqb_spec g c1) as [->|]; [replace (c1 =? fd) with false by lia; now rewrite Z3|].
    destruct (Z.eqb_spec g fd) as [->|]; [|now apply Gall]. rewrite G3, G2, G1. replace (fd =? c1) with false by lia. replace (fd =? c0) with false by lia. now rewrite Z.eqb_refl. }
  destruct R as [[P0 R]|[Lc [P0 Rd]]].
  - assert (X : match (match d with
        | Ret c _ => match c_pipe c with b :: _ => GByte b | [] => if holds_pipe n (c_fds c) then GWait else GEnd end
        | Gone c => match c_pipe c with b :: _ => GByte b | [] => GEnd end end) with GByte d => Some d | GEnd => Some SHL_PTY_FAILED | GWait => None end = Some SHL_PTY_FAILED).
    { destruct R as [[c ->]|[_ R]]; [cbn in *; now rewrite P0|]. destruct d; cbn in *; rewrite P0; [now rewrite R|reflexivity]. }
    rewrite X. clear X. change (negb (SHL_PTY_FAILED =? SHL_PTY_SETUP)) with true. cbv iota.
    destruct (leave_spec (p_setfds p (fd_close (fd_close t3 c1) c0)) l (n + 1) (e_pid ev :: kids) fd (e_pid ev) (-1) (-22) (Some d)) as (t & G0 & G).
    unfold p_setfds in *. cbn [p_fds p_sigs p_mask p_leader p_ctty] in *. rewrite G0. eexists. split; [reflexivity|].
    apply EFail; [lia| |now exists t|now right|cbn; lia| |right; split; [reflexivity|discriminate]].
    + intros g. unfold w_fds. cbn. rewrite G. change (0 <=? -1) with false. rewrite andb_false_r. replace (0 <=? fd) with true by lia. rewrite andb_true_r. cbn [orb]. rewrite Gp.
      destruct (Z.eqb_spec g fd) as [->|]; auto.
    + intros Run (f & Hf & Nf). destruct R as [[c ->]|[Lc _]]; [exact Run|].
      assert (f = fd \/ f = c0 \/ f = c1 -> False) by (intros [D|[D|D]]; subst f; auto). lia.
  - assert (X : match (match d with
        | Ret c _ => match c_pipe c with b :: _ => GByte b | [] => if holds_pipe n (c_fds c) then GWait else GEnd end
        | Gone c => match c_pipe c with b :: _ => GByte b | [] => GEnd end end) with GByte d => Some d | GEnd => Some SHL_PTY_FAILED | GWait => None end = Some SHL_PTY_SETUP).
    { destruct d; cbn in *; now rewrite P0. }
    rewrite X. clear X. change (negb (SHL_PTY_SETUP =? SHL_PTY_SETUP)) with false. cbv iota.
    eexists. split; [reflexivity|]. apply (EDone ev (mkW p l n kids) x y _ fd); [exact F0|exact Gp|now eexists|reflexivity|reflexivity|reflexivity|exact Rd].
Qed.
