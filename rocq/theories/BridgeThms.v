(* Proofs about Bridge.v: histories. *)
From Verif Require Import Base BaseProofs Ring SharedSpec RingProofs Bridge BridgeSpec BridgeProofs.

Definition one (mend : bool) (o : bop) : tty -> res (tty * list event) :=
  match o with
  | KSay i d => fun t => pure (k_say d t)
  | KDrain i n => fun t => pure (k_drain n t)
  | KGone i => fun t => pure (k_gone t)
  | KWake i => fun t => pure (k_wake t)
  | BAdd i => fun t => pure (fst (bridge_add t))
  | BRemove i => fun t => pure (bridge_remove t)
  | BClose i => fun t => pure (tty_close t)
  | BWrite i mem d => tty_write i mem d
  | BDispatchPty i l => bridge_dispatch_pty mend i l
  | BDispatch i l => bridge_dispatch mend i l
  end.
Lemma b_step_one mend s o : b_step mend s o = at_tty (about o) (one mend o) s.
Proof. destruct o; reflexivity. Qed.

(* The invariant of one pty with q to send. *)
Definition good (mend : bool) (t : tty) (q : list Z) : Prop :=
  rep (t_out t) q /\ zlen (t_ibuf t) = PTY_BUFSIZE /\ (t_reg t = true -> t_open t = true) /\
  (asleep t -> mend = true \/ t_rcode t <> -11 -> all_read t) /\
  (asleep t -> t_asked t = false -> mend = true \/ t_wcode t <> -11 -> all_sent t).

Definition went (o : bop) (t : tty) (q : list Z) (tr : list event) (t' : tty) (q' : list Z) : Prop :=
  fed (about o) tr ++ t_in t' = t_in t ++ said (about o) [o] /\
  sent (about o) tr ++ map Some q' = map Some (q ++ taken (about o) tr) /\
  Forall tidy tr /\ (forall j, j <> about o -> silent j tr) /\ zlen q' <= zlen q + asks o.

Lemma pollable_not t : pollable t = false -> all_read t /\ all_sent t.
Proof.
  unfold pollable, all_read, all_sent. intros H. apply orb_false_iff in H. destruct H as [H H3]. apply orb_false_iff in H. destruct H as [H1 H2].
  destruct (t_in t); [|discriminate]. split; [reflexivity|]. right; left. lia.
Qed.

Lemma dispatch_ok mend i l t q : good mend t q -> zlen q + (bulk (l_a1 l) + bulk (l_a2 l)) <= MEM_MAX ->
  forall y, t_open t = true \/ y = t_ready t ->
  let t0 := set_watch (t_reg t) y t in
  exists t' tr q', bridge_dispatch_pty mend i l t0 = Ok (t', tr) /\ good mend t' q' /\
    fed i tr ++ t_in t' = t_in t /\ sent i tr ++ map Some q' = map Some (q ++ taken i tr) /\
    Forall tidy tr /\ (forall j, j <> i -> silent j tr) /\ zlen q' <= zlen q + (bulk (l_a1 l) + bulk (l_a2 l)) /\
    t_open t' = t_open t /\ (t_open t = true -> t_asked t' = false) /\ (t_reg t = true -> t_reg t' = true) /\
    (y = false -> t_reg t = true -> t_open t = true -> mend = true -> calm l -> t_ready t' = true ->
       (length (t_in t') + length q' < length (t_in t) + length q)%nat).
Proof.
  intros (G1 & G2 & G3 & G4 & G5) B y Y t0.
  pose proof (bulk_nonneg (l_a1 l)). pose proof (bulk_nonneg (l_a2 l)).
  unfold bridge_dispatch_pty, tty_dispatch. change (t_open t0) with (t_open t). destruct (t_open t) eqn:O; cbn [negb].
  2:{ cbn [bind]. eexists t0, [], q. split; [change (-19 =? -11) with false; reflexivity|].
      assert (y = t_ready t) as -> by (destruct Y; [discriminate|assumption]).
      assert (t0 = t) as -> by (subst t0; destruct t; reflexivity).
      cbn [fed sent taken app]. rewrite app_nil_r. unfold silent. cbn [fed sent taken].
      split; [split; [exact G1|]; split; [exact G2|]; split; [rewrite O; exact G3|]; split; [exact G4|exact G5]|].
      repeat match goal with |- _ /\ _ => split end; auto; try lia; congruence. }
  destruct (read_loop_ok i [(l_r1 l, l_a1 l); (l_r2 l, l_a2 l)] t0 q [] G1) as (t1 & tr1 & q1 & r & -> & M1 & B1 & E1 & E2 & E3).
  { cbn [bulks fold_right snd]. lia. } { exact G2. }
  cbn [bind app]. cbn [bulks fold_right snd] in B1.
  destruct (flush_tty_ok i l t1 q1 ltac:(apply M1)) as (t2 & s & q2 & w & -> & M2 & B2 & E4 & E5 & E6). cbn [bind].
  pose proof (moved_trans _ _ _ _ _ _ _ _ _ M1 M2) as (N1 & N2 & N3 & N4 & (N51 & N52 & N53 & N54) & N6 & N7).
  set (t3 := set_codes r w false t2).
  set (c := if mend && (w =? -11) then w else r).
  set (t4 := if c =? -11 then fst (if mend then ctl_mod t3 else ctl_add t3) else t3).
  change (t_reg t0) with (t_reg t) in N53. change (t_open t0) with (t_open t) in N51. change (t_ready t0) with y in N54.
  change (t_in t0) with (t_in t) in N2.
  assert (T4 : exists g z, t4 = set_watch g z t3 /\ (g = t_reg t \/ g = true)).
  { subst t4. destruct (c =? -11).
    - destruct mend; unfold ctl_mod, ctl_add; destruct (t_reg t3) eqn:RG; cbn [fst]; try (eexists _, _; split; [reflexivity|auto]);
        exists (t_reg t3), (t_ready t3); (split; [destruct t3; reflexivity|left; subst t3; cbn in *; congruence]).
    - exists (t_reg t3), (t_ready t3). split; [destruct t3; reflexivity|left; subst t3; cbn; congruence]. }
  exists t4, (tr1 ++ [Sent i (map Some s)]), q2. split; [reflexivity|].
  split.
  { split; [destruct T4 as (g & z & -> & _); exact N1|]. split; [destruct T4 as (g & z & -> & _); etransitivity; [exact N4|exact G2]|].
    split; [destruct T4 as (g & z & -> & _); intros _; cbn; congruence|].
    (* A pty asleep after the dispatch: which branch was taken. *)
    assert (READ : r <> -11 -> all_read t4).
    { intros X. destruct T4 as (g & z & -> & _). unfold all_read. cbn. rewrite E4. auto. }
    assert (SENT : w <> -11 -> all_sent t4).
    { intros X. destruct T4 as (g & z & -> & _). specialize (E5 X). unfold all_sent in *. cbn. exact E5. }
    assert (CODES : t_rcode t4 = r /\ t_wcode t4 = w) by (destruct T4 as (g & z & -> & _); split; reflexivity).
    destruct CODES as [-> ->].
    assert (MEND : mend = true -> asleep t4 -> all_read t4 /\ all_sent t4).
    { intros -> (A1 & A2). destruct (c =? -11) eqn:C.
      - unfold t4 in *. unfold ctl_mod in *. destruct (t_reg t3) eqn:RG; cbn [fst] in *; [|congruence].
        cbn [set_watch t_ready] in A2. apply orb_false_iff in A2. destruct A2 as [_ A2]. destruct (pollable_not _ A2) as [P1 P2].
        split; [exact P1|exact P2].
      - unfold c in C. cbn [andb] in C. destruct (w =? -11) eqn:W; [lia|]. split; [apply READ|apply SENT]; lia. }
    split.
    - intros A [X|X]; [apply MEND; assumption|apply READ; exact X].
    - intros A _ [X|X]; [apply MEND; assumption|apply SENT; exact X]. }
  split; [destruct T4 as (g & z & -> & _); exact N2|]. split; [exact N3|]. split; [exact N6|]. split; [exact N7|].
  split; [lia|]. split; [destruct T4 as (g & z & -> & _); cbn; congruence|].
  split; [intros _; destruct T4 as (g & z & -> & _); reflexivity|].
  split; [intros RG; destruct T4 as (g & z & -> & [->| ->]); [exact RG|reflexivity]|].
  intros -> RG _ MD CA RY. subst mend. destruct CA as (C1 & C2 & C3 & C4 & C5 & C6).
  destruct E3 as (-> & _ & E7). { repeat constructor; cbn; auto. }
  assert (R3 : t_reg t3 = true) by (subst t3; cbn; congruence).
  assert (IN4 : length (t_in t4) = length (t_in t1)) by (destruct T4 as (g & z & -> & _); cbn; rewrite E4; reflexivity).
  assert (LI : (length (t_in t1) <= length (t_in t))%nat).
  { destruct M1 as (_ & M & _). change (t_in t0) with (t_in t) in M. rewrite <- M, app_length. lia. }
  assert (C : c = -11).
  { destruct (c =? -11) eqn:C; [lia|]. subst t4. cbn in RY. congruence. }
  rewrite IN4. unfold c in C. cbn [andb] in C. destruct (w =? -11) eqn:W.
  - specialize (E6 C3 C4 C). lia.
  - specialize (E7 C). change (t_in t0) with (t_in t) in E7. cbn [length] in E7. lia.
Qed.

Lemma one_ok mend o t q : good mend t q -> zlen q + asks o <= MEM_MAX -> (match o with KDrain _ n => 0 <= n | _ => True end) ->
  exists t' tr q', one mend o t = Ok (t', tr) /\ good mend t' q' /\ went o t q tr t' q'.
Proof.
  intros G B A. pose proof G as (G1 & G2 & G3 & G4 & G5).
  assert (QUIET : forall t', asks o = 0 -> t_out t' = t_out t -> t_in t' = t_in t ++ said (about o) [o] ->
    good mend t' q -> exists t'' tr q', pure t' = Ok (t'', tr) /\ good mend t'' q' /\ went o t q tr t'' q').
  { intros t' E0 E1 E2 G'. exists t', [], q. split; [reflexivity|]. split; [exact G'|]. unfold went, silent. cbn [fed sent taken app].
    rewrite app_nil_r. repeat match goal with |- _ /\ _ => split end; auto. lia. }
  destruct o as [i d|i n|i|i|i|i|i|i mem d|i l|i l]; cbn [one about asks said] in *; rewrite ?Z.eqb_refl, ?app_nil_r in *.
  - apply QUIET; auto. unfold k_say. cbv zeta. repeat match goal with |- _ /\ _ => split end; auto; cbn.
    unfold good. repeat match goal with |- _ /\ _ => split end; auto; unfold asleep, all_read, all_sent; cbn.
    + intros (R & Y) H. destruct (t_reg t) eqn:RG; [|discriminate]. apply orb_false_iff in Y. destruct Y as [Y1 Y2]. cbn [andb] in Y2.
      rewrite (G4 (conj RG Y1) H) in Y2 |- *. destruct d; [reflexivity|discriminate].
    + intros (R & Y). apply orb_false_iff in Y. destruct Y as [Y1 _]. exact (G5 (conj R Y1)).
  - apply QUIET; auto.
    unfold k_drain. cbv zeta. unfold good. repeat match goal with |- _ /\ _ => split end; auto; unfold asleep, all_read, all_sent; cbn.
    + intros (R & Y). apply orb_false_iff in Y. destruct Y as [Y1 _]. exact (G4 (conj R Y1)).
    + intros (R & Y) Q H. destruct (t_reg t) eqn:RG; [|discriminate]. apply orb_false_iff in Y. destruct Y as [Y1 Y2].
      destruct (G5 (conj RG Y1) Q H) as [U|[U|U]]; auto. right; left. lia.
  - apply QUIET; auto.
    unfold k_gone. unfold good. repeat match goal with |- _ /\ _ => split end; auto; unfold asleep, all_read, all_sent; cbn.
    + intros (R & Y). rewrite R, orb_true_r in Y. discriminate.
    + auto.
  - apply QUIET; auto.
    unfold k_wake. unfold good. repeat match goal with |- _ /\ _ => split end; auto; unfold asleep, all_read, all_sent; cbn.
    + intros (R & Y). rewrite R, orb_true_r in Y. discriminate.
    + intros (R & Y). rewrite R, orb_true_r in Y. discriminate.
  - unfold bridge_add, ctl_add. destruct (t_open t) eqn:O; cbn [negb fst]; [destruct (t_reg t) eqn:RG; cbn [fst]|];
      (apply QUIET; [auto|reflexivity|rewrite ?app_nil_r; reflexivity|]); auto.
    unfold good. repeat match goal with |- _ /\ _ => split end; auto; intros (_ & Y); cbn in Y; destruct (pollable_not _ Y); auto.
  - unfold bridge_remove. destruct (t_open t) eqn:O; cbn [negb]; (apply QUIET; [auto|reflexivity|rewrite ?app_nil_r; reflexivity|]); auto.
    unfold good. repeat match goal with |- _ /\ _ => split end; auto; try (intros (Y & _); discriminate).
  - unfold tty_close. destruct (t_open t) eqn:O; cbn [negb]; (apply QUIET; [auto|reflexivity|rewrite ?app_nil_r; reflexivity|]); auto.
    unfold good. repeat match goal with |- _ /\ _ => split end; auto; try (intros (Y & _); discriminate). all: cbn; discriminate.
  - destruct (tty_write_ok i mem d t q G1 B) as (t' & tr & q' & -> & (M1 & M2 & M3 & M4 & (M51 & M52 & M53 & M54) & M6 & M7) & L & E1 & E2 & E3 & E4 & E5).
    exists t', tr, q'. split; [reflexivity|]. split.
    + unfold good. split; [exact M1|]. split; [congruence|]. split; [rewrite M53, M51; exact G3|]. unfold asleep, all_read. rewrite M53, M54, E2, E3.
      split; [exact G4|]. intros (R & Y) Q. rewrite E5 in Q by auto. discriminate.
    + unfold went. cbn [about asks said]. rewrite app_nil_r. auto.
  - destruct (dispatch_ok mend i l t q G B (t_ready t) (or_intror eq_refl)) as (t' & tr & q' & E & G' & W1 & W2 & W3 & W4 & W5 & _).
    replace (set_watch (t_reg t) (t_ready t) t) with t in E by (destruct t; reflexivity).
    exists t', tr, q'. split; [exact E|]. split; [exact G'|]. unfold went. cbn [about asks said]. rewrite app_nil_r. auto.
  - unfold bridge_dispatch. destruct (t_ready t) eqn:Y.
    + destruct (t_open t) eqn:O.
      * destruct (dispatch_ok mend i l t q G B false (or_introl O)) as (t' & tr & q' & E & G' & W1 & W2 & W3 & W4 & W5 & _).
        exists t', tr, q'. split; [exact E|]. split; [exact G'|]. unfold went. cbn [about asks said]. rewrite app_nil_r. auto.
      * (* A closed pty is not watched. *)
        assert (RG : t_reg t = false) by (destruct (t_reg t); [discriminate G3; reflexivity|reflexivity]).
        unfold bridge_dispatch_pty, tty_dispatch. change (t_open (set_watch (t_reg t) false t)) with (t_open t). rewrite O. cbn [negb bind].
        change (-19 =? -11) with false. cbv beta iota.
        exists (set_watch (t_reg t) false t), [], q. split; [reflexivity|]. split.
        { unfold good. cbn. rewrite O. repeat match goal with |- _ /\ _ => split end; auto; intros (X & _); cbn in X; congruence. }
        unfold went, silent. cbn [fed sent taken app about said]. rewrite !app_nil_r. repeat match goal with |- _ /\ _ => split end; auto.
        cbn [asks]. pose proof (bulk_nonneg (l_a1 l)). pose proof (bulk_nonneg (l_a2 l)). lia.
    + exists t, [], q. split; [reflexivity|]. split; [exact G|].
      unfold went, silent. cbn [fed sent taken app about said]. rewrite !app_nil_r. repeat match goal with |- _ /\ _ => split end; auto.
      cbn [asks]. pose proof (bulk_nonneg (l_a1 l)). pose proof (bulk_nonneg (l_a2 l)). lia.
Qed.

(* What holds of every pty after the history past with the trace tr. *)
Definition fine (mend : bool) (past : list bop) (tr : list event) (i : Z) (t : tty) : Prop :=
  exists q, good mend t q /\ fed i tr ++ t_in t = said i past /\
    sent i tr ++ map Some q = map Some (taken i tr) /\ zlen q <= asks_all past.

Lemma asks_nonneg o : 0 <= asks o.
Proof. destruct o; cbn [asks]; try lia; pose proof (bulk_nonneg (l_a1 l)); pose proof (bulk_nonneg (l_a2 l)); lia. Qed.
Lemma asks_all_app a b : asks_all (a ++ b) = asks_all a + asks_all b.
Proof. unfold asks_all. induction a as [|o a IH]; cbn [app fold_right]; [|rewrite IH]; lia. Qed.
Lemma asks_all_nonneg ops : 0 <= asks_all ops.
Proof. induction ops as [|o l IH]; [cbn; lia|]. cbn [asks_all fold_right]. fold (asks_all l). pose proof (asks_nonneg o). lia. Qed.

Lemma said_other i o : i <> about o -> said i [o] = [].
Proof. intros N. destruct o; cbn [said about] in *; try reflexivity. rewrite app_nil_r. destruct (Z.eqb_spec i0 i); [congruence|reflexivity]. Qed.

Lemma b_run_ok mend ops : forall s past tr, asks_all past + asks_all ops <= MEM_MAX -> Forall tidy tr ->
  (forall i t, znth s i = Some t -> fine mend past tr i t) ->
  Forall (fun o => 0 <= about o < zlen s) ops -> Forall (fun o => match o with KDrain _ k => 0 <= k | _ => True end) ops ->
  exists s' tr', b_run mend s ops = Ok (s', tr') /\ zlen s' = zlen s /\ Forall tidy (tr ++ tr') /\
    forall i t, znth s' i = Some t -> fine mend (past ++ ops) (tr ++ tr') i t.
Proof.
  induction ops as [|o ops IH]; intros s past tr B TD F A1 A2; cbn [b_run].
  { exists s, []. rewrite !app_nil_r. auto. }
  inversion A1 as [|? ? I A1']; subst. inversion A2 as [|? ? D A2']; subst.
  cbn [asks_all fold_right] in B. fold (asks_all ops) in B. pose proof (asks_all_nonneg ops). pose proof (asks_nonneg o).
  rewrite b_step_one. unfold at_tty. destruct (znth_some s (about o)) as [t Et]; [lia|].
  rewrite (zget_ok _ _ _ Et). cbn [bind]. destruct (F _ _ Et) as (q & G & F1 & F2 & F3).
  destruct (one_ok mend o t q G ltac:(lia) D) as (t' & tr1 & q' & -> & G' & W1 & W2 & W3 & W4 & W5). cbn [bind fst snd].
  rewrite zcopy_ok by (cbn [length]; lia). cbn [bind fst snd].
  set (s1 := zput s (about o) [t']).
  assert (L1 : zlen s1 = zlen s) by (subst s1; rewrite length_zput; cbn [length]; lia).
  destruct (IH s1 (past ++ [o]) (tr ++ tr1)) as (s' & tr' & -> & L' & TD' & F').
  - rewrite asks_all_app. cbn [asks_all fold_right]. lia.
  - apply Forall_app. auto.
  - intros i u Eu. subst s1. rewrite znth_zput in Eu by (cbn [length]; lia). cbn [length] in Eu.
    destruct (Z.eq_dec i (about o)) as [->|N].
    + match type of Eu with (if ?b then _ else _) = _ => destruct b eqn:E; [|lia] end.
      rewrite Z.sub_diag in Eu. assert (t' = u) as <- by (injection Eu; auto).
      exists q'. split; [exact G'|]. rewrite fed_app, said_app, sent_app, taken_app, asks_all_app.
      split; [rewrite <- app_assoc, W1, app_assoc, F1; reflexivity|].
      split; [rewrite <- app_assoc, W2, map_app, app_assoc, F2, <- map_app; reflexivity|]. cbn [asks_all fold_right]. lia.
    + match type of Eu with (if ?b then _ else _) = _ => destruct b eqn:E; [lia|] end.
      destruct (F _ _ Eu) as (q1 & H1 & H2 & H3 & H4). destruct (W4 i N) as (S1 & S2 & S3).
      exists q1. rewrite fed_app, said_app, sent_app, taken_app, asks_all_app, S1, S2, S3, (said_other _ _ N), !app_nil_r.
      repeat match goal with |- _ /\ _ => split end; auto. pose proof (asks_all_nonneg [o]). lia.
  - rewrite L1. exact A1'.
  - exact A2'.
  - cbn [bind fst snd]. exists s', (tr1 ++ tr'). rewrite <- !app_assoc in *. cbn [app] in F'.
    split; [reflexivity|]. split; [lia|]. auto.
Qed.

Lemma good_new mend room : good mend (tty_new room) [].
Proof.
  unfold good. split; [exact rep0|]. split; [unfold tty_new; cbn [t_ibuf]; rewrite repeat_length; unfold PTY_BUFSIZE; lia|].
  repeat match goal with |- _ /\ _ => split end; cbn [tty_new t_reg]; try discriminate; intros (X & _); discriminate.
Qed.

Lemma histories mend rooms ops : possible (zlen rooms) ops ->
  exists s tr, b_run mend (map tty_new rooms) ops = Ok (s, tr) /\ zlen s = zlen rooms /\ Forall tidy tr /\
    forall i t, znth s i = Some t -> fine mend ops tr i t.
Proof.
  intros (P1 & P2 & P3). destruct (b_run_ok mend ops (map tty_new rooms) [] []) as (s & tr & E & L & T & F); auto.
  - intros i t Et. rewrite znth_map in Et. destruct (znth rooms i); [|discriminate]. cbn in Et. injection Et as <-.
    exists []. split; [apply good_new|]. cbn. auto. split; auto. split; auto. lia.
  - rewrite map_length. exact P1.
  - exists s, tr. rewrite map_length in L. cbn [app] in *. auto.
Qed.

(* Statements. *)
Lemma order mend rooms ops : possible (zlen rooms) ops ->
  exists s tr, b_run mend (map tty_new rooms) ops = Ok (s, tr) /\ zlen s = zlen rooms /\ Forall tidy tr /\
    forall i t, znth s i = Some t ->
      fed i tr ++ t_in t = said i ops /\
      exists q, zlen q = r_used (t_out t) /\ sent i tr ++ map Some q = map Some (taken i tr).
Proof.
  intros P. destruct (histories mend rooms ops P) as (s & tr & E & L & T & F). exists s, tr. repeat match goal with |- _ /\ _ => split end; auto.
  intros i t Et. destruct (F i t Et) as (q & G & F1 & F2 & _). split; [exact F1|]. exists q. split; [apply G|exact F2].
Qed.

Lemma idle mend rooms ops : possible (zlen rooms) ops ->
  exists s tr, b_run mend (map tty_new rooms) ops = Ok (s, tr) /\ zlen s = zlen rooms /\
    forall i t, znth s i = Some t -> asleep t ->
      (mend = true \/ t_rcode t <> -11 -> all_read t) /\
      (t_asked t = false -> mend = true \/ t_wcode t <> -11 -> all_sent t).
Proof.
  intros P. destruct (histories mend rooms ops P) as (s & tr & E & L & T & F). exists s, tr. repeat match goal with |- _ /\ _ => split end; auto.
  intros i t Et A. destruct (F i t Et) as (q & (_ & _ & _ & G4 & G5) & _). auto.
Qed.

(* Draining: a pty of a mended bridge is off the ready list after enough calm
   dispatches. *)
Lemma drains i ls : forall s t q, znth s i = Some t -> good true t q -> Forall calm ls -> zlen q <= MEM_MAX -> t_reg t = true ->
  (length (t_in t) + length q < length ls)%nat ->
  exists s' tr t' q', b_run true s (map (BDispatch i) ls) = Ok (s', tr) /\ znth s' i = Some t' /\ good true t' q' /\ asleep t' /\
    (t_ready t = true -> t_asked t' = false) /\ (t_asked t = false -> t_asked t' = false).
Proof.
  induction ls as [|l ls IH]; intros s t q E G C B R L; [cbn [length] in L; lia|]. inversion C as [|? ? C1 C2]; subst.
  cbn [map b_run]. rewrite b_step_one. unfold at_tty. cbn [about]. rewrite (zget_ok _ _ _ E). cbn [bind one].
  pose proof (znth_Some_range _ _ _ E) as I.
  assert (AT : forall u, znth (zput s i [u]) i = Some u).
  { intros u. rewrite znth_zput by (cbn [length]; lia). cbn [length].
    match goal with |- (if ?b then _ else _) = _ => destruct b eqn:X; [|lia] end. rewrite Z.sub_diag. reflexivity. }
  assert (ASLEEP : forall ls s t q, znth s i = Some t -> good true t q -> asleep t ->
    exists s' tr t' q', b_run true s (map (BDispatch i) ls) = Ok (s', tr) /\ znth s' i = Some t' /\ good true t' q' /\ asleep t' /\ t_asked t' = t_asked t).
  { clear. induction ls as [|l ls IH]; intros s t q E G A.
    - exists s, [], t, q. auto 6.
    - cbn [map b_run]. rewrite b_step_one. unfold at_tty. cbn [about]. rewrite (zget_ok _ _ _ E). cbn [bind one].
      pose proof (znth_Some_range _ _ _ E) as I.
      unfold bridge_dispatch. rewrite (proj2 A). cbn [bind fst snd]. rewrite zcopy_ok by (cbn [length]; lia). cbn [bind fst snd].
      destruct (IH (zput s i [t]) t q) as (s' & tr & t' & q' & -> & R1 & R2 & R3 & R4); auto.
      { rewrite znth_zput by (cbn [length]; lia). cbn [length].
        match goal with |- (if ?b then _ else _) = _ => destruct b eqn:X; [|lia] end. rewrite Z.sub_diag. reflexivity. }
      cbn [bind fst snd]. eexists _, _, t', q'. split; [reflexivity|]. auto. }
  unfold bridge_dispatch. destruct (t_ready t) eqn:Y.
  - pose proof G as (_ & _ & G3 & _). specialize (G3 R).
    pose proof C1 as (_ & _ & _ & _ & A1 & A2).
    destruct (dispatch_ok true i l t q G) with (y := false) as (t1 & tr1 & q1 & -> & G' & _ & _ & _ & _ & W5 & W6 & W7 & W8 & W9);
      [rewrite A1, A2; cbn [bulk fold_right]; lia|auto|].
    rewrite A1, A2 in W5. cbn [bulk fold_right] in W5.
    cbn [bind fst snd]. rewrite zcopy_ok by (cbn [length]; lia). cbn [bind fst snd].
    destruct (t_ready t1) eqn:Y1.
    + specialize (W9 eq_refl R G3 eq_refl C1 eq_refl). cbn [length] in L.
      destruct (IH (zput s i [t1]) t1 q1 (AT t1) G' C2 ltac:(lia) (W8 R) ltac:(lia)) as (s' & tr & t' & q' & -> & R1 & R2 & R3 & R4 & R5).
      cbn [bind fst snd]. eexists _, _, t', q'. split; [reflexivity|]. auto 8.
    + destruct (ASLEEP ls (zput s i [t1]) t1 q1 (AT t1) G' (conj (W8 R) Y1)) as (s' & tr & t' & q' & -> & R1 & R2 & R3 & R4).
      cbn [bind fst snd]. eexists _, _, t', q'. split; [reflexivity|]. rewrite R4. auto 8.
  - cbn [bind fst snd]. rewrite zcopy_ok by (cbn [length]; lia). cbn [bind fst snd].
    destruct (ASLEEP ls (zput s i [t]) t q (AT t) G (conj R Y)) as (s' & tr & t' & q' & -> & R1 & R2 & R3 & R4).
    cbn [bind fst snd]. eexists _, _, t', q'. split; [reflexivity|]. rewrite R4. repeat match goal with |- _ /\ _ => split end; auto. congruence.
Qed.

Lemma drained rooms ops s tr i t ls : possible (zlen rooms) ops -> b_run true (map tty_new rooms) ops = Ok (s, tr) ->
  znth s i = Some t -> t_reg t = true -> Forall calm ls -> zlen (t_in t) + r_used (t_out t) < zlen ls ->
  exists s' tr' t', b_run true s (map (BDispatch i) ls) = Ok (s', tr') /\ znth s' i = Some t' /\ t_ready t' = false /\ all_read t' /\
    (t_ready t = true \/ t_asked t = false -> all_sent t').
Proof.
  intros P E Et R C L. destruct (histories true rooms ops P) as (s0 & tr0 & E0 & _ & _ & F).
  rewrite E in E0. injection E0 as <- <-. destruct (F i t Et) as (q & G & _ & _ & B).
  pose proof G as (RP & _). destruct RP as (_ & LQ & _). destruct P as (_ & _ & P3).
  destruct (drains i ls s t q Et G C ltac:(lia) R ltac:(lia)) as (s' & tr' & t' & q' & -> & R1 & (_ & _ & _ & G4 & G5) & A & R4 & R5).
  exists s', tr', t'. split; [reflexivity|]. split; [exact R1|]. split; [apply A|]. split; [apply G4; auto|].
  intros [H|H]; apply G5; auto.
Qed.
