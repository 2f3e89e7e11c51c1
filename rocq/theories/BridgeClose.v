(* Proofs about Bridge.v: before and after closing. *)
From Verif Require Import Base BaseProofs Ring SharedSpec Bridge BridgeSpec BridgeProofs BridgeThms.

Definition fits (i : Z) (b : bool) (e : event) : Prop :=
  whose e = i /\ match e with Asked _ _ c => c = -19 <-> b = false | _ => b = true end.
Lemma push_code mem r d r' c : ring_push mem r d = Ok (r', c) -> c <> -19.
Proof.
  unfold ring_push, ring_grow. cbv zeta. intros E. destruct (_ =? 0); [injection E as _ <-; lia|].
  repeat match type of E with
  | bind ?x _ = _ => destruct x as [[? ?]|] eqn:?; [cbn [bind] in E|discriminate E]
  | bind ?x _ = _ => destruct x eqn:?; [cbn [bind] in E|discriminate E]
  | (if ?b then _ else _) = _ => destruct b eqn:?
  end; try (injection E as _ <-; lia).
  injection E as _ <-. intros ->.
  repeat match goal with
  | H : bind ?x _ = Ok (_, -19) |- _ => destruct x; [cbn [bind] in H|discriminate H]
  | H : (if ?b then _ else _) = Ok (_, -19) |- _ => destruct b
  | H : Ok (_, _) = Ok (_, -19) |- _ => injection H; lia
  end.
Qed.
Lemma write_fits i mem d t t' tr : tty_write i mem d t = Ok (t', tr) -> t_open t' = t_open t /\ Forall (fits i (t_open t)) tr.
Proof.
  unfold tty_write. destruct (t_open t) eqn:O; cbn [negb]; intros E.
  - destruct (ring_push mem (t_out t) d) as [[r c]|] eqn:P; [cbn [bind fst snd] in E|discriminate E]. injection E as <- <-. split; [exact O|]. constructor; [|constructor].
    apply push_code in P. split; [reflexivity|]. split; [contradiction|discriminate].
  - injection E as <- <-. split; [exact O|]. constructor; [|constructor]. split; [reflexivity|]. split; reflexivity.
Qed.
Lemma writes_fit i ws : forall t t' tr, tty_writes i ws t = Ok (t', tr) -> t_open t' = t_open t /\ Forall (fits i (t_open t)) tr.
Proof.
  induction ws as [|[mem d] ws IH]; intros t t' tr E; cbn [tty_writes] in E; [injection E as <- <-; auto|].
  destruct (tty_write i mem d t) as [[t1 a]|] eqn:W; [cbn [bind fst snd] in E|discriminate E]. apply write_fits in W. destruct W as [O1 F1].
  destruct (tty_writes i ws t1) as [[t2 b]|] eqn:V; [cbn [bind fst snd] in E|discriminate E]. apply IH in V. destruct V as [O2 F2].
  injection E as <- <-. split; [congruence|]. apply Forall_app. rewrite O1 in F2. auto.
Qed.
Lemma loop_fits i ms : forall t tr t' tr' c, t_open t = true -> Forall (fits i true) tr -> pty_read_loop i ms t tr = Ok (t', tr', c) ->
  t_open t' = true /\ Forall (fits i true) tr'.
Proof.
  induction ms as [|[m ws] ms IH]; intros t tr t' tr' c O F E; cbn [pty_read_loop] in E; [injection E as <- <- _; auto|].
  destruct (k_read t (PTY_BUFSIZE - 1) m) as [[d t1]|e] eqn:K; [|injection E as <- <- _; auto].
  assert (O1 : t_open t1 = true). { unfold k_read in K. destruct m; [discriminate K|]. destruct (t_in t); [discriminate K|]. injection K as _ <-. exact O. }
  cbv zeta in E. destruct (zcopy (t_ibuf t1) 0 d) as [b1|]; [cbn [bind] in E|discriminate E]. destruct (zcopy b1 _ _) as [b2|]; [cbn [bind] in E|discriminate E].
  destruct (zget b2 _) as [z|]; [cbn [bind] in E|discriminate E]. destruct (tty_writes i ws (set_ibuf b2 t1)) as [[t2 a]|] eqn:V; [cbn [bind fst snd] in E|discriminate E].
  apply writes_fit in V. cbn [set_ibuf t_open] in V. rewrite O1 in V. destruct V as [O2 F2]. apply IH in E; auto.
  apply Forall_app. split; [exact F|]. constructor; [split; reflexivity|exact F2].
Qed.
Lemma dispatch_fits mend i l t t' tr : bridge_dispatch_pty mend i l t = Ok (t', tr) -> t_open t' = t_open t /\ Forall (fits i (t_open t)) tr.
Proof.
  unfold bridge_dispatch_pty, tty_dispatch. destruct (t_open t) eqn:O; cbn [negb]; intros E.
  - destruct (pty_read_loop _ _ _ _) as [[[t1 a] c]|] eqn:L; [cbn [bind] in E|discriminate E]. apply loop_fits in L; [|exact O|constructor]. destruct L as [O1 F1].
    destruct (tty_flush l t1) as [[[t2 b] w]|] eqn:W; [cbn [bind] in E|discriminate E].
    assert (O2 : t_open t2 = true). { unfold tty_flush in W. cbv zeta in W. destruct (pty_write _ _ _) as [[[r1 s1] w1]|]; [cbn [bind] in W|discriminate W]. injection W as <- _ _. exact O1. }
    injection E as <- <-. split.
    + unfold ctl_mod, ctl_add. repeat match goal with |- context [if ?b then _ else _] => destruct b end; exact O2.
    + apply Forall_app. split; [exact F1|]. constructor; [split; reflexivity|constructor].
  - cbn [bind] in E. change (-19 =? -11) with false in E. cbv iota in E. injection E as <- <-. auto.
Qed.
Lemma one_fits mend o t t' tr : one mend o t = Ok (t', tr) ->
  t_open t' = match o with BClose _ => false | _ => t_open t end /\ Forall (fits (about o) (t_open t)) tr.
Proof.
  destruct o; cbn [one about]; intros E; try (injection E as <- <-; split; [|constructor]; try reflexivity).
  - unfold bridge_add, ctl_add. destruct (negb _); [reflexivity|]. destruct (t_reg t); reflexivity.
  - unfold bridge_remove. destruct (negb _); reflexivity.
  - unfold tty_close. destruct (t_open t) eqn:O; cbn [negb]; [reflexivity|exact O].
  - now apply write_fits in E.
  - now apply dispatch_fits in E.
  - unfold bridge_dispatch in E. destruct (t_ready t); [now apply dispatch_fits in E|]. injection E as <- <-. auto.
Qed.
Lemma at_inv i f s s' tr : at_tty i f s = Ok (s', tr) ->
  exists t t', znth s i = Some t /\ f t = Ok (t', tr) /\ forall j, znth s' j = if j =? i then Some t' else znth s j.
Proof.
  unfold at_tty. intros E. unfold zget in E. destruct (znth s i) as [t|] eqn:Z; [cbn [bind] in E|discriminate E].
  destruct (f t) as [[t' a]|] eqn:F; [cbn [bind fst snd] in E|discriminate E]. unfold zcopy in E. destruct (_ && _) eqn:B; [cbn [bind] in E|discriminate E]. injection E as <- <-.
  exists t, t'. split; [reflexivity|]. split; [exact F|]. intros j. cbn [length] in B. rewrite znth_zput by (cbn [length]; lia). cbn [length].
  destruct (Z.eqb_spec j i) as [->|N].
  - replace ((i <=? i) && (i <? i + Z.of_nat 1)) with true by lia. rewrite Z.sub_diag. reflexivity.
  - match goal with |- (if ?b then _ else _) = _ => destruct b eqn:X end; [lia|reflexivity].
Qed.
Lemma run_closed mend i ops : forall s s' tr, (forall t, znth s i = Some t -> t_open t = false) -> b_run mend s ops = Ok (s', tr) ->
  Forall (fun e => whose e = i -> refusal e) tr.
Proof.
  induction ops as [|o ops IH]; intros s s' tr C E; cbn [b_run] in E; [injection E as _ <-; constructor|].
  rewrite b_step_one in E. destruct (at_tty _ _ _) as [[s1 a]|] eqn:A; [cbn [bind fst snd] in E|discriminate E].
  destruct (b_run mend s1 ops) as [[s2 b]|] eqn:R; [cbn [bind fst snd] in E|discriminate E]. injection E as _ <-.
  apply at_inv in A. destruct A as (t & t' & Z & F & U). apply one_fits in F. destruct F as [O F]. apply Forall_app. split.
  - apply (Forall_impl _ (P := fits (about o) (t_open t))); [|exact F]. intros e [W X] Wi. rewrite Wi in W. rewrite <- W in Z. rewrite (C t Z) in X. destruct e; cbn [refusal]; [discriminate X|now apply X|discriminate X].
  - apply (IH s1 s2); [|exact R]. intros u Zu. rewrite U in Zu. destruct (Z.eqb_spec i (about o)) as [->|N]; [|exact (C u Zu)].
    injection Zu as <-. rewrite O. specialize (C t Z). now destruct o.
Qed.
Lemma closed mend i ops s s' tr : b_run mend s (BClose i :: ops) = Ok (s', tr) -> Forall (fun e => whose e = i -> refusal e) tr.
Proof.
  cbn [b_run]. intros E. rewrite b_step_one in E. destruct (at_tty _ _ _) as [[s1 a]|] eqn:A; [cbn [bind fst snd] in E|discriminate E].
  destruct (b_run mend s1 ops) as [[s2 b]|] eqn:R; [cbn [bind fst snd] in E|discriminate E]. injection E as _ <-.
  apply at_inv in A. destruct A as (t & t' & Z & F & U). pose proof (one_fits _ _ _ _ _ F) as [O _]. cbn [one] in F. injection F as _ <-. cbn [app].
  apply (run_closed mend i ops s1 s2); [|exact R]. intros u Zu. rewrite U in Zu. cbn [about] in Zu. rewrite Z.eqb_refl in Zu. now injection Zu as <-.
Qed.
Lemma run_open mend i ops : forall s s' tr, ~ In (BClose i) ops -> (forall t, znth s i = Some t -> t_open t = true) -> b_run mend s ops = Ok (s', tr) ->
  Forall (fun e => whose e = i -> ~ refusal e) tr /\ forall t, znth s' i = Some t -> t_open t = true.
Proof.
  induction ops as [|o ops IH]; intros s s' tr N C E; cbn [b_run] in E; [injection E as <- <-; auto|].
  rewrite b_step_one in E. destruct (at_tty _ _ _) as [[s1 a]|] eqn:A; [cbn [bind fst snd] in E|discriminate E].
  destruct (b_run mend s1 ops) as [[s2 b]|] eqn:R; [cbn [bind fst snd] in E|discriminate E]. injection E as <- <-.
  apply at_inv in A. destruct A as (t & t' & Z & F & U). apply one_fits in F. destruct F as [O F].
  destruct (IH s1 s2 b) as [G1 G2]; [intros X; apply N; now right| |exact R|].
  - intros u Zu. rewrite U in Zu. destruct (Z.eqb_spec i (about o)) as [->|D]; [|exact (C u Zu)]. injection Zu as <-. rewrite O. specialize (C t Z).
    destruct o; try exact C. exfalso. apply N. now left.
  - split; [|exact G2]. apply Forall_app. split; [|exact G1]. apply (Forall_impl _ (P := fits (about o) (t_open t))); [|exact F].
    intros e [W X] Wi. rewrite Wi in W. rewrite <- W in Z. rewrite (C t Z) in X. destruct e; cbn [refusal]; [tauto| |tauto]. intros K. apply X in K. discriminate K.
Qed.
Lemma opened mend i rooms ops s tr : ~ In (BClose i) ops -> b_run mend (map tty_new rooms) ops = Ok (s, tr) -> Forall (fun e => whose e = i -> ~ refusal e) tr.
Proof.
  intros N E. apply (run_open mend i ops (map tty_new rooms) s tr N); [|exact E]. intros t Z. rewrite znth_map in Z. destruct (znth rooms i); [|discriminate Z]. now injection Z as <-.
Qed.
