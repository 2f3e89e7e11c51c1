(* The statements of property C55, from the lemmas of TwinStep.v and TwinVte.v. *)
From Verif Require Import Base BaseProofs Screen ScreenInv ScreenSpec ScreenResize ScreenSafe ScreenHist ScreenThms VteData Vte VteKeys VteInv VteSafe
  TwinSpec TwinVteSpec TwinProofs TwinStep TwinVte.

Lemma twin_ub s t o : Inv s -> Inv t -> same_page s t -> op_args o -> step s o = Ub -> step t o = Ub.
Proof.
  intros H H' P Ha E. destruct (step t o) as [t'|] eqn:E'; [|reflexivity].
  destruct (page_runs t s o t' (page_sym _ _ P) H' H Ha E') as (s' & E2 & _). congruence.
Qed.
Lemma twin_call s t o : reachable s -> reachable t -> same_page s t -> op_args o ->
  (step s o = Ub <-> step t o = Ub) /\
  forall s', step s o = Ok s' -> exists t', step t o = Ok t' /\ same_page s' t' /\
    forall w, w <= s_sx s -> w <= s_sx s' -> same_hist w s t -> same_hist w s' t'.
Proof.
  intros R R' P Ha. pose proof (reachable_Inv s R) as H. pose proof (reachable_Inv t R') as H'. split.
  - split; [now apply twin_ub|]. apply twin_ub; auto. now apply page_sym.
  - intros s' E. destruct (page_runs s t o s' P H H' Ha E) as (t' & E' & P'). exists t'. split; [exact E'|]. split; [exact P'|].
    intros w Hw Hw' Q. exact (hist_step w s t P H H' Hw o s' t' Q Ha E E' Hw').
Qed.
Lemma twin_looking s o s' : reachable s -> op_args o -> watching o = true -> step s o = Ok s' ->
  same_page s s' /\ s_sbmax s' = s_sbmax s /\ sb_text s' = sb_text s.
Proof. intros R Ha W E. exact (watch_step s o s' W (reachable_Inv s R) Ha E). Qed.
Lemma twin_run s ops s' : reachable s -> Forall op_args ops -> run s ops = Ok s' ->
  (exists t, run s (unwatched ops) = Ok t /\ same_page s' t /\ forall w, wide_run w s ops -> same_hist w s' t) /\
  (exists t, run s (unkept ops) = Ok t /\ same_page s' t).
Proof.
  intros R Ha E. pose proof (reachable_Inv s R) as H. split.
  - destruct (drop_run ops s s s' (page_refl s) H H Ha E) as (t & T & P & Q). exists t. split; [exact T|]. split; [exact P|].
    intros w Hw. apply Q; [exact Hw|apply hist_refl].
  - exact (drop_keep ops s s s' (page_refl s) H H Ha E).
Qed.
Lemma term_sym v u : same_term v u -> same_term u v.
Proof. intros [E P]. split; [rewrite E at 1; destruct v; reflexivity|now apply page_sym]. Qed.
Lemma twin_terminal sg v u o : vreachable sg v -> vreachable sg u -> same_term v u -> vop_args o ->
  (vstep sg v o = Ub <-> vstep sg u o = Ub) /\
  forall v', vstep sg v o = Ok v' -> exists u', vstep sg u o = Ok u' /\ same_term v' u'.
Proof.
  intros R R' T Ha. apply vreachable_inv in R, R'.
  assert (K : forall v u v', VInv v -> VInv u -> same_term v u -> vstep sg v o = Ok v' -> exists u', vstep sg u o = Ok u' /\ same_term v' u').
  { intros a b a' Ia Ib Tab E. destruct (term_step sg a b o a' Ia Ib Tab Ha E) as (b' & E' & T' & _). eauto. }
  split; [|intros v'; now apply K]. split; intros E.
  - destruct (vstep sg u o) as [u'|] eqn:E'; [|reflexivity]. destruct (K u v u' R' R (term_sym _ _ T) E') as (v' & X & _). congruence.
  - destruct (vstep sg v o) as [v'|] eqn:E'; [|reflexivity]. destruct (K v u v' R R' T E') as (u' & X & _). congruence.
Qed.
Lemma twin_return sg v u : vreachable sg v -> vreachable sg u -> same_term v u ->
  (forall k a m c v' x, vte_key sg v k a m c = Ok (v', x) -> exists u', vte_key sg u k a m c = Ok (u', x)) /\
  (forall cx cy px py b e m v' x, vte_mouse sg v cx cy px py b e m = Ok (v', x) -> exists u', vte_mouse sg u cx cy px py b e m = Ok (u', x)).
Proof.
  intros R R' T. apply vreachable_inv in R, R'. split; intros.
  - destruct (term_key sg v u k a m c v' x R R' T H) as (u' & E & _). eauto.
  - destruct (term_mouse sg v u cx cy px py b e m v' x R R' T H) as (u' & E & _). eauto.
Qed.
Lemma twin_session sg v ops v' : vreachable sg v -> Forall vop_args ops -> vrun sg v ops = Ok v' ->
  (exists u, vrun sg v (vunwatched ops) = Ok u /\ same_term v' u /\
     forall w, wide_session sg w v ops -> same_hist w (v_con v') (v_con u)) /\
  (exists u, vrun sg v (vunkept ops) = Ok u /\ same_term v' u).
Proof.
  intros R Ha E. apply vreachable_inv in R. split.
  - destruct (term_unwatched sg ops v v v' R R (term_refl v) Ha E) as (u & U & T & Q). exists u. split; [exact U|]. split; [exact T|].
    intros w Hw. apply Q; [exact Hw|apply hist_refl].
  - exact (term_unkept sg ops v v v' R R (term_refl v) Ha E).
Qed.

(* For the examples: pages after calls that look or trim. *)
Lemma keep_run ops : forall s s', Inv s -> Forall op_args ops -> forallb keeping ops = true -> run s ops = Ok s' -> same_page s s'.
Proof.
  induction ops as [|o r IH]; intros s s' H Ha K E; cbn [run forallb] in *.
  - apply ok_inj in E. subst s'. apply page_refl.
  - apply Forall_cons_iff in Ha as [Ha1 Ha2]. destruct (step s o) as [s1|] eqn:E1; [|discriminate]. cbn [bind] in E.
    destruct (keeping o) eqn:W; [|discriminate]. pose proof (step_Inv s o s1 H Ha1 E1) as I1.
    exact (page_trans _ _ _ (keep_step s o s1 W H Ha1 E1) (IH s1 s' I1 Ha2 K E)).
Qed.
Lemma vreachable_run sg ops : forall v v', vreachable sg v -> Forall vop_args ops -> vrun sg v ops = Ok v' -> vreachable sg v'.
Proof.
  induction ops as [|o r IH]; intros v v' R Ha E; cbn [vrun] in E; [inversion E; now subst|].
  apply Forall_cons_iff in Ha as [Ha1 Ha2]. destruct (vstep sg v o) as [v1|] eqn:E1; [|discriminate]. cbn [bind] in E.
  exact (IH v1 v' (vreachable_step sg v o v1 R Ha1 E1) Ha2 E).
Qed.
