(* Which calls can change which settings of a screen. *)
From Verif Require Import Base BaseProofs Screen ScreenInv ScreenSb ScreenScroll ScreenSpec ScreenOps ScreenMove ScreenCtl ScreenResize
  ScreenSafe ScreenLaws ScreenHist ScreenRz ScreenThms FrameSpec.
From Verif Require SelectionFollow.

Record kept_by (o : op) (s s' : screen) : Prop := mkKept {
  kb_size : may_size o = false -> s_sx s' = s_sx s /\ s_sy s' = s_sy s;
  kb_flags : may_flags o = false -> s_flags s' = s_flags s;
  kb_margins : may_margins o = false -> s_mt s' = s_mt s /\ s_mb s' = s_mb s;
  kb_def : may_def o = false -> s_def s' = s_def s;
  kb_tabs : may_tabs o = false -> s_tabs s' = s_tabs s;
  kb_limit : may_limit o = false -> s_sbmax s' = s_sbmax s;
  kb_select : may_select o = false -> s_sela s' = s_sela s;
  kb_cursor : may_cursor o = false -> s_cx s' = s_cx s /\ s_cy s' = s_cy s
}.

Record set9 (s s' : screen) : Prop := mkSet9 {
  n_sx : s_sx s' = s_sx s; n_sy : s_sy s' = s_sy s; n_flags : s_flags s' = s_flags s; n_mt : s_mt s' = s_mt s; n_mb : s_mb s' = s_mb s;
  n_def : s_def s' = s_def s; n_tabs : s_tabs s' = s_tabs s; n_max : s_sbmax s' = s_sbmax s; n_sela : s_sela s' = s_sela s }.
Definition cur (s s' : screen) : Prop := s_cx s' = s_cx s /\ s_cy s' = s_cy s.
Lemma set9_refl s : set9 s s.
Proof. constructor; reflexivity. Qed.
Lemma set9_trans a b c : set9 a b -> set9 b c -> set9 a c.
Proof. intros [] []. constructor; congruence. Qed.
Lemma set9_frame s s' : same_frame s s' -> set9 s s'.
Proof. intros F. constructor; apply F. Qed.
Lemma set9_env s s' : same_env s s' -> set9 s s'.
Proof. intros F. constructor; apply F. Qed.
Lemma set9_env2 s s' : env2 s s' -> set9 s s'.
Proof. intros F. constructor; apply F. Qed.
Lemma set9_inc s : set9 s (inc_age s).
Proof. apply set9_frame, frame_inc. Qed.
Lemma set9_moved s x y : set9 s (moved s x y).
Proof. apply set9_env, env_moved. Qed.
Lemma set9_imoved s x y : set9 s (moved (inc_age s) x y).
Proof. apply set9_frame, frame_moved. Qed.
Lemma set9_aged s s' : set9 (inc_age s) s' -> set9 s s'.
Proof. apply set9_trans, set9_inc. Qed.
Lemma cur_aged s s' : cur (inc_age s) s' -> cur s s'.
Proof. unfold cur. now rewrite inc_cx, inc_cy. Qed.
Lemma kept_set9 o s s' : set9 s s' -> (may_cursor o = false -> cur s s') -> kept_by o s s'.
Proof. intros [] C. constructor; auto. Qed.
Lemma kept_same o s : kept_by o s s.
Proof. apply kept_set9; [apply set9_refl|intros _; split; reflexivity]. Qed.
Lemma kept_moved o s x y : may_cursor o = true -> kept_by o s (moved (inc_age s) x y).
Proof. intros M. apply kept_set9; [apply set9_imoved|congruence]. Qed.

(* A result that is the aged screen with fields outside the settings changed. *)
Ltac aged_kept s :=
  apply kept_set9; [apply set9_aged|intros _; apply cur_aged]; unfold scr_sel_reset, viewed, erase_to, erased, aged;
  generalize (inc_age s); intros ?; [constructor; reflexivity|split; reflexivity].
Lemma kept_viewed o s v pn : kept_by o s (viewed (aged s) v pn).
Proof. aged_kept s. Qed.
Lemma kept_erase o s a b c d p : kept_by o s (erase_to s a b c d p).
Proof. aged_kept s. Qed.
Lemma kept_trans o a b c : may_cursor o = false -> set9 a b -> cur a b -> kept_by o b c -> kept_by o a c.
Proof.
  intros M [] [C1 C2] []. constructor; intros X; repeat match goal with H : ?b = false -> _, X : ?b = false |- _ => specialize (H X) end;
    repeat match goal with H : _ /\ _ |- _ => destruct H end; repeat match goal with |- _ /\ _ => split end; congruence.
Qed.
Lemma kept_reset s : kept_by OReset s (reset_to s).
Proof.
  assert (G : forall t m tb, let r := set_tabs (set_act (set_mb (set_mt (set_flags (age_all t) 0) 0) m) false) tb in
    s_sx r = s_sx t /\ s_sy r = s_sy t /\ s_def r = s_def t /\ s_sbmax r = s_sbmax t /\ s_sela r = s_sela t /\ s_cx r = s_cx t /\ s_cy r = s_cy t).
  { intros t m tb. cbv zeta. destruct t. repeat split. }
  destruct (G (inc_age s) (s_sy s - 1) (tabs_upto (s_sx s) (fun i => i mod 8 =? 0) (s_tabs s))) as (A & B & C & D & E & F & K). clear G.
  pose proof (frame_inc s) as FI. fold (aged s) in *. fold (reset_to s) in *. set (r := reset_to s) in *. clearbody r.
  constructor; cbn [may_size may_flags may_margins may_def may_tabs may_limit may_select may_cursor]; intros X; try discriminate.
  - split; [rewrite A; apply FI|rewrite B; apply FI].
  - rewrite C. apply FI.
  - rewrite D. apply FI.
  - rewrite E. apply FI.
  - rewrite F, K. split; [apply inc_cx|apply inc_cy].
Qed.
Lemma kept_write s ch a s' : Inv s -> step s (OWrite ch a) = Ok s' -> kept_by (OWrite ch a) s s'.
Proof.
  intros H E. destruct (hazard_dec s (OWrite ch a)) as [D|Hz].
  { rewrite (hazard_ub s (OWrite ch a) H I D) in E. discriminate. }
  apply kept_set9; [|discriminate]. destruct (scr_width_ok ch) as (w & Ew & Hw). destruct (Z.eq_dec w 0) as [->|Hne].
  - rewrite (write_zero_law s ch a Ew) in E. apply ok_inj in E. subst. apply set9_refl.
  - cbn [step] in E. destruct (scr_write_ok s ch a w H Ew ltac:(lia)) as (s1 & E1 & W & _).
    { intros Hi. pose proof (i_sx _ (proj1 H)). destruct (Z.eq_dec (s_sx s) 1); [|lia]. destruct (Z.eq_dec w 2) as [->|]; [|lia].
      exfalso. apply Hz. split; [exact Hi|]. split; assumption. }
    rewrite E1 in E. apply ok_inj in E. subst s1. clear E1. destruct W as [(s2 & P & _ & _ & _ & ->)].
    apply set9_aged. apply (set9_trans _ (wr_s1 (inc_age s))); [apply set9_env, env_wr_s1|]. apply (set9_trans _ s2).
    + destruct (wr_last (inc_age s) <? s_cy (wr_s1 (inc_age s))).
      * eapply set9_trans; [|apply set9_env2; apply P]. apply set9_moved.
      * rewrite P. apply set9_refl.
    + eapply set9_trans; [|apply set9_moved]. constructor; reflexivity.
Qed.
Lemma set9_down s n b s' : Inv s -> u32_arg n -> scr_move_down s n b = Ok s' -> set9 s s'.
Proof.
  intros H Hn E. destruct (Z.eq_dec n 0) as [->|Hne].
  - unfold scr_move_down in E. change (0 =? 0) with true in E. apply ok_inj in E. subst. apply set9_refl.
  - unfold u32_arg in Hn. pose proof (move_down_ok s n b H ltac:(lia)) as M. cbv zeta in M.
    destruct (_ <? n); [destruct b|].
    + destruct M as (s1 & U & E1 & _). rewrite E1 in E. apply ok_inj in E. subst.
      apply set9_aged. eapply set9_trans; [apply set9_env2; apply U|apply set9_moved].
    + destruct M as (E1 & _). rewrite E1 in E. apply ok_inj in E. subst. apply set9_imoved.
    + destruct M as (E1 & _). rewrite E1 in E. apply ok_inj in E. subst. apply set9_imoved.
Qed.
Lemma set9_up s n b s' : Inv s -> u32_arg n -> scr_move_up s n b = Ok s' -> set9 s s'.
Proof.
  intros H Hn E. destruct (Z.eq_dec n 0) as [->|Hne].
  - unfold scr_move_up in E. change (0 =? 0) with true in E. apply ok_inj in E. subst. apply set9_refl.
  - unfold u32_arg in Hn. pose proof (move_up_ok s n b H ltac:(lia)) as M. cbv zeta in M.
    destruct (_ <? n); [destruct b|].
    + destruct M as (s1 & U & E1 & _). rewrite E1 in E. apply ok_inj in E. subst.
      apply set9_aged. eapply set9_trans; [apply set9_env2; apply (sd_env _ _ _ U)|apply set9_moved].
    + destruct M as (E1 & _). rewrite E1 in E. apply ok_inj in E. subst. apply set9_imoved.
    + destruct M as (E1 & _). rewrite E1 in E. apply ok_inj in E. subst. apply set9_imoved.
Qed.
Lemma kept_newline s s' : Inv s -> step s ONewline = Ok s' -> kept_by ONewline s s'.
Proof.
  intros H E. cbn [step] in E. unfold scr_newline in E. apply kept_set9; [|discriminate].
  assert (H1 : u32_arg 1) by (unfold u32_arg; lia).
  destruct (move_down_law (inc_age s) 1 true (Inv_inc s H) H1) as (s1 & E1 & I1 & _).
  rewrite E1 in E. cbn [bind] in E. pose proof (set9_down (inc_age s) 1 true s1 (Inv_inc s H) H1 E1) as K.
  destruct (line_home_ok s1 I1) as [E2 _]. rewrite E2 in E. apply ok_inj in E. subst.
  apply set9_aged. eapply set9_trans; [exact K|]. apply set9_imoved.
Qed.

Lemma resized_kept s s' x y : resized s s' x y -> s_flags s' = s_flags s /\ s_def s' = s_def s /\ s_sbmax s' = s_sbmax s /\ s_sela s' = s_sela s.
Proof.
  intros [(s8 & A & _ & ->)]. cbv zeta.
  assert (R7 : s_flags (rz_s7 s x y) = s_flags s /\ s_def (rz_s7 s x y) = s_def s /\ s_sbmax (rz_s7 s x y) = s_sbmax s /\ s_sela (rz_s7 s x y) = s_sela s).
  { unfold rz_s7.
    assert (W : s_flags (rz_wide s x y) = s_flags s /\ s_def (rz_wide s x y) = s_def s /\ s_sbmax (rz_wide s x y) = s_sbmax s /\ s_sela (rz_wide s x y) = s_sela s).
    { unfold rz_wide. pose proof (set9_inc s) as N. split; [exact (n_flags _ _ N)|]. split; [exact (n_def _ _ N)|]. split; [exact (n_max _ _ N)|exact (n_sela _ _ N)]. }
    destruct (x <=? s_cx s); [|exact W]. pose proof (set9_moved (rz_wide s x y) (x - 1) (s_cy s)) as [].
    destruct W as (A1 & A2 & A3 & A4). repeat match goal with |- _ /\ _ => split end; congruence. }
  assert (R8 : s_flags s8 = s_flags s /\ s_def s8 = s_def s /\ s_sbmax s8 = s_sbmax s /\ s_sela s8 = s_sela s).
  { destruct (y <? s_sy s); [|now subst]. destruct A as (t & U & ->). destruct (set9_env2 _ _ (su_env _ _ _ U)).
    pose proof (set9_moved t (s_cx t) (Z.max 0 (s_cy t - (s_sy s - y)))) as []. destruct R7 as (A1 & A2 & A3 & A4).
    repeat match goal with |- _ /\ _ => split end; congruence. }
  destruct (y <=? s_cy s8); [|exact R8].
  pose proof (set9_moved (set_mb (set_sy s8 y) (y - 1)) (s_cx s8) (y - 1)) as N. destruct R8 as (A1 & A2 & A3 & A4).
  rewrite <- A1, <- A2, <- A3, <- A4.
  split; [exact (n_flags _ _ N)|]. split; [exact (n_def _ _ N)|]. split; [exact (n_max _ _ N)|exact (n_sela _ _ N)].
Qed.
Lemma kept_resize s x y s' : Inv s -> op_args (OResize x y) -> step s (OResize x y) = Ok s' -> kept_by (OResize x y) s s'.
Proof.
  intros H Ha E. cbn [step op_args] in *.
  assert (D : s' = s \/ resized s s' x y).
  { destruct (Z.eq_dec x 0) as [->|]; [left; symmetry in E; now apply ok_inj in E|].
    unfold scr_resize in E. destruct (Z.eq_dec y 0) as [->|].
    { replace ((x =? 0) || _) with true in E by lia. apply ok_inj in E. now left. }
    destruct ((s_sx s =? x) && (s_sy s =? y)) eqn:Es.
    { replace ((x =? 0) || _) with false in E by lia. apply ok_inj in E. now left. }
    fold (scr_resize s x y) in E. right.
    destruct (resize_ok s x y H ltac:(lia) ltac:(lia) ltac:(lia)) as (s2 & E2 & R & _).
    unfold scr_resize in E2. rewrite Es in E2. rewrite E2 in E. apply ok_inj in E. cbn [fst] in E. now subst. }
  destruct D as [->|R]; [apply kept_same|]. destruct (resized_kept s s' x y R) as (A & B & C & D).
  constructor; cbn [may_size may_flags may_margins may_def may_tabs may_limit may_select may_cursor]; intros X; try discriminate; auto.
Qed.

Ltac kept_vac := constructor; cbn [may_size may_flags may_margins may_def may_tabs may_limit may_select may_cursor]; intros ?; try discriminate.
Lemma kept_step s o s' : Inv s -> op_args o -> step s o = Ok s' -> kept_by o s s'.
Proof.
  intros H Ha E. destruct o; try (pose proof E as E0; lazymatch type of E with step _ OReset = _ => idtac | step _ OClearSb = _ => idtac | _ => cbn [step] in E end);
    try (cbn [op_args] in Ha; unfold u32_arg in Ha).
  - exact (kept_resize s x y s' H Ha E0).
  - destruct Ha as [Ha1 Ha2]. apply ok_inj in E. destruct (set_margins_ok s t b H Ha1 Ha2) as [M _]. cbv zeta in M. rewrite M in E. clear M E0.
    subst s'. destruct (_ && _); kept_vac; repeat match goal with |- _ /\ _ => split end; reflexivity.
  - destruct (set_max_sb_ok s n H Ha) as (s1 & T & E1 & _). rewrite E1 in E. apply ok_inj in E. clear E0 E1. subst s'.
    assert (N : set9 s s1). { apply set9_aged. eapply set9_trans; [|exact (set9_env2 _ _ (tr_env _ _ _ T))]. unfold aged. generalize (inc_age s). intros ?. constructor; reflexivity. }
    assert (C : cur s s1). { pose proof (tr_env _ _ _ T) as V. apply cur_aged. split; [rewrite (f_cx _ _ V)|rewrite (f_cy _ _ V)]; reflexivity. }
    kept_vac; repeat match goal with |- _ /\ _ => split end; first [exact (n_sx _ _ N)|exact (n_sy _ _ N)|exact (n_flags _ _ N)|exact (n_mt _ _ N)|exact (n_mb _ _ N)|exact (n_def _ _ N)|exact (n_tabs _ _ N)|exact (n_sela _ _ N)|apply C].
  - rewrite step_clear, SelectionFollow.clear_sb_eq in E. apply ok_inj in E. subst s'. apply kept_set9; [apply set9_aged|intros _; apply cur_aged].
    + unfold SelectionFollow.no_sb, aged. generalize (inc_age s). intros t. unfold sel_map. match goal with |- context [if ?b then _ else _] => destruct b end; constructor; reflexivity.
    + unfold SelectionFollow.no_sb, aged. generalize (inc_age s). intros t. unfold sel_map. match goal with |- context [if ?b then _ else _] => destruct b end; split; reflexivity.
  - destruct (Z.eq_dec n 0) as [->|]; [apply ok_inj in E; subst; apply kept_same|].
    destruct (sb_up_ok s n H ltac:(lia)) as (pn & E1 & _). rewrite E1 in E. apply ok_inj in E. subst s'. apply kept_viewed.
  - destruct (Z.eq_dec n 0) as [->|]; [apply ok_inj in E; subst; apply kept_same|].
    destruct (sb_down_ok s n H ltac:(lia)) as (pn & E1 & _). rewrite E1 in E. apply ok_inj in E. subst s'. apply kept_viewed.
  - unfold scr_sb_page_up in E. destruct (n =? 0); [apply ok_inj in E; subst; apply kept_same|]. cbv zeta in E.
    pose proof (u32_range (n * s_sy (inc_age s))) as R. set (m := u32 (n * s_sy (inc_age s))) in *. clearbody m.
    apply (kept_trans _ s (inc_age s)); [reflexivity|apply set9_inc|split; [apply inc_cx|apply inc_cy]|].
    destruct (Z.eq_dec m 0) as [->|]; [apply ok_inj in E; subst; apply kept_same|].
    destruct (sb_up_ok (inc_age s) m (Inv_inc s H) ltac:(lia)) as (pn & E1 & _). rewrite E1 in E. apply ok_inj in E. subst s'. apply kept_viewed.
  - unfold scr_sb_page_down in E. destruct (n =? 0); [apply ok_inj in E; subst; apply kept_same|]. cbv zeta in E.
    pose proof (u32_range (n * s_sy (inc_age s))) as R. set (m := u32 (n * s_sy (inc_age s))) in *. clearbody m.
    apply (kept_trans _ s (inc_age s)); [reflexivity|apply set9_inc|split; [apply inc_cx|apply inc_cy]|].
    destruct (Z.eq_dec m 0) as [->|]; [apply ok_inj in E; subst; apply kept_same|].
    destruct (sb_down_ok (inc_age s) m (Inv_inc s H) ltac:(lia)) as (pn & E1 & _). rewrite E1 in E. apply ok_inj in E. subst s'. apply kept_viewed.
  - apply ok_inj in E. destruct (sb_reset_ok s H) as (_ & _ & R1 & R2).
    destruct (s_sbpos s) eqn:Ep; [rewrite R2 in E by congruence|rewrite R1 in E by congruence]; subst s'; [apply kept_viewed|apply kept_same].
  - apply ok_inj in E. subst s'. kept_vac; repeat match goal with |- _ /\ _ => split end; reflexivity.
  - rewrite step_reset in E. destruct (reset_ok s H) as [E1 _]. rewrite E1 in E. apply ok_inj in E. rewrite E. apply kept_reset.
  - destruct (Z.eq_dec f 0) as [->|]; [apply ok_inj in E; subst; apply kept_same|].
    destruct (set_flags_ok s f H ltac:(lia)) as [E1 I1]. rewrite E1 in E. apply ok_inj in E. clear E0 E1 I1. subst s'.
    unfold flags_set, fl_end, fl_alt, touched. cbv zeta. pose proof (set9_inc s) as N. assert (C : cur s (inc_age s)) by (split; [apply inc_cx|apply inc_cy]).
    repeat match goal with |- context [if ?b then _ else _] => destruct b end;
    kept_vac; repeat match goal with |- _ /\ _ => split end; first [exact (n_sx _ _ N)|exact (n_sy _ _ N)|exact (n_mt _ _ N)|exact (n_mb _ _ N)|exact (n_def _ _ N)|exact (n_tabs _ _ N)|exact (n_max _ _ N)|exact (n_sela _ _ N)|exact (proj1 C)|exact (proj2 C)].
  - destruct (Z.eq_dec f 0) as [->|]; [apply ok_inj in E; subst; apply kept_same|].
    destruct (reset_flags_ok s f H ltac:(lia)) as [E1 I1]. rewrite E1 in E. apply ok_inj in E. clear E0 E1 I1. subst s'.
    unfold flags_reset, fl_end, fl_alt, touched. cbv zeta. pose proof (set9_inc s) as N. assert (C : cur s (inc_age s)) by (split; [apply inc_cx|apply inc_cy]).
    repeat match goal with |- context [if ?b then _ else _] => destruct b end;
    kept_vac; repeat match goal with |- _ /\ _ => split end; first [exact (n_sx _ _ N)|exact (n_sy _ _ N)|exact (n_mt _ _ N)|exact (n_mb _ _ N)|exact (n_def _ _ N)|exact (n_tabs _ _ N)|exact (n_max _ _ N)|exact (n_sela _ _ N)|exact (proj1 C)|exact (proj2 C)].
  - destruct (tabstop_ok true s H) as [E1 _]. cbv zeta in E1. rewrite E1 in E. apply ok_inj in E. subst s'.
    match goal with |- context [if ?b then _ else _] => destruct b end; [|apply kept_same]. kept_vac; repeat match goal with |- _ /\ _ => split end; reflexivity.
  - destruct (tabstop_ok false s H) as [E1 _]. cbv zeta in E1. rewrite E1 in E. apply ok_inj in E. subst s'.
    match goal with |- context [if ?b then _ else _] => destruct b end; [|apply kept_same]. kept_vac; repeat match goal with |- _ /\ _ => split end; reflexivity.
  - destruct (reset_all_tabstops_ok s H) as [E1 _]. cbv zeta in E1. rewrite E1 in E. apply ok_inj in E. subst s'.
    kept_vac; repeat match goal with |- _ /\ _ => split end; reflexivity.
  - now apply kept_write.
  - now apply kept_newline.
  - unfold scr_scroll_up in E. destruct (n =? 0) eqn:En; [apply ok_inj in E; subst; apply kept_same|].
    destruct (scroll_call_up s n H ltac:(lia)) as (s1 & E1 & U & _). rewrite E in E1. apply ok_inj in E1. subst s1.
    pose proof (su_env _ _ _ U) as V. apply kept_set9; [apply set9_aged, set9_env2, V|intros _; apply cur_aged; split; apply V].
  - unfold scr_scroll_down in E. destruct (n =? 0) eqn:En; [apply ok_inj in E; subst; apply kept_same|].
    destruct (scroll_call_down s n H ltac:(lia)) as (s1 & E1 & U & _). rewrite E in E1. apply ok_inj in E1. subst s1.
    pose proof (sd_env _ _ _ U) as V. apply kept_set9; [apply set9_aged, set9_env2, V|intros _; apply cur_aged; split; apply V].
  - destruct (move_to_ok s x y H ltac:(lia) ltac:(lia)) as [E1 _]. rewrite E1 in E. apply ok_inj in E. subst s'. now apply kept_moved.
  - apply kept_set9; [now apply (set9_up s n b)|discriminate].
  - apply kept_set9; [now apply (set9_down s n b)|discriminate].
  - destruct (Z.eq_dec n 0) as [->|]; [apply ok_inj in E; subst; apply kept_same|].
    destruct (move_left_ok s n H ltac:(lia)) as [E1 _]. rewrite E1 in E. apply ok_inj in E. subst s'. now apply kept_moved.
  - destruct (Z.eq_dec n 0) as [->|]; [apply ok_inj in E; subst; apply kept_same|].
    destruct (move_right_ok s n H ltac:(lia)) as [E1 _]. rewrite E1 in E. apply ok_inj in E. subst s'. now apply kept_moved.
  - destruct (line_end_ok s H) as [E1 _]. rewrite E1 in E. apply ok_inj in E. subst s'. now apply kept_moved.
  - destruct (line_home_ok s H) as [E1 _]. rewrite E1 in E. apply ok_inj in E. subst s'. now apply kept_moved.
  - destruct (Z.eq_dec n 0) as [->|]; [apply ok_inj in E; subst; apply kept_same|].
    destruct (tab_right_ok s n H ltac:(lia)) as (x & E1 & _). rewrite E1 in E. apply ok_inj in E. subst s'. now apply kept_moved.
  - destruct (Z.eq_dec n 0) as [->|]; [apply ok_inj in E; subst; apply kept_same|].
    destruct (Z_lt_le_dec (zlen (s_tabs s)) (s_cx s)).
    { rewrite (tab_left_ub s n H) in E; [discriminate|lia|unfold tab_fits; lia]. }
    destruct (tab_left_ok s n H ltac:(lia)) as (x & E1 & _); [unfold tab_fits; lia|]. rewrite E1 in E. apply ok_inj in E. subst s'. now apply kept_moved.
  - unfold scr_insert_lines in E. destruct (n =? 0) eqn:En; [apply ok_inj in E; subst; apply kept_same|].
    destruct ((s_cy s <? s_mt s) || (s_mb s <? s_cy s)) eqn:Er; [apply ok_inj in E; subst; apply kept_same|].
    destruct (insert_lines_ok s n H ltac:(lia) ltac:(lia)) as (ls' & E1 & _).
    unfold scr_insert_lines in E1. rewrite En, Er in E1. rewrite E in E1. apply ok_inj in E1. rewrite <- E1. clear.
    apply kept_set9; [|discriminate]. apply set9_aged. generalize (inc_age s). intros ?. constructor; reflexivity.
  - unfold scr_delete_lines in E. destruct (n =? 0) eqn:En; [apply ok_inj in E; subst; apply kept_same|].
    destruct ((s_cy s <? s_mt s) || (s_mb s <? s_cy s)) eqn:Er; [apply ok_inj in E; subst; apply kept_same|].
    destruct (delete_lines_ok s n H ltac:(lia) ltac:(lia)) as (ls' & E1 & _).
    unfold scr_delete_lines in E1. rewrite En, Er in E1. rewrite E in E1. apply ok_inj in E1. rewrite <- E1. clear.
    apply kept_set9; [|discriminate]. apply set9_aged. generalize (inc_age s). intros ?. constructor; reflexivity.
  - destruct (Z.eq_dec n 0) as [->|]; [apply ok_inj in E; subst; apply kept_same|].
    destruct (insert_chars_ok s n H ltac:(lia)) as [E1 _]. cbv zeta in E1. rewrite E1 in E. apply ok_inj in E. subst s'. clear.
    apply kept_set9; [|discriminate]. apply set9_aged. unfold char_edit, chars_s, cursor_in, aged. generalize (inc_age s). intros ?. constructor; reflexivity.
  - destruct (Z.eq_dec n 0) as [->|]; [apply ok_inj in E; subst; apply kept_same|].
    destruct (delete_chars_ok s n H ltac:(lia)) as [E1 _]. cbv zeta in E1. rewrite E1 in E. apply ok_inj in E. subst s'. clear.
    apply kept_set9; [|discriminate]. apply set9_aged. unfold char_edit, chars_s, cursor_in, aged. generalize (inc_age s). intros ?. constructor; reflexivity.
  - destruct (erase_cursor_ok s H) as [E1 _]. rewrite E1 in E. apply ok_inj in E. subst s'. apply kept_erase.
  - destruct (Z.eq_dec n 0) as [->|]; [apply ok_inj in E; subst; apply kept_same|].
    destruct (erase_chars_ok s n H ltac:(lia)) as [E1 _]. rewrite E1 in E. apply ok_inj in E. subst s'. apply kept_erase.
  - destruct (erase_to_end_ok s p H) as [E1 _]. rewrite E1 in E. apply ok_inj in E. subst s'. apply kept_erase.
  - destruct (erase_home_ok s p H) as [E1 _]. rewrite E1 in E. apply ok_inj in E. subst s'. apply kept_erase.
  - destruct (erase_line_ok s p H) as [E1 _]. rewrite E1 in E. apply ok_inj in E. subst s'. apply kept_erase.
  - destruct (erase_screen_to_cursor_ok s p H) as [E1 _]. rewrite E1 in E. apply ok_inj in E. subst s'. apply kept_erase.
  - destruct (erase_cursor_to_screen_ok s p H) as [E1 _]. rewrite E1 in E. apply ok_inj in E. subst s'. apply kept_erase.
  - destruct (erase_screen_ok s p H) as [E1 _]. rewrite E1 in E. apply ok_inj in E. subst s'. apply kept_erase.
  - apply ok_inj in E. clear E0. subst s'. pose proof (set9_inc s) as N. assert (C : cur s (inc_age s)) by (split; [apply inc_cx|apply inc_cy]). unfold scr_sel_reset.
    kept_vac; repeat match goal with |- _ /\ _ => split end; first [exact (n_sx _ _ N)|exact (n_sy _ _ N)|exact (n_flags _ _ N)|exact (n_mt _ _ N)|exact (n_mb _ _ N)|exact (n_def _ _ N)|exact (n_tabs _ _ N)|exact (n_max _ _ N)|exact (proj1 C)|exact (proj2 C)].
  - destruct (sel_start_ok s x y H ltac:(lia)) as [E1 _]. cbv zeta in E1. rewrite E1 in E. apply ok_inj in E. clear E0 E1. subst s'.
    pose proof (set9_inc s) as N. assert (C : cur s (inc_age s)) by (split; [apply inc_cx|apply inc_cy]). generalize (sel_at (aged s) x y). intros q. unfold aged.
    kept_vac; repeat match goal with |- _ /\ _ => split end; first [exact (n_sx _ _ N)|exact (n_sy _ _ N)|exact (n_flags _ _ N)|exact (n_mt _ _ N)|exact (n_mb _ _ N)|exact (n_def _ _ N)|exact (n_tabs _ _ N)|exact (n_max _ _ N)|exact (proj1 C)|exact (proj2 C)].
  - destruct (sel_target_ok s x y H ltac:(lia)) as [E1 _]. cbv zeta in E1. rewrite E1 in E. apply ok_inj in E. clear E0 E1. subst s'.
    destruct (s_sela s); [|apply kept_same]. generalize (sel_at (aged s) x y). intros q. aged_kept s.
Qed.

(* The cells. *)
Lemma both_eq s s' : s_main s' = s_main s -> s_alt s' = s_alt s -> same_text s s'.
Proof. intros A B y x. unfold main_at, alt_at. now rewrite A, B. Qed.
Lemma both_refl s : same_text s s.
Proof. now apply both_eq. Qed.
Lemma both_aged s s' : same_text (inc_age s) s' -> same_text s s'.
Proof. apply same_text_trans, same_text_inc. Qed.
Lemma both_moved s x y : same_text s (moved (inc_age s) x y).
Proof. apply both_aged, same_text_moved. Qed.
Lemma both_fl_end s t h i : same_text s t -> same_text s (fl_end t h i).
Proof.
  intros T. unfold fl_end. 
  assert (X : same_text s (if h then touched t else t)) by (destruct h; [eapply same_text_trans; [exact T|apply same_text_touched]|exact T]).
  destruct i; [|exact X]. eapply same_text_trans; [exact X|now apply both_eq].
Qed.
Ltac both_aged s := apply both_aged; unfold scr_sel_reset, viewed, aged; generalize (inc_age s); intros ?; apply both_eq; reflexivity.
Lemma both_step s o s' : Inv s -> op_args o -> may_text o = false -> step s o = Ok s' -> same_text s s'.
Proof.
  intros H Ha M E. destruct o; try discriminate M;
    try (lazymatch type of E with step _ OReset = _ => idtac | step _ OClearSb = _ => idtac | _ => cbn [step] in E end);
    try (cbn [op_args] in Ha; unfold u32_arg in Ha).
  - destruct Ha as [Ha1 Ha2]. apply ok_inj in E. destruct (set_margins_ok s t b H Ha1 Ha2) as [M1 _]. cbv zeta in M1. rewrite M1 in E. clear M1.
    subst s'. destruct (_ && _); apply both_eq; reflexivity.
  - destruct (set_max_sb_ok s n H Ha) as (s1 & T & E1 & _). rewrite E1 in E. apply ok_inj in E. subst s'. clear E1.
    pose proof (tr_env _ _ _ T) as V. pose proof (tr_lines _ _ _ T) as L. pose proof (f_other _ _ V) as O. pose proof (f_act _ _ V) as A.
    unfold lines in L. rewrite A in L. apply both_aged. revert L O. unfold aged. cbn [s_act s_main s_alt age_all set_age]. change (s_act (age_all (inc_age s))) with (s_act (inc_age s)).
    change (s_main (age_all (inc_age s))) with (s_main (inc_age s)). change (s_alt (age_all (inc_age s))) with (s_alt (inc_age s)). destruct (s_act (inc_age s)); intros; now apply both_eq.
  - rewrite step_clear, SelectionFollow.clear_sb_eq in E. apply ok_inj in E. subst s'. apply both_aged.
    unfold SelectionFollow.no_sb, aged. generalize (inc_age s). intros t. unfold sel_map. match goal with |- context [if ?b then _ else _] => destruct b end; apply both_eq; reflexivity.
  - destruct (Z.eq_dec n 0) as [->|]; [apply ok_inj in E; subst; apply both_refl|].
    destruct (sb_up_ok s n H ltac:(lia)) as (pn & E1 & _). rewrite E1 in E. apply ok_inj in E. subst s'. both_aged s.
  - destruct (Z.eq_dec n 0) as [->|]; [apply ok_inj in E; subst; apply both_refl|].
    destruct (sb_down_ok s n H ltac:(lia)) as (pn & E1 & _). rewrite E1 in E. apply ok_inj in E. subst s'. both_aged s.
  - unfold scr_sb_page_up in E. destruct (n =? 0); [apply ok_inj in E; subst; apply both_refl|]. cbv zeta in E.
    pose proof (u32_range (n * s_sy (inc_age s))) as R. set (m := u32 (n * s_sy (inc_age s))) in *. clearbody m.
    apply both_aged. destruct (Z.eq_dec m 0) as [->|]; [apply ok_inj in E; subst; apply both_refl|].
    destruct (sb_up_ok (inc_age s) m (Inv_inc s H) ltac:(lia)) as (pn & E1 & _). rewrite E1 in E. apply ok_inj in E. subst s'. both_aged (inc_age s).
  - unfold scr_sb_page_down in E. destruct (n =? 0); [apply ok_inj in E; subst; apply both_refl|]. cbv zeta in E.
    pose proof (u32_range (n * s_sy (inc_age s))) as R. set (m := u32 (n * s_sy (inc_age s))) in *. clearbody m.
    apply both_aged. destruct (Z.eq_dec m 0) as [->|]; [apply ok_inj in E; subst; apply both_refl|].
    destruct (sb_down_ok (inc_age s) m (Inv_inc s H) ltac:(lia)) as (pn & E1 & _). rewrite E1 in E. apply ok_inj in E. subst s'. both_aged (inc_age s).
  - apply ok_inj in E. destruct (sb_reset_ok s H) as (_ & _ & R1 & R2).
    destruct (s_sbpos s) eqn:Ep; [rewrite R2 in E by congruence|rewrite R1 in E by congruence]; subst s'; [both_aged s|apply both_refl].
  - apply ok_inj in E. subst s'. apply both_eq; reflexivity.
  - rewrite step_reset in E. destruct (reset_ok s H) as [E1 _]. rewrite E1 in E. apply ok_inj in E. rewrite E. clear. apply both_aged.
    unfold reset_to, aged. generalize (inc_age s). intros ?. apply both_eq; reflexivity.
  - destruct (Z.eq_dec f 0) as [->|]; [apply ok_inj in E; subst; apply both_refl|].
    destruct (set_flags_ok s f H ltac:(lia)) as [E1 I1]. rewrite E1 in E. apply ok_inj in E. clear E1 I1. subst s'. apply both_aged.
    unfold flags_set. cbv zeta. apply both_fl_end. unfold fl_alt.
    repeat match goal with |- context [if ?b then _ else _] => destruct b end; apply both_eq; reflexivity.
  - destruct (Z.eq_dec f 0) as [->|]; [apply ok_inj in E; subst; apply both_refl|].
    destruct (reset_flags_ok s f H ltac:(lia)) as [E1 I1]. rewrite E1 in E. apply ok_inj in E. clear E1 I1. subst s'. apply both_aged.
    unfold flags_reset. cbv zeta. apply both_fl_end. unfold fl_alt.
    repeat match goal with |- context [if ?b then _ else _] => destruct b end; apply both_eq; reflexivity.
  - destruct (tabstop_ok true s H) as [E1 _]. cbv zeta in E1. rewrite E1 in E. apply ok_inj in E. subst s'.
    match goal with |- context [if ?b then _ else _] => destruct b end; apply both_eq; reflexivity.
  - destruct (tabstop_ok false s H) as [E1 _]. cbv zeta in E1. rewrite E1 in E. apply ok_inj in E. subst s'.
    match goal with |- context [if ?b then _ else _] => destruct b end; apply both_eq; reflexivity.
  - destruct (reset_all_tabstops_ok s H) as [E1 _]. cbv zeta in E1. rewrite E1 in E. apply ok_inj in E. subst s'. apply both_eq; reflexivity.
  - destruct (move_to_ok s x y H ltac:(lia) ltac:(lia)) as [E1 _]. rewrite E1 in E. apply ok_inj in E. subst s'. apply both_moved.
  - destruct b; [discriminate|]. destruct (Z.eq_dec n 0) as [->|Hne].
    + unfold scr_move_up in E. change (0 =? 0) with true in E. apply ok_inj in E. subst. apply both_refl.
    + pose proof (move_up_ok s n false H ltac:(lia)) as M1. cbv zeta in M1. destruct (_ <? n); destruct M1 as (E1 & _);
      rewrite E1 in E; apply ok_inj in E; subst; apply both_moved.
  - destruct b; [discriminate|]. destruct (Z.eq_dec n 0) as [->|Hne].
    + unfold scr_move_down in E. change (0 =? 0) with true in E. apply ok_inj in E. subst. apply both_refl.
    + pose proof (move_down_ok s n false H ltac:(lia)) as M1. cbv zeta in M1. destruct (_ <? n); destruct M1 as (E1 & _);
      rewrite E1 in E; apply ok_inj in E; subst; apply both_moved.
  - destruct (Z.eq_dec n 0) as [->|]; [apply ok_inj in E; subst; apply both_refl|].
    destruct (move_left_ok s n H ltac:(lia)) as [E1 _]. rewrite E1 in E. apply ok_inj in E. subst s'. apply both_moved.
  - destruct (Z.eq_dec n 0) as [->|]; [apply ok_inj in E; subst; apply both_refl|].
    destruct (move_right_ok s n H ltac:(lia)) as [E1 _]. rewrite E1 in E. apply ok_inj in E. subst s'. apply both_moved.
  - destruct (line_end_ok s H) as [E1 _]. rewrite E1 in E. apply ok_inj in E. subst s'. apply both_moved.
  - destruct (line_home_ok s H) as [E1 _]. rewrite E1 in E. apply ok_inj in E. subst s'. apply both_moved.
  - destruct (Z.eq_dec n 0) as [->|]; [apply ok_inj in E; subst; apply both_refl|].
    destruct (tab_right_ok s n H ltac:(lia)) as (x & E1 & _). rewrite E1 in E. apply ok_inj in E. subst s'. apply both_moved.
  - destruct (Z.eq_dec n 0) as [->|]; [apply ok_inj in E; subst; apply both_refl|].
    destruct (Z_lt_le_dec (zlen (s_tabs s)) (s_cx s)).
    { rewrite (tab_left_ub s n H) in E; [discriminate|lia|unfold tab_fits; lia]. }
    destruct (tab_left_ok s n H ltac:(lia)) as (x & E1 & _); [unfold tab_fits; lia|]. rewrite E1 in E. apply ok_inj in E. subst s'. apply both_moved.
  - apply ok_inj in E. subst s'. both_aged s.
  - destruct (sel_start_ok s x y H ltac:(lia)) as [E1 _]. cbv zeta in E1. rewrite E1 in E. apply ok_inj in E. clear E1. subst s'.
    generalize (sel_at (aged s) x y). intros q. both_aged s.
  - destruct (sel_target_ok s x y H ltac:(lia)) as [E1 _]. cbv zeta in E1. rewrite E1 in E. apply ok_inj in E. clear E1. subst s'.
    destruct (s_sela s); [|apply both_refl]. generalize (sel_at (aged s) x y). intros q. both_aged s.
Qed.
Lemma history_step s o s' : Inv s -> op_args o -> may_history o = false -> step s o = Ok s' -> sb_text s' = sb_text s.
Proof.
  intros H Ha M E. assert (C : calm_op s o = true) by (destruct o; try discriminate M; try reflexivity; cbn [may_history] in M; subst; reflexivity).
  destruct (calm_step s o s' H Ha C E) as (A & _). unfold sb_text. now rewrite A.
Qed.
Lemma framed_step s o s' : Inv s -> op_args o -> step s o = Ok s' -> framed o s s'.
Proof.
  intros H Ha E. destruct (kept_step s o s' H Ha E). constructor; auto.
  - intros M. exact (both_step s o s' H Ha M E).
  - intros M. exact (history_step s o s' H Ha M E).
Qed.
Lemma framed_r s o s' : reachable s -> op_args o -> step s o = Ok s' -> framed o s s'.
Proof. intros H. apply framed_step, reachable_Inv, H. Qed.

(* A relation kept by every call of a class is kept by every run of such calls. *)
Lemma run_keeps (R : screen -> screen -> Prop) (f : op -> bool) :
  (forall s, R s s) -> (forall a b c, R a b -> R b c -> R a c) ->
  (forall s o s', Inv s -> op_args o -> f o = false -> step s o = Ok s' -> R s s') ->
  forall ops s s', Inv s -> Forall op_args ops -> Forall (fun o => f o = false) ops -> run s ops = Ok s' -> R s s'.
Proof.
  intros R0 RT RS. induction ops as [|o r IH]; intros s s' H Ha Hf E; cbn [run] in E.
  - apply ok_inj in E. subst s'. apply R0.
  - apply Forall_cons_iff in Ha as [Ha1 Ha2]. apply Forall_cons_iff in Hf as [Hf1 Hf2].
    destruct (step s o) as [s1|] eqn:E1; [|discriminate]. cbn [bind] in E. apply (RT _ s1); [exact (RS s o s1 H Ha1 Hf1 E1)|].
    apply IH; auto. exact (step_Inv s o s1 H Ha1 E1).
Qed.
Lemma framed_run ops s s' : reachable s -> Forall op_args ops -> run s ops = Ok s' ->
  let none f := Forall (fun o => f o = false) ops in
  (none may_size -> s_sx s' = s_sx s /\ s_sy s' = s_sy s) /\
  (none may_flags -> s_flags s' = s_flags s) /\
  (none may_margins -> s_mt s' = s_mt s /\ s_mb s' = s_mb s) /\
  (none may_def -> s_def s' = s_def s) /\
  (none may_tabs -> s_tabs s' = s_tabs s) /\
  (none may_limit -> s_sbmax s' = s_sbmax s) /\
  (none may_select -> s_sela s' = s_sela s) /\
  (none may_cursor -> s_cx s' = s_cx s /\ s_cy s' = s_cy s) /\
  (none may_text -> same_text s s') /\
  (none may_history -> sb_text s' = sb_text s).
Proof.
  intros H Ha E none. apply reachable_Inv in H. unfold none.
  repeat match goal with |- _ /\ _ => split end; intros F.
  - apply (run_keeps (fun s s' => s_sx s' = s_sx s /\ s_sy s' = s_sy s) may_size) with ops; auto; [intros ? ? ? [] []; split; congruence|].
    intros ? ? ? ? ? ? ?. now apply (framed_step _ _ _ H0 H1 H3).
  - apply (run_keeps (fun s s' => s_flags s' = s_flags s) may_flags) with ops; auto; [intros; congruence|].
    intros ? ? ? ? ? ? ?. now apply (framed_step _ _ _ H0 H1 H3).
  - apply (run_keeps (fun s s' => s_mt s' = s_mt s /\ s_mb s' = s_mb s) may_margins) with ops; auto; [intros ? ? ? [] []; split; congruence|].
    intros ? ? ? ? ? ? ?. now apply (framed_step _ _ _ H0 H1 H3).
  - apply (run_keeps (fun s s' => s_def s' = s_def s) may_def) with ops; auto; [intros; congruence|].
    intros ? ? ? ? ? ? ?. now apply (framed_step _ _ _ H0 H1 H3).
  - apply (run_keeps (fun s s' => s_tabs s' = s_tabs s) may_tabs) with ops; auto; [intros; congruence|].
    intros ? ? ? ? ? ? ?. now apply (framed_step _ _ _ H0 H1 H3).
  - apply (run_keeps (fun s s' => s_sbmax s' = s_sbmax s) may_limit) with ops; auto; [intros; congruence|].
    intros ? ? ? ? ? ? ?. now apply (framed_step _ _ _ H0 H1 H3).
  - apply (run_keeps (fun s s' => s_sela s' = s_sela s) may_select) with ops; auto; [intros; congruence|].
    intros ? ? ? ? ? ? ?. now apply (framed_step _ _ _ H0 H1 H3).
  - apply (run_keeps (fun s s' => s_cx s' = s_cx s /\ s_cy s' = s_cy s) may_cursor) with ops; auto; [intros ? ? ? [] []; split; congruence|].
    intros ? ? ? ? ? ? ?. now apply (framed_step _ _ _ H0 H1 H3).
  - apply (run_keeps same_text may_text) with ops; auto; [intros; apply both_refl|exact same_text_trans|].
    intros ? ? ? ? ? ? ?. now apply (framed_step _ _ _ H0 H1 H3).
  - apply (run_keeps (fun s s' => sb_text s' = sb_text s) may_history) with ops; auto; [intros; congruence|].
    intros ? ? ? ? ? ? ?. now apply (framed_step _ _ _ H0 H1 H3).
Qed.
