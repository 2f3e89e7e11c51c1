(* The alternate screen, tab stops, the scrollback view and resizing, cell by
   cell. *)
From Verif Require Import Base BaseProofs Screen ScreenInv ScreenSb ScreenScroll ScreenSpec ScreenOps ScreenMove ScreenCtl ScreenResize ScreenSafe ScreenLaws.

(* -- C17 ------------------------------------------------------------------ *)
(* Calls that neither resize, reset, configure the scrollback nor leave the
   alternate screen. *)
Definition keeps_main (s s' : screen) : Prop :=
  s_main s' = s_main s /\ s_sb s' = s_sb s /\ s_sbmax s' = s_sbmax s /\ fl s' F_ALT = true /\ s_act s' = true.
Lemma keeps_trans a b c : keeps_main a b -> keeps_main b c -> keeps_main a c.
Proof. intros (A & B & C & D & E) (A' & B' & C' & D' & E'). unfold keeps_main. rewrite A', B', C', A, B, C. auto. Qed.
Lemma keeps_frame s s' : s_act s = true -> fl s F_ALT = true -> same_frame s s' -> keeps_main s s'.
Proof.
  intros Ha Hf F. pose proof (g_other _ _ F) as O. rewrite Ha in O.
  unfold keeps_main. rewrite (frame_fl _ _ _ F), (g_act _ _ F), (g_sb _ _ F), (g_sbmax _ _ F). auto.
Qed.
Lemma keeps_env s s' : s_act s = true -> fl s F_ALT = true -> same_env s s' -> keeps_main s s'.
Proof. intros Ha Hf E. apply keeps_frame; auto. now apply frame_env. Qed.
Lemma keeps_inc s : s_act s = true -> fl s F_ALT = true -> keeps_main s (inc_age s).
Proof. intros. apply keeps_frame; auto using frame_inc. Qed.
Lemma keeps_set_lines s ls : s_act s = true -> fl s F_ALT = true -> keeps_main s (set_lines s ls).
Proof.
  intros Ha Hf. unfold set_lines. rewrite Ha. unfold keeps_main, fl in *. sredg. auto.
Qed.
Lemma keeps_su s s' n : s_act s = true -> fl s F_ALT = true -> scrolled_up s s' n -> keeps_main s s'.
Proof.
  intros Ha Hf S. pose proof (su_env _ _ _ S) as V. pose proof (su_sb _ _ _ S) as B. rewrite Hf in B.
  pose proof (f_other _ _ V) as O. rewrite Ha in O. unfold keeps_main.
  rewrite (fl_env2 _ _ _ V), (f_act _ _ V), (f_sbmax _ _ V), (ss_sb _ _ B). auto.
Qed.
Lemma keeps_sd s s' n : s_act s = true -> fl s F_ALT = true -> scrolled_down s s' n -> keeps_main s s'.
Proof.
  intros Ha Hf S. pose proof (sd_env _ _ _ S) as V. pose proof (sd_sb _ _ _ S) as B.
  pose proof (f_other _ _ V) as O. rewrite Ha in O. unfold keeps_main.
  rewrite (fl_env2 _ _ _ V), (f_act _ _ V), (f_sbmax _ _ V), (ss_sb _ _ B). auto.
Qed.
Lemma keeps_act a b : keeps_main a b -> s_act b = true /\ fl b F_ALT = true.
Proof. unfold keeps_main; tauto. Qed.
Lemma keeps_moved s x y : s_act s = true -> fl s F_ALT = true -> keeps_main s (moved s x y).
Proof. intros. apply keeps_env; auto. apply env_moved. Qed.
Lemma keeps_imoved s x y : s_act s = true -> fl s F_ALT = true -> keeps_main s (moved (inc_age s) x y).
Proof. intros. apply keeps_frame; auto. apply frame_moved. Qed.
Lemma keeps_refl s : s_act s = true -> fl s F_ALT = true -> keeps_main s s.
Proof. intros. apply keeps_frame; auto. apply frame_refl. Qed.

Lemma keeps_wrote s s' ch w a : s_act s = true -> fl s F_ALT = true -> wrote s s' ch w a -> keeps_main s s'.
Proof.
  intros Ha Hf [(s2 & E2 & _ & _ & _ & ->)].
  assert (K1 : keeps_main s (wr_s1 s)) by (apply keeps_env; auto using env_wr_s1).
  assert (K2 : keeps_main s s2).
  { destruct (wr_last s <? s_cy (wr_s1 s)); [|now subst].
    destruct (keeps_act _ _ K1) as [A1 F1].
    pose proof (keeps_moved (wr_s1 s) (s_cx (wr_s1 s)) (wr_last s) A1 F1) as K3. destruct (keeps_act _ _ K3) as [A3 F3].
    eapply keeps_trans; [exact K1|]. eapply keeps_trans; [exact K3|]. eapply keeps_su; eauto. }
  destruct (keeps_act _ _ K2) as [A2 F2]. eapply keeps_trans; [exact K2|].
  pose proof (keeps_set_lines s2 (zupd (lines s2) (s_cy s2) (wr_line s2 (s_cx s2) ch w a)) A2 F2) as K4.
  destruct (keeps_act _ _ K4) as [A4 F4]. eapply keeps_trans; [exact K4|]. now apply keeps_moved.
Qed.
Lemma keeps_aged s : s_act s = true -> fl s F_ALT = true -> keeps_main s (aged s).
Proof. intros A F. destruct (keeps_inc s A F) as (B & C & D & E & G). unfold keeps_main, aged. auto. Qed.

Lemma alt_step s o s' : Inv s -> op_args o -> fl s F_ALT = true -> stays_alt o = true -> step s o = Ok s' -> keeps_main s s'.
Proof.
  intros H Ha Hf Hs E. pose proof (i_act _ (proj1 H)) as Hact. rewrite Hf in Hact.
  pose proof (keeps_refl s Hact Hf) as K0. pose proof (keeps_inc s Hact Hf) as KI. destruct (keeps_act _ _ KI) as [AI FI].
  pose proof (keeps_aged s Hact Hf) as KA. destruct (keeps_act _ _ KA) as [AA FA].
  destruct o; cbn [stays_alt] in Hs; try discriminate; cbn [op_args] in Ha; unfold u32_arg in Ha; cbn [step] in E.
  - (* set_margins *) inversion E; subst s'. destruct Ha as [Ha1 Ha2]. destruct (set_margins_ok s t b H Ha1 Ha2) as [M _]. cbv zeta in M. rewrite M.
    match goal with |- context [if ?b then _ else _] => destruct b end; exact K0.
  - (* sb_up *) destruct (Z.eq_dec n 0) as [->|]; [inversion E; now subst|].
    destruct (sb_up_ok s n H ltac:(lia)) as (pn & E1 & _). rewrite E1 in E. inversion E. exact KA.
  - destruct (Z.eq_dec n 0) as [->|]; [inversion E; now subst|].
    destruct (sb_down_ok s n H ltac:(lia)) as (pn & E1 & _). rewrite E1 in E. inversion E. exact KA.
  - unfold scr_sb_page_up in E. destruct (n =? 0); [inversion E; now subst|]. cbv zeta in E.
    pose proof (u32_range (n * s_sy (inc_age s))) as R. set (m := u32 (n * s_sy (inc_age s))) in *. clearbody m.
    destruct (Z.eq_dec m 0) as [->|]; [inversion E; now subst|].
    destruct (sb_up_ok (inc_age s) m (Inv_inc s H) ltac:(lia)) as (pn & E1 & _). rewrite E1 in E. inversion E.
    eapply keeps_trans; [exact KI|]. exact (keeps_aged _ AI FI).
  - unfold scr_sb_page_down in E. destruct (n =? 0); [inversion E; now subst|]. cbv zeta in E.
    pose proof (u32_range (n * s_sy (inc_age s))) as R. set (m := u32 (n * s_sy (inc_age s))) in *. clearbody m.
    destruct (Z.eq_dec m 0) as [->|]; [inversion E; now subst|].
    destruct (sb_down_ok (inc_age s) m (Inv_inc s H) ltac:(lia)) as (pn & E1 & _). rewrite E1 in E. inversion E.
    eapply keeps_trans; [exact KI|]. exact (keeps_aged _ AI FI).
  - inversion E. destruct (sb_reset_ok s H) as (_ & _ & R1 & R2). destruct (s_sbpos s) eqn:Ep; [rewrite R2 by congruence|rewrite R1 by congruence; exact K0].
    exact KA.
  - inversion E. exact K0.
  - (* set_flags *) destruct (Z.eq_dec f 0) as [->|]; [inversion E; now subst|].
    destruct (set_flags_ok s f H ltac:(lia)) as [E1 I1]. rewrite E1 in E. inversion E; subst s'. clear E.
    assert (FA2 : fl (flags_set s f) F_ALT = true).
    { unfold flags_set, fl_end. rewrite Hf. cbn [negb andb]. 
      assert (G : forall t, fl t F_ALT = true -> forall h i : bool, fl (let s4 := if h then touched t else t in if i then age_all s4 else s4) F_ALT = true).
      { intros t Ht h i. destruct h, i; cbn; auto. }
      apply G. unfold fl_alt. unfold fl, bit. sredg. unfold fl, bit in Hf. rewrite Z.lor_spec, Hf. reflexivity. }
    unfold flags_set, fl_end. rewrite Hf. cbn [negb andb]. unfold fl_alt.
    set (t := set_flags (inc_age s) (Z.lor (s_flags s) f)).
    assert (KT : keeps_main s t).
    { destruct KI as (A & B & C & D & G). unfold keeps_main. subst t. sredg. rewrite A, B, C. repeat split; auto.
      unfold fl, bit. sredg. unfold fl, bit in Hf. rewrite Z.lor_spec, Hf. reflexivity. }
    destruct (keeps_act _ _ KT) as [AT FT].
    assert (KH : forall h : bool, keeps_main s (if h then touched t else t)).
    { intros []; auto. eapply keeps_trans; [exact KT|]. apply keeps_set_lines; auto. }
    cbv zeta. match goal with |- context [if ?i then age_all (if ?h then _ else _) else _] => pose proof (KH h) as K; destruct i end; exact K.
  - (* reset_flags *) destruct (Z.eq_dec f 0) as [->|]; [inversion E; now subst|].
    destruct (reset_flags_ok s f H ltac:(lia)) as [E1 I1]. rewrite E1 in E. inversion E; subst s'. clear E.
    unfold flags_reset, fl_end. replace (bit f F_ALT) with false by (destruct (bit f F_ALT); auto; discriminate).
    rewrite andb_false_r. unfold fl_alt.
    set (t := set_flags (inc_age s) (Z.ldiff (s_flags s) f)).
    assert (KT : keeps_main s t).
    { destruct KI as (A & B & C & D & G). unfold keeps_main. subst t. sredg. rewrite A, B, C. repeat split; auto.
      unfold fl, bit. sredg. unfold fl, bit in Hf, Hs. rewrite Z.ldiff_spec, Hf. cbn. exact Hs. }
    destruct (keeps_act _ _ KT) as [AT FT].
    assert (KH : forall h : bool, keeps_main s (if h then touched t else t)).
    { intros []; auto. eapply keeps_trans; [exact KT|]. apply keeps_set_lines; auto. }
    cbv zeta. match goal with |- context [if ?i then age_all (if ?h then _ else _) else _] => pose proof (KH h) as K; destruct i end; exact K.
  - destruct (tabstop_ok true s H) as [E1 _]. rewrite E1 in E. inversion E. match goal with |- context [if ?b then _ else _] => destruct b end; exact K0.
  - destruct (tabstop_ok false s H) as [E1 _]. rewrite E1 in E. inversion E. match goal with |- context [if ?b then _ else _] => destruct b end; exact K0.
  - destruct (reset_all_tabstops_ok s H) as [E1 _]. rewrite E1 in E. inversion E. exact K0.
  - (* write *) destruct (scr_width_ok ch) as (w & Ew & Hw). destruct (Z.eq_dec w 0) as [->|Hne].
    { unfold scr_write in E. rewrite Ew in E. inversion E; now subst. }
    destruct (hazard_dec s (OWrite ch a)) as [D|D].
    { rewrite (write_hazard_ub s ch a H D) in E. discriminate. }
    assert (Hfit : write_fits s w).
    { intros Hi. pose proof (i_sx _ (proj1 H)). destruct (Z_le_gt_dec w (s_sx s)); [auto|]. exfalso. apply D.
      cbn. assert (w = 2) by lia. subst w. repeat split; auto; lia. }
    destruct (scr_write_ok s ch a w H Ew ltac:(lia) Hfit) as (s1 & E1 & W & _). rewrite E in E1. inversion E1; subst s1.
    eapply keeps_trans; [exact KI|]. eapply keeps_wrote; eauto.
  - (* newline *) unfold scr_newline in E.
    pose proof (move_down_ok (inc_age s) 1 true (Inv_inc s H) ltac:(lia)) as M. cbv zeta in M.
    pose proof (keeps_inc (inc_age s) AI FI) as KII. destruct (keeps_act _ _ KII) as [AII FII].
    assert (exists s1, scr_move_down (inc_age s) 1 true = Ok s1 /\ Inv s1 /\ keeps_main s s1) as (s1 & E1 & I1 & K1).
    { destruct (bot_stop (inc_age s) - s_cy (inc_age s) <? 1).
      - destruct M as (t & S & E1 & I1). exists (moved t (s_cx (inc_age s)) (bot_stop (inc_age s))). split; [exact E1|]. split; [exact I1|].
        eapply keeps_trans; [exact KI|]. eapply keeps_trans; [exact KII|].
        pose proof (keeps_su _ _ _ AII FII S) as KS. destruct (keeps_act _ _ KS). eapply keeps_trans; [exact KS|]. now apply keeps_moved.
      - destruct M as (E1 & I1). eexists. split; [exact E1|]. split; [exact I1|]. eapply keeps_trans; [exact KI|]. now apply keeps_imoved. }
    rewrite E1 in E. cbn [bind] in E. destruct (line_home_ok s1 I1) as [E2 _]. rewrite E2 in E. inversion E.
    destruct (keeps_act _ _ K1). eapply keeps_trans; [exact K1|]. now apply keeps_imoved.
  - unfold scr_scroll_up in E. destruct (n =? 0) eqn:En; [inversion E; now subst|].
    destruct (scroll_call_up s n H ltac:(lia)) as (s1 & E1 & S & _). rewrite E in E1. inversion E1; subst s1.
    eapply keeps_trans; [exact KI|]. eapply keeps_su; eauto.
  - unfold scr_scroll_down in E. destruct (n =? 0) eqn:En; [inversion E; now subst|].
    destruct (scroll_call_down s n H ltac:(lia)) as (s1 & E1 & S & _). rewrite E in E1. inversion E1; subst s1.
    eapply keeps_trans; [exact KI|]. eapply keeps_sd; eauto.
  - destruct (move_to_ok s x y H ltac:(lia) ltac:(lia)) as [E1 _]. rewrite E1 in E. inversion E. now apply keeps_imoved.
  - destruct (Z.eq_dec n 0) as [->|]; [inversion E; now subst|].
    pose proof (move_up_ok s n b H ltac:(lia)) as M. cbv zeta in M.
    destruct (s_cy s - top_stop s <? n); [destruct b|].
    + destruct M as (t & S & E1 & I1). rewrite E1 in E. inversion E. eapply keeps_trans; [exact KI|].
      pose proof (keeps_sd _ _ _ AI FI S) as KS. destruct (keeps_act _ _ KS). eapply keeps_trans; [exact KS|]. now apply keeps_moved.
    + destruct M as [E1 _]. rewrite E1 in E. inversion E. now apply keeps_imoved.
    + destruct M as [E1 _]. rewrite E1 in E. inversion E. now apply keeps_imoved.
  - destruct (Z.eq_dec n 0) as [->|]; [inversion E; now subst|].
    pose proof (move_down_ok s n b H ltac:(lia)) as M. cbv zeta in M.
    destruct (bot_stop s - s_cy s <? n); [destruct b|].
    + destruct M as (t & S & E1 & I1). rewrite E1 in E. inversion E. eapply keeps_trans; [exact KI|].
      pose proof (keeps_su _ _ _ AI FI S) as KS. destruct (keeps_act _ _ KS). eapply keeps_trans; [exact KS|]. now apply keeps_moved.
    + destruct M as [E1 _]. rewrite E1 in E. inversion E. now apply keeps_imoved.
    + destruct M as [E1 _]. rewrite E1 in E. inversion E. now apply keeps_imoved.
  - destruct (Z.eq_dec n 0) as [->|]; [inversion E; now subst|].
    destruct (move_left_ok s n H ltac:(lia)) as [E1 _]. rewrite E1 in E. inversion E. now apply keeps_imoved.
  - destruct (Z.eq_dec n 0) as [->|]; [inversion E; now subst|].
    destruct (move_right_ok s n H ltac:(lia)) as [E1 _]. rewrite E1 in E. inversion E. now apply keeps_imoved.
  - destruct (line_end_ok s H) as [E1 _]. rewrite E1 in E. inversion E. now apply keeps_imoved.
  - destruct (line_home_ok s H) as [E1 _]. rewrite E1 in E. inversion E. now apply keeps_imoved.
  - destruct (Z.eq_dec n 0) as [->|]; [inversion E; now subst|].
    destruct (tab_right_ok s n H ltac:(lia)) as (x & E1 & _). rewrite E1 in E. inversion E. now apply keeps_imoved.
  - destruct (Z.eq_dec n 0) as [->|]; [inversion E; now subst|].
    destruct (Z_lt_le_dec (zlen (s_tabs s)) (s_cx s)).
    { rewrite (tab_left_ub s n H) in E; [discriminate|lia|unfold tab_fits; lia]. }
    destruct (tab_left_ok s n H ltac:(lia)) as (x & E1 & _); [unfold tab_fits; lia|]. rewrite E1 in E. inversion E. now apply keeps_imoved.
  - unfold scr_insert_lines in E. destruct (n =? 0) eqn:En; [inversion E; now subst|].
    destruct ((s_cy s <? s_mt s) || (s_mb s <? s_cy s)) eqn:Er; [inversion E; now subst|].
    destruct (insert_lines_ok s n H ltac:(lia) ltac:(lia)) as (ls' & E1 & _).
    unfold scr_insert_lines in E1. rewrite En, Er in E1. rewrite E in E1. inversion E1.
    pose proof (keeps_trans _ _ _ KA (keeps_set_lines (aged s) ls' AA FA)) as K. exact K.
  - unfold scr_delete_lines in E. destruct (n =? 0) eqn:En; [inversion E; now subst|].
    destruct ((s_cy s <? s_mt s) || (s_mb s <? s_cy s)) eqn:Er; [inversion E; now subst|].
    destruct (delete_lines_ok s n H ltac:(lia) ltac:(lia)) as (ls' & E1 & _).
    unfold scr_delete_lines in E1. rewrite En, Er in E1. rewrite E in E1. inversion E1.
    pose proof (keeps_trans _ _ _ KA (keeps_set_lines (aged s) ls' AA FA)) as K. exact K.
  - destruct (Z.eq_dec n 0) as [->|]; [inversion E; now subst|].
    destruct (insert_chars_ok s n H ltac:(lia)) as [E1 _]. rewrite E1 in E. inversion E. unfold char_edit.
    assert (KC : keeps_main s (chars_s s)) by exact KA. destruct (keeps_act _ _ KC). eapply keeps_trans; [exact KC|]. now apply keeps_set_lines.
  - destruct (Z.eq_dec n 0) as [->|]; [inversion E; now subst|].
    destruct (delete_chars_ok s n H ltac:(lia)) as [E1 _]. rewrite E1 in E. inversion E. unfold char_edit.
    assert (KC : keeps_main s (chars_s s)) by exact KA. destruct (keeps_act _ _ KC). eapply keeps_trans; [exact KC|]. now apply keeps_set_lines.
  - destruct (erase_cursor_ok s H) as [E1 _]. rewrite E1 in E. inversion E.
    eapply keeps_trans; [exact KA|]. now apply keeps_set_lines.
  - destruct (Z.eq_dec n 0) as [->|]; [inversion E; now subst|].
    destruct (erase_chars_ok s n H ltac:(lia)) as [E1 _]. rewrite E1 in E. inversion E.
    eapply keeps_trans; [exact KA|]. now apply keeps_set_lines.
  - destruct (erase_to_end_ok s p H) as [E1 _]. rewrite E1 in E. inversion E. eapply keeps_trans; [exact KA|]. now apply keeps_set_lines.
  - destruct (erase_home_ok s p H) as [E1 _]. rewrite E1 in E. inversion E. eapply keeps_trans; [exact KA|]. now apply keeps_set_lines.
  - destruct (erase_line_ok s p H) as [E1 _]. rewrite E1 in E. inversion E. eapply keeps_trans; [exact KA|]. now apply keeps_set_lines.
  - destruct (erase_screen_to_cursor_ok s p H) as [E1 _]. rewrite E1 in E. inversion E. eapply keeps_trans; [exact KA|]. now apply keeps_set_lines.
  - destruct (erase_cursor_to_screen_ok s p H) as [E1 _]. rewrite E1 in E. inversion E. eapply keeps_trans; [exact KA|]. now apply keeps_set_lines.
  - destruct (erase_screen_ok s p H) as [E1 _]. rewrite E1 in E. inversion E. eapply keeps_trans; [exact KA|]. now apply keeps_set_lines.
  - inversion E. unfold scr_sel_reset. destruct (s_sela s); exact KA || exact K0.
  - destruct (sel_start_ok s x y H ltac:(lia)) as [E1 _]. rewrite E1 in E. inversion E. exact KA.
  - destruct (sel_target_ok s x y H ltac:(lia)) as [E1 _]. rewrite E1 in E. inversion E. destruct (s_sela s); [exact KA|exact K0].
Qed.

Lemma alt_run ops : forall s s', Inv s -> Forall op_args ops -> fl s F_ALT = true -> forallb stays_alt ops = true ->
  run s ops = Ok s' -> keeps_main s s'.
Proof.
  induction ops as [|o r IH]; intros s s' H Ha Hf Hs E; cbn [run forallb] in *.
  - inversion E; subst s'. apply keeps_refl; auto. pose proof (i_act _ (proj1 H)). congruence.
  - apply Forall_cons_iff in Ha as [Ha1 Ha2]. apply andb_true_iff in Hs as [Hs1 Hs2].
    destruct (step s o) as [s1|] eqn:E1; [|discriminate]. cbn [bind] in E.
    pose proof (alt_step s o s1 H Ha1 Hf Hs1 E1) as K. destruct (keeps_act _ _ K) as [A F].
    eapply keeps_trans; [exact K|]. apply IH; auto. apply (step_Inv s o); auto.
Qed.
(* Leaving the alternate screen. *)
Lemma at_act s y x : at_ s y x = if s_act s then alt_at s y x else main_at s y x.
Proof. unfold at_, alt_at, main_at, lines. destruct (s_act s); reflexivity. Qed.
Lemma alt_leave s f : Inv s -> u32_arg f -> fl s F_ALT = true -> bit f F_ALT = true ->
  exists s', step s (OResetFlags f) = Ok s' /\ same_text s s' /\ s_act s' = false /\ s_sb s' = s_sb s /\
    forall y x, at_ s' y x = main_at s y x.
Proof.
  intros H Hfa Hf Hb. assert (f <> 0) by (intros ->; cbn in Hb; discriminate).
  destruct (reset_flags_ok s f H ltac:(lia)) as [E I]. exists (flags_reset s f). split; [exact E|].
  set (t := set_act (age_all (set_flags (inc_age s) (Z.ldiff (s_flags s) f))) false).
  assert (T : same_text s t /\ s_act t = false /\ s_sb t = s_sb s).
  { split; [|split; [reflexivity|]].
    - intros y x. pose proof (same_text_inc s y x) as S. exact S.
    - exact (g_sb _ _ (frame_inc s)). }
  assert (G : forall h i : bool, let s' := fl_end t h i in same_text s s' /\ s_act s' = false /\ s_sb s' = s_sb s).
  { intros h i. destruct T as (T1 & T2 & T3). cbv zeta. unfold fl_end.
    assert (TH : same_text s (if h then touched t else t) /\ s_act (if h then touched t else t) = false /\ s_sb (if h then touched t else t) = s_sb s).
    { destruct h; auto. split; [eapply same_text_trans; [exact T1|apply same_text_touched]|].
      split; [exact T2|exact T3]. }
    destruct i; exact TH. }
  unfold flags_reset. rewrite Hf, Hb. cbn [andb]. unfold fl_alt. fold t.
  specialize (G (fl s F_HIDE && bit f F_HIDE) (fl s F_INVERSE && bit f F_INVERSE)). cbv zeta in G.
  destruct G as (G1 & G2 & G3). split; [exact G1|]. split; [exact G2|]. split; [exact G3|].
  intros y x. rewrite at_act, G2. apply G1.
Qed.

(* -- C19 ------------------------------------------------------------------ *)
Lemma tab_right_law s n : Inv s -> u32_arg n -> 0 < n -> exists x, moves s (OTabRight n) x (s_cy s) /\
  (n <= stops s (s_cx s + 1) (s_sx s) -> s_cx s < x < s_sx s /\ is_stop s x = true /\ stops s (s_cx s + 1) (x + 1) = n) /\
  (stops s (s_cx s + 1) (s_sx s) < n -> x = s_sx s - 1).
Proof.
  intros H _ Hp. destruct (tab_right_ok s n H Hp) as (x & E & _ & A & B). exists x.
  split; [now apply moved_moves|]. split; auto.
Qed.
Lemma tab_left_law s n : Inv s -> u32_arg n -> 0 < n -> s_cx s <= s_sx s -> exists x, moves s (OTabLeft n) x (s_cy s) /\
  (n <= stops s 1 (s_cx s) -> 1 <= x < s_cx s /\ is_stop s x = true /\ stops s x (s_cx s) = n) /\
  (stops s 1 (s_cx s) < n -> x = 0).
Proof.
  intros H _ Hp Hx. pose proof (i_tabs _ (proj1 H)).
  destruct (tab_left_ok s n H Hp) as (x & E & _ & A & B); [unfold tab_fits; lia|]. exists x.
  split; [now apply moved_moves|]. split; auto.
Qed.
Lemma tabstop_law s (v : bool) : Inv s -> exists s',
  step s (if v then OSetTabstop else OResetTabstop) = Ok s' /\
  (forall k, is_stop s' k = if (k =? s_cx s) && (s_cx s <? s_sx s) then v else is_stop s k) /\
  s' = set_tabs s (s_tabs s').
Proof.
  intros H. pose proof (i_tabs _ (proj1 H)) as Ht. pose proof (i_cx _ (proj1 H)) as Hc.
  destruct (tabstop_ok v s H) as [E _]. eexists. split.
  { destruct v; exact E. }
  destruct (s_cx s <? s_sx s) eqn:Ex.
  - split; [|reflexivity]. intros k. rewrite andb_true_r. unfold is_stop. change (s_tabs (set_tabs ?a ?b)) with b.
    rewrite znth_zupd. destruct (k =? s_cx s) eqn:Ek; [|reflexivity].
    destruct (znth_some (s_tabs s) k) as [b Eb]; [lia|]. rewrite Eb. reflexivity.
  - split; [intros k; now rewrite andb_false_r|]. destruct s; reflexivity.
Qed.
Lemma clear_tabs_law s : Inv s -> exists s', step s OResetAllTabstops = Ok s' /\
  (forall k, 0 <= k < s_sx s -> is_stop s' k = false) /\ s' = set_tabs s (s_tabs s').
Proof.
  intros H. pose proof (i_tabs _ (proj1 H)) as Ht. destruct (reset_all_tabstops_ok s H) as [E _].
  eexists. split; [exact E|]. split; [|reflexivity]. intros k Hk. unfold is_stop, tabs_upto.
  change (s_tabs (set_tabs ?a ?b)) with b. rewrite znth_mapi.
  destruct (znth_some (s_tabs s) k) as [b Eb]; [lia|]. rewrite Eb. cbn. replace (k <? s_sx s) with true by lia. reflexivity.
Qed.

(* -- C10 ------------------------------------------------------------------ *)
Lemma view_law s : Inv s -> 0 <= view_index s <= zlen (s_sb s) /\
  match s_sbpos s with
  | None => view_index s = zlen (s_sb s)
  | Some p => view_index s < zlen (s_sb s) /\ exists l, znth (s_sb s) (view_index s) = Some l /\ l_sbid l = Some p
  end.
Proof.
  intros [H _]. pose proof (i_sbpos _ H) as P. pose proof (i_sbid _ H) as D. unfold view_index.
  destruct (s_sbpos s) as [p|]; cbn [sb_ptr] in P; [|lia]. split; [lia|]. split; [lia|].
  destruct (znth_some (s_sb s) (p - (s_sbid s - zlen (s_sb s) + 1))) as [l El]; [lia|].
  exists l. split; [exact El|]. rewrite (D _ _ El). f_equal. lia.
Qed.
Lemma view_viewed s v pn : Inv s -> 0 <= v <= zlen (s_sb s) -> view_index (viewed (aged s) v pn) = v.
Proof.
  intros H Hv. unfold viewed. apply view_vpos. destruct (aged_sb s) as (-> & _). exact Hv.
Qed.
Lemma same_text_aged s : same_text s (aged s).
Proof. intros y x. exact (same_text_inc s y x). Qed.
Lemma sb_up_law s n : Inv s -> u32_arg n -> view_moves s (OSbUp n) (Z.max 0 (view_index s - n)).
Proof.
  intros H Hn. unfold u32_arg in Hn. destruct (view_law s H) as [V _]. destruct (Z.eq_dec n 0) as [->|].
  - exists s. split; [reflexivity|]. split; [lia|]. split; [reflexivity|]. intros y x; auto.
  - destruct (sb_up_ok s n H ltac:(lia)) as (pn & E & _). eexists. split; [exact E|].
    rewrite view_viewed by (auto; lia). split; [reflexivity|]. split; [apply (aged_sb s)|]. exact (same_text_aged s).
Qed.
Lemma sb_down_law s n : Inv s -> u32_arg n -> view_moves s (OSbDown n) (Z.min (zlen (s_sb s)) (view_index s + n)).
Proof.
  intros H Hn. unfold u32_arg in Hn. destruct (view_law s H) as [V _]. destruct (Z.eq_dec n 0) as [->|].
  - exists s. split; [reflexivity|]. split; [lia|]. split; [reflexivity|]. intros y x; auto.
  - destruct (sb_down_ok s n H ltac:(lia)) as (pn & E & _). eexists. split; [exact E|].
    rewrite view_viewed by (auto; lia). split; [reflexivity|]. split; [apply (aged_sb s)|]. exact (same_text_aged s).
Qed.
Lemma up_down_law s n : Inv s -> u32_arg n -> n <= view_index s -> exists s1 s2,
  step s (OSbUp n) = Ok s1 /\ step s1 (OSbDown n) = Ok s2 /\ view_index s2 = view_index s /\ s_sb s2 = s_sb s.
Proof.
  intros H Hn Hv. destruct (view_law s H) as [V _]. unfold u32_arg in *.
  destruct (sb_up_law s n H Hn) as (s1 & E1 & V1 & B1 & _).
  assert (I1 : Inv s1) by (apply (step_Inv s (OSbUp n)); auto).
  destruct (sb_down_law s1 n I1 Hn) as (s2 & E2 & V2 & B2 & _).
  exists s1, s2. repeat split; auto; [rewrite V2, V1, B1; lia|congruence].
Qed.
Lemma sb_reset_law s : Inv s -> view_moves s OSbReset (zlen (s_sb s)).
Proof.
  intros H. exists (scr_sb_reset s). split; [reflexivity|]. destruct (sb_reset_ok s H) as (_ & P & R1 & R2).
  assert (B : s_sb (scr_sb_reset s) = s_sb s /\ same_text s (scr_sb_reset s)).
  { destruct (s_sbpos s) eqn:E; [rewrite R2 by congruence|rewrite R1 by congruence; split; [reflexivity|intros y x; auto]].
    split; [apply (aged_sb s)|exact (same_text_aged s)]. }
  destruct B as [B1 B2]. unfold view_index. rewrite P, B1. auto.
Qed.
