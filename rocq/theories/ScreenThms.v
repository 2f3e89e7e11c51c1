(* The screen properties in their final form, for reachable screens, and the
   counterexamples. *)
From Verif Require Import Base BaseProofs Wcwidth Screen ScreenInv ScreenSb ScreenScroll ScreenSpec ScreenOps ScreenMove ScreenCtl ScreenResize ScreenSafe ScreenLaws ScreenAlt ScreenHist ScreenRz.

Lemma safe_iff ops : Forall op_args ops ->
  (run scr_init ops = Ub <->
   exists pre o post s, ops = pre ++ o :: post /\ run scr_init pre = Ok s /\ op_hazard s o).
Proof. apply run_ub, scr_init_Inv. Qed.
Lemma step_safe s o : reachable s -> op_args o -> ~ op_hazard s o -> exists s', step s o = Ok s' /\ reachable s'.
Proof.
  intros H Ha Hz. destruct (step_ok s o (reachable_Inv s H) Ha Hz) as (s' & E & _). exists s'. split; [exact E|].
  now apply (reachable_step s o).
Qed.

Lemma bounds s : reachable s ->
  0 <= s_cy s < s_sy s /\ 0 <= s_cx s <= s_sx s + 1 /\ 0 <= s_mt s <= s_mb s /\ s_mb s < s_sy s /\ 0 < s_sx s.
Proof. intros H. destruct (reachable_Inv s H) as (I & Hx & Hy). inv0 I. lia. Qed.
Lemma pending s o s' : reachable s -> op_args o -> step s o = Ok s' -> s_cx s < s_sx s -> s_sx s' <= s_cx s' ->
  exists ch a w, o = OWrite ch a /\ scr_width ch = Ok w /\ s_sx s' <= write_col s + w.
Proof.
  intros H Ha E Hc Hp. apply reachable_Inv in H.
  destruct o; try (destruct (col_step s _ s' H Ha ltac:(discriminate) E); lia).
  destruct (scr_width_ok ch) as (w & Ew & Hw). exists ch, a, w. split; [reflexivity|]. split; [exact Ew|].
  destruct (Z.eq_dec w 0) as [->|].
  - rewrite write_zero_law in E by exact Ew. inversion E; subst. lia.
  - destruct (hazard_dec s (OWrite ch a)) as [Hz|Hz]; [rewrite (hazard_ub s (OWrite ch a) H I Hz) in E; discriminate|].
    assert (Hf : write_fits s w).
    { intros Hi. pose proof (i_sx _ (proj1 H)). destruct (Z.eq_dec (s_sx s) 1); [|lia]. destruct (Z.eq_dec w 2) as [->|]; [|lia].
      exfalso. apply Hz. split; [exact Hi|]. split; [assumption|exact Ew]. }
    destruct (write_law s ch a w H Ew ltac:(lia) Hf) as (s1 & E1 & C & _). rewrite E in E1. inversion E1; subst s1. lia.
Qed.

Lemma sb_bound_r s : reachable s -> zlen (sb_text s) <= s_sbmax s.
Proof. intros H. apply sb_bound, (reachable_Inv s H). Qed.
Lemma sb_step_r s o s' : reachable s -> op_args o -> step s o = Ok s' ->
  sb_text s' = sb_spec s o /\ s_sbmax s' = sb_limit s o.
Proof. intros H. apply hist_sb, reachable_Inv, H. Qed.
Lemma sb_exact_r ops s s' : reachable s -> Forall op_args ops -> Forall keeps_limit ops -> run s ops = Ok s' ->
  sb_text s' = last_n (s_sbmax s) (sb_text s ++ offs s ops).
Proof. intros H Ha Hk E. apply (sb_exact ops s s' (reachable_Inv s H) Ha Hk E). Qed.

Lemma view_r s : reachable s -> 0 <= view_index s <= zlen (s_sb s) /\
  match s_sbpos s with
  | None => view_index s = zlen (s_sb s)
  | Some p => view_index s < zlen (s_sb s) /\ exists l, znth (s_sb s) (view_index s) = Some l /\ l_sbid l = Some p
  end.
Proof. intros H. apply view_law, reachable_Inv, H. Qed.
Lemma sb_up_r s n : reachable s -> u32_arg n -> view_moves s (OSbUp n) (Z.max 0 (view_index s - n)).
Proof. intros H. apply sb_up_law, reachable_Inv, H. Qed.
Lemma sb_down_r s n : reachable s -> u32_arg n -> view_moves s (OSbDown n) (Z.min (zlen (s_sb s)) (view_index s + n)).
Proof. intros H. apply sb_down_law, reachable_Inv, H. Qed.
Lemma up_down_r s n : reachable s -> u32_arg n -> n <= view_index s -> exists s1 s2,
  step s (OSbUp n) = Ok s1 /\ step s1 (OSbDown n) = Ok s2 /\ view_index s2 = view_index s /\ s_sb s2 = s_sb s.
Proof. intros H. apply up_down_law, reachable_Inv, H. Qed.
Lemma sb_reset_r s : reachable s -> view_moves s OSbReset (zlen (s_sb s)).
Proof. intros H. apply sb_reset_law, reachable_Inv, H. Qed.

Lemma at_main s : reachable s -> fl s F_ALT = false -> forall j i, at_ s j i = main_at s j i.
Proof. intros H F j i. rewrite (at_active s (proj1 (reachable_Inv s H))), F. reflexivity. Qed.
Lemma at_alt s : reachable s -> fl s F_ALT = true -> forall j i, at_ s j i = alt_at s j i.
Proof. intros H F j i. rewrite (at_active s (proj1 (reachable_Inv s H))), F. reflexivity. Qed.
Lemma resize_r s x y : reachable s -> 0 < x <= DIM -> 0 < y <= DIM -> s_sx s <> x \/ s_sy s <> y ->
  exists s', scr_resize s x y = Ok (s', 0) /\ s_sx s' = x /\ s_sy s' = y /\ s_mt s' = 0 /\ s_mb s' = y - 1 /\
    (forall k, 0 <= k < x -> is_stop s' k = (k mod 8 =? 0)) /\
    s_cx s' = Z.min (s_cx s) (x - 1) /\ s_cy s' = Z.min (Z.max 0 (s_cy s - rz_off s y)) (y - 1) /\
    forall j i, on_screen s' j i ->
      at_ s' j i = rz_cell s (exposed_attr s) (at_ s (j + rz_off s y) i) (j + rz_off s y) i.
Proof.
  intros H Hx Hy Hn. destruct (resize_law s x y (reachable_Inv s H) Hx Hy Hn) as (s' & E & R). exists s'. split; [exact E|].
  assert (H' : reachable s').
  { apply (reachable_step s (OResize x y)); [auto|cbn [op_args]; lia|]. cbn [step]. rewrite E. reflexivity. }
  destruct R. repeat match goal with |- _ /\ _ => split end; auto.
  intros j i [Hj Hi]. rewrite re_sy in Hj. rewrite re_sx in Hi.
  assert (F : fl s' F_ALT = fl s F_ALT) by (unfold fl; now rewrite re_flags). unfold exposed_attr.
  destruct (fl s F_ALT) eqn:EF.
  - rewrite (at_alt s' H' F), (at_alt s H EF). apply re_alt; auto.
  - rewrite (at_main s' H' F), (at_main s H EF). apply re_main; auto.
Qed.
Lemma resize_same_r s : reachable s -> scr_resize s (s_sx s) (s_sy s) = Ok (s, 0).
Proof. intros H. destruct (bounds s H). apply resize_same; lia. Qed.

Lemma exposed_r s x y j i : reachable s -> 0 < x <= DIM -> 0 < y <= DIM ->
  0 <= j < y -> 0 <= i < x -> s_sy s <= j \/ s_sx s <= i ->
  exists s', scr_resize s x y = Ok (s', 0) /\ at_ s' j i = Some (blank_glyph (exposed_attr s)).
Proof.
  intros H Hx Hy Hj Hi Hn. destruct (resize_r s x y H Hx Hy ltac:(lia)) as (s' & E & A & B & _ & _ & _ & _ & _ & C).
  exists s'. split; [exact E|]. rewrite C by (unfold on_screen; lia). unfold rz_cell, rz_off.
  replace (_ && _) with false by lia. reflexivity.
Qed.

Lemma newline_law s : Inv s -> exists s', step s ONewline = Ok s' /\
  s_cx s' = 0 /\ s_cy s' = Z.min (s_cy s + 1) (floor_row s) /\
  forall y x, on_screen s y x -> at_ s' y x = shift_up s (s_mt s) (s_mb s) (over_down s 1) y x.
Proof.
  intros H. assert (H1 : u32_arg 1) by (unfold u32_arg; lia).
  destruct (move_down_law (inc_age s) 1 true (Inv_inc s H) H1) as (s1 & E1 & I1 & X1 & Y1 & _ & _ & _ & _ & A1).
  destruct (line_home_ok s1 I1) as [E2 _].
  assert (E : step s ONewline = Ok (moved (inc_age s1) 0 (s_cy s1))).
  { cbn [step]. unfold scr_newline. rewrite E1. cbn [bind]. exact E2. }
  eexists. split; [exact E|]. rewrite moved_cx, moved_cy. split; [reflexivity|].
  pose proof (frame_inc s) as F.
  assert (FR : floor_row (inc_age s) = floor_row s) by (unfold floor_row; now rewrite (g_mb _ _ F), inc_cy, inc_sy).
  split; [now rewrite Y1, inc_cy, FR|].
  intros y x Hs. rewrite at_moved, at_inc, A1 by (now apply on_screen_inc). rewrite over_down_inc, (g_mt _ _ F), (g_mb _ _ F).
  apply shift_up_inc.
Qed.

Lemma scrolls_r s o f : reachable s -> scrolls s o f -> exists s', step s o = Ok s' /\
  forall y x, on_screen s y x -> at_ s' y x = f y x.
Proof.
  intros H [n Hn|n Hn|n Hn|n Hn| |n Hn Hp Hr|n Hn Hp Hr]; apply reachable_Inv in H.
  - destruct (scroll_up_law s n H Hn) as (s' & E & _ & _ & A). eauto.
  - destruct (scroll_down_law s n H Hn) as (s' & E & _ & _ & A). eauto.
  - destruct (move_down_law s n true H Hn) as (s' & E & _ & _ & _ & _ & _ & _ & _ & A). eauto.
  - destruct (move_up_law s n true H Hn) as (s' & E & _ & _ & _ & _ & _ & _ & _ & A). eauto.
  - destruct (newline_law s H) as (s' & E & _ & _ & A). eauto.
  - destruct (insert_lines_law s n H Hn Hp Hr) as (s' & E & _ & _ & A). eauto.
  - destruct (delete_lines_law s n H Hn Hp Hr) as (s' & E & _ & _ & A). eauto.
Qed.
Lemma scroll_cursor_r s o f : reachable s -> scrolls s o f ->
  exists s', step s o = Ok s' /\ (s_cx s', s_cy s') = scroll_cursor s o.
Proof.
  intros H [n Hn|n Hn|n Hn|n Hn| |n Hn Hp Hr|n Hn Hp Hr]; apply reachable_Inv in H; cbn [scroll_cursor].
  - destruct (scroll_up_law s n H Hn) as (s' & E & X & Y & _). exists s'. rewrite X, Y. auto.
  - destruct (scroll_down_law s n H Hn) as (s' & E & X & Y & _). exists s'. rewrite X, Y. auto.
  - destruct (move_down_law s n true H Hn) as (s' & E & _ & X & Y & _). exists s'. rewrite X, Y. auto.
  - destruct (move_up_law s n true H Hn) as (s' & E & _ & X & Y & _). exists s'. rewrite X, Y. auto.
  - destruct (newline_law s H) as (s' & E & X & Y & A). exists s'. rewrite X, Y. auto.
  - destruct (insert_lines_law s n H Hn Hp Hr) as (s' & E & X & Y & A). exists s'. rewrite X, Y. auto.
  - destruct (delete_lines_law s n H Hn Hp Hr) as (s' & E & X & Y & A). exists s'. rewrite X, Y. auto.
Qed.
Lemma margins_r s t b : reachable s -> u32_arg t -> u32_arg b -> exists s', step s (OSetMargins t b) = Ok s' /\
  (s_mt s', s_mb s') = margins_for s t b /\ s_cx s' = s_cx s /\ s_cy s' = s_cy s /\ s_sb s' = s_sb s /\
  s_flags s' = s_flags s /\ same_text s s'.
Proof.
  intros H Ht Hb. destruct (set_margins_ok s t b (reachable_Inv s H) Ht Hb) as [E _]. cbv zeta in E.
  exists (scr_set_margins s t b). split; [reflexivity|]. rewrite E. unfold margins_for.
  destruct (_ && _); cbn; repeat match goal with |- _ /\ _ => split end; try reflexivity; intros y x; split; reflexivity.
Qed.
Lemma scrolls_outside s o f y x : scrolls s o f -> y < s_mt s \/ s_mb s < y -> f y x = at_ s y x.
Proof.
  intros [n Hn|n Hn|n Hn|n Hn| |n Hn Hp Hr|n Hn Hp Hr] Ho; unfold shift_up, shift_down; replace (_ && _) with false by lia; reflexivity.
Qed.
Lemma outside_r s o y x s' : reachable s -> op_args o ->
  (match o with OScrollUp _ | OScrollDown _ | OMoveDown _ _ | OMoveUp _ _ | ONewline | OInsLines _ | ODelLines _ => True | _ => False end) ->
  on_screen s y x -> y < s_mt s \/ s_mb s < y -> step s o = Ok s' -> at_ s' y x = at_ s y x.
Proof.
  intros H Ha Hk Hs Ho E.
  assert (K : forall f, scrolls s o f -> at_ s' y x = at_ s y x).
  { intros f Hf. destruct (scrolls_r s o f H Hf) as (s1 & E1 & A). rewrite E in E1. apply ok_inj in E1. subst s1.
    rewrite A by exact Hs. now apply (scrolls_outside s o f). }
  destruct o; try contradiction; cbn [op_args] in Ha.
  - apply (K _ (sc_nl s)).
  - apply (K _ (sc_up s n Ha)).
  - apply (K _ (sc_down s n Ha)).
  - destruct b; [apply (K _ (sc_mup s n Ha))|]. destruct (move_up_law s n false (reachable_Inv s H) Ha) as (s1 & E1 & _ & _ & _ & _ & _ & _ & _ & A).
    cbn [step] in E. rewrite E in E1. apply ok_inj in E1. subst s1. now apply A.
  - destruct b; [apply (K _ (sc_mdown s n Ha))|]. destruct (move_down_law s n false (reachable_Inv s H) Ha) as (s1 & E1 & _ & _ & _ & _ & _ & _ & _ & A).
    cbn [step] in E. rewrite E in E1. apply ok_inj in E1. subst s1. now apply A.
  - destruct (Z.eq_dec n 0) as [->|]; [cbn [step] in E; unfold scr_insert_lines in E; apply ok_inj in E; now subst|].
    destruct (Z_le_gt_dec (s_mt s) (s_cy s)); [destruct (Z_le_gt_dec (s_cy s) (s_mb s))|].
    + unfold u32_arg in Ha. apply (K _ (sc_ins s n ltac:(unfold u32_arg; lia) ltac:(lia) ltac:(lia))).
    + destruct (lines_outside s n ltac:(lia)) as [E1 _]. rewrite E1 in E. apply ok_inj in E. now subst.
    + destruct (lines_outside s n ltac:(lia)) as [E1 _]. rewrite E1 in E. apply ok_inj in E. now subst.
  - destruct (Z.eq_dec n 0) as [->|]; [cbn [step] in E; unfold scr_delete_lines in E; apply ok_inj in E; now subst|].
    destruct (Z_le_gt_dec (s_mt s) (s_cy s)); [destruct (Z_le_gt_dec (s_cy s) (s_mb s))|].
    + unfold u32_arg in Ha. apply (K _ (sc_del s n ltac:(unfold u32_arg; lia) ltac:(lia) ltac:(lia))).
    + destruct (lines_outside s n ltac:(lia)) as [_ E1]. rewrite E1 in E. apply ok_inj in E. now subst.
    + destruct (lines_outside s n ltac:(lia)) as [_ E1]. rewrite E1 in E. apply ok_inj in E. now subst.
Qed.

Lemma ins_lines_r s n : reachable s -> u32_arg n -> 0 < n -> s_mt s <= s_cy s <= s_mb s ->
  exists s', step s (OInsLines n) = Ok s' /\ s_cx s' = 0 /\ s_cy s' = s_cy s /\
  forall y x, on_screen s y x -> at_ s' y x = shift_down s (s_cy s) (s_mb s) (Z.min n (s_mb s + 1 - s_cy s)) y x.
Proof. intros H. apply insert_lines_law, reachable_Inv, H. Qed.
Lemma del_lines_r s n : reachable s -> u32_arg n -> 0 < n -> s_mt s <= s_cy s <= s_mb s ->
  exists s', step s (ODelLines n) = Ok s' /\ s_cx s' = 0 /\ s_cy s' = s_cy s /\
  forall y x, on_screen s y x -> at_ s' y x = shift_up s (s_cy s) (s_mb s) (Z.min n (s_mb s + 1 - s_cy s)) y x.
Proof. intros H. apply delete_lines_law, reachable_Inv, H. Qed.
Lemma ins_chars_r s n : reachable s -> u32_arg n -> 0 < n -> exists s', step s (OInsChars n) = Ok s' /\
  s_cx s' = cursor_col s /\ s_cy s' = s_cy s /\
  forall y x, on_screen s y x -> at_ s' y x = chars_in s (cursor_col s) (Z.min n (s_sx s - cursor_col s)) y x.
Proof. intros H. apply insert_chars_law, reachable_Inv, H. Qed.
Lemma del_chars_r s n : reachable s -> u32_arg n -> 0 < n -> exists s', step s (ODelChars n) = Ok s' /\
  s_cx s' = cursor_col s /\ s_cy s' = s_cy s /\
  forall y x, on_screen s y x -> at_ s' y x = chars_out s (cursor_col s) (Z.min n (s_sx s - cursor_col s)) y x.
Proof. intros H. apply delete_chars_law, reachable_Inv, H. Qed.

Lemma erase_r s o r p : reachable s -> erase_call s o r p -> erases s o r p.
Proof.
  intros H [ |q|q|q|q|q|q]; apply reachable_Inv in H.
  - now apply erase_cursor_law.
  - now apply erase_to_end_law.
  - now apply erase_home_law.
  - now apply erase_line_law.
  - now apply erase_screen_to_cursor_law.
  - now apply erase_cursor_to_screen_law.
  - now apply erase_screen_law.
Qed.
Lemma erase_chars_r s n : reachable s -> u32_arg n -> 0 < n -> cursor_col s + n <= 4294967296 ->
  erases s (OEraseChars n) (reg_chars s n) false.
Proof. intros H. apply erase_chars_law, reachable_Inv, H. Qed.

Lemma alt_r ops s s' : reachable s -> Forall op_args ops -> fl s F_ALT = true -> forallb stays_alt ops = true ->
  run s ops = Ok s' -> (forall y x, main_at s' y x = main_at s y x) /\ sb_text s' = sb_text s /\ fl s' F_ALT = true.
Proof.
  intros H Ha F Hs E. destruct (alt_run ops s s' (reachable_Inv s H) Ha F Hs E) as (A & B & _ & C & _).
  unfold main_at, sb_text. rewrite A, B. auto.
Qed.
Lemma alt_leave_r s f : reachable s -> u32_arg f -> fl s F_ALT = true -> bit f F_ALT = true ->
  exists s', step s (OResetFlags f) = Ok s' /\ sb_text s' = sb_text s /\ forall y x, at_ s' y x = main_at s y x.
Proof.
  intros H Hf F B. destruct (alt_leave s f (reachable_Inv s H) Hf F B) as (s' & E & _ & _ & C & D). exists s'.
  unfold sb_text. rewrite C. auto.
Qed.
(* Entering, doing anything of the kind, leaving. *)
Lemma alt_round ops s f s1 s2 s3 : reachable s -> Forall op_args ops -> forallb stays_alt ops = true ->
  u32_arg f -> bit f F_ALT = true -> fl s F_ALT = false ->
  step s (OSetFlags f) = Ok s1 -> run s1 ops = Ok s2 -> step s2 (OResetFlags f) = Ok s3 ->
  (forall y x, at_ s3 y x = at_ s y x) /\ sb_text s3 = sb_text s.
Proof.
  intros H Ha Hs Hf B F E1 E2 E3. pose proof (reachable_step s (OSetFlags f) s1 H Hf E1) as H1.
  pose proof (reachable_Inv s H) as HI.
  assert (Nf : f <> 0) by (intros ->; discriminate B).
  destruct (set_flags_ok s f HI Nf) as [X _]. cbn [step] in E1. rewrite X in E1. apply ok_inj in E1.
  assert (K : fl s1 F_ALT = true /\ (forall y x, main_at s1 y x = main_at s y x) /\ sb_text s1 = sb_text s).
  { rewrite E1. unfold flags_set. rewrite F, B. cbn [negb andb fl_alt].
    pose proof (frame_inc s) as FI.
    assert (G : forall t h i, t = set_defm (set_act (age_all (set_flags (inc_age s) (Z.lor (s_flags s) f))) true) (s_def (set_flags (inc_age s) (Z.lor (s_flags s) f))) ->
      fl (fl_end t h i) F_ALT = true /\ (forall y x, main_at (fl_end t h i) y x = main_at s y x) /\ sb_text (fl_end t h i) = sb_text s).
    { intros t h i Et.
      assert (Et1 : s_flags t = Z.lor (s_flags s) f /\ s_main t = s_main s /\ s_sb t = s_sb s).
      { rewrite Et. pose proof (inc_main s) as M. pose proof (inc_sb s) as N. revert M N. generalize (inc_age s). intros r M N.
        cbn. auto. }
      clear Et. destruct Et1 as (T1 & T2 & T3). unfold fl_end. cbv zeta.
      assert (G2 : forall u, s_flags u = Z.lor (s_flags s) f -> (forall y x, main_at u y x = main_at s y x) -> s_sb u = s_sb s ->
         fl (if i then age_all u else u) F_ALT = true /\ (forall y x, main_at (if i then age_all u else u) y x = main_at s y x) /\ sb_text (if i then age_all u else u) = sb_text s).
      { intros u U1 U2 U3. assert (FB : fl u F_ALT = true).
        { unfold fl, bit in *. rewrite U1, Z.lor_spec, B. apply orb_true_r. }
        destruct i; unfold sb_text; (split; [exact FB|]); (split; [exact U2|]); cbn; now rewrite ?U3. }
      destruct h; apply G2; first [exact T1|exact T3|rewrite (e_flags _ _ (env_touched t)); exact T1
        |rewrite (e_sb _ _ (env_touched t)); exact T3|intros y x; rewrite ?(proj1 (same_text_touched t y x)); unfold main_at; now rewrite T2]. }
    apply G. reflexivity. }
  destruct K as (K1 & K2 & K3). destruct (alt_r ops s1 s2 H1 Ha K1 Hs E2) as (A1 & A2 & A3).
  assert (H2 : reachable s2).
  { destruct H1 as (os & Ho & Er). exists (os ++ ops). split; [now apply Forall_app|]. rewrite run_app, Er. exact E2. }
  destruct (alt_leave_r s2 f H2 Hf A3 B) as (s4 & E4 & L1 & L2). rewrite E3 in E4. apply ok_inj in E4. subst s4.
  split; [|congruence]. intros y x. rewrite L2, A1, K2. symmetry. now apply at_main.
Qed.

Lemma write_r s ch a w : reachable s -> ~ op_hazard s (OWrite ch a) -> scr_width ch = Ok w -> 0 < w ->
  exists s', step s (OWrite ch a) = Ok s' /\ s_cx s' = write_col s + w /\ s_cy s' = write_row s /\
  forall y x, on_screen s y x -> at_ s' y x = write_spec s ch w a y x.
Proof.
  intros H Hz Ew Hp. apply reachable_Inv in H. apply write_law; auto.
  intros Hi. pose proof (i_sx _ (proj1 H)). destruct (scr_width_ok ch) as (w' & E' & Hw'). rewrite Ew in E'. inversion E'; subst w'.
  destruct (Z.eq_dec (s_sx s) 1); [|lia]. destruct (Z.eq_dec w 2) as [->|]; [|lia].
  exfalso. apply Hz. split; [exact Hi|]. split; [assumption|exact Ew].
Qed.

Lemma tab_right_r s n : reachable s -> u32_arg n -> 0 < n -> exists x, moves s (OTabRight n) x (s_cy s) /\
  (n <= stops s (s_cx s + 1) (s_sx s) -> s_cx s < x < s_sx s /\ is_stop s x = true /\ stops s (s_cx s + 1) (x + 1) = n) /\
  (stops s (s_cx s + 1) (s_sx s) < n -> x = s_sx s - 1).
Proof. intros H. apply tab_right_law, reachable_Inv, H. Qed.
Lemma tab_left_r s n : reachable s -> u32_arg n -> 0 < n -> s_cx s <= s_sx s -> exists x, moves s (OTabLeft n) x (s_cy s) /\
  (n <= stops s 1 (s_cx s) -> 1 <= x < s_cx s /\ is_stop s x = true /\ stops s x (s_cx s) = n) /\
  (stops s 1 (s_cx s) < n -> x = 0).
Proof. intros H. apply tab_left_law, reachable_Inv, H. Qed.
Lemma tabstop_r s (v : bool) : reachable s -> exists s',
  step s (if v then OSetTabstop else OResetTabstop) = Ok s' /\
  (forall k, is_stop s' k = if (k =? s_cx s) && (s_cx s <? s_sx s) then v else is_stop s k) /\
  s' = set_tabs s (s_tabs s').
Proof. intros H. apply tabstop_law, reachable_Inv, H. Qed.
Lemma clear_tabs_r s : reachable s -> exists s', step s OResetAllTabstops = Ok s' /\
  (forall k, 0 <= k < s_sx s -> is_stop s' k = false) /\ s' = set_tabs s (s_tabs s').
Proof. intros H. apply clear_tabs_law, reachable_Inv, H. Qed.

Lemma motion_r s o x y : reachable s -> motion s o x y -> moves s o x y.
Proof.
  intros H [x0 y0 Hx Hy Hm|n Hn|n Hn|n Hn Hp|n Hn Hp| |]; apply reachable_Inv in H.
  - now apply move_to_law.
  - now apply move_up_moves.
  - now apply move_down_moves.
  - now apply move_left_moves.
  - now apply move_right_moves.
  - now apply line_moves.
  - now apply line_moves.
Qed.

(* -- examples: a small screen with text, scrollback and a scroll region ----- *)
Definition at0 : attr := mkA 15 16 0 0 0 0 0 0 false false false false false false.
Definition prot : attr := mkA 2 16 0 0 0 0 0 0 true false false false true false.
Definition get (r : res screen) : screen := match r with Ok s => s | Ub => scr_init end.
Definition ops1 : list op :=
  [OResize 4 3; OSetMaxSb 3; OSetFlags 2; OWrite 65 at0; OWrite 66 prot; OWrite 67 at0; ONewline; OWrite 68 at0; OWrite 69 prot;
   ONewline; OWrite 70 at0; ONewline; OWrite 71 at0].
Definition demo1 : screen := get (run scr_init ops1).
Definition ops2 : list op := ops1 ++ [OSetMargins 2 3; OMoveTo 1 1].
Definition demo2 : screen := get (run scr_init ops2).
Definition ops3 : list op := ops2 ++ [OSetFlags 64].
Definition demo3 : screen := get (run scr_init ops3).
Ltac args := repeat constructor; unfold DIM; try lia.
Lemma demo1_reachable : reachable demo1.
Proof. exists ops1. split; [args|vm_compute; reflexivity]. Qed.
Lemma demo2_reachable : reachable demo2.
Proof. exists ops2. split; [args|vm_compute; reflexivity]. Qed.
Lemma demo3_reachable : reachable demo3.
Proof. exists ops3. split; [args|vm_compute; reflexivity]. Qed.
Definition chars (s : screen) : list (list Z) := map (fun l => map c_ch (firstn (Z.to_nat (s_sx s)) (l_cells l))) (firstn (Z.to_nat (s_sy s)) (lines s)).
Definition sb_chars (s : screen) : list (list Z) := map (fun l => map c_ch (firstn (Z.to_nat (s_sx s)) (l_cells l))) (s_sb s).
