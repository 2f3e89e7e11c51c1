(* The exact effects of the screen calls, cell by cell. *)
From Verif Require Import Base BaseProofs Screen ScreenInv ScreenSb ScreenScroll ScreenSpec ScreenOps ScreenMove ScreenCtl ScreenResize ScreenSafe.

Lemma row_at_blanked s l x : 0 <= x < s_sx s -> s_sx s <= zlen (l_cells l) ->
  row_at (blanked s l) x = Some (blank_glyph (s_def s)).
Proof.
  intros Hx Hl. unfold row_at, blanked. cbn [set_cells l_cells]. rewrite znth_filled.
  destruct (znth_some (l_cells l) x) as [c E]; [lia|]. rewrite E. cbn [option_map].
  replace (_ && _) with true by lia. reflexivity.
Qed.
Lemma row_at_new s w x : 0 <= x < w -> row_at (line_new s w) x = Some (blank_glyph (s_def s)).
Proof.
  intros Hx. unfold row_at, line_new. cbn [l_cells].
  destruct (znth_some (repeat (blank s) (Z.to_nat w)) x) as [c E]; [rewrite repeat_length; lia|].
  rewrite E. apply znth_In, repeat_spec in E. now subst c.
Qed.
Lemma row_at_fresh s l x : 0 <= x < s_sx s -> s_sx s <= zlen (l_cells l) ->
  row_at (fresh_row s l) x = Some (blank_glyph (s_def s)).
Proof. intros. unfold fresh_row. destruct (fl s F_ALT); [now apply row_at_blanked|now apply row_at_new]. Qed.

Lemma scrolled_up_at s s' n y x : Inv0 s -> 0 <= n <= s_mb s + 1 - s_mt s -> scrolled_up s s' n ->
  on_screen s y x -> at_ s' y x = shift_up s (s_mt s) (s_mb s) n y x.
Proof.
  intros H Hn S [Hy Hx]. pose proof H as H0. inv0 H0. unfold at_, rows_at. rewrite (su_rows _ _ _ S).
  unfold row_up, shift_up, at_, rows_at. destruct ((s_mt s <=? y) && (y <=? s_mb s)) eqn:E; [|reflexivity].
  destruct (y + n <=? s_mb s) eqn:E2; [reflexivity|].
  destruct (inv_row s (y + n - (s_mb s + 1 - s_mt s)) H ltac:(lia)) as (l & El & W). rewrite El. cbn [option_map].
  apply row_at_fresh; auto. apply W.
Qed.
Lemma rows_down_at s f ls' t b n y x : Inv0 s -> 0 <= t -> 0 <= n -> b < s_sy s ->
  (forall l, line_wf (s_sx s) l -> row_at (f l) x = Some (blank_glyph (s_def s))) ->
  rows_down f t b n (lines s) ls' -> on_screen s y x -> n <= b + 1 - t ->
  rows_at ls' y x = shift_down s t b n y x.
Proof.
  intros H Ht Hn Hb Hf [_ R] [Hy Hx] Hnb. pose proof H as H0. inv0 H0. destruct (R y) as (R1 & R2 & R3).
  unfold shift_down, at_, rows_at. destruct ((t <=? y) && (y <=? b)) eqn:E.
  - destruct (t + n <=? y) eqn:E2; [rewrite R2 by lia; reflexivity|].
    destruct (R3 ltac:(lia) ltac:(lia)) as (j & Hj & Ej). rewrite Ej.
    destruct (inv_row s j H ltac:(lia)) as (l & El & W). rewrite El. cbn [option_map]. auto.
  - rewrite R1 by lia. reflexivity.
Qed.
Lemma rows_up_at s f ls' t b n y x : Inv0 s -> 0 <= t -> 0 <= n -> b < s_sy s ->
  (forall l, line_wf (s_sx s) l -> row_at (f l) x = Some (blank_glyph (s_def s))) ->
  rows_up f t b n (lines s) ls' -> on_screen s y x -> n <= b + 1 - t ->
  rows_at ls' y x = shift_up s t b n y x.
Proof.
  intros H Ht Hn Hb Hf [_ R] [Hy Hx] Hnb. pose proof H as H0. inv0 H0. destruct (R y) as (R1 & R2 & R3).
  unfold shift_up, at_, rows_at. destruct ((t <=? y) && (y <=? b)) eqn:E.
  - destruct (y + n <=? b) eqn:E2; [rewrite R2 by lia; reflexivity|].
    destruct (R3 ltac:(lia) ltac:(lia)) as (j & Hj & Ej). rewrite Ej.
    destruct (inv_row s j H ltac:(lia)) as (l & El & W). rewrite El. cbn [option_map]. auto.
  - rewrite R1 by lia. reflexivity.
Qed.
Lemma scrolled_down_at s s' n y x : Inv0 s -> 0 <= n <= s_mb s + 1 - s_mt s -> scrolled_down s s' n ->
  on_screen s y x -> at_ s' y x = shift_down s (s_mt s) (s_mb s) n y x.
Proof.
  intros H Hn S Hs. pose proof H as H0. inv0 H0. unfold at_.
  eapply rows_down_at; eauto using sd_rows; try lia.
  intros l W. apply row_at_blanked; [apply Hs|apply W].
Qed.
Lemma shift_up_inc s t b n y x : shift_up (inc_age s) t b n y x = shift_up s t b n y x.
Proof. unfold shift_up. rewrite !at_inc. now rewrite (g_def _ _ (frame_inc s)). Qed.
Lemma shift_down_inc s t b n y x : shift_down (inc_age s) t b n y x = shift_down s t b n y x.
Proof. unfold shift_down. rewrite !at_inc. now rewrite (g_def _ _ (frame_inc s)). Qed.
Lemma shift_up_0 s t b y x : shift_up s t b 0 y x = at_ s y x.
Proof.
  unfold shift_up. rewrite Z.add_0_r. destruct (_ && _) eqn:E; [|reflexivity].
  replace (y <=? b) with true by lia. reflexivity.
Qed.
Lemma shift_down_0 s t b y x : shift_down s t b 0 y x = at_ s y x.
Proof.
  unfold shift_down. rewrite Z.add_0_r, Z.sub_0_r. destruct (_ && _) eqn:E; [|reflexivity].
  replace (t <=? y) with true by lia. reflexivity.
Qed.
Lemma on_screen_inc s y x : on_screen (inc_age s) y x <-> on_screen s y x.
Proof. unfold on_screen. rewrite (g_sx _ _ (frame_inc s)), (g_sy _ _ (frame_inc s)). reflexivity. Qed.

(* C13 *)
Lemma scroll_up_law s n : Inv s -> u32_arg n -> exists s', step s (OScrollUp n) = Ok s' /\
  s_cx s' = s_cx s /\ s_cy s' = s_cy s /\
  forall y x, on_screen s y x -> at_ s' y x = shift_up s (s_mt s) (s_mb s) (Z.min n (region s)) y x.
Proof.
  intros H Hn. cbn [step]. unfold scr_scroll_up. destruct (n =? 0) eqn:E.
  - exists s. split; [reflexivity|]. split; [reflexivity|]. split; [reflexivity|]. intros y x _.
    replace n with 0 by lia. unfold region. pose proof (i_mt _ (proj1 H)). rewrite Z.min_l by lia. now rewrite shift_up_0.
  - unfold u32_arg in Hn. destruct (scroll_call_up s n H ltac:(lia)) as (s' & E' & S & I). exists s'. split; [exact E'|].
    pose proof (su_env _ _ _ S) as V. rewrite (f_cx _ _ V), (f_cy _ _ V), inc_cx, inc_cy.
    split; [reflexivity|]. split; [reflexivity|]. intros y x Hs.
    pose proof (Inv_inc s H) as [HI _]. pose proof (i_mt _ (proj1 H)).
    pose proof (scrolled_up_at (inc_age s) s' (Z.min n (s_mb s + 1 - s_mt s)) y x HI) as A.
    rewrite (g_mt _ _ (frame_inc s)), (g_mb _ _ (frame_inc s)), on_screen_inc, shift_up_inc in A.
    apply A; auto. lia.
Qed.

Lemma scroll_down_law s n : Inv s -> u32_arg n -> exists s', step s (OScrollDown n) = Ok s' /\
  s_cx s' = s_cx s /\ s_cy s' = s_cy s /\
  forall y x, on_screen s y x -> at_ s' y x = shift_down s (s_mt s) (s_mb s) (Z.min n (region s)) y x.
Proof.
  intros H Hn. cbn [step]. unfold scr_scroll_down. destruct (n =? 0) eqn:E.
  - exists s. split; [reflexivity|]. split; [reflexivity|]. split; [reflexivity|]. intros y x _.
    replace n with 0 by lia. unfold region. pose proof (i_mt _ (proj1 H)). rewrite Z.min_l by lia. now rewrite shift_down_0.
  - unfold u32_arg in Hn. destruct (scroll_call_down s n H ltac:(lia)) as (s' & E' & S & I). exists s'. split; [exact E'|].
    pose proof (sd_env _ _ _ S) as V. rewrite (f_cx _ _ V), (f_cy _ _ V), inc_cx, inc_cy.
    split; [reflexivity|]. split; [reflexivity|]. intros y x Hs.
    pose proof (Inv_inc s H) as [HI _]. pose proof (i_mt _ (proj1 H)).
    pose proof (scrolled_down_at (inc_age s) s' (Z.min n (s_mb s + 1 - s_mt s)) y x HI) as A.
    rewrite (g_mt _ _ (frame_inc s)), (g_mb _ _ (frame_inc s)), on_screen_inc, shift_down_inc in A.
    apply A; auto. lia.
Qed.

Lemma floor_row_ok s : Inv s -> s_cy s <= floor_row s < s_sy s.
Proof. intros (H & _ & Hy). inv0 H. unfold floor_row. destruct (_ <=? _) eqn:E; lia. Qed.
Lemma ceil_row_ok s : Inv s -> 0 <= ceil_row s <= s_cy s.
Proof. intros (H & _ & Hy). inv0 H. unfold ceil_row. destruct (_ <=? _) eqn:E; lia. Qed.

Lemma move_down_law s n (sc : bool) : Inv s -> u32_arg n -> exists s', scr_move_down s n sc = Ok s' /\ Inv s' /\
  s_cx s' = s_cx s /\ s_cy s' = Z.min (s_cy s + n) (floor_row s) /\ s_def s' = s_def s /\ s_sx s' = s_sx s /\ s_sy s' = s_sy s /\
  (sc = false -> same_text s s') /\
  forall y x, on_screen s y x -> at_ s' y x = if sc then shift_up s (s_mt s) (s_mb s) (over_down s n) y x else at_ s y x.
Proof.
  intros H Hn. pose proof (floor_row_ok s H) as Hf. pose proof (i_mt _ (proj1 H)) as Hm.
  destruct (Z.eq_dec n 0) as [->|Hne].
  - exists s. unfold scr_move_down. change (0 =? 0) with true. cbv iota.
    repeat match goal with |- _ /\ _ => split end; auto; try lia; [intros _ y x; auto|].
    intros y x _. destruct sc; [|reflexivity]. unfold over_down, region.
    replace (Z.min _ _) with 0 by lia. now rewrite shift_up_0.
  - unfold u32_arg in Hn. pose proof (move_down_ok s n sc H ltac:(lia)) as M. cbv zeta in M.
    change (bot_stop s) with (floor_row s) in M. destruct (floor_row s - s_cy s <? n) eqn:E; [destruct sc|].
    + destruct M as (s1 & S & E1 & I). eexists. split; [exact E1|]. split; [exact I|]. rewrite moved_cx, moved_cy.
      pose proof (su_env _ _ _ S) as V. pose proof (env_moved s1 (s_cx s) (floor_row s)) as EM.
      rewrite (e_def _ _ EM), (e_sx _ _ EM), (e_sy _ _ EM), (f_def _ _ V), (f_sx _ _ V), (f_sy _ _ V).
      rewrite (g_def _ _ (frame_inc s)), inc_sx, inc_sy.
      repeat match goal with |- _ /\ _ => split end; auto; try lia; try discriminate. intros y x Hs. rewrite at_moved.
      pose proof (Inv_inc s H) as [HI _].
      pose proof (scrolled_up_at (inc_age s) s1 (Z.min (n - (floor_row s - s_cy s)) (s_mb s + 1 - s_mt s)) y x HI) as A.
      rewrite (g_mt _ _ (frame_inc s)), (g_mb _ _ (frame_inc s)), on_screen_inc, shift_up_inc in A.
      rewrite A; auto; [|lia]. unfold over_down, region. f_equal. lia.
    + destruct M as (E1 & I). eexists. split; [exact E1|]. split; [exact I|]. rewrite moved_cx, moved_cy.
      pose proof (frame_moved s (s_cx s) (floor_row s)) as F. rewrite (g_def _ _ F), (g_sx _ _ F), (g_sy _ _ F).
      repeat match goal with |- _ /\ _ => split end; auto; try lia.
      * intros _. eapply same_text_trans; [apply same_text_inc|apply same_text_moved].
      * intros y x _. now rewrite at_moved, at_inc.
    + destruct M as (E1 & I). eexists. split; [exact E1|]. split; [exact I|]. rewrite moved_cx, moved_cy.
      pose proof (frame_moved s (s_cx s) (s_cy s + n)) as F. rewrite (g_def _ _ F), (g_sx _ _ F), (g_sy _ _ F).
      repeat match goal with |- _ /\ _ => split end; auto; try lia.
      * intros _. eapply same_text_trans; [apply same_text_inc|apply same_text_moved].
      * intros y x _. rewrite at_moved, at_inc. destruct sc; [|reflexivity].
        unfold over_down, region. replace (Z.min _ _) with 0 by lia. now rewrite shift_up_0.
Qed.
Lemma move_up_law s n (sc : bool) : Inv s -> u32_arg n -> exists s', scr_move_up s n sc = Ok s' /\ Inv s' /\
  s_cx s' = s_cx s /\ s_cy s' = Z.max (s_cy s - n) (ceil_row s) /\ s_def s' = s_def s /\ s_sx s' = s_sx s /\ s_sy s' = s_sy s /\
  (sc = false -> same_text s s') /\
  forall y x, on_screen s y x -> at_ s' y x = if sc then shift_down s (s_mt s) (s_mb s) (over_up s n) y x else at_ s y x.
Proof.
  intros H Hn. pose proof (ceil_row_ok s H) as Hf. pose proof (i_mt _ (proj1 H)) as Hm.
  destruct (Z.eq_dec n 0) as [->|Hne].
  - exists s. unfold scr_move_up. change (0 =? 0) with true. cbv iota.
    repeat match goal with |- _ /\ _ => split end; auto; try lia; [intros _ y x; auto|].
    intros y x _. destruct sc; [|reflexivity]. unfold over_up, region.
    replace (Z.min _ _) with 0 by lia. now rewrite shift_down_0.
  - unfold u32_arg in Hn. pose proof (move_up_ok s n sc H ltac:(lia)) as M. cbv zeta in M.
    change (top_stop s) with (ceil_row s) in M. destruct (s_cy s - ceil_row s <? n) eqn:E; [destruct sc|].
    + destruct M as (s1 & S & E1 & I). eexists. split; [exact E1|]. split; [exact I|]. rewrite moved_cx, moved_cy.
      pose proof (sd_env _ _ _ S) as V. pose proof (env_moved s1 (s_cx s) (ceil_row s)) as EM.
      rewrite (e_def _ _ EM), (e_sx _ _ EM), (e_sy _ _ EM), (f_def _ _ V), (f_sx _ _ V), (f_sy _ _ V).
      rewrite (g_def _ _ (frame_inc s)), inc_sx, inc_sy.
      repeat match goal with |- _ /\ _ => split end; auto; try lia; try discriminate. intros y x Hs. rewrite at_moved.
      pose proof (Inv_inc s H) as [HI _].
      pose proof (scrolled_down_at (inc_age s) s1 (Z.min (n - (s_cy s - ceil_row s)) (s_mb s + 1 - s_mt s)) y x HI) as A.
      rewrite (g_mt _ _ (frame_inc s)), (g_mb _ _ (frame_inc s)), on_screen_inc, shift_down_inc in A.
      rewrite A; auto; [|lia]. unfold over_up, region. f_equal. lia.
    + destruct M as (E1 & I). eexists. split; [exact E1|]. split; [exact I|]. rewrite moved_cx, moved_cy.
      pose proof (frame_moved s (s_cx s) (ceil_row s)) as F. rewrite (g_def _ _ F), (g_sx _ _ F), (g_sy _ _ F).
      repeat match goal with |- _ /\ _ => split end; auto; try lia.
      * intros _. eapply same_text_trans; [apply same_text_inc|apply same_text_moved].
      * intros y x _. now rewrite at_moved, at_inc.
    + destruct M as (E1 & I). eexists. split; [exact E1|]. split; [exact I|]. rewrite moved_cx, moved_cy.
      pose proof (frame_moved s (s_cx s) (s_cy s - n)) as F. rewrite (g_def _ _ F), (g_sx _ _ F), (g_sy _ _ F).
      repeat match goal with |- _ /\ _ => split end; auto; try lia.
      * intros _. eapply same_text_trans; [apply same_text_inc|apply same_text_moved].
      * intros y x _. rewrite at_moved, at_inc. destruct sc; [|reflexivity].
        unfold over_up, region. replace (Z.min _ _) with 0 by lia. now rewrite shift_down_0.
Qed.

(* C14 *)
Lemma region_cursor s : Inv s -> 0 <= s_cy s < s_sy s.
Proof. intros (H & _ & Hy). pose proof (i_cy _ H). lia. Qed.
Lemma insert_lines_law s n : Inv s -> u32_arg n -> 0 < n -> s_mt s <= s_cy s <= s_mb s ->
  exists s', step s (OInsLines n) = Ok s' /\ s_cx s' = 0 /\ s_cy s' = s_cy s /\
  forall y x, on_screen s y x -> at_ s' y x = shift_down s (s_cy s) (s_mb s) (Z.min n (s_mb s + 1 - s_cy s)) y x.
Proof.
  intros H Hn Hp Hr. destruct (insert_lines_ok s n H Hp Hr) as (ls' & E & I & R). cbn [step].
  eexists. split; [exact E|]. pose proof (proj1 H) as H0. inv0 H0.
  split; [reflexivity|]. split; [exact (inc_cy s)|]. intros y x Hs.
  change (at_ (set_cx (set_lines (age_all (inc_age s)) ls') 0) y x) with (at_ (set_lines (age_all (inc_age s)) ls') y x).
  rewrite at_set_lines. unfold il_num in R. eapply rows_down_at; eauto; try lia; [apply H|].
  intros l W. rewrite row_at_blanked; [|change (s_sx (age_all (inc_age s))) with (s_sx (inc_age s)); rewrite inc_sx; apply Hs
    |change (s_sx (age_all (inc_age s))) with (s_sx (inc_age s)); rewrite inc_sx; apply W].
  change (s_def (age_all (inc_age s))) with (s_def (inc_age s)). now rewrite (g_def _ _ (frame_inc s)).
Qed.
Lemma delete_lines_law s n : Inv s -> u32_arg n -> 0 < n -> s_mt s <= s_cy s <= s_mb s ->
  exists s', step s (ODelLines n) = Ok s' /\ s_cx s' = 0 /\ s_cy s' = s_cy s /\
  forall y x, on_screen s y x -> at_ s' y x = shift_up s (s_cy s) (s_mb s) (Z.min n (s_mb s + 1 - s_cy s)) y x.
Proof.
  intros H Hn Hp Hr. destruct (delete_lines_ok s n H Hp Hr) as (ls' & E & I & R). cbn [step].
  eexists. split; [exact E|]. pose proof (proj1 H) as H0. inv0 H0.
  split; [reflexivity|]. split; [exact (inc_cy s)|]. intros y x Hs.
  change (at_ (set_cx (set_lines (age_all (inc_age s)) ls') 0) y x) with (at_ (set_lines (age_all (inc_age s)) ls') y x).
  rewrite at_set_lines. unfold il_num in R. eapply rows_up_at; eauto; try lia; [apply H|].
  intros l W. rewrite row_at_blanked; [|change (s_sx (age_all (inc_age s))) with (s_sx (inc_age s)); rewrite inc_sx; apply Hs
    |change (s_sx (age_all (inc_age s))) with (s_sx (inc_age s)); rewrite inc_sx; apply W].
  change (s_def (age_all (inc_age s))) with (s_def (inc_age s)). now rewrite (g_def _ _ (frame_inc s)).
Qed.
Lemma lines_outside s n : s_cy s < s_mt s \/ s_mb s < s_cy s ->
  step s (OInsLines n) = Ok s /\ step s (ODelLines n) = Ok s.
Proof.
  intros Hr. cbn [step]. unfold scr_insert_lines, scr_delete_lines.
  destruct (n =? 0); [auto|]. replace ((_ <? _) || _) with true by lia. auto.
Qed.

(* C15 *)
Lemma rows_at_zupd ls y0 (f : list cell -> list cell) y x :
  rows_at (zupd ls y0 (fun l => set_cells l (f (l_cells l)))) y x =
  if y =? y0 then match znth ls y with Some l => option_map look (znth (f (l_cells l)) x) | None => None end
  else rows_at ls y x.
Proof.
  unfold rows_at. rewrite znth_zupd. destruct (y =? y0) eqn:E; [|reflexivity].
  destruct (znth ls y); reflexivity.
Qed.
Lemma chars_at s f y x : Inv s ->
  at_ (char_edit s f) y x = rows_at (zupd (lines s) (s_cy s) (fun l => set_cells l (f (l_cells l)))) y x.
Proof. intros H. unfold char_edit. apply at_set_lines. Qed.
Lemma chars_blank s : Inv s -> look (blank (chars_s s)) = blank_glyph (s_def s).
Proof.
  intros H. unfold look, blank, blank_of, blank_glyph. cbn [c_ch c_width c_attr]. f_equal.
  unfold chars_s, cursor_in. change (s_def (inc_age s)) with (s_def (inc_age s)).
  assert (s_def (age_all (inc_age s)) = s_def s) as E by (change (s_def (age_all (inc_age s))) with (s_def (inc_age s)); apply (g_def _ _ (frame_inc s))).
  exact E.
Qed.

Lemma insert_chars_law s n : Inv s -> u32_arg n -> 0 < n -> exists s', step s (OInsChars n) = Ok s' /\
  s_cx s' = cursor_col s /\ s_cy s' = s_cy s /\
  forall y x, on_screen s y x -> at_ s' y x = chars_in s (cursor_col s) (Z.min n (s_sx s - cursor_col s)) y x.
Proof.
  intros H Hn Hp. destruct (insert_chars_ok s n H Hp) as [E I]. cbn [step]. eexists. split; [exact E|].
  split; [|split].
  - change (s_cx (chars_s s) = cursor_col s). destruct (chars_s_ok s H) as (_ & C). tauto.
  - change (s_cy (chars_s s) = s_cy s). destruct (chars_s_ok s H) as (_ & C). tauto.
  - intros y x Hs. rewrite chars_at by auto. rewrite rows_at_zupd. unfold chars_in, cursor_col. fold (at_ s y x).
    destruct (y =? s_cy s) eqn:Ey; cbn [andb]; [|reflexivity].
    destruct (inv_row s y (proj1 H)) as (l & El & [W _]); [pose proof (i_ln _ (proj1 H)); destruct Hs; lia|].
    rewrite El. unfold ins_cells. rewrite znth_mapi. destruct Hs as [Hy Hx].
    destruct (znth_some (l_cells l) x) as [c Ec]; [lia|]. rewrite Ec. cbn [option_map]. unfold ch_num.
    set (c0 := Z.min (s_cx s) (s_sx s - 1)) in *. set (m := Z.min n (s_sx s - c0)) in *.
    assert (Hc0 : 0 <= c0 < s_sx s) by (pose proof (i_cx _ (proj1 H)); subst c0; lia).
    assert (Hm : 0 < m <= s_sx s - c0) by (subst m; lia).
    destruct (c0 <=? x) eqn:E1; cbn [andb].
    + destruct (x <? c0 + m) eqn:E2; [now rewrite chars_blank|].
      replace ((c0 + m <=? x) && (x <? s_sx s)) with true by lia.
      destruct (znth_some (l_cells l) (x - m)) as [c' Ec']; [lia|]. rewrite Ec'.
      unfold at_, rows_at. rewrite El. unfold row_at. now rewrite Ec'.
    + replace ((c0 + m <=? x) && (x <? s_sx s)) with false by lia.
      unfold at_, rows_at. rewrite El. unfold row_at. now rewrite Ec.
Qed.
Lemma delete_chars_law s n : Inv s -> u32_arg n -> 0 < n -> exists s', step s (ODelChars n) = Ok s' /\
  s_cx s' = cursor_col s /\ s_cy s' = s_cy s /\
  forall y x, on_screen s y x -> at_ s' y x = chars_out s (cursor_col s) (Z.min n (s_sx s - cursor_col s)) y x.
Proof.
  intros H Hn Hp. destruct (delete_chars_ok s n H Hp) as [E I]. cbn [step]. eexists. split; [exact E|].
  split; [|split].
  - change (s_cx (chars_s s) = cursor_col s). destruct (chars_s_ok s H) as (_ & C). tauto.
  - change (s_cy (chars_s s) = s_cy s). destruct (chars_s_ok s H) as (_ & C). tauto.
  - intros y x Hs. rewrite chars_at by auto. rewrite rows_at_zupd. unfold chars_out, cursor_col. fold (at_ s y x).
    destruct (y =? s_cy s) eqn:Ey; cbn [andb]; [|reflexivity].
    destruct (inv_row s y (proj1 H)) as (l & El & [W _]); [pose proof (i_ln _ (proj1 H)); destruct Hs; lia|].
    rewrite El. unfold del_cells. rewrite znth_mapi. destruct Hs as [Hy Hx].
    destruct (znth_some (l_cells l) x) as [c Ec]; [lia|]. rewrite Ec. cbn [option_map]. unfold ch_num.
    set (c0 := Z.min (s_cx s) (s_sx s - 1)) in *. set (m := Z.min n (s_sx s - c0)) in *.
    assert (Hc0 : 0 <= c0 < s_sx s) by (pose proof (i_cx _ (proj1 H)); subst c0; lia).
    assert (Hm : 0 < m <= s_sx s - c0) by (subst m; lia).
    destruct (c0 <=? x) eqn:E1; cbn [andb].
    + destruct (x + m <? s_sx s) eqn:E2.
      * replace ((s_sx s - m <=? x) && _) with false by lia. replace (x <? s_sx s - m) with true by lia. cbn [andb].
        destruct (znth_some (l_cells l) (x + m)) as [c' Ec']; [lia|]. rewrite Ec'.
        unfold at_, rows_at. rewrite El. unfold row_at. now rewrite Ec'.
      * replace ((s_sx s - m <=? x) && (x <? s_sx s)) with true by lia. now rewrite chars_blank.
    + replace ((s_sx s - m <=? x) && (x <? s_sx s)) with false by lia.
      unfold at_, rows_at. rewrite El. unfold row_at. now rewrite Ec.
Qed.

(* C16 *)
Lemma look_kept p c y x s : at_ s y x = Some (look c) -> kept p c = p && protected (at_ s y x).
Proof. intros ->. reflexivity. Qed.
Lemma erase_to_at s x0 y0 x1 y1 p y x : Inv s -> on_screen s y x ->
  at_ (erase_to s x0 y0 x1 y1 p) y x =
  erase_spec s (fun y x => (y0 <=? y) && (y <=? Z.min y1 (s_sy s - 1)) && (er_from x0 y0 y <=? x) &&
                           (x <=? er_to s (Z.min x1 (s_sx s - 1)) (Z.min y1 (s_sy s - 1)) y)) p y x.
Proof.
  intros H [Hy Hx]. unfold erase_to, erased. rewrite at_set_lines. unfold erased_lines, rows_at. rewrite znth_mapi.
  rewrite lines_inc_age, inc_sx, inc_sy.
  destruct (inv_row s y (proj1 H)) as (l & El & [W _]); [pose proof (i_ln _ (proj1 H)); lia|].
  rewrite El. cbn [option_map]. destruct (znth_some (l_cells l) x) as [c Ec]; [lia|].
  assert (A : at_ s y x = Some (look c)) by (unfold at_, rows_at, row_at; now rewrite El, Ec).
  unfold erase_spec. rewrite <- (look_kept p c y x s A).
  destruct ((y0 <=? y) && (y <=? Z.min y1 (s_sy s - 1))) eqn:E; cbn [andb].
  - unfold row_at. cbn [set_cells l_cells]. unfold erased_cells. rewrite znth_mapi, Ec. cbn [option_map].
    replace (er_to (inc_age s)) with (er_to s) by (unfold er_to; now rewrite inc_sx).
    destruct (_ && negb _).
    + unfold blank, blank_of, look, blank_glyph. cbn. now rewrite (g_def _ _ (frame_inc s)).
    + now rewrite A.
  - unfold row_at. rewrite Ec. now rewrite A.
Qed.
Lemma erase_spec_ext s r1 r2 p y x : r1 y x = r2 y x -> erase_spec s r1 p y x = erase_spec s r2 p y x.
Proof. unfold erase_spec. now intros ->. Qed.
Lemma erase_keep s x0 y0 x1 y1 p : s_cx (erase_to s x0 y0 x1 y1 p) = s_cx s /\ s_cy (erase_to s x0 y0 x1 y1 p) = s_cy s.
Proof. split; [exact (inc_cx s)|exact (inc_cy s)]. Qed.
(* An erase call: what it leaves behind. *)
Ltac erase_law H E :=
  cbn [step]; destruct E as [E I]; eexists; split; [exact E|];
  match goal with |- context [erase_to ?s ?a ?b ?c ?d ?p] => destruct (erase_keep s a b c d p) as [-> ->] end;
  split; [reflexivity|]; split; [reflexivity|];
  intros y x Hs; rewrite erase_to_at by auto; apply erase_spec_ext; destruct Hs as [Hy Hx];
  unfold reg_row, reg_right, reg_left, reg_chars, reg_above, reg_below, reg_all, reg_right, reg_left, er_from, er_to, curx, cursor_col;
  pose proof (region_cursor _ H); pose proof (i_cx _ (proj1 H)).
Lemma erase_cursor_law s : Inv s -> erases s OEraseCursor (fun y x => (y =? s_cy s) && (x =? cursor_col s)) false.
Proof.
  intros H. pose proof (erase_cursor_ok s H) as E. unfold erases. erase_law H E.
  destruct (y =? s_cy s) eqn:E1; [replace (y =? Z.min _ _) with true by lia|]; lia.
Qed.
Lemma erase_chars_law s n : Inv s -> u32_arg n -> 0 < n -> cursor_col s + n <= 4294967296 ->
  erases s (OEraseChars n) (reg_chars s n) false.
Proof.
  intros H Hn Hp Hb. pose proof (erase_chars_ok s n H Hp) as E. cbv zeta in E.
  pose proof (i_cx _ (proj1 H)). pose proof (i_sx _ (proj1 H)). unfold cursor_col in Hb.
  rewrite u32_small in E by (unfold curx; lia). unfold erases. erase_law H E.
  destruct (y =? s_cy s) eqn:E1; [replace (y =? Z.min _ _) with true by lia|]; lia.
Qed.
Lemma erase_to_end_law s p : Inv s -> erases s (OEraseToEnd p) (reg_right s) p.
Proof.
  intros H. pose proof (erase_to_end_ok s p H) as E. unfold erases. erase_law H E.
  destruct (y =? s_cy s) eqn:E1; [replace (y =? Z.min _ _) with true by lia|]; lia.
Qed.
Lemma erase_home_law s p : Inv s -> erases s (OEraseHome p) (reg_left s) p.
Proof.
  intros H. pose proof (erase_home_ok s p H) as E. unfold erases. erase_law H E.
  destruct (y =? s_cy s) eqn:E1; [replace (y =? Z.min _ _) with true by lia|]; lia.
Qed.
Lemma erase_line_law s p : Inv s -> erases s (OEraseLine p) (reg_row s) p.
Proof.
  intros H. pose proof (erase_line_ok s p H) as E. unfold erases. erase_law H E.
  destruct (y =? s_cy s) eqn:E1; [replace (y =? Z.min _ _) with true by lia|]; lia.
Qed.
Lemma erase_screen_to_cursor_law s p : Inv s -> erases s (OEraseScreenToCursor p) (reg_above s) p.
Proof.
  intros H. pose proof (erase_screen_to_cursor_ok s p H) as E. unfold erases. erase_law H E.
  destruct (y =? 0) eqn:E1; destruct (y =? Z.min _ _) eqn:E2; lia.
Qed.
Lemma erase_cursor_to_screen_law s p : Inv s -> erases s (OEraseCursorToScreen p) (reg_below s) p.
Proof.
  intros H. pose proof (erase_cursor_to_screen_ok s p H) as E. unfold erases. erase_law H E.
  destruct (y =? s_cy s) eqn:E1; destruct (y =? Z.min _ _) eqn:E2; lia.
Qed.
Lemma erase_screen_law s p : Inv s -> erases s (OEraseScreen p) reg_all p.
Proof.
  intros H. pose proof (erase_screen_ok s p H) as E. unfold erases. erase_law H E.
  destruct (y =? 0) eqn:E1; destruct (y =? Z.min _ _) eqn:E2; lia.
Qed.

(* C18 *)
Lemma write_zero_law s ch a : scr_width ch = Ok 0 -> step s (OWrite ch a) = Ok s.
Proof. intros E. cbn [step]. unfold scr_write. now rewrite E. Qed.

Lemma written_at s x y ch w a j i : Inv0 s -> 0 <= x < s_sx s -> 0 <= y < s_sy s -> 1 <= w -> write_fits s w -> on_screen s j i ->
  at_ (written s x y ch w a) j i =
  if j =? y then
    if i <? x then at_ s j i
    else if i =? x then Some (ch, w, a)
    else if i <? x + w then continued (at_ s j i)
    else if fl s F_INSERT then at_ s j (i - w) else at_ s j i
  else at_ s j i.
Proof.
  intros H Hx Hy Hw Hf [Hj Hi]. unfold written. rewrite at_set_lines. unfold rows_at. rewrite znth_zupd.
  destruct (j =? y) eqn:E; [|reflexivity].
  destruct (inv_row s j H) as (l & El & [W _]); [pose proof (i_ln _ H); lia|]. rewrite El. cbn [option_map].
  unfold row_at, wr_line. cbn [l_cells]. unfold wr_cells. rewrite znth_mapi.
  set (cs0 := if wr_shift s x w then _ else _).
  assert (A : forall k, 0 <= k < s_sx s -> at_ s j k = option_map look (znth (l_cells l) k)).
  { intros k Hk. unfold at_, rows_at. now rewrite El. }
  assert (C0 : forall k, 0 <= k < s_sx s -> znth cs0 k = if fl s F_INSERT && (x + w <=? k) then znth (l_cells l) (k - w) else znth (l_cells l) k).
  { intros k Hk. subst cs0. unfold wr_shift. destruct (fl s F_INSERT) eqn:EI; cbn [andb]; [|reflexivity].
    destruct (x <? s_sx s - w) eqn:E2.
    - rewrite znth_zput by (rewrite ?length_zslice; lia).
      rewrite length_zslice by lia. destruct (x + w <=? k) eqn:E3; cbn [andb].
      + replace (k <? _) with true by lia. rewrite znth_zslice by lia. replace (k - (x + w) <? s_sx s - w - x) with true by lia. f_equal. lia.
      + reflexivity.
    - replace (x + w <=? k) with false by lia. reflexivity. }
  rewrite C0 by lia. rewrite (A i) by lia.
  destruct (i <? x) eqn:E1.
  { replace (x + w <=? i) with false by lia. rewrite andb_false_r. replace (i =? x) with false by lia.
    replace ((x <? i) && _ && _) with false by lia. destruct (znth (l_cells l) i); reflexivity. }
  destruct (i =? x) eqn:E2.
  { replace (x + w <=? i) with false by lia. rewrite andb_false_r.
    destruct (znth_some (l_cells l) i) as [c Ec]; [lia|]. rewrite Ec. reflexivity. }
  destruct (i <? x + w) eqn:E3.
  { replace (x + w <=? i) with false by lia. rewrite andb_false_r. replace ((x <? i) && true && (i <? s_sx s)) with true by lia.
    destruct (znth (l_cells l) i); reflexivity. }
  replace (x + w <=? i) with true by lia. rewrite andb_true_r. rewrite andb_false_r. cbn [andb].
  destruct (fl s F_INSERT); [|destruct (znth (l_cells l) i); reflexivity].
  rewrite (A (i - w)) by lia. destruct (znth (l_cells l) (i - w)); reflexivity.
Qed.

Lemma write_law0 s s' ch w a : Inv s -> 1 <= w -> write_fits s w -> wrote s s' ch w a ->
  s_cx s' = write_col s + w /\ s_cy s' = write_row s /\
  forall y x, on_screen s y x -> at_ s' y x = write_spec s ch w a y x.
Proof.
  intros H Hw Hf [(s2 & E2 & I2 & X2 & Y2 & ->)]. rewrite moved_cx, moved_cy.
  pose proof H as (H0 & Hcx & Hcy). pose proof H0 as H1. inv0 H1.
  pose proof (wr_s1_cx s) as CX. pose proof (wr_s1_cy s) as CY. pose proof (env_wr_s1 s) as EV.
  assert (HL : wr_last s = floor_row s) by reflexivity.
  pose proof (floor_row_ok s H) as HF.
  assert (Hsc : (wr_last s <? s_cy (wr_s1 s)) = write_scrolls s).
  { rewrite CY, HL. unfold write_scrolls, wraps. replace (negb (s_cx s <? s_sx s)) with (s_sx s <=? s_cx s) by lia.
    destruct ((s_sx s <=? s_cx s) && fl s F_WRAP); cbn [andb]; lia. }
  assert (HC : s_cx (wr_s1 s) = write_col s).
  { rewrite CX. unfold write_col. replace (s_cx s <? s_sx s) with (negb (s_sx s <=? s_cx s)) by lia.
    destruct (s_sx s <=? s_cx s); reflexivity. }
  assert (B : s_cx s2 = write_col s /\ s_cy s2 = write_row s /\ s_sx s2 = s_sx s /\ s_sy s2 = s_sy s /\ s_flags s2 = s_flags s /\
    forall y x, on_screen s y x -> at_ s2 y x = before_write s y x).
  { rewrite Hsc in E2. unfold before_write. destruct (write_scrolls s) eqn:E.
    - set (m := moved (wr_s1 s) (s_cx (wr_s1 s)) (wr_last s)) in *.
      assert (IM : Inv0 m) by (apply Inv0_moved; [now apply Inv0_wr_s1| |]; rewrite ?HC, ?HL; unfold write_col in *; try lia;
         destruct (s_cx s <? s_sx s); [|destruct (fl s F_WRAP)]; lia).
      pose proof (su_env _ _ _ E2) as V. pose proof (env_moved (wr_s1 s) (s_cx (wr_s1 s)) (wr_last s)) as EM. fold m in EM.
      rewrite (f_cx _ _ V), (f_cy _ _ V), (f_sx _ _ V), (f_sy _ _ V), (f_flags _ _ V).
      rewrite (e_sx _ _ EM), (e_sy _ _ EM), (e_flags _ _ EM), (e_sx _ _ EV), (e_sy _ _ EV), (e_flags _ _ EV).
      split; [subst m; now rewrite moved_cx|]. split.
      { subst m. rewrite moved_cy, HL. unfold write_row. rewrite E, andb_false_r. unfold write_scrolls in E. lia. }
      split; [reflexivity|]. split; [reflexivity|]. split; [reflexivity|]. intros y x Hs.
      rewrite (scrolled_up_at m s2 1 y x IM); auto.
      + rewrite (e_mt _ _ EM), (e_mb _ _ EM), (e_mt _ _ EV), (e_mb _ _ EV). unfold shift_up.
        assert (AM : forall y x, at_ m y x = at_ s y x).
        { intros y0 x0. subst m. rewrite at_moved. unfold wr_s1. destruct (s_sx s <=? s_cx s); [|reflexivity].
          destruct (fl s F_WRAP); apply at_moved. }
        rewrite !AM, (e_def _ _ EM), (e_def _ _ EV). reflexivity.
      + pose proof (i_mt _ IM). lia.
      + unfold on_screen in *. rewrite (e_sx _ _ EM), (e_sy _ _ EM), (e_sx _ _ EV), (e_sy _ _ EV). exact Hs.
    - subst s2. rewrite (e_sx _ _ EV), (e_sy _ _ EV), (e_flags _ _ EV). split; [exact HC|]. split.
      { rewrite CY. unfold write_row. rewrite E, andb_true_r. unfold wraps.
        replace (negb (s_cx s <? s_sx s)) with (s_sx s <=? s_cx s) by lia. reflexivity. }
      split; [reflexivity|]. split; [reflexivity|]. split; [reflexivity|]. intros y x _. unfold wr_s1.
      destruct (s_sx s <=? s_cx s); [|reflexivity]. destruct (fl s F_WRAP); apply at_moved. }
  destruct B as (B1 & B2 & B3 & B4 & B5 & B6). rewrite B1, B2. split; [reflexivity|]. split; [reflexivity|].
  intros y x Hs. rewrite at_moved. rewrite written_at; auto; try lia.
  2:{ unfold write_fits, fl in *. rewrite B5, B3. exact Hf. }
  2:{ unfold on_screen in *. now rewrite B3, B4. }
  unfold write_spec. unfold fl in *. rewrite B5. destruct Hs as [Hy Hx].
  rewrite (B6 y x) by (split; lia). destruct (y =? write_row s) eqn:Ey; [|reflexivity].
  destruct (x <? write_col s); [reflexivity|]. destruct (x =? write_col s); [reflexivity|].
  destruct (x <? write_col s + w) eqn:Ew; [reflexivity|]. destruct (bit (s_flags s) F_INSERT); [|reflexivity].
  apply B6. split; lia.
Qed.
Lemma write_spec_inc s ch w a y x : write_spec (inc_age s) ch w a y x = write_spec s ch w a y x.
Proof.
  pose proof (frame_inc s) as F.
  assert (E1 : wraps (inc_age s) = wraps s) by (unfold wraps; now rewrite (frame_fl _ _ _ F), inc_cx, inc_sx).
  assert (E2 : floor_row (inc_age s) = floor_row s) by (unfold floor_row; now rewrite (g_mb _ _ F), inc_cy, inc_sy).
  assert (E3 : write_scrolls (inc_age s) = write_scrolls s) by (unfold write_scrolls; now rewrite E1, E2, inc_cy).
  assert (E4 : forall y x, before_write (inc_age s) y x = before_write s y x).
  { intros y0 x0. unfold before_write. rewrite E3, (g_mt _ _ F), (g_mb _ _ F), shift_up_inc, at_inc. reflexivity. }
  unfold write_spec. rewrite !E4. unfold write_row, write_col. rewrite E1, E3, inc_cy, inc_cx, inc_sx, !(frame_fl _ _ _ F). reflexivity.
Qed.
Lemma write_law s ch a w : Inv s -> scr_width ch = Ok w -> 0 < w -> write_fits s w ->
  exists s', step s (OWrite ch a) = Ok s' /\ s_cx s' = write_col s + w /\ s_cy s' = write_row s /\
  forall y x, on_screen s y x -> at_ s' y x = write_spec s ch w a y x.
Proof.
  intros H Ew Hw Hf. destruct (scr_write_ok s ch a w H Ew Hw Hf) as (s' & E & W & I). exists s'. split; [exact E|].
  assert (Hf' : write_fits (inc_age s) w) by (unfold write_fits in *; now rewrite (frame_fl _ _ _ (frame_inc s)), inc_sx).
  assert (Hw1 : 1 <= w) by lia. destruct (write_law0 _ _ _ _ _ (Inv_inc s H) Hw1 Hf' W) as (A & B & C).
  pose proof (frame_inc s) as F.
  assert (E1 : wraps (inc_age s) = wraps s) by (unfold wraps; now rewrite (frame_fl _ _ _ F), inc_cx, inc_sx).
  assert (E2 : floor_row (inc_age s) = floor_row s) by (unfold floor_row; now rewrite (g_mb _ _ F), inc_cy, inc_sy).
  assert (E3 : write_scrolls (inc_age s) = write_scrolls s) by (unfold write_scrolls; now rewrite E1, E2, inc_cy).
  rewrite A, B. split; [unfold write_col; now rewrite inc_cx, inc_sx, (frame_fl _ _ _ F)|].
  split; [unfold write_row; now rewrite E1, E3, inc_cy|].
  intros y x Hs. rewrite C by (now apply on_screen_inc). apply write_spec_inc.
Qed.

(* C22 *)
Lemma moved_moves s o x y : step s o = Ok (moved (inc_age s) x y) -> moves s o x y.
Proof.
  intros E. eexists. split; [exact E|]. rewrite moved_cx, moved_cy. pose proof (frame_moved s x y) as F.
  rewrite (g_sb _ _ F), (g_sx _ _ F), (g_sy _ _ F), (g_mt _ _ F), (g_mb _ _ F), (g_flags _ _ F).
  repeat match goal with |- _ /\ _ => split end; auto. eapply same_text_trans; [apply same_text_inc|apply same_text_moved].
Qed.
Lemma stay_moves s o : step s o = Ok s -> moves s o (s_cx s) (s_cy s).
Proof.
  intros E. exists s. repeat match goal with |- _ /\ _ => split end; auto. intros y x. auto.
Qed.
Lemma move_to_law s x y : Inv s -> u32_arg x -> u32_arg y -> s_mt s + y < 4294967296 ->
  moves s (OMoveTo x y) (Z.min x (s_sx s - 1)) (if fl s F_ORIGIN then Z.min (s_mt s + y) (s_mb s) else Z.min y (s_sy s - 1)).
Proof.
  intros H [Hx _] [Hy _] Hb. destruct (move_to_ok s x y H Hx Hy) as [E _]. apply moved_moves. cbn [step]. rewrite E.
  unfold to_y. pose proof (i_mt _ (proj1 H)). rewrite u32_small by lia. reflexivity.
Qed.
Lemma move_down_moves s n : Inv s -> u32_arg n -> moves s (OMoveDown n false) (s_cx s) (Z.min (s_cy s + n) (floor_row s)).
Proof.
  intros H Hn. pose proof (floor_row_ok s H). unfold u32_arg in Hn. destruct (Z.eq_dec n 0) as [->|Hne].
  - rewrite Z.min_l by lia. rewrite Z.add_0_r. now apply stay_moves.
  - pose proof (move_down_ok s n false H ltac:(lia)) as M. cbv zeta in M. change (bot_stop s) with (floor_row s) in M.
    destruct (floor_row s - s_cy s <? n) eqn:E; destruct M as [E1 _].
    + rewrite Z.min_r by lia. now apply moved_moves.
    + rewrite Z.min_l by lia. now apply moved_moves.
Qed.
Lemma move_up_moves s n : Inv s -> u32_arg n -> moves s (OMoveUp n false) (s_cx s) (Z.max (s_cy s - n) (ceil_row s)).
Proof.
  intros H Hn. pose proof (ceil_row_ok s H). unfold u32_arg in Hn. destruct (Z.eq_dec n 0) as [->|Hne].
  - rewrite Z.max_l by lia. rewrite Z.sub_0_r. now apply stay_moves.
  - pose proof (move_up_ok s n false H ltac:(lia)) as M. cbv zeta in M. change (top_stop s) with (ceil_row s) in M.
    destruct (s_cy s - ceil_row s <? n) eqn:E; destruct M as [E1 _].
    + rewrite Z.max_r by lia. now apply moved_moves.
    + rewrite Z.max_l by lia. now apply moved_moves.
Qed.
Lemma move_left_moves s n : Inv s -> u32_arg n -> 0 < n -> moves s (OMoveLeft n) (Z.max 0 (cursor_col s - n)) (s_cy s).
Proof. intros H Hn Hp. apply moved_moves. now apply move_left_ok. Qed.
Lemma move_right_moves s n : Inv s -> u32_arg n -> 0 < n -> moves s (OMoveRight n) (Z.min (s_cx s + n) (s_sx s - 1)) (s_cy s).
Proof. intros H Hn Hp. apply moved_moves. now apply move_right_ok. Qed.
Lemma line_moves s : Inv s -> moves s OLineHome 0 (s_cy s) /\ moves s OLineEnd (s_sx s - 1) (s_cy s).
Proof. intros H. split; apply moved_moves; [now apply line_home_ok|now apply line_end_ok]. Qed.
