(* The scrollback as a history, the pending wrap, and resizing. *)
From Verif Require Import Base BaseProofs Screen ScreenInv ScreenSb ScreenScroll ScreenSpec ScreenOps ScreenMove ScreenCtl ScreenResize ScreenSafe ScreenLaws ScreenAlt.

(* A call that leaves the scrollback alone and does not push the cursor out. *)
Definition calm (s s' : screen) : Prop :=
  s_sb s' = s_sb s /\ s_sbmax s' = s_sbmax s /\
  (s_cx s' < s_sx s' \/ (s_cx s' <= s_cx s /\ s_sx s' = s_sx s)).
Definition calm_op (s : screen) (o : op) : bool :=
  match o with
  | OScrollUp _ | ONewline | OMoveDown _ true | OWrite _ _ | OResize _ _ | OSetMaxSb _ | OClearSb => false
  | _ => true
  end.
Lemma calm_same s s' : s_sb s' = s_sb s -> s_sbmax s' = s_sbmax s -> s_cx s' = s_cx s -> s_sx s' = s_sx s -> calm s s'.
Proof. unfold calm. intros. repeat split; auto. right. split; auto. lia. Qed.
Lemma calm_refl s : calm s s.
Proof. now apply calm_same. Qed.
Lemma calm_imoved s x y : x < s_sx s \/ x <= s_cx s -> calm s (moved (inc_age s) x y).
Proof.
  intros Hx. pose proof (frame_moved s x y) as F. unfold calm. rewrite (g_sb _ _ F), (g_sbmax _ _ F), (g_sx _ _ F), moved_cx.
  split; [reflexivity|]. split; [reflexivity|]. destruct Hx; auto.
Qed.
Lemma inc_sb s : s_sb (inc_age s) = s_sb s. Proof. apply (g_sb _ _ (frame_inc s)). Qed.
Lemma inc_sbmax s : s_sbmax (inc_age s) = s_sbmax s. Proof. apply (g_sbmax _ _ (frame_inc s)). Qed.
Lemma calm_aged s s' : s_sb s' = s_sb (inc_age s) -> s_sbmax s' = s_sbmax (inc_age s) ->
  s_cx s' = s_cx (inc_age s) -> s_sx s' = s_sx (inc_age s) -> calm s s'.
Proof. rewrite inc_sb, inc_sbmax, inc_cx, inc_sx. apply calm_same. Qed.

Ltac calm_go s :=
  apply calm_aged; unfold reset_to, scr_sel_reset, viewed, erase_to, erased; unfold aged; generalize (inc_age s); intro; reflexivity.
Lemma reset_fields t m tb : let r := set_tabs (set_act (set_mb (set_mt (set_flags (age_all t) 0) 0) m) false) tb in
  s_sb r = s_sb t /\ s_sbmax r = s_sbmax t /\ s_cx r = s_cx t /\ s_sx r = s_sx t.
Proof. cbv zeta. destruct t. repeat split. Qed.
Lemma calm_reset s : calm s (reset_to s).
Proof.
  destruct (reset_fields (inc_age s) (s_sy s - 1) (tabs_upto (s_sx s) (fun i => i mod 8 =? 0) (s_tabs s))) as (A & B & C & D).
  unfold reset_to, aged. now apply calm_aged.
Qed.
Lemma ok_inj {A} (a b : A) : Ok a = Ok b -> b = a.
Proof. now inversion 1. Qed.
Lemma step_reset s : step s OReset = scr_reset s.
Proof. reflexivity. Qed.
Lemma calm_reset_call s s' : Inv s -> step s OReset = Ok s' -> calm s s'.
Proof.
  intros H E. rewrite step_reset in E. destruct (reset_ok s H) as [E1 _]. rewrite E1 in E.
  apply ok_inj in E. rewrite E. apply calm_reset.
Qed.
Lemma calm_step s o s' : Inv s -> op_args o -> calm_op s o = true -> step s o = Ok s' -> calm s s'.
Proof.
  intros H Ha Hs E. pose proof (calm_refl s) as K0.
  pose proof (i_sx _ (proj1 H)) as Hsx. pose proof (i_cx _ (proj1 H)) as Hcx.
  destruct o; cbn [calm_op] in Hs; try discriminate; cbn [op_args] in Ha; unfold u32_arg in Ha;
  lazymatch type of E with step _ OReset = _ => idtac | _ => cbn [step] in E end.
  - (* set_margins *) inversion E; subst s'. destruct Ha as [Ha1 Ha2]. destruct (set_margins_ok s t b H Ha1 Ha2) as [M _]. cbv zeta in M. rewrite M.
    match goal with |- context [if ?b then _ else _] => destruct b end; now apply calm_same.
  - (* sb_up *) destruct (Z.eq_dec n 0) as [->|]; [inversion E; now subst|].
    destruct (sb_up_ok s n H ltac:(lia)) as (pn & E1 & _). rewrite E1 in E. inversion E. calm_go s.
  - destruct (Z.eq_dec n 0) as [->|]; [inversion E; now subst|].
    destruct (sb_down_ok s n H ltac:(lia)) as (pn & E1 & _). rewrite E1 in E. inversion E. calm_go s.
  - unfold scr_sb_page_up in E. destruct (n =? 0); [inversion E; now subst|]. cbv zeta in E.
    pose proof (u32_range (n * s_sy (inc_age s))) as R. set (m := u32 (n * s_sy (inc_age s))) in *. clearbody m.
    destruct (Z.eq_dec m 0) as [->|]; [inversion E; calm_go s|].
    destruct (sb_up_ok (inc_age s) m (Inv_inc s H) ltac:(lia)) as (pn & E1 & _). rewrite E1 in E. inversion E.
    apply calm_aged; unfold viewed, aged; sredg; [apply inc_sb|apply inc_sbmax|apply inc_cx|apply inc_sx].
  - unfold scr_sb_page_down in E. destruct (n =? 0); [inversion E; now subst|]. cbv zeta in E.
    pose proof (u32_range (n * s_sy (inc_age s))) as R. set (m := u32 (n * s_sy (inc_age s))) in *. clearbody m.
    destruct (Z.eq_dec m 0) as [->|]; [inversion E; calm_go s|].
    destruct (sb_down_ok (inc_age s) m (Inv_inc s H) ltac:(lia)) as (pn & E1 & _). rewrite E1 in E. inversion E.
    apply calm_aged; unfold viewed, aged; sredg; [apply inc_sb|apply inc_sbmax|apply inc_cx|apply inc_sx].
  - inversion E. destruct (sb_reset_ok s H) as (_ & _ & R1 & R2). destruct (s_sbpos s) eqn:Ep; [rewrite R2 by congruence|rewrite R1 by congruence; exact K0].
    calm_go s.
  - inversion E. now apply calm_same.
  - (* reset *) exact (calm_reset_call s s' H E).
  - (* set_flags *) destruct (Z.eq_dec f 0) as [->|]; [inversion E; now subst|].
    destruct (set_flags_ok s f H ltac:(lia)) as [E1 I1]. rewrite E1 in E. inversion E; subst s'. clear E.
    unfold flags_set, fl_end, fl_alt. cbv zeta.
    repeat match goal with |- context [if ?b then _ else _] => destruct b end; calm_go s.
  - (* reset_flags *) destruct (Z.eq_dec f 0) as [->|]; [inversion E; now subst|].
    destruct (reset_flags_ok s f H ltac:(lia)) as [E1 I1]. rewrite E1 in E. inversion E; subst s'. clear E.
    unfold flags_reset, fl_end, fl_alt. cbv zeta.
    repeat match goal with |- context [if ?b then _ else _] => destruct b end; calm_go s.
  - destruct (tabstop_ok true s H) as [E1 _]. rewrite E1 in E. inversion E. match goal with |- context [if ?b then _ else _] => destruct b end; now apply calm_same.
  - destruct (tabstop_ok false s H) as [E1 _]. rewrite E1 in E. inversion E. match goal with |- context [if ?b then _ else _] => destruct b end; now apply calm_same.
  - destruct (reset_all_tabstops_ok s H) as [E1 _]. rewrite E1 in E. inversion E. now apply calm_same.
  - unfold scr_scroll_down in E. destruct (n =? 0) eqn:En; [inversion E; now subst|].
    destruct (scroll_call_down s n H ltac:(lia)) as (s1 & E1 & S & _). rewrite E in E1. inversion E1; subst s1.
    pose proof (sd_env _ _ _ S) as V. apply calm_aged; [apply (ss_sb _ _ (sd_sb _ _ _ S))|apply V|apply V|apply V].
  - destruct (move_to_ok s x y H ltac:(lia) ltac:(lia)) as [E1 _]. rewrite E1 in E. inversion E. apply calm_imoved. lia.
  - destruct (Z.eq_dec n 0) as [->|]; [inversion E; now subst|].
    pose proof (move_up_ok s n b H ltac:(lia)) as M. cbv zeta in M.
    destruct (s_cy s - top_stop s <? n); [destruct b|].
    + destruct M as (t & S & E1 & I1). rewrite E1 in E. inversion E.
      pose proof (sd_env _ _ _ S) as V. pose proof (env_moved t (s_cx s) (top_stop s)) as EM. unfold calm.
      rewrite (e_sb _ _ EM), (e_sbmax _ _ EM), (e_sx _ _ EM), (ss_sb _ _ (sd_sb _ _ _ S)), (f_sbmax _ _ V), (f_sx _ _ V), inc_sb, inc_sbmax, inc_sx, moved_cx.
      split; [reflexivity|]. split; [reflexivity|]. right. split; [lia|reflexivity].
    + destruct M as [E1 _]. rewrite E1 in E. inversion E. apply calm_imoved; lia.
    + destruct M as [E1 _]. rewrite E1 in E. inversion E. apply calm_imoved; lia.
  - destruct b; [discriminate|]. destruct (Z.eq_dec n 0) as [->|]; [inversion E; now subst|].
    pose proof (move_down_ok s n false H ltac:(lia)) as M. cbv zeta in M.
    destruct (bot_stop s - s_cy s <? n); destruct M as [E1 _]; rewrite E1 in E; inversion E; apply calm_imoved; lia.
  - destruct (Z.eq_dec n 0) as [->|]; [inversion E; now subst|].
    destruct (move_left_ok s n H ltac:(lia)) as [E1 _]. rewrite E1 in E. inversion E. apply calm_imoved. lia.
  - destruct (Z.eq_dec n 0) as [->|]; [inversion E; now subst|].
    destruct (move_right_ok s n H ltac:(lia)) as [E1 _]. rewrite E1 in E. inversion E. apply calm_imoved. lia.
  - destruct (line_end_ok s H) as [E1 _]. rewrite E1 in E. inversion E. apply calm_imoved; lia.
  - destruct (line_home_ok s H) as [E1 _]. rewrite E1 in E. inversion E. apply calm_imoved; lia.
  - destruct (Z.eq_dec n 0) as [->|]; [inversion E; now subst|].
    destruct (tab_right_ok s n H ltac:(lia)) as (x & E1 & _ & A & B). rewrite E1 in E. inversion E. apply calm_imoved.
    destruct (Z_le_gt_dec n (stops s (s_cx s + 1) (s_sx s))); [left; apply A; auto|rewrite B by lia; lia].
  - destruct (Z.eq_dec n 0) as [->|]; [inversion E; now subst|].
    destruct (Z_lt_le_dec (zlen (s_tabs s)) (s_cx s)).
    { rewrite (tab_left_ub s n H) in E; [discriminate|lia|unfold tab_fits; lia]. }
    destruct (tab_left_ok s n H ltac:(lia)) as (x & E1 & I1 & A & B); [unfold tab_fits; lia|]. rewrite E1 in E. inversion E. apply calm_imoved.
    destruct (Z_le_gt_dec n (stops s 1 (s_cx s))); [destruct A as (A & _); auto; lia|rewrite B by lia; lia].
  - unfold scr_insert_lines in E. destruct (n =? 0) eqn:En; [inversion E; now subst|].
    destruct ((s_cy s <? s_mt s) || (s_mb s <? s_cy s)) eqn:Er; [inversion E; now subst|].
    destruct (insert_lines_ok s n H ltac:(lia) ltac:(lia)) as (ls' & E1 & _).
    unfold scr_insert_lines in E1. rewrite En, Er in E1. rewrite E in E1. inversion E1.
    split; [exact (inc_sb s)|]. split; [exact (inc_sbmax s)|]. left. change (0 < s_sx (inc_age s)). rewrite inc_sx. lia.
  - unfold scr_delete_lines in E. destruct (n =? 0) eqn:En; [inversion E; now subst|].
    destruct ((s_cy s <? s_mt s) || (s_mb s <? s_cy s)) eqn:Er; [inversion E; now subst|].
    destruct (delete_lines_ok s n H ltac:(lia) ltac:(lia)) as (ls' & E1 & _).
    unfold scr_delete_lines in E1. rewrite En, Er in E1. rewrite E in E1. inversion E1.
    split; [exact (inc_sb s)|]. split; [exact (inc_sbmax s)|]. left. change (0 < s_sx (inc_age s)). rewrite inc_sx. lia.
  - destruct (Z.eq_dec n 0) as [->|]; [inversion E; now subst|].
    destruct (insert_chars_ok s n H ltac:(lia)) as [E1 _]. rewrite E1 in E. inversion E. 
    split; [exact (inc_sb s)|]. split; [exact (inc_sbmax s)|]. left. change (s_cx (chars_s s) < s_sx (inc_age s)). rewrite inc_sx.
    destruct (chars_s_ok s H) as (_ & C & _). rewrite C. lia.
  - destruct (Z.eq_dec n 0) as [->|]; [inversion E; now subst|].
    destruct (delete_chars_ok s n H ltac:(lia)) as [E1 _]. rewrite E1 in E. inversion E.
    split; [exact (inc_sb s)|]. split; [exact (inc_sbmax s)|]. left. change (s_cx (chars_s s) < s_sx (inc_age s)). rewrite inc_sx.
    destruct (chars_s_ok s H) as (_ & C & _). rewrite C. lia.
  - destruct (erase_cursor_ok s H) as [E1 _]. rewrite E1 in E. inversion E. calm_go s.
  - destruct (Z.eq_dec n 0) as [->|]; [inversion E; now subst|].
    destruct (erase_chars_ok s n H ltac:(lia)) as [E1 _]. rewrite E1 in E. inversion E. calm_go s.
  - destruct (erase_to_end_ok s p H) as [E1 _]. rewrite E1 in E. inversion E. calm_go s.
  - destruct (erase_home_ok s p H) as [E1 _]. rewrite E1 in E. inversion E. calm_go s.
  - destruct (erase_line_ok s p H) as [E1 _]. rewrite E1 in E. inversion E. calm_go s.
  - destruct (erase_screen_to_cursor_ok s p H) as [E1 _]. rewrite E1 in E. inversion E. calm_go s.
  - destruct (erase_cursor_to_screen_ok s p H) as [E1 _]. rewrite E1 in E. inversion E. calm_go s.
  - destruct (erase_screen_ok s p H) as [E1 _]. rewrite E1 in E. inversion E. calm_go s.
  - inversion E. calm_go s.
  - destruct (sel_start_ok s x y H ltac:(lia)) as [E1 _]. rewrite E1 in E. inversion E. calm_go s.
  - destruct (sel_target_ok s x y H ltac:(lia)) as [E1 _]. rewrite E1 in E. inversion E. destruct (s_sela s); [calm_go s|exact K0].
Qed.

(* -- C09 ------------------------------------------------------------------- *)
(* The scrollback text and limit after rows have been handed to it. *)
Definition hist (s s' : screen) (rows : list (list glyph)) : Prop :=
  sb_text s' = last_n (s_sbmax s) (sb_text s ++ rows) /\ s_sbmax s' = s_sbmax s.
Definition txt (ls : list line) : list (list glyph) := map row_text ls.

Lemma map_zslice {A B} (f : A -> B) l i n : map f (zslice l i n) = zslice (map f l) i n.
Proof. unfold zslice. now rewrite <- firstn_map, skipn_map. Qed.
Lemma map_mapi {A B C} (g : B -> C) (f : Z -> A -> B) (h : A -> C) l :
  (forall k x, g (f k x) = h x) -> forall k, map g (mapi_from k f l) = map h l.
Proof. intros E. induction l as [|x l IH]; intros k; cbn [mapi_from map]; [reflexivity|]. now rewrite E, IH. Qed.
Lemma txt_linked k ls : txt (mapi_from k linked ls) = txt ls.
Proof. apply map_mapi. reflexivity. Qed.
Lemma txt_touch ls y x a : txt (touch ls y x a) = txt ls.
Proof.
  unfold txt, touch, zupd, mapi. apply map_mapi. intros k l. destruct (k =? y); [|reflexivity].
  unfold row_text. cbn [set_cells l_cells]. unfold zupd, mapi. apply map_mapi. intros j c. destruct (j =? x); reflexivity.
Qed.
Lemma lines_set s ls : lines (set_lines s ls) = ls.
Proof. unfold lines, set_lines. destruct (s_act s) eqn:E; cbn; rewrite E; reflexivity. Qed.
Lemma txt_moved s x y : txt (lines (moved s x y)) = txt (lines s).
Proof.
  unfold moved. destruct (fl s F_HIDE); [reflexivity|]. destruct (_ && _); [reflexivity|].
  unfold touched at 1. rewrite lines_set, txt_touch.
  change (lines (set_cy (set_cx (touched s) x) y)) with (lines (touched s)).
  unfold touched. now rewrite lines_set, txt_touch.
Qed.
Lemma last_n_all {A} n (l : list A) : zlen l <= n -> last_n n l = l.
Proof. apply keep_last_all. Qed.
Lemma sb_bound s : Inv0 s -> zlen (sb_text s) <= s_sbmax s.
Proof. intros H. inv0 H. unfold sb_text. rewrite map_length. lia. Qed.
Lemma hist_same s s' : Inv0 s -> s_sb s' = s_sb s -> s_sbmax s' = s_sbmax s -> hist s s' [].
Proof.
  intros H A B. split; [|exact B]. rewrite app_nil_r. pose proof (sb_bound s H). rewrite last_n_all by auto.
  unfold sb_text. now rewrite A.
Qed.
Lemma hist_up s s' n : Inv0 s -> scrolled_up s s' n ->
  hist s s' (if fl s F_ALT then [] else zslice (txt (lines s)) (s_mt s) n).
Proof.
  intros H S. pose proof (su_env _ _ _ S) as V. pose proof (su_sb _ _ _ S) as B.
  destruct (fl s F_ALT).
  - apply hist_same; [auto|apply B|apply V].
  - split; [|apply V]. unfold sb_text. rewrite (us_sb _ _ _ B). unfold sb_after.
    change (map row_text (keep_last (s_sbmax s) ?l)) with (map row_text (keep_last (s_sbmax s) l)).
    rewrite <- keep_last_map. change @keep_last with @last_n. rewrite map_app.
    fold (txt (mapi_from (s_sbid s + 1) linked (zslice (lines s) (s_mt s) n))). rewrite txt_linked.
    unfold txt. now rewrite map_zslice.
Qed.
Lemma inc_act s : s_act (inc_age s) = s_act s. Proof. apply (g_act _ _ (frame_inc s)). Qed.
Lemma main_lines s : Inv0 s -> fl s F_ALT = false -> lines s = s_main s.
Proof. intros H E. unfold lines. now rewrite (i_act _ H), E. Qed.
Lemma hist_inc s s' r : hist (inc_age s) s' r -> hist s s' r.
Proof. unfold hist, sb_text. now rewrite inc_sb, inc_sbmax. Qed.
Lemma hist_moved s t r x y : hist s t r -> hist s (moved t x y) r.
Proof.
  intros [A B]. pose proof (env_moved t x y) as E. split; [|rewrite (e_sbmax _ _ E); exact B].
  unfold sb_text in *. now rewrite (e_sb _ _ E).
Qed.
Lemma hist_up_call s s' n : Inv s -> scrolled_up (inc_age s) s' n ->
  hist s s' (if fl s F_ALT then [] else top_rows s n).
Proof.
  intros H S. apply hist_inc. pose proof (hist_up _ _ _ (proj1 (Inv_inc s H)) S) as K.
  rewrite (frame_fl _ _ _ (frame_inc s)), (g_mt _ _ (frame_inc s)) in K. destruct (fl s F_ALT) eqn:E; [exact K|].
  rewrite lines_inc_age in K. unfold top_rows. rewrite <- (main_lines s (proj1 H) E), map_zslice. exact K.
Qed.
Lemma hist_calm s s' r : Inv s -> calm s s' -> r = [] -> hist s s' r.
Proof. intros H (A & B & _) ->. apply hist_same; auto. apply H. Qed.
Lemma top_rows_0 s : top_rows s 0 = [].
Proof. reflexivity. Qed.
Lemma if_nil {A} (b : bool) : (if b then [] else @nil A) = [].
Proof. now destruct b. Qed.
Lemma hist_stay s r : Inv s -> r = [] -> hist s s r.
Proof. intros H ->. apply hist_same; auto. apply H. Qed.
Lemma hist_imoved s x y r : Inv s -> r = [] -> hist s (moved (inc_age s) x y) r.
Proof.
  intros H ->. apply hist_moved, hist_same; [apply H|apply inc_sb|apply inc_sbmax].
Qed.

Lemma hist_move_down s n s' : Inv s -> u32_arg n -> scr_move_down s n true = Ok s' ->
  hist s s' (if fl s F_ALT then [] else top_rows s (over_down s n)).
Proof.
  intros H Hn E. pose proof (floor_row_ok s H) as Hf. pose proof (i_mt _ (proj1 H)) as Hm. unfold u32_arg in Hn.
  destruct (Z.eq_dec n 0) as [->|Hne].
  - assert (s' = s) by now inversion E. subst s'. clear E. apply hist_stay; [auto|]. replace (over_down s 0) with 0 by (unfold over_down, region; lia). rewrite top_rows_0. apply if_nil.
  - pose proof (move_down_ok s n true H ltac:(lia)) as M. cbv zeta in M.
    change (bot_stop s) with (floor_row s) in M. destruct (floor_row s - s_cy s <? n) eqn:E0.
    + destruct M as (s1 & S & E1 & I). rewrite E1 in E. inversion E. apply hist_moved.
      replace (over_down s n) with (Z.min (n - (floor_row s - s_cy s)) (s_mb s + 1 - s_mt s)) by (unfold over_down, region; lia).
      now apply hist_up_call.
    + destruct M as (E1 & I). rewrite E1 in E. inversion E. apply hist_imoved; [auto|].
      replace (over_down s n) with 0 by (clear E1; unfold over_down, region; lia). rewrite top_rows_0. apply if_nil.
Qed.
Lemma over_down_inc s n : over_down (inc_age s) n = over_down s n.
Proof.
  pose proof (frame_inc s) as F. unfold over_down, region, floor_row. now rewrite (g_mb _ _ F), (g_mt _ _ F), inc_cy, inc_sy.
Qed.
Lemma top_rows_inc s n : top_rows (inc_age s) n = top_rows s n.
Proof. unfold top_rows. now rewrite inc_main, (g_mt _ _ (frame_inc s)). Qed.
Lemma hist_newline s s' : Inv s -> step s ONewline = Ok s' -> hist s s' (off s ONewline).
Proof.
  intros H E. unfold off. cbn [step] in E. unfold scr_newline in E.
  destruct (scr_move_down (inc_age s) 1 true) as [s1|] eqn:E1; [|discriminate]. cbn [bind] in E.
  assert (H1 : u32_arg 1) by (unfold u32_arg; lia).
  pose proof (hist_move_down _ _ _ (Inv_inc s H) H1 E1) as K.
  rewrite (frame_fl _ _ _ (frame_inc s)), over_down_inc, top_rows_inc in K. apply hist_inc.
  destruct (move_down_any (inc_age s) 1 true (Inv_inc s H) ltac:(lia)) as (s1' & E1' & I1). rewrite E1 in E1'. inversion E1'; subst s1'.
  destruct (line_home_ok s1 I1) as [E2 _]. rewrite E2 in E. inversion E. apply hist_moved.
  destruct K as [K1 K2]. split; [|now rewrite inc_sbmax]. unfold sb_text in *. now rewrite inc_sb.
Qed.
Lemma hist_scroll s n s' : Inv s -> u32_arg n -> step s (OScrollUp n) = Ok s' -> hist s s' (off s (OScrollUp n)).
Proof.
  intros H Hn E. unfold u32_arg in Hn. pose proof (i_mt _ (proj1 H)). unfold off. cbn [step] in E. unfold scr_scroll_up in E. destruct (n =? 0) eqn:En.
  - assert (s' = s) by now inversion E. subst s'. clear E. apply hist_stay; auto.
    replace (Z.min n (region s)) with 0 by (unfold region; lia). rewrite top_rows_0. apply if_nil.
  - destruct (scroll_call_up s n H ltac:(lia)) as (s1 & E1 & S & _). rewrite E in E1. inversion E1; subst s1. now apply hist_up_call.
Qed.
Lemma txt_wr_s1 s : txt (lines (wr_s1 s)) = txt (lines s).
Proof. unfold wr_s1. destruct (s_sx s <=? s_cx s); [|reflexivity]. destruct (fl s F_WRAP); apply txt_moved. Qed.
Lemma hist_wrote s s' ch w a : Inv s -> wrote s s' ch w a ->
  hist s s' (if fl s F_ALT then [] else if write_scrolls s then top_rows s 1 else []).
Proof.
  intros H [(s2 & E2 & I2 & X2 & Y2 & ->)]. pose proof H as (H0 & Hcx & Hcy). pose proof H0 as H1. inv0 H1.
  pose proof (wr_s1_cx s) as CX. pose proof (wr_s1_cy s) as CY. pose proof (env_wr_s1 s) as EV.
  assert (HL : wr_last s = floor_row s) by reflexivity. pose proof (floor_row_ok s H) as HF.
  assert (Hsc : (wr_last s <? s_cy (wr_s1 s)) = write_scrolls s).
  { rewrite CY, HL. unfold write_scrolls, wraps. replace (negb (s_cx s <? s_sx s)) with (s_sx s <=? s_cx s) by lia.
    destruct ((s_sx s <=? s_cx s) && fl s F_WRAP); cbn [andb]; lia. }
  assert (HC : s_cx (wr_s1 s) = write_col s).
  { rewrite CX. unfold write_col. replace (s_cx s <? s_sx s) with (negb (s_sx s <=? s_cx s)) by lia.
    destruct (s_sx s <=? s_cx s); reflexivity. }
  apply hist_moved. rewrite Hsc in E2.
  assert (K : hist s s2 (if fl s F_ALT then [] else if write_scrolls s then top_rows s 1 else [])).
  { destruct (write_scrolls s) eqn:E.
    - set (m := moved (wr_s1 s) (s_cx (wr_s1 s)) (wr_last s)) in *.
      assert (IM : Inv0 m) by (apply Inv0_moved; [now apply Inv0_wr_s1| |]; rewrite ?HC, ?HL; unfold write_col in *; try lia;
         destruct (s_cx s <? s_sx s); [|destruct (fl s F_WRAP)]; lia).
      pose proof (env_moved (wr_s1 s) (s_cx (wr_s1 s)) (wr_last s)) as EM. fold m in EM.
      pose proof (hist_up _ _ _ IM E2) as [K1 K2].
      assert (Fm : fl m F_ALT = fl s F_ALT) by (unfold fl; now rewrite (e_flags _ _ EM), (e_flags _ _ EV)).
      rewrite Fm in K1. unfold sb_text in *. rewrite (e_mt _ _ EM), (e_mt _ _ EV), (e_sb _ _ EM), (e_sb _ _ EV), (e_sbmax _ _ EM), (e_sbmax _ _ EV) in *.
      split; [|exact K2]. unfold sb_text. rewrite K1. destruct (fl s F_ALT) eqn:EA; [reflexivity|].
      unfold m. rewrite txt_moved, txt_wr_s1. unfold top_rows. rewrite map_zslice, <- (main_lines s H0 EA). reflexivity.
    - subst s2. rewrite if_nil. apply hist_same; [auto|apply EV|apply EV]. }
  destruct K as [K1 K2]. split; [|exact K2]. exact K1.
Qed.
Lemma hist_write s ch a s' : Inv s -> step s (OWrite ch a) = Ok s' -> hist s s' (off s (OWrite ch a)).
Proof.
  intros H E. unfold off. destruct (scr_width_ok ch) as (w & Ew & Hw). rewrite Ew. destruct (0 <? w) eqn:E0.
  - destruct (hazard_dec s (OWrite ch a)) as [Hz|Hz]; [rewrite (hazard_ub s (OWrite ch a) H I Hz) in E; discriminate|].
    assert (Hf : write_fits s w).
    { intros Hi. pose proof (i_sx _ (proj1 H)). destruct (Z.eq_dec (s_sx s) 1); [|lia]. destruct (Z.eq_dec w 2) as [->|]; [|lia].
      exfalso. apply Hz. split; [exact Hi|]. split; [assumption|exact Ew]. }
    destruct (scr_write_ok s ch a w H Ew ltac:(lia) Hf) as (s1 & E1 & W & _). cbn [step] in E. rewrite E in E1. inversion E1; subst s1.
    apply hist_inc. pose proof (hist_wrote _ _ _ _ _ (Inv_inc s H) W) as K.
    pose proof (frame_inc s) as F.
    assert (G1 : wraps (inc_age s) = wraps s) by (unfold wraps; now rewrite (frame_fl _ _ _ F), inc_cx, inc_sx).
    assert (G2 : floor_row (inc_age s) = floor_row s) by (unfold floor_row; now rewrite (g_mb _ _ F), inc_cy, inc_sy).
    assert (G3 : write_scrolls (inc_age s) = write_scrolls s) by (unfold write_scrolls; now rewrite G1, G2, inc_cy).
    rewrite (frame_fl _ _ _ F), G3, top_rows_inc in K. exact K.
  - assert (w = 0) by lia. subst w. rewrite write_zero_law in E by exact Ew.
    assert (s' = s) by now inversion E. subst s'. apply hist_stay; auto. apply if_nil.
Qed.

(* Resizing. *)
Lemma look_blank_of t a : look (blank_of t a) = blank_glyph a.
Proof. reflexivity. Qed.
Lemma rz_main_text s x y j l : Inv0 s -> 0 < y -> 0 <= j < s_sy s -> znth (s_main s) j = Some l ->
  exists l', znth (rz_main s x y) j = Some l' /\ row_text l' = fit_row s x (row_text l).
Proof.
  intros H Hy Hj El. destruct (i_main _ H) as [W1 W2]. pose proof (Forall_get _ _ _ _ W2 El) as [[W _] _].
  pose proof (i_ln _ H) as Hln. pose proof (i_sx _ H) as Hsx.
  assert (Hr : znth (rz_rows s x y (s_main s)) j = Some l).
  { unfold rz_rows. destruct (s_ln s <? y); [|exact El]. rewrite znth_app. replace (j <? zlen (s_main s)) with true by lia. exact El. }
  set (pad := repeat (blank s) (Z.to_nat (x - zlen (l_cells l)))).
  assert (Hc : exists l1, znth (rz_cols s x (rz_rows s x y (s_main s))) j = Some l1 /\ l_cells l1 = l_cells l ++ pad).
  { unfold rz_cols. destruct (s_sx s <? x) eqn:E.
    - rewrite znth_map, Hr. eexists. split; [reflexivity|]. unfold line_resize, pad.
      destruct (zlen (l_cells l) <? x) eqn:E1; [reflexivity|]. replace (Z.to_nat _) with O by lia. cbn [repeat]. now rewrite app_nil_r.
    - exists l. split; [exact Hr|]. unfold pad. replace (Z.to_nat _) with O by lia. cbn [repeat]. now rewrite app_nil_r. }
  destruct Hc as (l1 & E1 & C1). unfold rz_main, rz_pad_main. rewrite znth_mapi, E1. cbn [option_map].
  eexists. split; [reflexivity|]. replace (j <? s_sy s) with true by lia.
  unfold row_text. cbn [set_cells l_cells]. rewrite C1. unfold fit_row. apply znth_ext'. intros i.
  rewrite znth_map, znth_filled, znth_mapi, !znth_app. rewrite app_length, map_length, znth_map. unfold pad. rewrite repeat_length, !znth_repeat.
  destruct (i <? zlen (l_cells l)) eqn:Ei.
  - destruct (znth (l_cells l) i) as [c|] eqn:Ec; [|destruct (_ && _); reflexivity].
    apply znth_Some_range in Ec. destruct (i <? Z.min (s_sx s) x) eqn:Em.
    + replace (_ && _) with false by lia. reflexivity.
    + replace (_ && _) with true by lia. reflexivity.
  - match goal with |- context [if ?b then Some (blank s) else None] => destruct b eqn:Eb end.
    + replace (_ && _) with true by lia. cbn [option_map]. replace (i <? Z.min (s_sx s) x) with false by lia. reflexivity.
    + clear Eb. cbn [option_map]. match goal with |- context [if ?b then _ else _] => destruct b end; reflexivity.
Qed.
Lemma rz_main_top s x y n : Inv0 s -> 0 < y -> n <= s_sy s ->
  zslice (txt (rz_main s x y)) 0 n = map (fun l => fit_row s x (row_text l)) (zslice (s_main s) 0 n).
Proof.
  intros H Hy Hn. apply znth_ext'. intros j. rewrite znth_map.
  destruct (Z_lt_le_dec j 0) as [Hneg|Hneg]; [now rewrite !znth_neg by lia|]. rewrite !znth_zslice by lia.
  destruct (j <? n) eqn:E; [|reflexivity].
  destruct (i_main _ H) as [W1 W2]. pose proof (i_ln _ H) as Hln.
  destruct (znth_some (s_main s) (0 + j)) as [l El]; [lia|]. rewrite El.
  destruct (rz_main_text s x y (0 + j) l H Hy ltac:(lia) El) as (l' & E' & T).
  unfold txt. rewrite znth_map, E'. cbn [option_map]. now rewrite T.
Qed.
