(* Every screen call, from any consistent screen: defined behaviour unless it
   meets one of two hazards, and a consistent screen again. *)
From Verif Require Import Base BaseProofs Screen ScreenInv ScreenSb ScreenScroll ScreenSpec ScreenOps ScreenMove ScreenCtl ScreenResize.

(* C argument types; sizes up to DIM (the allocator could not serve more). *)
Definition op_args (o : op) : Prop :=
  match o with
  | OResize x y => 0 <= x <= DIM /\ 0 <= y <= DIM
  | OSetMargins a b | OMoveTo a b | OSelStart a b | OSelTarget a b => u32_arg a /\ u32_arg b
  | OSetMaxSb n | OSbUp n | OSbDown n | OSbPageUp n | OSbPageDown n | OSetFlags n | OResetFlags n
  | OScrollUp n | OScrollDown n | OMoveUp n _ | OMoveDown n _ | OMoveLeft n | OMoveRight n
  | OTabRight n | OTabLeft n | OInsLines n | ODelLines n | OInsChars n | ODelChars n
  | OEraseChars n => u32_arg n
  | _ => True
  end.
(* The two hazards: a double width symbol written in insert mode on a one
   column screen; a backward tab with the cursor right of the tab ruler. *)
Definition op_hazard (s : screen) (o : op) : Prop :=
  match o with
  | OWrite ch _ => fl s F_INSERT = true /\ s_sx s = 1 /\ scr_width ch = Ok 2
  | OTabLeft n => n <> 0 /\ zlen (s_tabs s) < s_cx s
  | _ => False
  end.

Lemma write_any_ok s ch a : Inv s -> ~ op_hazard s (OWrite ch a) -> exists s', scr_write s ch a = Ok s' /\ Inv s'.
Proof.
  intros H Hh. destruct (scr_width_ok ch) as (w & Ew & Hw).
  destruct (Z.eq_dec w 0) as [->|Hne].
  - exists s. unfold scr_write. rewrite Ew. auto.
  - assert (Hf : write_fits s w).
    { intros Hi. pose proof (i_sx _ (proj1 H)). destruct (Z_le_gt_dec w (s_sx s)); [auto|]. exfalso. apply Hh.
      cbn. assert (w = 2) by lia. subst w. repeat split; auto; lia. }
    destruct (scr_write_ok s ch a w H Ew ltac:(lia) Hf) as (s' & E & _ & I). eauto.
Qed.

Lemma scroll_call_up s n : Inv s -> 0 < n -> exists s', scroll_up (inc_age s) n = Ok s' /\
  scrolled_up (inc_age s) s' (Z.min n (s_mb s + 1 - s_mt s)) /\ Inv s'.
Proof.
  intros H Hn. pose proof (Inv_inc s H) as (HI & Hx & Hy). incs s.
  destruct (scroll_up_ok (inc_age s) n HI Hn) as (s' & E & P). rewrite INmb, INmt in P.
  exists s'. split; [exact E|]. split; [exact P|]. pose proof (su_env _ _ _ P) as V.
  split; [apply P|]. rewrite (f_cx _ _ V), (f_cy _ _ V), (f_sx _ _ V), (f_sy _ _ V). auto.
Qed.
Lemma scroll_call_down s n : Inv s -> 0 < n -> exists s', scroll_down (inc_age s) n = Ok s' /\
  scrolled_down (inc_age s) s' (Z.min n (s_mb s + 1 - s_mt s)) /\ Inv s'.
Proof.
  intros H Hn. pose proof (Inv_inc s H) as (HI & Hx & Hy). incs s.
  destruct (scroll_down_ok (inc_age s) n HI Hn) as (s' & E & P). rewrite INmb, INmt in P.
  exists s'. split; [exact E|]. split; [exact P|]. pose proof (sd_env _ _ _ P) as V.
  split; [apply P|]. rewrite (f_cx _ _ V), (f_cy _ _ V), (f_sx _ _ V), (f_sy _ _ V). auto.
Qed.
Lemma move_up_any s n b : Inv s -> 0 <= n -> exists s', scr_move_up s n b = Ok s' /\ Inv s'.
Proof.
  intros H Hn. destruct (Z.eq_dec n 0) as [->|Hne]; [exists s; unfold scr_move_up; auto|].
  pose proof (move_up_ok s n b H ltac:(lia)) as M. cbv zeta in M.
  destruct (_ <? _); [destruct b|]; [destruct M as (s1 & _ & E & I)|destruct M as (E & I)..]; eauto.
Qed.
Lemma move_down_any s n b : Inv s -> 0 <= n -> exists s', scr_move_down s n b = Ok s' /\ Inv s'.
Proof.
  intros H Hn. destruct (Z.eq_dec n 0) as [->|Hne]; [exists s; unfold scr_move_down; auto|].
  pose proof (move_down_ok s n b H ltac:(lia)) as M. cbv zeta in M.
  destruct (_ <? _); [destruct b|]; [destruct M as (s1 & _ & E & I)|destruct M as (E & I)..]; eauto.
Qed.
Lemma newline_ok s : Inv s -> exists s', scr_newline s = Ok s' /\ Inv s'.
Proof.
  intros H. unfold scr_newline. destruct (move_down_any (inc_age s) 1 true (Inv_inc s H) ltac:(lia)) as (s1 & E & I).
  rewrite E. cbn [bind]. destruct (line_home_ok s1 I). eauto.
Qed.

Ltac zero n H := destruct (Z.eq_dec n 0) as [->|?]; [eexists; split; [reflexivity|exact H]|].

Lemma step_ok s o : Inv s -> op_args o -> ~ op_hazard s o -> exists s', step s o = Ok s' /\ Inv s'.
Proof.
  intros H Ha Hh. destruct o; cbn [step op_args op_hazard] in *; unfold u32_arg in *.
  - destruct (Z.eq_dec x 0) as [->|]; [exists s; split; [reflexivity|auto]|].
    destruct (Z.eq_dec y 0) as [->|]; [exists s; unfold scr_resize; replace (_ || _) with true by lia; auto|].
    destruct (Z.eq_dec (s_sx s) x) as [Ex|Nx]; [destruct (Z.eq_dec (s_sy s) y) as [Ey|Ny]|].
    + exists s. unfold scr_resize. replace ((x =? 0) || _) with false by lia. replace (_ && _) with true by lia. auto.
    + destruct (resize_ok s x y H ltac:(lia) ltac:(lia) ltac:(auto)) as (s' & E & _ & I). rewrite E. cbn. eauto.
    + destruct (resize_ok s x y H ltac:(lia) ltac:(lia) ltac:(auto)) as (s' & E & _ & I). rewrite E. cbn. eauto.
  - destruct Ha. destruct (set_margins_ok s t b H) as [_ I]; auto. eauto.
  - destruct (set_max_sb_ok s n H Ha) as (s1 & _ & E & I). eauto.
  - exists (scr_clear_sb s). split; [reflexivity|]. now apply clear_sb_ok.
  - zero n H. destruct (sb_up_ok s n H ltac:(lia)) as (pn & E & I). eauto.
  - zero n H. destruct (sb_down_ok s n H ltac:(lia)) as (pn & E & I). eauto.
  - unfold scr_sb_page_up. zero n H. replace (n =? 0) with false by lia. cbv zeta.
    pose proof (u32_range (n * s_sy (inc_age s))) as R. pose proof (Inv_inc s H) as HI.
    set (m := u32 (n * s_sy (inc_age s))) in *. clearbody m. zero m HI.
    destruct (sb_up_ok (inc_age s) m HI ltac:(lia)) as (pn & E & I). eauto.
  - unfold scr_sb_page_down. zero n H. replace (n =? 0) with false by lia. cbv zeta.
    pose proof (u32_range (n * s_sy (inc_age s))) as R. pose proof (Inv_inc s H) as HI.
    set (m := u32 (n * s_sy (inc_age s))) in *. clearbody m. zero m HI.
    destruct (sb_down_ok (inc_age s) m HI ltac:(lia)) as (pn & E & I). eauto.
  - exists (scr_sb_reset s). split; [reflexivity|]. now apply sb_reset_ok.
  - exists (scr_set_def_attr s a). split; [reflexivity|]. now apply set_def_attr_ok.
  - destruct (reset_ok s H). eauto.
  - zero f H. destruct (set_flags_ok s f H ltac:(lia)). eauto.
  - zero f H. destruct (reset_flags_ok s f H ltac:(lia)). eauto.
  - destruct (tabstop_ok true s H). eauto.
  - destruct (tabstop_ok false s H). eauto.
  - destruct (reset_all_tabstops_ok s H). eauto.
  - now apply write_any_ok.
  - now apply newline_ok.
  - unfold scr_scroll_up. zero n H. replace (n =? 0) with false by lia.
    destruct (scroll_call_up s n H ltac:(lia)) as (s' & E & _ & I). eauto.
  - unfold scr_scroll_down. zero n H. replace (n =? 0) with false by lia.
    destruct (scroll_call_down s n H ltac:(lia)) as (s' & E & _ & I). eauto.
  - destruct (move_to_ok s x y H ltac:(lia) ltac:(lia)). eauto.
  - apply move_up_any; auto; lia.
  - apply move_down_any; auto; lia.
  - zero n H. destruct (move_left_ok s n H ltac:(lia)). eauto.
  - zero n H. destruct (move_right_ok s n H ltac:(lia)). eauto.
  - destruct (line_end_ok s H). eauto.
  - destruct (line_home_ok s H). eauto.
  - zero n H. destruct (tab_right_ok s n H ltac:(lia)) as (x & E & I & _). eauto.
  - zero n H. destruct (tab_left_ok s n H ltac:(lia)) as (x & E & I & _); [unfold tab_fits; lia|]. eauto.
  - zero n H. destruct ((s_cy s <? s_mt s) || (s_mb s <? s_cy s)) eqn:E.
    + exists s. unfold scr_insert_lines. replace (n =? 0) with false by lia. rewrite E. auto.
    + destruct (insert_lines_ok s n H ltac:(lia) ltac:(lia)) as (ls' & E' & I & _). eauto.
  - zero n H. destruct ((s_cy s <? s_mt s) || (s_mb s <? s_cy s)) eqn:E.
    + exists s. unfold scr_delete_lines. replace (n =? 0) with false by lia. rewrite E. auto.
    + destruct (delete_lines_ok s n H ltac:(lia) ltac:(lia)) as (ls' & E' & I & _). eauto.
  - zero n H. destruct (insert_chars_ok s n H ltac:(lia)). eauto.
  - zero n H. destruct (delete_chars_ok s n H ltac:(lia)). eauto.
  - destruct (erase_cursor_ok s H). eauto.
  - zero n H. destruct (erase_chars_ok s n H ltac:(lia)). eauto.
  - destruct (erase_to_end_ok s p H). eauto.
  - destruct (erase_home_ok s p H). eauto.
  - destruct (erase_line_ok s p H). eauto.
  - destruct (erase_screen_to_cursor_ok s p H). eauto.
  - destruct (erase_cursor_to_screen_ok s p H). eauto.
  - destruct (erase_screen_ok s p H). eauto.
  - exists (scr_sel_reset s). split; [reflexivity|]. now apply sel_reset_ok.
  - destruct (sel_start_ok s x y H ltac:(lia)). eauto.
  - destruct (sel_target_ok s x y H ltac:(lia)). eauto.
Qed.

(* The hazards are real: each ends in undefined behaviour. *)
Lemma write_wide_ub s x y ch a : Inv0 s -> fl s F_INSERT = true -> s_sx s = 1 -> 0 <= x < 1 -> 0 <= y < s_sy s ->
  screen_write s x y ch 2 a = Ub.
Proof.
  intros H Hf Hs Hx Hy. pose proof H as H0. inv0 H0. unfold screen_write.
  replace (2 =? 0) with false by lia. replace ((_ <=? x) || _) with false by lia.
  destruct (inv_row s y H ltac:(lia)) as (l & El & [W _]). unfold upd_line, zmodm, zget. rewrite El. cbn [bind].
  rewrite Hf, Hs. replace x with 0 by lia. change (u32 0) with 0. change (u32 (1 - 2)) with 4294967295.
  change (u32 (1 - 2 - 0)) with 4294967295. change (u32 (0 + 2)) with 2.
  replace (true && (0 <? 4294967295)) with true by reflexivity. unfold DIM in W.
  unfold zmove.
  match goal with |- context [if ?b then _ else _] => destruct b eqn:E end; [lia|reflexivity].
Qed.

Lemma write_hazard_ub s ch a : Inv s -> op_hazard s (OWrite ch a) -> scr_write s ch a = Ub.
Proof.
  intros HI (Hf & Hs & Ew). unfold scr_write. rewrite Ew. cbn [bind]. replace (2 =? 0) with false by lia.
  pose proof (Inv_inc s HI) as HI1.
  rewrite <- (frame_fl _ _ _ (frame_inc s)) in Hf. rewrite <- (g_sx _ _ (frame_inc s)) in Hs.
  clear HI Ew. set (s0 := inc_age s) in *. clearbody s0. clear s.
  destruct HI1 as (H & Hcx & Hcy). pose proof H as H0. inv0 H0. unfold DIM in *.
  replace (if (s_cy s0 <=? s_mb s0) || (s_sy s0 <=? s_cy s0) then s_mb s0 else u32 (s_sy s0 - 1)) with (wr_last s0).
  2:{ unfold wr_last. rewrite u32_small by lia. replace (s_sy s0 <=? s_cy s0) with false by lia. now rewrite orb_false_r. }
  assert (E1 : (if s_sx s0 <=? s_cx s0
       then if fl s0 F_WRAP then move_cursor s0 0 (u32 (s_cy s0 + 1)) else move_cursor s0 (u32 (s_sx s0 - 1)) (s_cy s0)
       else Ok s0) = Ok (wr_s1 s0)).
  { unfold wr_s1. rewrite !u32_small by lia. destruct (s_sx s0 <=? s_cx s0); auto.
    destruct (fl s0 F_WRAP); apply move_cursor_ok; auto; lia. }
  rewrite E1. cbn [bind]. pose proof (Inv0_wr_s1 s0 H) as HS1. pose proof (env_wr_s1 s0) as ES1.
  pose proof (wr_s1_cx s0) as CX1. pose proof (wr_s1_cy s0) as CY1.
  assert (Hl : 0 <= wr_last s0 < s_sy s0 /\ (s_cy s0 <= wr_last s0)).
  { unfold wr_last. destruct (s_cy s0 <=? s_mb s0) eqn:E; lia. }
  assert (Hx1 : 0 <= s_cx (wr_s1 s0) < s_sx s0).
  { rewrite CX1. destruct (s_sx s0 <=? s_cx s0) eqn:E; [destruct (fl s0 F_WRAP)|]; lia. }
  assert (exists s2, (if wr_last s0 <? s_cy (wr_s1 s0)
              then do s' <- move_cursor (wr_s1 s0) (s_cx (wr_s1 s0)) (wr_last s0); scroll_up s' 1
              else Ok (wr_s1 s0)) = Ok s2 /\
    Inv0 s2 /\ 0 <= s_cx s2 < s_sx s2 /\ 0 <= s_cy s2 < s_sy s2 /\ s_flags s2 = s_flags s0 /\ s_sx s2 = s_sx s0)
    as (s2 & E2 & I2 & X2 & Y2 & F2 & SX2).
  { destruct (wr_last s0 <? s_cy (wr_s1 s0)) eqn:E.
    - rewrite move_cursor_ok by (auto; lia). cbn [bind].
      assert (HM : Inv0 (moved (wr_s1 s0) (s_cx (wr_s1 s0)) (wr_last s0))) by (apply Inv0_moved; auto; lia).
      destruct (scroll_up_ok _ 1 HM ltac:(lia)) as (s2 & E2 & P2).
      exists s2. split; [exact E2|]. split; [apply P2|].
      pose proof (su_env _ _ _ P2) as PE. pose proof (env_moved (wr_s1 s0) (s_cx (wr_s1 s0)) (wr_last s0)) as EM.
      rewrite (f_cx _ _ PE), (f_cy _ _ PE), (f_sx _ _ PE), (f_sy _ _ PE), (f_flags _ _ PE), moved_cx, moved_cy.
      rewrite (e_sx _ _ EM), (e_sy _ _ EM), (e_flags _ _ EM), (e_sx _ _ ES1), (e_sy _ _ ES1), (e_flags _ _ ES1).
      repeat split; lia.
    - exists (wr_s1 s0). split; [reflexivity|]. split; [exact HS1|].
      rewrite (e_sx _ _ ES1), (e_sy _ _ ES1), (e_flags _ _ ES1). pose proof (i_cy _ HS1). repeat split; lia. }
  rewrite E2. cbn [bind]. rewrite write_wide_ub; auto; try lia. unfold fl in *. rewrite F2. exact Hf.
Qed.

Lemma hazard_ub s o : Inv s -> op_args o -> op_hazard s o -> step s o = Ub.
Proof.
  intros H Ha Hh. destruct o; cbn [op_hazard] in Hh; try contradiction; cbn [step op_args] in *.
  - now apply write_hazard_ub.
  - unfold u32_arg in Ha. apply tab_left_ub; auto; [lia|]. unfold tab_fits. lia.
Qed.
Lemma hazard_dec s o : op_hazard s o \/ ~ op_hazard s o.
Proof.
  destruct o; cbn; auto.
  - destruct (scr_width_ok ch) as (w & E & _). rewrite E.
    destruct (fl s F_INSERT); [|right; intros (A & _); discriminate].
    destruct (Z.eq_dec (s_sx s) 1); [|right; tauto]. destruct (Z.eq_dec w 2) as [->|]; [left; auto|].
    right. intros (_ & _ & A). inversion A. contradiction.
  - destruct (Z.eq_dec n 0); [right; tauto|]. destruct (Z_lt_le_dec (zlen (s_tabs s)) (s_cx s)); [left; auto|right; lia].
Qed.
Lemma step_Inv s o s' : Inv s -> op_args o -> step s o = Ok s' -> Inv s'.
Proof.
  intros H Ha E. destruct (hazard_dec s o) as [D|D].
  - rewrite (hazard_ub s o H Ha D) in E. discriminate.
  - destruct (step_ok s o H Ha D) as (s2 & E2 & I2). rewrite E in E2. inversion E2. now subst.
Qed.
Lemma run_Inv ops : forall s s', Inv s -> Forall op_args ops -> run s ops = Ok s' -> Inv s'.
Proof.
  induction ops as [|o r IH]; intros s s' H Ha E; cbn [run] in E; [inversion E; now subst|].
  apply Forall_cons_iff in Ha as [Ha1 Ha2]. destruct (step s o) as [s1|] eqn:E1; [|discriminate]. cbn [bind] in E.
  apply (IH s1 s'); auto. now apply (step_Inv s o).
Qed.

Lemma run_app ops1 ops2 s : run s (ops1 ++ ops2) = do s' <- run s ops1; run s' ops2.
Proof.
  revert s. induction ops1 as [|o r IH]; intros s; cbn [run app bind]; [reflexivity|].
  destruct (step s o); cbn [bind]; auto.
Qed.

(* A run ends in undefined behaviour exactly if it comes upon a hazard. *)
Lemma run_ub ops : forall s, Inv s -> Forall op_args ops ->
  (run s ops = Ub <->
  exists pre o post s1, ops = pre ++ o :: post /\ run s pre = Ok s1 /\ op_hazard s1 o).
Proof.
  induction ops as [|o r IH]; intros s H Ha.
  - split; [discriminate|]. intros (pre & o & post & s1 & E & _). now destruct pre.
  - apply Forall_cons_iff in Ha as [Ha1 Ha2]. cbn [run].
    destruct (hazard_dec s o) as [D|D].
    + rewrite (hazard_ub s o H Ha1 D). split; [|reflexivity]. intros _. exists [], o, r, s. auto.
    + destruct (step_ok s o H Ha1 D) as (s1 & E1 & I1). rewrite E1. cbn [bind]. rewrite (IH s1 I1 Ha2).
      split; intros (pre & o' & post & s2 & E & R & Hz).
      * exists (o :: pre), o', post, s2. subst r. cbn [app run]. rewrite E1. auto.
      * destruct pre as [|o1 pre]; cbn [app run] in *; inversion E; subst.
        { inversion R; subst. contradiction. }
        rewrite E1 in R. cbn [bind] in R. exists pre, o', post, s2. auto.
Qed.

(* All screens a client can have. *)
Definition reachable (s : screen) : Prop := exists ops, Forall op_args ops /\ run scr_init ops = Ok s.
Lemma reachable_Inv s : reachable s -> Inv s.
Proof. intros (ops & Ha & E). eapply run_Inv; eauto. apply scr_init_Inv. Qed.
Lemma reachable_step s o s' : reachable s -> op_args o -> step s o = Ok s' -> reachable s'.
Proof.
  intros (ops & Ha & E) Ho Es. exists (ops ++ [o]). split; [apply Forall_app; auto|].
  rewrite run_app, E. cbn [bind run]. rewrite Es. reflexivity.
Qed.
