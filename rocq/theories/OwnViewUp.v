(* The pointers of the view and of the selection in the calls that scroll. *)
From Verif Require Import Base BaseProofs Screen ScreenInv ScreenSb ScreenScroll ScreenSpec ScreenOps ScreenMove ScreenCtl ScreenResize ScreenSafe ScreenHist ScreenThms Own OwnSpec OwnProofs OwnRows OwnThms OwnCalls OwnCallThms OwnView OwnViewCalls.
From Coq Require Import Permutation.

Lemma forward_unique h A : forall p B, forward h p A -> forward h p B -> ~ In 0 A -> ~ In 0 B -> A = B.
Proof.
  induction A as [|a A IH]; intros p [|b B] FA FB NA NB; cbn [forward In] in *; [reflexivity| | |].
  - destruct FB as [X _]. exfalso. apply NB. left. congruence.
  - destruct FA as [X _]. exfalso. apply NA. left. congruence.
  - destruct FA as (XA & o & GA & FA). destruct FB as (XB & o' & GB & FB). assert (XX : a = b) by congruence. subst b. assert (o' = o) by congruence. subst o'. f_equal; [congruence|]. apply (IH (o_next o)); tauto.
Qed.
Lemma well_unique w sb sb' : well w sb -> well w sb' -> sb = sb'.
Proof.
  intros W W'. apply (forward_unique (w_heap w) sb (w_first w) sb'); [apply W|apply W'| |].
  - intros X. apply (wl_null _ _ W). apply (Permutation_in _ (Permutation_sym (wl_alive _ _ W))). rewrite !in_app_iff. auto.
  - intros X. apply (wl_null _ _ W'). apply (Permutation_in _ (Permutation_sym (wl_alive _ _ W'))). rewrite !in_app_iff. auto.
Qed.

(* -- up ----------------------------------------------------------------------------------------------------- *)
(* s' is s scrolled up by n between the rows mt and mb, but for what neither view nor selection depend on. *)
Definition went_up (s : screen) (mt mb n : Z) (s' : screen) : Prop :=
  exists t t', Inv0 t /\ vw t = vw s /\ s_mt t = mt /\ s_mb t = mb /\ fl t F_ALT = fl s F_ALT /\ fl t F_FIXED = fl s F_FIXED /\ scroll_up t n = Ok t' /\ vw s' = vw t'.
Lemma up_follows al s mt mb n s' w sb w' sb' : well w sb -> follows s w sb -> mb < zlen (w_main w) -> 0 <= n -> fair al -> plenty al -> went_up s mt mb n s' ->
  wstep w (WUp (fl s F_ALT) (fl s F_FIXED) mt mb n al) = Ok w' -> well w' sb' -> follows s' w' sb'.
Proof.
  intros W F HB HN FA PL (t & t' & H & V & <- & <- & FL1 & FL2 & E & V') EW W'. pose proof H as H0. inv0 H0. unfold DIM in *.
  destruct (step_well w sb (WUp (fl s F_ALT) (fl s F_FIXED) (s_mt t) (s_mb t) n al) W) as (w1 & sb1 & E1 & W1 & MX & G & RB & GA & SB); [cbn [in_range]; repeat match goal with |- _ /\ _ => split end; auto; lia|].
  assert (XW : w1 = w') by congruence. subst w1. rewrite <- (well_unique _ _ _ W1 W'). clear sb' W'. destruct RB as (A & R & R' & B & ER & LA & LR & (C & EX & ER' & GP) & _).
  assert (EG : G = pushes (fl t F_ALT) (Z.min n (s_mb t + 1 - s_mt t)) R) by (unfold pushes; rewrite FL1; destruct (fl s F_ALT); auto).
  rewrite SB, EG. apply (follows_vw t'); [exact V'|].
  unfold scroll_up in E. rewrite u32_small in E by lia. cbn [wstep] in EW. unfold up_fuel in EW. rewrite <- FL1, <- FL2 in EW.
  apply (up_rec_sim (Z.to_nat (Z.min n (s_mb t + 1 - s_mt t) / 128)) al 0 t w sb A R B n H (well_inv _ _ W) ER LA LR FA PL (follows_vw _ _ _ _ V F) HN); auto. lia.
Qed.
Lemma scroll_up_0 s : scroll_up s 0 = Ok s.
Proof. unfold scroll_up. destruct (Z.to_nat _); reflexivity. Qed.
Lemma scroll_up_cap s n : Inv0 s -> 0 <= n -> scroll_up s (Z.min n (s_mb s + 1 - s_mt s)) = scroll_up s n.
Proof.
  intros H HN. inv0 H. unfold DIM in *. unfold scroll_up. rewrite u32_small by lia. set (r := s_mb s + 1 - s_mt s) in *. replace (Z.min (Z.min n r) r) with (Z.min n r) by lia.
  assert (EZ : (Z.min n r =? 0) = (n =? 0)) by (destruct (Z.eqb_spec n 0), (Z.eqb_spec (Z.min n r) 0); try lia; reflexivity).
  assert (EC : (if r <? Z.min n r then r else Z.min n r) = (if r <? n then r else n)) by (destruct (Z.ltb_spec r n), (Z.ltb_spec r (Z.min n r)); lia).
  destruct (Z.to_nat (Z.min n r / 128)); cbn [scroll_up_rec]; rewrite EZ; destruct (n =? 0); try reflexivity; cbv zeta; change (s_mb (age_all s)) with (s_mb s); change (s_mt (age_all s)) with (s_mt s); rewrite (u32_small (s_mb s + 1 - s_mt s)) by lia; fold r; rewrite EC; reflexivity.
Qed.
Lemma vw_moved s x y : Inv0 s -> 0 <= x -> 0 <= y -> vw (moved s x y) = vw s.
Proof. intros H HX HY. apply (vw_move s x y). now apply move_cursor_ok. Qed.
Lemma up_scroll s n s' : Inv0 s -> step s (OScrollUp n) = Ok s' -> went_up s (s_mt s) (s_mb s) n s'.
Proof.
  intros H E. cbn [step] in E. unfold scr_scroll_up in E. destruct (Z.eqb_spec n 0) as [->|N].
  - apply ok_inj in E. exists s, s. rewrite E, scroll_up_0. auto 10.
  - exists (inc_age s), s'. pose proof (frame_inc s) as FI. rewrite vw_inc, !(frame_fl _ _ _ FI), (g_mt _ _ FI), (g_mb _ _ FI). auto 10 using Inv0_inc.
Qed.
Lemma up_move_down s n s' : Inv s -> 0 <= n -> scr_move_down s n true = Ok s' -> went_up s (s_mt s) (s_mb s) (over_down s n) s' /\ s_cx s' = s_cx s.
Proof.
  intros (H & Hcx & Hcy) HN E. pose proof H as H0. inv0 H0. unfold DIM in *. pose proof (frame_inc s) as FI. pose proof (Inv0_inc s H) as HI. unfold scr_move_down in E.
  assert (ID : forall t, vw t = vw s -> went_up s (s_mt s) (s_mb s) 0 t) by (intros t V; exists s, s; rewrite scroll_up_0; auto 10).
  destruct (Z.eqb_spec n 0) as [->|N].
  - apply ok_inj in E. rewrite E. split; [|reflexivity]. replace (over_down s 0) with 0; [auto|]. unfold over_down, floor_row, region. destruct (s_cy s <=? s_mb s) eqn:C; lia.
  - cbv zeta in E. incs s. rewrite INmb, INcy, INcx, INsy in E.
    assert (Ht : s_cy s <= floor_row s < s_sy s) by (unfold floor_row; destruct (s_cy s <=? s_mb s) eqn:C; lia).
    replace (if s_cy s <=? s_mb s then u32 (s_mb s + 1) else s_sy s) with (floor_row s + 1) in E by (unfold floor_row; rewrite u32_small by lia; destruct (s_cy s <=? s_mb s); lia).
    replace (floor_row s + 1 - s_cy s - 1) with (floor_row s - s_cy s) in E by lia. replace (floor_row s + 1 - 1) with (floor_row s) in E by lia.
    rewrite (u32_small (floor_row s - s_cy s)), (u32_small (floor_row s)) in E by lia.
    destruct (Z.ltb_spec (floor_row s - s_cy s) n) as [LT|GE].
    + destruct (scroll_up (inc_age s) (n - (floor_row s - s_cy s))) as [t|] eqn:ES; [|discriminate]. cbn [bind] in E. pose proof (vw_move _ _ _ _ E) as V.
      destruct (scroll_up_ok (inc_age s) (n - (floor_row s - s_cy s)) HI ltac:(lia)) as (t1 & E1 & P1). assert (XT : t1 = t) by congruence. subst t1.
      split.
      * exists (inc_age s), t. rewrite vw_inc, !(frame_fl _ _ _ FI), (g_mt _ _ FI), (g_mb _ _ FI). repeat match goal with |- _ /\ _ => split end; auto.
        rewrite <- ES. rewrite <- (scroll_up_cap (inc_age s) (n - (floor_row s - s_cy s)) HI) by lia. rewrite INmb, INmt. f_equal. unfold over_down, region. lia.
      * rewrite move_cursor_ok in E; [|apply P1|rewrite (f_cx _ _ (su_env _ _ _ P1)), INcx; lia|lia]. apply ok_inj in E. rewrite E, moved_cx, (f_cx _ _ (su_env _ _ _ P1)). exact INcx.
    + rewrite (u32_small (s_cy s + n)) in E by lia. split; [|rewrite move_cursor_ok in E by (auto; lia); apply ok_inj in E; rewrite E; apply moved_cx].
      replace (over_down s n) with 0 by (unfold over_down, region; lia). apply ID. rewrite (vw_move _ _ _ _ E). apply vw_inc.
Qed.
Lemma went_then s mt mb n s1 s' : went_up s mt mb n s1 -> vw s' = vw s1 -> went_up s mt mb n s'.
Proof. intros (t & t' & H & V & M1 & M2 & F1 & F2 & E & V') X. exists t, t'. rewrite X. auto 10. Qed.
Lemma up_newline s s' : Inv s -> step s ONewline = Ok s' -> went_up s (s_mt s) (s_mb s) (over_down s 1) s'.
Proof.
  intros H E. cbn [step] in E. unfold scr_newline in E. destruct (scr_move_down (inc_age s) 1 true) as [t|] eqn:E1; [|discriminate]. cbn [bind] in E.
  apply vw_line_home in E. apply (went_then s (s_mt s) (s_mb s) (over_down s 1) t s'); [|exact E].
  destruct (up_move_down (inc_age s) 1 t (Inv_inc s H) ltac:(lia) E1) as [(u & u' & J & V & M1 & M2 & F1 & F2 & EU & V') _]. pose proof (frame_inc s) as FI.
  rewrite (g_mt _ _ FI) in M1. rewrite (g_mb _ _ FI) in M2. rewrite (frame_fl _ _ _ FI) in F1. rewrite (frame_fl _ _ _ FI) in F2. rewrite vw_inc in V. incs s.
  assert (EO : over_down (inc_age s) 1 = over_down s 1) by (unfold over_down, floor_row, region; now rewrite INmt, INmb, INcy, INsy). rewrite EO in EU. exists u, u'. auto 10.
Qed.
Lemma env_fl s s' n : same_env s s' -> fl s' n = fl s n.
Proof. intros E. unfold fl. now rewrite (e_flags _ _ E). Qed.
Lemma up_write s ch a len s' : Inv s -> scr_width ch = Ok len -> 0 <= len -> scr_write s ch a = Ok s' -> went_up s (s_mt s) (s_mb s) (if (0 <? len) && write_scrolls s then 1 else 0) s'.
Proof.
  intros HI EW HL E. unfold scr_write in E. rewrite EW in E. cbn [bind] in E.
  assert (ID : forall t, vw t = vw s -> went_up s (s_mt s) (s_mb s) 0 t) by (intros t V; exists s, s; rewrite scroll_up_0; destruct HI; auto 10).
  destruct (Z.eqb_spec len 0) as [->|NL]; [apply ok_inj in E; rewrite E; now apply ID|]. replace (0 <? len) with true by lia. cbn [andb].
  pose proof (Inv_inc s HI) as HI1. pose proof (frame_inc s) as FI. assert (WS : write_scrolls (inc_age s) = write_scrolls s).
  { unfold write_scrolls, wraps, floor_row. now rewrite (frame_fl _ _ _ FI), (g_sx _ _ FI), (g_sy _ _ FI), (g_mb _ _ FI), inc_cx, inc_cy. }
  assert (GO : went_up (inc_age s) (s_mt s) (s_mb s) (if write_scrolls s then 1 else 0) s').
  2: { destruct GO as (u & u' & J & V & M1 & M2 & F1 & F2 & EU & V'). rewrite (frame_fl _ _ _ FI) in F1. rewrite (frame_fl _ _ _ FI) in F2. rewrite vw_inc in V. exists u, u'. auto 10. }
  rewrite <- WS, <- (g_mt _ _ FI), <- (g_mb _ _ FI). clear ID WS FI HI. set (s0 := inc_age s) in *. clearbody s0. clear s.
  destruct HI1 as (H & Hcx & Hcy). pose proof H as H0. inv0 H0. unfold DIM in *. cbv zeta in E.
  replace (if (s_cy s0 <=? s_mb s0) || (s_sy s0 <=? s_cy s0) then s_mb s0 else u32 (s_sy s0 - 1)) with (wr_last s0) in E.
  2:{ unfold wr_last. rewrite u32_small by lia. replace (s_sy s0 <=? s_cy s0) with false by lia. now rewrite orb_false_r. }
  assert (E1 : (if s_sx s0 <=? s_cx s0
       then if fl s0 F_WRAP then move_cursor s0 0 (u32 (s_cy s0 + 1)) else move_cursor s0 (u32 (s_sx s0 - 1)) (s_cy s0)
       else Ok s0) = Ok (wr_s1 s0)).
  { unfold wr_s1. rewrite !u32_small by lia. destruct (s_sx s0 <=? s_cx s0); auto. destruct (fl s0 F_WRAP); apply move_cursor_ok; auto; lia. }
  rewrite E1 in E. cbn [bind] in E. pose proof (Inv0_wr_s1 s0 H) as HS1. pose proof (env_wr_s1 s0) as ES1. pose proof (wr_s1_cx s0) as CX1. pose proof (wr_s1_cy s0) as CY1.
  assert (V1 : vw (wr_s1 s0) = vw s0).
  { unfold wr_s1. destruct (s_sx s0 <=? s_cx s0); [|reflexivity]. destruct (fl s0 F_WRAP); apply vw_moved; auto; lia. }
  assert (Hl : 0 <= wr_last s0 < s_sy s0 /\ s_cy s0 <= wr_last s0) by (unfold wr_last; destruct (s_cy s0 <=? s_mb s0) eqn:C; lia).
  assert (Hx1 : 0 <= s_cx (wr_s1 s0)) by (rewrite CX1; destruct (s_sx s0 <=? s_cx s0); [destruct (fl s0 F_WRAP)|]; lia).
  assert (WS : (wr_last s0 <? s_cy (wr_s1 s0)) = write_scrolls s0).
  { unfold write_scrolls, wraps. change (floor_row s0) with (wr_last s0). rewrite CY1, Z.leb_antisym. destruct (s_cx s0 <? s_sx s0), (fl s0 F_WRAP); cbn [andb negb]; lia. }
  rewrite WS in E. destruct (write_scrolls s0).
  - rewrite move_cursor_ok in E by (auto; lia). cbn [bind] in E. destruct (scroll_up (moved (wr_s1 s0) (s_cx (wr_s1 s0)) (wr_last s0)) 1) as [t|] eqn:ES; [|discriminate]. cbn [bind] in E.
    destruct (screen_write t (s_cx t) (s_cy t) ch len a) as [t1|] eqn:E2; [|discriminate]. cbn [bind] in E. apply vw_move in E. apply vw_write in E2.
    pose proof (env_moved (wr_s1 s0) (s_cx (wr_s1 s0)) (wr_last s0)) as EM. pose proof (same_env_trans _ _ _ ES1 EM) as EV.
    exists (moved (wr_s1 s0) (s_cx (wr_s1 s0)) (wr_last s0)), t. rewrite vw_moved, !(env_fl _ _ _ EV), (e_mt _ _ EV), (e_mb _ _ EV), E, E2 by (auto; lia). repeat match goal with |- _ /\ _ => split end; auto. apply Inv0_moved; auto; lia.
  - cbn [bind] in E. destruct (screen_write _ _ _ ch len a) as [t1|] eqn:E2; [|discriminate]. cbn [bind] in E. apply vw_move in E. apply vw_write in E2.
    exists s0, s0. rewrite scroll_up_0, E, E2. auto 10.
Qed.
Lemma vw_rz_wide s x y : vw (rz_wide s x y) = vw s.
Proof. unfold rz_wide. generalize (rz_tabs s x) (rz_main s x y) (rz_alt s x y). intros tt mm aa. rewrite inc_age_eq. reflexivity. Qed.
Lemma fl_rz_wide s x y n : fl (rz_wide s x y) n = fl s n.
Proof. unfold rz_wide. generalize (rz_tabs s x) (rz_main s x y) (rz_alt s x y). intros tt mm aa. rewrite inc_age_eq. reflexivity. Qed.
(* The last steps of a resize (tsm-screen.c:722-745). *)
Definition rz_end (s7 : screen) (y : Z) : res (screen * Z) :=
  do s8 <- (if y <? s_sy s7 then
              let diff := s_sy s7 - y in
              do s' <- scroll_up s7 diff;
              if diff <? s_cy s' then move_cursor s' (s_cx s') (s_cy s' - diff)
              else move_cursor s' (s_cx s') 0
            else Ok s7);
  let s9 := set_mb (set_sy s8 y) (u32 (y - 1)) in
  do s10 <- (if s_sy s9 <=? s_cy s9 then move_cursor s9 (s_cx s9) (u32 (s_sy s9 - 1)) else Ok s9);
  Ok (s10, 0).
Lemma rz_end_ok s x y : Inv s -> 0 < x <= DIM -> 0 < y <= DIM -> (s_sx s <> x \/ s_sy s <> y) ->
  exists s7, scr_resize s x y = rz_end s7 y /\ Inv0 s7 /\ vw s7 = vw s /\ s_mt s7 = 0 /\ s_mb s7 = s_sy s - 1 /\ s_sy s7 = s_sy s /\ fl s7 F_ALT = fl s F_ALT /\ fl s7 F_FIXED = fl s F_FIXED.
Proof.
  intros (H & Hcx & Hcy) Hx Hy Hne. pose proof H as H0. inv0 H0. unfold scr_resize.
  replace ((x =? 0) || (y =? 0)) with false by lia. replace (_ && _) with false by lia.
  rewrite grow_y_eq. cbv zeta. rewrite grow_x_eq by (auto; lia). cbn [bind]. rewrite clear_eq by (auto; lia). cbn [bind].
  destruct (rz_s4_fields s x y) as [F FT0].
  rewrite F. rewrite (u32_small (s_sy s - 1)) by (unfold DIM in *; lia).
  rewrite set_mtb, FT0.
  unfold reset_tabs. rewrite (tabs_upto_ok _ (fun i => i mod 8 =? 0)) by (apply rz_tabs0_len; auto; lia).
  cbn [bind]. rewrite rz_wide_eq. pose proof (rz_wide_Inv0 s x y H Hx Hy) as IW.
  destruct (rz_wide_fields s x y) as (W1 & W2 & W3 & W4 & W5 & W6 & W7). pose proof (vw_rz_wide s x y) as VW. pose proof (fl_rz_wide s x y F_ALT) as FA. pose proof (fl_rz_wide s x y F_FIXED) as FF.
  set (w := rz_wide s x y) in *. clearbody w.
  rewrite W1, W2, W3.
  set (s7 := if x <=? s_cx s then moved w (x - 1) (s_cy s) else w) in *.
  assert (E7 : (if x <=? s_cx s then move_cursor (w) (u32 (x - 1)) (s_cy s) else Ok (w)) = Ok (s7)).
  { unfold s7. destruct (x <=? s_cx s); [|reflexivity]. rewrite u32_small by (unfold DIM in *; lia).
    apply move_cursor_ok; auto; lia. }
  rewrite E7. cbn [bind].
  assert (I7 : Inv0 s7) by (unfold s7; destruct (x <=? s_cx s); [apply Inv0_moved; auto; lia|auto]).
  assert (V7 : same_env w s7) by (unfold s7; destruct (x <=? s_cx s); [apply env_moved|apply same_env_refl]).
  assert (VV : vw s7 = vw s) by (rewrite <- VW; unfold s7; destruct (x <=? s_cx s); [apply vw_moved; auto; lia|reflexivity]).
  clearbody s7. exists s7. split; [reflexivity|]. rewrite !(env_fl _ _ _ V7), (e_mt _ _ V7), (e_mb _ _ V7), (e_sy _ _ V7), FA, FF, W5, W6, W4. auto 10.
Qed.
Lemma rz_end_vw s7 y s' z : rz_end s7 y = Ok (s', z) -> exists t', scroll_up s7 (Z.max 0 (s_sy s7 - y)) = Ok t' /\ vw s' = vw t'.
Proof.
  unfold rz_end. intros E.
  destruct (Z.ltb_spec y (s_sy s7)) as [LT|GE].
  - replace (Z.max 0 (s_sy s7 - y)) with (s_sy s7 - y) by lia. cbv zeta in E. destruct (scroll_up s7 (s_sy s7 - y)) as [t|]; [|discriminate]. cbn [bind] in E.
    destruct (if s_sy s7 - y <? s_cy t then move_cursor t (s_cx t) (s_cy t - (s_sy s7 - y)) else move_cursor t (s_cx t) 0) as [t8|] eqn:E8; [|discriminate]. cbn [bind] in E.
    assert (V8 : vw t8 = vw t) by (destruct (s_sy s7 - y <? s_cy t); now apply vw_move in E8).
    match type of E with (do _ <- ?e; _) = _ => destruct e as [t9|] eqn:E9; [|discriminate] end. cbn [bind] in E. exists t. split; [reflexivity|]. rewrite <- V8.
    assert (X : s' = t9) by congruence. rewrite X. destruct (_ <=? _) in E9; [apply vw_move in E9; rewrite E9, vw_set_mb, vw_set_sy; reflexivity|apply ok_inj in E9; rewrite E9, vw_set_mb, vw_set_sy; reflexivity].
  - replace (Z.max 0 (s_sy s7 - y)) with 0 by lia. rewrite scroll_up_0. exists s7. split; [reflexivity|]. cbn [bind] in E. cbv zeta in E.
    match type of E with (do _ <- ?e; _) = _ => destruct e as [t9|] eqn:E9; [|discriminate] end. cbn [bind] in E.
    assert (X : s' = t9) by congruence. rewrite X. destruct (_ <=? _) in E9; [apply vw_move in E9; rewrite E9, vw_set_mb, vw_set_sy; reflexivity|apply ok_inj in E9; rewrite E9, vw_set_mb, vw_set_sy; reflexivity].
Qed.
Lemma up_resize s x y s' z : Inv s -> 0 < x <= DIM -> 0 < y <= DIM -> (s_sx s <> x \/ s_sy s <> y) -> scr_resize s x y = Ok (s', z) -> went_up s 0 (s_sy s - 1) (Z.max 0 (s_sy s - y)) s'.
Proof.
  intros H Hx Hy Hne E. destruct (rz_end_ok s x y H Hx Hy Hne) as (s7 & E7 & I7 & V7 & M1 & M2 & S7 & F1 & F2). rewrite E7 in E. destruct (rz_end_vw _ _ _ _ E) as (t' & ES & V').
  rewrite S7 in ES. exists s7, t'. auto 10.
Qed.
