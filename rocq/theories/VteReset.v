(* Soft and hard reset. *)
From Verif Require Import Base BaseProofs Utf8 Symbol Screen ScreenInv ScreenSafe VteData Vte VteKeys VteSpec VteView VteInv VteSafe VteFrame VteParse VteCsi VteFx VteText VteStr VteEsc.
From Verif Require Import ScreenSb ScreenSpec ScreenOps ScreenCtl ScreenMove ScreenLaws ScreenAlt ScreenHist ScreenRz ScreenThms Utf8Spec Utf8Proofs.

(* -- the screen ------------------------------------------------------------- *)
Definition settings (s s' : screen) : Prop :=
  s_flags s' = s_flags s /\ s_act s' = s_act s /\ s_mt s' = s_mt s /\ s_mb s' = s_mb s /\ s_tabs s' = s_tabs s /\
  s_def s' = s_def s /\ s_sx s' = s_sx s /\ s_sy s' = s_sy s /\ s_sbmax s' = s_sbmax s.
Lemma settings_trans a b c : settings a b -> settings b c -> settings a c.
Proof. unfold settings. intuition congruence. Qed.
Lemma reset_law s : Inv s -> exists s', step s OReset = Ok s' /\ Inv s' /\ same_text s s' /\ s_sb s' = s_sb s /\ s_cx s' = s_cx s /\ s_cy s' = s_cy s /\
  s_sx s' = s_sx s /\ s_sy s' = s_sy s /\ s_sbmax s' = s_sbmax s /\ s_flags s' = 0 /\ s_act s' = false /\ s_mt s' = 0 /\ s_mb s' = s_sy s - 1 /\
  (forall k, 0 <= k < s_sx s -> is_stop s' k = (k mod 8 =? 0)).
Proof.
  intros H. exists (reset_to s). destruct (reset_ok s H) as [E I1]. split; [exact E|]. split; [exact I1|].
  pose proof (i_tabs _ (proj1 H)) as Ht.
  assert (F : forall m t, let r := set_tabs (set_act (set_mb (set_mt (set_flags (aged s) 0) 0) m) false) t in
    same_text s r /\ s_sb r = s_sb s /\ s_cx r = s_cx s /\ s_cy r = s_cy s /\ s_sx r = s_sx s /\ s_sy r = s_sy s /\ s_sbmax r = s_sbmax s /\
    s_flags r = 0 /\ s_act r = false /\ s_mt r = 0 /\ s_mb r = m /\ s_tabs r = t).
  { intros m t. unfold aged. rewrite inc_age_eq. cbv zeta. repeat match goal with |- _ /\ _ => split end; try reflexivity. intros y x. split; reflexivity. }
  specialize (F (s_sy s - 1) (tabs_upto (s_sx s) (fun i => i mod 8 =? 0) (s_tabs s))). cbv zeta in F. fold (reset_to s) in F.
  destruct F as (F1 & F2 & F3 & F4 & F5 & F6 & F7 & F8 & F9 & F10 & F11 & F12).
  repeat match goal with |- _ /\ _ => split end; auto. intros k Hk. unfold is_stop. rewrite F12. unfold tabs_upto.
  rewrite znth_mapi. destruct (znth_some (s_tabs s) k) as [b Hb]; [lia|]. rewrite Hb. cbn. replace (k <? s_sx s) with true by lia. reflexivity.
Qed.
Lemma wrap_law s : Inv s -> s_flags s = 0 -> exists s', step s (OSetFlags SF_WRAP) = Ok s' /\ Inv s' /\ same_text s s' /\ s_sb s' = s_sb s /\ s_cx s' = s_cx s /\ s_cy s' = s_cy s /\
  settings (set_flags s SF_WRAP) s'.
Proof.
  intros H Hf. exists (flags_set s SF_WRAP). destruct (set_flags_ok s SF_WRAP H ltac:(discriminate)) as [E I1]. split; [exact E|]. split; [exact I1|].
  unfold flags_set, fl. rewrite Hf. change (negb (bit 0 F_ALT) && bit SF_WRAP F_ALT) with false. change (negb (bit 0 F_HIDE) && bit SF_WRAP F_HIDE) with false.
  change (negb (bit 0 F_INVERSE) && bit SF_WRAP F_INVERSE) with false. change (Z.lor 0 SF_WRAP) with SF_WRAP. unfold fl_end, fl_alt. rewrite inc_age_eq.
  unfold settings. repeat match goal with |- _ /\ _ => split end; try reflexivity. intros y x. split; reflexivity.
Qed.
Lemma deft_law s a : Inv s -> exists s', step s (OSetDefAttr a) = Ok s' /\ Inv s' /\ same_text s s' /\ s_sb s' = s_sb s /\ s_cx s' = s_cx s /\ s_cy s' = s_cy s /\
  settings (set_def s a) s'.
Proof.
  intros H. exists (set_def s a). split; [reflexivity|]. split; [exact (set_def_attr_ok s a H)|].
  unfold settings. repeat match goal with |- _ /\ _ => split end; try reflexivity. intros y x. split; reflexivity.
Qed.
(* After a soft reset: text, history and cursor stay; everything else is as at
   power-on and the main screen is shown. *)
Definition soft_screen (s s' : screen) (a : attr) : Prop :=
  same_text s s' /\ s_sb s' = s_sb s /\ s_cx s' = s_cx s /\ s_cy s' = s_cy s /\ s_sx s' = s_sx s /\ s_sy s' = s_sy s /\ s_sbmax s' = s_sbmax s /\
  s_flags s' = SF_WRAP /\ s_act s' = false /\ s_mt s' = 0 /\ s_mb s' = s_sy s - 1 /\ s_def s' = a /\
  (forall k, 0 <= k < s_sx s -> is_stop s' k = (k mod 8 =? 0)) /\
  (forall y x, at_ s' y x = main_at s y x).
Lemma soft_law s a : Inv s -> exists s1 s2 s3, step s OReset = Ok s1 /\ step s1 (OSetFlags SF_WRAP) = Ok s2 /\ step s2 (OSetDefAttr a) = Ok s3 /\
  Inv s3 /\ soft_screen s s3 a.
Proof.
  intros H. destruct (reset_law s H) as (s1 & E1 & I1 & A1 & A2 & A3 & A4 & A5 & A6 & A7 & A8 & A9 & A10 & A11 & A12).
  destruct (wrap_law s1 I1 A8) as (s2 & E2 & I2 & B1 & B2 & B3 & B4 & B).
  destruct (deft_law s2 a I2) as (s3 & E3 & I3 & C1 & C2 & C3 & C4 & C).
  exists s1, s2, s3. split; [exact E1|]. split; [exact E2|]. split; [exact E3|]. split; [exact I3|].
  unfold settings in *. change (s_flags (set_flags s1 SF_WRAP)) with SF_WRAP in B. change (s_def (set_def s2 a)) with a in C.
  change (s_flags (set_def s2 a)) with (s_flags s2) in C. change (s_act (set_def s2 a)) with (s_act s2) in C. change (s_mt (set_def s2 a)) with (s_mt s2) in C.
  change (s_mb (set_def s2 a)) with (s_mb s2) in C. change (s_tabs (set_def s2 a)) with (s_tabs s2) in C. change (s_sx (set_def s2 a)) with (s_sx s2) in C.
  change (s_sy (set_def s2 a)) with (s_sy s2) in C. change (s_sbmax (set_def s2 a)) with (s_sbmax s2) in C.
  change (s_act (set_flags s1 SF_WRAP)) with (s_act s1) in B. change (s_mt (set_flags s1 SF_WRAP)) with (s_mt s1) in B.
  change (s_mb (set_flags s1 SF_WRAP)) with (s_mb s1) in B. change (s_tabs (set_flags s1 SF_WRAP)) with (s_tabs s1) in B. change (s_sx (set_flags s1 SF_WRAP)) with (s_sx s1) in B.
  change (s_sy (set_flags s1 SF_WRAP)) with (s_sy s1) in B. change (s_sbmax (set_flags s1 SF_WRAP)) with (s_sbmax s1) in B.
  destruct B as (D1 & D2 & D3 & D4 & D5 & D6 & D7 & D8 & D9). destruct C as (F1 & F2 & F3 & F4 & F5 & F6 & F7 & F8 & F9).
  assert (T : same_text s s3) by (eapply same_text_trans; [exact A1|]; eapply same_text_trans; [exact B1|exact C1]).
  unfold soft_screen. repeat match goal with |- _ /\ _ => split end; try congruence; auto.
  - intros k Hk. unfold is_stop. rewrite F5, D5. exact (A12 k Hk).
  - intros y x. rewrite at_act, F2, D2, A9. apply T.
Qed.
Lemma wipe_law s : reachable s -> exists s', step s (OEraseScreen false) = Ok s' /\ reachable s' /\ s_sb s' = s_sb s /\ s_cx s' = s_cx s /\ s_cy s' = s_cy s /\
  settings s s' /\ forall y x, on_screen s y x -> at_ s' y x = Some (blank_glyph (s_def s)).
Proof.
  intros R. pose proof (reachable_Inv s R) as H. destruct (erase_r s _ _ _ R (ec_all s false)) as (s' & E & C1 & C2 & A).
  exists s'. split; [exact E|]. split; [apply (reachable_step s (OEraseScreen false) s' R I E)|].
  assert (X : s' = erase_to s 0 0 (s_sx s - 1) (s_sy s - 1) false) by (pose proof (proj1 (erase_screen_ok s false H)); cbn [step] in E; congruence).
  assert (F : settings s s' /\ s_sb s' = s_sb s).
  { rewrite X. unfold erase_to, erased. generalize (erased_lines (inc_age s) false 0 0 (Z.min (s_sx s - 1) (s_sx (inc_age s) - 1)) (Z.min (s_sy s - 1) (s_sy (inc_age s) - 1)) (lines (inc_age s))).
    intros l. rewrite inc_age_eq. split; [unfold settings; repeat match goal with |- _ /\ _ => split end|]; reflexivity. }
  destruct F as [F1 F2]. split; [exact F2|]. split; [exact C1|]. split; [exact C2|]. split; [exact F1|]. intros y x O. exact (A y x O).
Qed.
Lemma forget_law s : reachable s -> exists s', step s OClearSb = Ok s' /\ reachable s' /\ s_sb s' = [] /\ s_sbpos s' = None /\ s_cx s' = s_cx s /\ s_cy s' = s_cy s /\
  settings s s' /\ same_text s s'.
Proof.
  intros R. exists (scr_clear_sb s). split; [exact (step_clear s)|]. split; [apply (reachable_step s OClearSb _ R I (step_clear s))|].
  unfold scr_clear_sb, sel_map. rewrite inc_age_eq. destruct (s_sela _);
    (unfold settings; repeat match goal with |- _ /\ _ => split end; try reflexivity; intros y x; split; reflexivity).
Qed.
Lemma home_law s : reachable s -> s_flags s = SF_WRAP -> exists s', step s (OMoveTo 0 0) = Ok s' /\ reachable s' /\ s_sb s' = s_sb s /\ s_sbpos s' = s_sbpos s /\ s_cx s' = 0 /\ s_cy s' = 0 /\
  settings s s' /\ same_text s s'.
Proof.
  intros R Hf. pose proof (reachable_Inv s R) as H. pose proof (i_sx _ (proj1 H)) as Hx. pose proof (i_sy _ (proj1 H)) as Hy.
  destruct (move_to_ok s 0 0 H ltac:(lia) ltac:(lia)) as [E _]. exists (moved (inc_age s) (Z.min 0 (s_sx s - 1)) (to_y s 0)).
  split; [exact E|]. split; [eapply (reachable_step s (OMoveTo 0 0) _ R); [|exact E]; cbn; unfold u32_arg; lia|].
  pose proof (frame_moved s (Z.min 0 (s_sx s - 1)) (to_y s 0)) as F. unfold settings.
  rewrite moved_cx, moved_cy, (g_sb _ _ F), (g_sbpos _ _ F), (g_flags _ _ F), (g_act _ _ F), (g_mt _ _ F), (g_mb _ _ F), (g_tabs _ _ F), (g_def _ _ F), (g_sx _ _ F), (g_sy _ _ F), (g_sbmax _ _ F).
  repeat match goal with |- _ /\ _ => split end; auto.
  - lia.
  - unfold to_y, fl. rewrite Hf. change (bit SF_WRAP F_ORIGIN) with false. lia.
  - eapply same_text_trans; [apply same_text_inc|apply same_text_moved].
Qed.
(* After a hard reset. *)
Definition blank_screen (s s' : screen) (a : attr) : Prop :=
  s_sb s' = [] /\ s_sbpos s' = None /\ s_cx s' = 0 /\ s_cy s' = 0 /\ s_sx s' = s_sx s /\ s_sy s' = s_sy s /\ s_sbmax s' = s_sbmax s /\
  s_flags s' = SF_WRAP /\ s_act s' = false /\ s_mt s' = 0 /\ s_mb s' = s_sy s - 1 /\ s_def s' = a /\
  (forall k, 0 <= k < s_sx s -> is_stop s' k = (k mod 8 =? 0)) /\
  (forall y x, on_screen s y x -> at_ s' y x = Some (blank_glyph a)).
Lemma blank_law s0 s a : reachable s -> soft_screen s0 s a ->
  exists s1 s2 s3, step s (OEraseScreen false) = Ok s1 /\ step s1 OClearSb = Ok s2 /\ step s2 (OMoveTo 0 0) = Ok s3 /\ blank_screen s0 s3 a.
Proof.
  intros R (A1 & A2 & A3 & A4 & A5 & A6 & A7 & A8 & A9 & A10 & A11 & A12 & A13 & A14).
  destruct (wipe_law s R) as (s1 & E1 & R1 & B1 & B2 & B3 & (b1 & b2 & b3 & b4 & b5 & b6 & b7 & b8 & b9) & B4).
  destruct (forget_law s1 R1) as (s2 & E2 & R2 & C1 & C2 & C3 & C4 & (c1 & c2 & c3 & c4 & c5 & c6 & c7 & c8 & c9) & C5).
  destruct (home_law s2 R2) as (s3 & E3 & R3 & D1 & D2 & D3 & D4 & (d1 & d2 & d3 & d4 & d5 & d6 & d7 & d8 & d9) & D5); [congruence|].
  exists s1, s2, s3. split; [exact E1|]. split; [exact E2|]. split; [exact E3|]. unfold blank_screen.
  repeat match goal with |- _ /\ _ => split end; try congruence.
  - intros k Hk. unfold is_stop. rewrite d5, c5, b5. exact (A13 k Hk).
  - intros y x O. rewrite at_act, d2, c2, b2, A9. rewrite (proj1 (D5 y x)), (proj1 (C5 y x)).
    assert (O' : on_screen s y x) by (unfold on_screen in *; rewrite A5, A6; exact O). specialize (B4 y x O').
    rewrite at_act, b2, A9 in B4. now rewrite B4, A12.
Qed.

(* -- the terminal ----------------------------------------------------------- *)
(* What a reset leaves behind apart from the screen, as a function of palette
   and default attributes. *)
Definition power_flags : list Z := [VF_TEXT_CURSOR; VF_REPEAT; VF_SRM; VF_WRAP; VF_BCE].
Definition plain (a : attr) : attr :=
  mkA (a_fc a) (a_bc a) (a_fr a) (a_fg a) (a_fb a) (a_br a) (a_bg a) (a_bb a) false false false false false false.
Definition powered (v v' : vte) : Prop :=
  (forall k, vfl v' k = existsb (Z.eqb k) power_flags) /\ v_state v' = SGround /\ idle (v_mach v') /\
  v_gl v' = G0 /\ v_gr v' = G1 /\ v_glt v' = None /\ v_grt v' = None /\
  v_g0 v' = CsLower /\ v_g1 v' = CsUpper /\ v_g2 v' = CsLower /\ v_g3 v' = CsUpper /\
  v_mmode v' = 0 /\ v_mev v' = 0 /\ v_mcol v' = 0 /\ v_mrow v' = 0 /\
  v_cattr v' = resolve (v_pal v) (v_def v) /\ v_saved v' = mkSv 0 0 (plain (v_def v)) G0 G1 true false /\
  v_pal v' = v_pal v /\ v_def v' = v_def v /\ v_pname v' = v_pname v /\ v_custom v' = v_custom v /\ v_bsd v' = v_bsd v /\
  v_oscb v' = v_oscb v /\ v_mcb v' = v_mcb v /\ v_out v' = v_out v.
Lemma reset_bits k : bit RESET_FLAGS k = existsb (Z.eqb k) power_flags.
Proof.
  destruct (Z_lt_le_dec k 0) as [N|N].
  - unfold bit. rewrite Z.testbit_neg_r by lia. symmetry. apply not_true_is_false. rewrite existsb_exists. intros (x & Hx & E).
    apply Z.eqb_eq in E. subst x. cbn [In power_flags] in Hx. unfold VF_TEXT_CURSOR, VF_REPEAT, VF_SRM, VF_WRAP, VF_BCE in Hx. lia.
  - destruct (Z_lt_le_dec k 20) as [L|L].
    + assert (C : In k [0;1;2;3;4;5;6;7;8;9;10;11;12;13;14;15;16;17;18;19]) by (cbn [In]; lia).
      cbn [In] in C. repeat (destruct C as [<-|C]; [vm_compute; reflexivity|]). destruct C.
    + unfold bit. rewrite Z.bits_above_log2; [|vm_compute; congruence|apply Z.le_lt_trans with 19; [vm_compute; congruence|lia]].
      symmetry. apply not_true_is_false. rewrite existsb_exists. intros (x & Hx & E).
      apply Z.eqb_eq in E. subst x. cbn [In power_flags] in Hx. unfold VF_TEXT_CURSOR, VF_REPEAT, VF_SRM, VF_WRAP, VF_BCE in Hx. lia.
Qed.
Definition reset_to_v (v : vte) (c : screen) : vte :=
  reset_state (w_con (w_cattr (power (w_flags v RESET_FLAGS)) (resolve (v_pal v) (v_def v))) c).
Lemma reset_to_powered v c : powered v (reset_to_v v c).
Proof.
  unfold powered. repeat match goal with |- _ /\ _ => split end; try reflexivity.
  - intros k. apply reset_bits.
Qed.
Lemma reset_full v : VInv v -> exists c, vte_reset v = Ok (reset_to_v v c) /\ reachable c /\ soft_screen (v_con v) c (v_def v).
Proof.
  intros H. destruct (soft_law (v_con v) (v_def v) (VInv_Inv v H)) as (s1 & s2 & s3 & E1 & E2 & E3 & I3 & S).
  exists s3. split; [|split; [|exact S]].
  - rewrite reset_power. unfold scr. change (v_con (w_flags v RESET_FLAGS)) with (v_con v). rewrite E1. cbn [bind].
    change (v_con (w_con (w_flags v RESET_FLAGS) s1)) with s1. rewrite E2. cbn [bind].
    set (x := power _). change (v_pal x) with (v_pal v). change (v_def x) with (v_def v). rewrite to_rgb_eq by apply H. cbn [bind].
    change (v_con (w_cattr x (resolve (v_pal v) (v_def v)))) with s2. rewrite E3. cbn [bind]. subst x. unfold reset_to_v. destruct v; reflexivity.
  - pose proof (vi_con v H) as R. eapply (reachable_step s2 (OSetDefAttr (v_def v))); [|exact I|exact E3].
    eapply (reachable_step s1 (OSetFlags SF_WRAP)); [|cbn; unfold u32_arg, SF_WRAP; lia|exact E2]. exact (reachable_step _ OReset _ R I E1).
Qed.
Lemma hard_full v : VInv v -> exists c, vte_hard_reset v = Ok (reset_to_v v c) /\ blank_screen (v_con v) c (v_def v).
Proof.
  intros H. destruct (reset_full v H) as (c & E & R & S). destruct (blank_law _ c _ R S) as (s1 & s2 & s3 & E1 & E2 & E3 & B).
  exists s3. split; [|exact B]. unfold vte_hard_reset. rewrite E. cbn [bind]. unfold scr.
  change (v_con (reset_to_v v c)) with c. rewrite E1. cbn [bind]. change (v_con (w_con (reset_to_v v c) s1)) with s1. rewrite E2. cbn [bind].
  change (v_con (w_con (w_con (reset_to_v v c) s1) s2)) with s2. rewrite E3. cbn [bind]. unfold reset_to_v. generalize (power (w_flags v RESET_FLAGS)). intros w. destruct w; reflexivity.
Qed.

(* -- the same by escape sequence, from any parser state ------------------------ *)
Lemma encodes_low sg F bs : Forall ascii bs -> encodes sg F bs bs.
Proof.
  intros H. unfold encodes. destruct (bit F VF_7BIT); [|destruct (bit F VF_8BIT)].
  - rewrite <- (map_id bs) at 2. apply map_ext_Forall. eapply Forall_impl; [|exact H]. intros b. apply land7.
  - rewrite <- (map_id bs) at 2. apply map_ext_Forall. eapply Forall_impl; [|exact H]. intros b Hb. unfold char_to_u32, ascii in *.
    replace (128 <=? b) with false by lia. rewrite andb_false_r. reflexivity.
  - split; [|eapply Forall_impl; [|exact H]; unfold ascii; intros; lia].
    induction H as [|b r Hb Hr IH]; [reflexivity|]. unfold utf8_text in *. cbn [flat_map]. rewrite <- IH. unfold utf8, ascii in *.
    replace (b <? 0x80) with true by lia. reflexivity.
Qed.
(* Every state in which the decoder is idle behaves after ESC like a state in
   plain text processing. *)
Lemma settle sg v : VInv v -> ready v -> exists w, text_mode w /\ VInv w /\ core w = core (osc_event v) /\
  forall bs, match vte_input sg v (27 :: bs), vte_input sg w (27 :: bs) with Ok a, Ok b => twin a b | Ub, Ub => True | _, _ => False end.
Proof.
  intros H R. destruct (can_seq sg v [24] H R) as (w & _ & C & T & I1); [apply encodes_low; repeat constructor; unfold ascii; lia|].
  exists w. split; [exact T|]. split; [exact I1|]. split; [exact C|]. intros bs. apply restart; auto; [apply T|]. rewrite (text_event w T). now symmetry.
Qed.
Lemma twin_core v w : twin v w -> core v = core w.
Proof. intros [->|[A _]]; [reflexivity|]. symmetry. now apply core_alike. Qed.
Lemma event_fields v : v_con (osc_event v) = v_con v /\ v_def (osc_event v) = v_def v /\ v_flags (osc_event v) = v_flags v.
Proof. unfold osc_event. destruct (v_state v); auto. destruct (v_oscb v); auto. Qed.
Lemma core_reset v w c : core v = core w -> core (reset_to_v v c) = core (reset_to_v w c).
Proof.
  intros H. change (core (reset_to_v (core v) c) = core (reset_to_v (core w) c)). now rewrite H.
Qed.
Lemma hard_bytes sg v : VInv v -> ready v -> exists v' c, vte_input sg v [27; 99] = Ok v' /\ text_mode v' /\
  core v' = core (reset_to_v (osc_event v) c) /\ blank_screen (v_con v) c (v_def v).
Proof.
  intros H R. destruct (settle sg v H R) as (w & T & IW & C & S). specialize (S [99]).
  destruct (hard_full w IW) as (c & E & B).
  pose proof (hard_seq sg w [27; 99] IW T (encodes_low sg _ [27; 99] ltac:(repeat constructor; unfold ascii; lia))) as G. rewrite E in G.
  destruct G as (w' & E1 & C1 & T1 & _). rewrite E1 in S. destruct (vte_input sg v [27; 99]) as [v'|] eqn:EV; [|contradiction].
  exists v', c. split; [reflexivity|]. split.
  - destruct S as [->|(A & Ra & Rb)]; [exact T1|]. split; [|exact Ra]. destruct T1 as [T1 _]. destruct A as (m & ->). exact T1.
  - split; [rewrite (twin_core _ _ S), C1; now apply core_reset|].
    destruct (event_fields v) as (F1 & F2 & _).
    assert (Q : v_con w = v_con v /\ v_def w = v_def v).
    { rewrite <- F1, <- F2. split; [change (v_con (core w) = v_con (core (osc_event v)))|change (v_def (core w) = v_def (core (osc_event v)))]; now rewrite C. }
    destruct Q as [<- <-]. exact B.
Qed.
