(* The pointers follow the screen of Screen.v. *)
From Verif Require Import Base BaseProofs Screen ScreenInv ScreenSb ScreenScroll ScreenSpec ScreenResize ScreenOps ScreenMove ScreenCtl ScreenSafe ScreenHist ScreenThms FrameSpec ScreenFrame Own OwnSpec OwnProofs OwnRows OwnThms OwnCalls.

Lemma zlen_youngest m l : 0 <= m -> zlen (youngest m l) = Z.min m (zlen l).
Proof. intros H. unfold youngest. rewrite skipn_length. lia. Qed.
Lemma zlen_last_n {A} m (l : list A) : 0 <= m -> zlen (last_n m l) = Z.min m (zlen l).
Proof. intros H. unfold last_n. rewrite skipn_length. lia. Qed.
Lemma zlen_sb_text s : zlen (sb_text s) = zlen (s_sb s).
Proof. unfold sb_text. now rewrite map_length. Qed.

(* One operation, with the sizes it leaves. *)
Lemma up_sizes w sb alt fixed mt mb num al : well w sb -> 0 <= mt <= mb -> mb < zlen (w_main w) -> 0 <= num -> fair al -> plenty al ->
  exists w' sb', wstep w (WUp alt fixed mt mb num al) = Ok w' /\ well w' sb' /\ zlen (w_main w') = zlen (w_main w) /\ w_act w' = w_act w /\ w_max w' = w_max w /\
    zlen sb' = Z.min (w_max w) (zlen sb + (if alt then 0 else Z.min num (mb + 1 - mt))).
Proof.
  intros W H1 H2 H3 FA PL. destruct (step_well w sb (WUp alt fixed mt mb num al) W) as (w' & sb' & E & W' & MX & G & RB & GA & SB); [cbn [in_range]; auto|].
  exists w', sb'. split; [exact E|]. split; [exact W'|]. destruct RB as (A & R & R' & B & ER & LA & LR & (C & EX & ER' & GP) & EW & EA & EO).
  pose proof (exchanged_length _ _ _ EX) as LC. rewrite firstn_length in LC.
  assert (LW : zlen (w_rows w') = zlen (w_rows w)). { rewrite EW, ER, ER', !app_length, skipn_length. lia. }
  pose proof (rows_len _ _ W) as R1. pose proof (rows_len _ _ W') as R2. split; [congruence|]. split; [exact EA|]. split; [exact MX|].
  rewrite SB. pose proof (wl_max _ _ W). rewrite zlen_youngest by lia. rewrite app_length. destruct alt.
  - rewrite (GA eq_refl). cbn [length]. lia.
  - rewrite (GP eq_refl PL), firstn_length. lia.
Qed.
Lemma region_sizes w w' sb top n (P : list Z -> list Z -> Prop) : well w sb -> (forall R R', P R R' -> length R' = length R) -> well w' sb -> region_becomes w w' top n P -> zlen (w_main w') = zlen (w_main w).
Proof.
  intros W HP W' (A & R & R' & B & ER & LA & LR & HR & EW & _). pose proof (rows_len _ _ W) as R1. pose proof (rows_len _ _ W') as R2.
  rewrite <- R1, <- R2, EW, ER, !app_length. now rewrite (HP _ _ HR).
Qed.
Definition keeps (o : wop) : bool := match o with WDown _ _ _ | WIns _ _ _ | WDel _ _ _ | WViewUp _ | WViewDown _ | WViewReset | WSelStart _ | WSelTarget _ | WSelReset | WAct _ => true | _ => false end.
Lemma keep_sizes w sb o : well w sb -> in_range w o -> keeps o = true -> exists w', wstep w o = Ok w' /\ well w' sb /\ zlen (w_main w') = zlen (w_main w) /\
  w_act w' = (match o with WAct b => b | _ => w_act w end) /\ w_max w' = w_max w.
Proof.
  intros W H K. destruct (step_well w sb o W H) as (w' & sb' & E & W' & MX & HD). exists w'. split; [exact E|].
  assert (PD : forall n R R' : list Z, forall k, (exists C, Permutation.Permutation C (skipn k R) /\ R' = C ++ firstn k R) -> length R' = length R).
  { intros _ R R' k (C & PC & ->). apply Permutation.Permutation_length in PC. rewrite skipn_length in PC. rewrite app_length, firstn_length. lia. }
  destruct o; try discriminate K; cbn [in_range] in *.
  - destruct HD as [RB ->]. split; [exact W'|]. split; [apply (region_sizes _ _ _ _ _ _ W) in RB; auto; intros R R'; cbv zeta; apply (PD [])|]. destruct RB as (? & ? & ? & ? & _ & _ & _ & _ & _ & EA & _). auto.
  - destruct HD as [RB ->]. split; [exact W'|]. split; [apply (region_sizes _ _ _ _ _ _ W) in RB; auto; intros R R'; cbv zeta; apply (PD [])|]. destruct RB as (? & ? & ? & ? & _ & _ & _ & _ & _ & EA & _). auto.
  - destruct HD as [RB ->]. split; [exact W'|]. split; [apply (region_sizes _ _ _ _ _ _ W) in RB; auto; intros R R' ->; rewrite app_length, skipn_length, firstn_length; lia|]. destruct RB as (? & ? & ? & ? & _ & _ & _ & _ & _ & EA & _). auto.
  - destruct HD as [(E1 & E2 & E3) ->]. rewrite E1. auto.
  - destruct HD as [(E1 & E2 & E3) ->]. rewrite E1. auto.
  - destruct HD as [(E1 & E2 & E3) ->]. rewrite E1. auto.
  - destruct HD as (E1 & E2 & E3 & ->). rewrite E1. auto.
  - destruct HD as [(E1 & E2 & E3) ->]. rewrite E1. auto.
  - destruct HD as [(E1 & E2 & E3) ->]. rewrite E1. auto.
  - destruct HD as [(E1 & E2 & E3) ->]. rewrite E1. auto.
Qed.
Lemma grow_sizes w sb y al : well w sb -> fair al -> plenty al -> exists w', wstep w (WGrow y true al) = Ok w' /\ well w' sb /\ zlen (w_main w') = Z.max y (zlen (w_main w)) /\ w_act w' = w_act w /\ w_max w' = w_max w.
Proof.
  intros W FA PL. destruct (step_well w sb (WGrow y true al) W FA) as (w' & sb' & E & W' & MX & ms & als & E1 & E2 & E3 & E4 & E5 & ->). exists w'. auto.
Qed.

(* What the screen shows of itself after a call. *)
Lemma act_flag s : reachable s -> s_act s = fl s F_ALT.
Proof. intros H. apply (i_act _ (proj1 (reachable_Inv s H))). Qed.
Lemma zlen_top_rows s n : reachable s -> 0 <= n <= region s -> zlen (top_rows s n) = n.
Proof.
  intros H HN. pose proof (proj1 (reachable_Inv s H)) as I. inv0 I. destruct Imain as [LM _]. unfold top_rows, region in *. rewrite map_length, length_zslice. lia.
Qed.
Lemma flag_after s o s' : reachable s -> op_args o -> step s o = Ok s' ->
  fl s' F_ALT = match o with OReset => false | OSetFlags f => fl s F_ALT || bit f F_ALT | OResetFlags f => fl s F_ALT && negb (bit f F_ALT) | _ => fl s F_ALT end.
Proof.
  intros H A E. pose proof (fr_flags _ _ _ (framed_r s o s' H A E)) as FR. pose proof (reachable_Inv s H) as I.
  destruct o; try (unfold fl; now rewrite (FR eq_refl)); clear FR; try (lazymatch type of E with step _ OReset = _ => idtac | _ => cbn [step] in E end).
  - rewrite step_reset in E. rewrite (proj1 (reset_ok s I)) in E. apply ok_inj in E. rewrite E. unfold reset_to, fl. reflexivity.
  - destruct (Z.eq_dec f 0) as [->|N].
    + unfold scr_set_flags in E. change (0 =? 0) with true in E. cbv iota in E. assert (X : s' = s) by congruence. rewrite X. unfold bit. rewrite Z.bits_0, orb_false_r. reflexivity.
    + rewrite (proj1 (set_flags_ok s f I N)) in E. assert (X : s' = flags_set s f) by congruence. rewrite X. unfold flags_set, fl_end, fl_alt.
      transitivity (bit (Z.lor (s_flags s) f) F_ALT); [|unfold bit, fl, bit; apply Z.lor_spec].
      destruct (negb (fl s F_ALT) && bit f F_ALT), (negb (fl s F_HIDE) && bit f F_HIDE), (negb (fl s F_INVERSE) && bit f F_INVERSE); reflexivity.
  - destruct (Z.eq_dec f 0) as [->|N].
    + unfold scr_reset_flags in E. change (0 =? 0) with true in E. cbv iota in E. assert (X : s' = s) by congruence. rewrite X. unfold bit. rewrite Z.bits_0, andb_true_r. reflexivity.
    + rewrite (proj1 (reset_flags_ok s f I N)) in E. assert (X : s' = flags_reset s f) by congruence. rewrite X. unfold flags_reset, fl_end, fl_alt.
      transitivity (bit (Z.ldiff (s_flags s) f) F_ALT); [|unfold bit, fl, bit; apply Z.ldiff_spec].
      destruct (fl s F_ALT && bit f F_ALT), (fl s F_HIDE && bit f F_HIDE), (fl s F_INVERSE && bit f F_INVERSE); reflexivity.
Qed.
Lemma run1 w o : wrun w [o] = wstep w o.
Proof. cbn [wrun]. now destruct (wstep w o). Qed.
Lemma over_down_range s n : reachable s -> 0 <= over_down s n <= region s.
Proof. intros H. pose proof (bounds s H). unfold over_down, region. lia. Qed.
Lemma over_up_range s n : reachable s -> 0 <= over_up s n <= region s.
Proof. intros H. pose proof (bounds s H). unfold over_up, region. lia. Qed.

Lemma wrun_app w a : forall b, wrun w (a ++ b) = do w' <- wrun w a; wrun w' b.
Proof. revert w. induction a as [|o a IH]; intros w b; cbn [app wrun]; [reflexivity|]. destruct (wstep w o); cbn [bind]; auto. Qed.

Theorem calls_agree al s o s' w sb : reachable s -> op_args o -> step s o = Ok s' -> fair al -> plenty al -> well w sb -> agree s w sb ->
  exists w' sb', wrun w (calls al s o) = Ok w' /\ well w' sb' /\ agree s' w' sb'.
Proof.
  intros H A E FA PL W (GY & GA & GS & GM).
  pose proof (bounds s H) as BD. pose proof (framed_r s o s' H A E) as FR. destruct (sb_step_r s o s' H A E) as [ST SL].
  pose proof (reachable_step s o s' H A E) as H'. pose proof (act_flag s H) as AF. pose proof (act_flag s' H') as AF'. rewrite (flag_after s o s' H A E) in AF'.
  pose proof (i_sbmax _ (proj1 (reachable_Inv s H))) as SM. pose proof (i_sbn _ (proj1 (reachable_Inv s H))) as SN.
  assert (LN : zlen (s_sb s') = match o with OClearSb => 0 | _ => Z.min (sb_limit s o) (zlen (s_sb s) + zlen (off s o)) end).
  { rewrite <- zlen_sb_text, ST. assert (0 <= sb_limit s o) by (unfold sb_limit; destruct o; cbn [op_args] in A; unfold u32_arg in A; lia).
    destruct o; try reflexivity; cbn [sb_spec]; rewrite zlen_last_n, app_length, <- (zlen_sb_text s) by assumption; lia. }
  (* calls that only keep *)
  assert (NONE : calls al s o = [] -> s_act s' = s_act s -> zlen (s_sb s') = zlen (s_sb s) -> s_sbmax s' = s_sbmax s -> s_sy s' <= zlen (w_main w) ->
    exists w' sb', wrun w (calls al s o) = Ok w' /\ well w' sb' /\ agree s' w' sb').
  { intros -> E1 E2 E3 E4. exists w, sb. unfold agree. rewrite E1, E2, E3. auto 10. }
  assert (KEEP : forall wo, calls al s o = [wo] -> in_range w wo -> keeps wo = true -> s_act s' = (match wo with WAct b => b | _ => s_act s end) -> zlen (s_sb s') = zlen (s_sb s) ->
    s_sbmax s' = s_sbmax s -> s_sy s' = s_sy s -> exists w' sb', wrun w (calls al s o) = Ok w' /\ well w' sb' /\ agree s' w' sb').
  { intros wo -> IR K E1 E2 E3 E4. rewrite run1. destruct (keep_sizes w sb wo W IR K) as (w' & -> & W' & Z1 & Z2 & Z3). exists w', sb. split; [reflexivity|]. split; [exact W'|].
    unfold agree. rewrite E1, E2, E3, E4, Z1, Z2, Z3, GA. auto 10. }
  assert (UP : forall n, calls al s o = [WUp (fl s F_ALT) (fl s F_FIXED) (s_mt s) (s_mb s) n al] -> 0 <= n -> s_act s' = s_act s -> s_sbmax s' = s_sbmax s -> s_sy s' = s_sy s ->
     zlen (off s o) = (if fl s F_ALT then 0 else Z.min n (region s)) -> sb_limit s o = s_sbmax s -> o <> OClearSb -> exists w' sb', wrun w (calls al s o) = Ok w' /\ well w' sb' /\ agree s' w' sb').
  { intros n -> HN E1 E3 E4 E5 E6 NC. rewrite run1. destruct (up_sizes w sb (fl s F_ALT) (fl s F_FIXED) (s_mt s) (s_mb s) n al W) as (w' & sb' & -> & W' & Z1 & Z2 & Z3 & Z4); try lia; auto.
    exists w', sb'. split; [reflexivity|]. split; [exact W'|]. unfold agree. rewrite E1, E3, E4, Z1, Z2, Z3, Z4, GA, GS, GM. repeat match goal with |- _ /\ _ => split end; auto.
    assert (LN' : zlen (s_sb s') = Z.min (s_sbmax s) (zlen (s_sb s) + zlen (off s o))) by (rewrite LN, E6; destruct o; try reflexivity; congruence).
    rewrite LN', E5. unfold region. reflexivity. }
  assert (OFF0 : off s o = [] -> sb_limit s o = s_sbmax s -> o <> OClearSb -> zlen (s_sb s') = zlen (s_sb s)).
  { intros E1 E2 NC. assert (X : zlen (s_sb s') = Z.min (s_sbmax s) (zlen (s_sb s) + zlen (off s o))) by (rewrite LN, E2; destruct o; try reflexivity; congruence).
    rewrite X, E1. cbn [length]. lia. }
  assert (SY : may_size o = false -> s_sy s' = s_sy s) by (intros M; apply (fr_size _ _ _ FR M)).
  assert (LIM : may_limit o = false -> s_sbmax s' = s_sbmax s) by (intros M; apply (fr_limit _ _ _ FR M)).
  assert (OA : fl s F_ALT = true -> off s o = []) by (intros F; unfold off; now rewrite F).
  destruct o; cbn [op_args] in A; unfold u32_arg in *;
  try (apply NONE; [reflexivity|congruence|apply OFF0; [unfold off; destruct (fl s F_ALT); reflexivity|reflexivity|discriminate]|apply LIM; reflexivity|rewrite SY by reflexivity; exact GY]);
  try (eapply KEEP; [reflexivity|cbn [in_range]; exact I|reflexivity|congruence|apply OFF0; [unfold off; destruct (fl s F_ALT); reflexivity|reflexivity|discriminate]|apply LIM; reflexivity|apply SY; reflexivity]).
  - (* resize *)
    clear NONE KEEP UP OFF0. assert (EL : s_sbmax s' = s_sbmax s) by (apply LIM; reflexivity). clear LIM SY. unfold calls. cbv zeta.
    destruct ((x =? 0) || (y =? 0) || ((s_sx s =? x) && (s_sy s =? y))) eqn:C.
    + assert (X : s' = s).
      { cbn [step] in E. unfold scr_resize in E. destruct ((x =? 0) || (y =? 0)); cbn [orb] in C; [cbn [bind fst] in E; congruence|]. rewrite C in E. cbn [bind fst] in E. congruence. }
      rewrite X. exists w, sb. unfold agree. auto 10.
    + destruct (resize_r s x y H) as (s1 & E1 & _ & RY & _); [lia|lia|lia|]. assert (X : s1 = s') by (cbn [step] in E; rewrite E1 in E; cbn [bind fst] in E; congruence). rewrite X in RY. clear X E1 s1.
      cbn [wrun]. destruct (grow_sizes w sb y al W FA PL) as (w1 & -> & W1 & Z1 & Z2 & Z3). cbn [bind].
      cbn [sb_limit] in LN. assert (OL : zlen (off s (OResize x y)) = if fl s F_ALT then 0 else Z.max 0 (s_sy s - y)).
      { unfold off. destruct (fl s F_ALT); [reflexivity|]. pose proof (proj1 (reachable_Inv s H)) as J. inv0 J. destruct Imain as [LM _]. replace ((0 <? x) && (0 <? y)) with true by lia. cbn [andb].
        destruct (Z.ltb_spec y (s_sy s)); [rewrite map_length, length_zslice; lia|cbn [length]; lia]. }
      rewrite OL in LN. destruct (Z.ltb_spec y (s_sy s)) as [LT|GE].
      * rewrite run1. destruct (up_sizes w1 sb (fl s F_ALT) (fl s F_FIXED) 0 (s_sy s - 1) (s_sy s - y) al W1) as (w2 & sb2 & -> & W2 & Y1 & Y2 & Y3 & Y4); try lia; auto.
        exists w2, sb2. split; [reflexivity|]. split; [exact W2|]. unfold agree. rewrite Y1, Z1, Y2, Z2, Y3, Z3, Y4, RY, EL, LN, Z3, GM, GS. repeat match goal with |- _ /\ _ => split end; try congruence; [lia|]. destruct (fl s F_ALT); lia.
      * cbn [wrun]. exists w1, sb. split; [reflexivity|]. split; [exact W1|]. unfold agree. rewrite Z1, Z2, Z3, RY, EL, LN, GS. repeat match goal with |- _ /\ _ => split end; try congruence; [lia|]. destruct (fl s F_ALT); lia.
  - (* limit *)
    unfold calls. rewrite run1. destruct (step_well w sb (WMax n) W) as (w' & sb' & -> & W' & MX & (B1 & B2 & B3) & SB); [cbn [in_range]; lia|]. exists w', sb'. split; [reflexivity|]. split; [exact W'|].
    unfold agree. rewrite B1, B3, MX, SB, (SY eq_refl), SL, LN. cbn [sb_limit]. rewrite zlen_youngest by lia. repeat match goal with |- _ /\ _ => split end; auto; [congruence|].
    assert (O0 : off s (OSetMaxSb n) = []) by (unfold off; destruct (fl s F_ALT); reflexivity). rewrite O0, GS. cbn [length]. lia.
  - (* clear *)
    unfold calls. rewrite run1. destruct (step_well w sb WClear W) as (w' & sb' & -> & W' & MX & (B1 & B2 & B3) & SB); [exact I|]. exists w', sb'. split; [reflexivity|]. split; [exact W'|].
    unfold agree. rewrite B1, B3, MX, SB, (SY eq_refl), (LIM eq_refl), LN. repeat match goal with |- _ /\ _ => split end; auto. congruence.
  - (* flags *)
    assert (O0 : zlen (s_sb s') = zlen (s_sb s)) by (apply OFF0; [unfold off; destruct (fl s F_ALT); reflexivity|reflexivity|discriminate]).
    unfold calls in *. destruct (negb (fl s F_ALT) && bit f F_ALT) eqn:C.
    + apply (KEEP (WAct true)); auto; [exact I|]. rewrite AF'. destruct (fl s F_ALT), (bit f F_ALT); try discriminate C; reflexivity.
    + apply NONE; auto; [|rewrite SY by reflexivity; exact GY]. rewrite AF', AF. destruct (fl s F_ALT), (bit f F_ALT); try discriminate C; reflexivity.
  - assert (O0 : zlen (s_sb s') = zlen (s_sb s)) by (apply OFF0; [unfold off; destruct (fl s F_ALT); reflexivity|reflexivity|discriminate]).
    unfold calls in *. destruct (fl s F_ALT && bit f F_ALT) eqn:C.
    + apply (KEEP (WAct false)); auto; [exact I|]. rewrite AF'. destruct (fl s F_ALT), (bit f F_ALT); try discriminate C; reflexivity.
    + apply NONE; auto; [|rewrite SY by reflexivity; exact GY]. rewrite AF', AF. destruct (fl s F_ALT), (bit f F_ALT); try discriminate C; reflexivity.
  - (* write *)
    assert (R1 : 1 <= region s) by (unfold region; lia).
    assert (T1 : zlen (top_rows s 1) = 1) by (apply zlen_top_rows; [exact H|lia]).
    unfold calls, off in *. destruct (scr_width ch) as [wd|].
    2: { apply NONE; auto; [congruence|apply OFF0; [destruct (fl s F_ALT); reflexivity|reflexivity|discriminate]|rewrite SY by reflexivity; exact GY]. }
    destruct ((0 <? wd) && write_scrolls s).
    + apply (UP 1); auto; try lia; [congruence| |discriminate]. destruct (fl s F_ALT); [reflexivity|]. lia.
    + apply NONE; auto; [congruence|apply OFF0; [destruct (fl s F_ALT); reflexivity|reflexivity|discriminate]|rewrite SY by reflexivity; exact GY].
  - pose proof (over_down_range s 1 H) as OD. apply (UP (over_down s 1)); auto; try lia; [congruence| |discriminate]. unfold off. destruct (fl s F_ALT); [reflexivity|]. rewrite zlen_top_rows by auto. lia.
  - assert (R1 : 1 <= region s) by (unfold region; lia). apply (UP n); auto; try lia; [congruence| |discriminate]. unfold off. destruct (fl s F_ALT); [reflexivity|]. rewrite zlen_top_rows by (auto; lia). reflexivity.
  - eapply KEEP; [reflexivity|cbn [in_range]; lia|reflexivity|congruence|apply OFF0; [unfold off; destruct (fl s F_ALT); reflexivity|reflexivity|discriminate]|apply LIM; reflexivity|apply SY; reflexivity].
  - pose proof (over_up_range s n H) as OU. destruct b.
    + eapply KEEP; [reflexivity|cbn [in_range]; lia|reflexivity|congruence|apply OFF0; [unfold off; destruct (fl s F_ALT); reflexivity|reflexivity|discriminate]|apply LIM; reflexivity|apply SY; reflexivity].
    + apply NONE; [reflexivity|congruence|apply OFF0; [unfold off; destruct (fl s F_ALT); reflexivity|reflexivity|discriminate]|apply LIM; reflexivity|rewrite SY by reflexivity; exact GY].
  - pose proof (over_down_range s n H) as OD. destruct b.
    + apply (UP (over_down s n)); auto; try lia; [congruence| |discriminate]. unfold off. destruct (fl s F_ALT); [reflexivity|]. rewrite zlen_top_rows by auto. lia.
    + apply NONE; [reflexivity|congruence|apply OFF0; [unfold off; destruct (fl s F_ALT); reflexivity|reflexivity|discriminate]|apply LIM; reflexivity|rewrite SY by reflexivity; exact GY].
  - unfold calls in *. destruct ((n =? 0) || (s_cy s <? s_mt s) || (s_mb s <? s_cy s)) eqn:C.
    + apply NONE; [reflexivity|congruence|apply OFF0; [unfold off; destruct (fl s F_ALT); reflexivity|reflexivity|discriminate]|apply LIM; reflexivity|rewrite SY by reflexivity; exact GY].
    + eapply KEEP; [reflexivity|cbn [in_range]; lia|reflexivity|congruence|apply OFF0; [unfold off; destruct (fl s F_ALT); reflexivity|reflexivity|discriminate]|apply LIM; reflexivity|apply SY; reflexivity].
  - unfold calls in *. destruct ((n =? 0) || (s_cy s <? s_mt s) || (s_mb s <? s_cy s)) eqn:C.
    + apply NONE; [reflexivity|congruence|apply OFF0; [unfold off; destruct (fl s F_ALT); reflexivity|reflexivity|discriminate]|apply LIM; reflexivity|rewrite SY by reflexivity; exact GY].
    + eapply KEEP; [reflexivity|cbn [in_range]; lia|reflexivity|congruence|apply OFF0; [unfold off; destruct (fl s F_ALT); reflexivity|reflexivity|discriminate]|apply LIM; reflexivity|apply SY; reflexivity].
Qed.
Lemma calls_from_agree al os : forall s w sb s', reachable s -> Forall op_args os -> run s os = Ok s' -> fair al -> plenty al -> well w sb -> agree s w sb ->
  exists w' sb', wrun w (calls_from al s os) = Ok w' /\ well w' sb' /\ agree s' w' sb'.
Proof.
  induction os as [|o os IH]; intros s w sb s' H A E FA PL W G; cbn [run calls_from] in *.
  - apply ok_inj in E. rewrite E. exists w, sb. auto.
  - inversion A as [|? ? A1 A2]; subst. destruct (step s o) as [s1|] eqn:E1; [|discriminate]. cbn [bind] in E. rewrite wrun_app.
    destruct (calls_agree al s o s1 w sb H A1 E1 FA PL W G) as (w1 & sb1 & -> & W1 & G1). cbn [bind].
    exact (IH s1 w1 sb1 s' (reachable_step s o s1 H A1 E1) A2 E FA PL W1 G1).
Qed.
Lemma init_sizes : s_sy scr_init = 24 /\ s_act scr_init = false /\ s_sb scr_init = [] /\ s_sbmax scr_init = 0.
Proof. vm_compute. auto. Qed.
Theorem life_agree al os s : fair al -> plenty al -> Forall op_args os -> run scr_init os = Ok s ->
  exists w sb, wrun own_new (life al os) = Ok w /\ well w sb /\ agree s w sb /\ destroy w = Ok [].
Proof.
  intros FA PL A E. unfold life. cbn [wrun]. destruct (grow_sizes own_new [] 24 al new_well FA PL) as (w1 & -> & W1 & Z1 & Z2 & Z3). cbn [bind].
  destruct init_sizes as (I1 & I2 & I3 & I4).
  assert (H0 : reachable scr_init) by (exists []; split; [constructor|reflexivity]).
  destruct (calls_from_agree al os scr_init w1 [] s H0 A E FA PL W1) as (w & sb & EW & W & G).
  { unfold agree. rewrite Z1, Z2, Z3, I1, I2, I3, I4. change (w_main own_new) with (@nil Z). change (w_act own_new) with false. change (w_max own_new) with 0. cbn [length]. repeat match goal with |- _ /\ _ => split end; auto; lia. }
  exists w, sb. split; [exact EW|]. split; [exact W|]. split; [exact G|]. exact (destroy_ok _ _ W).
Qed.
