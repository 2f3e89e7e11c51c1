(* The view and the selection stay in step with Screen.v through all calls. *)
From Verif Require Import Base BaseProofs Screen ScreenInv ScreenSb ScreenScroll ScreenSpec ScreenOps ScreenMove ScreenCtl ScreenResize ScreenSafe ScreenHist ScreenRz ScreenThms Own OwnSpec OwnProofs OwnRows OwnThms OwnCalls OwnCallThms OwnView OwnViewCalls OwnViewUp OwnViewRest OwnViewAll OwnViewSpec.
From Coq Require Import Permutation.

(* -- calls that leave the pointers alone -------------------------------------------------------------------- *)
Lemma follows_w s w w' L : w_max w' = w_max w -> pointers w w' -> follows s w L -> follows s w' L.
Proof. intros E P F. apply (follows_same s s w w' L); auto. Qed.
Lemma act_pointers w b w' : wstep w (WAct b) = Ok w' -> pointers w w'.
Proof. intros E. cbn [wstep] in E. apply ok_inj in E. rewrite E. unfold pointers. auto. Qed.
Lemma ins_pointers w mb cy n w' : wstep w (WIns mb cy n) = Ok w' -> pointers w w'.
Proof.
  intros E. cbn [wstep] in E. unfold ins_rows in E. cbv zeta in E. destruct (take_rows _ _ _) as [c|]; [|discriminate]. cbn [bind] in E. destruct (_ <? _) in E; [|apply ok_inj in E; rewrite E; apply pointers_refl].
  destruct (zmove _ _ _ _) as [ls|]; [|discriminate]. cbn [bind] in E. destruct (zcopy _ _ _) as [ls'|]; [|discriminate]. cbn [bind] in E. apply ok_inj in E. rewrite E. unfold pointers. auto.
Qed.
Lemma del_pointers w mb cy n w' : wstep w (WDel mb cy n) = Ok w' -> pointers w w'.
Proof.
  intros E. cbn [wstep] in E. unfold del_rows in E. cbv zeta in E. destruct (take_rows _ _ _) as [c|]; [|discriminate]. cbn [bind] in E. destruct (_ <? _) in E; [|apply ok_inj in E; rewrite E; apply pointers_refl].
  destruct (zmove _ _ _ _) as [ls|]; [|discriminate]. cbn [bind] in E. destruct (zcopy _ _ _) as [ls'|]; [|discriminate]. cbn [bind] in E. apply ok_inj in E. rewrite E. unfold pointers. auto.
Qed.
Lemma pointers_trans a b c : pointers a b -> pointers b c -> pointers a c.
Proof. intros (A1 & A2 & A3 & A4) (B1 & B2 & B3 & B4). unfold pointers. repeat match goal with |- _ /\ _ => split end; congruence. Qed.
Lemma grow_rows_pointers al n : forall k w w' b, grow_rows n al k w = Ok (w', b) -> pointers w w'.
Proof.
  induction n as [|n IH]; intros k w w' b E; cbn [grow_rows] in E; [assert (X : w' = w) by congruence; rewrite X; apply pointers_refl|].
  destruct (al k (w_heap w)) as [p|]; [|assert (X : w' = w) by congruence; rewrite X; apply pointers_refl]. cbv zeta in E. destruct (al (k + 1) _) as [q|].
  - apply IH in E. eapply pointers_trans; [|exact E]. unfold pointers. auto.
  - destruct (hfree _ p) as [h|]; [|discriminate]. cbn [bind] in E. assert (X : w' = put_heap w h) by congruence. rewrite X. unfold pointers. auto.
Qed.
Lemma grow_pointers w y a al w' : wstep w (WGrow y a al) = Ok w' -> pointers w w'.
Proof.
  intros E. cbn [wstep] in E. unfold grow in E. match type of E with (do _ <- ?e; _) = _ => destruct e as [[w1 ok]|] eqn:E1; [|discriminate] end. cbn [bind] in E.
  assert (P : pointers w w1). { destruct (_ <? y) in E1; [destruct a; [now apply grow_rows_pointers in E1|]|]; assert (X : w1 = w) by congruence; rewrite X; apply pointers_refl. }
  destruct ok; [destruct (touch_all _ _); [|discriminate]; cbn [bind] in E|]; apply ok_inj in E; rewrite E; exact P.
Qed.
Lemma went_up_0 s mt mb s' : went_up s mt mb 0 s' -> vw s' = vw s.
Proof. intros (t & t' & H & V & _ & _ & _ & _ & E & V'). rewrite scroll_up_0 in E. apply ok_inj in E. congruence. Qed.

(* -- one call ----------------------------------------------------------------------------------------------- *)
Lemma calls_follow al s o s' w sb w' sb' : reachable s -> op_args o -> step s o = Ok s' -> fair al -> plenty al -> well w sb -> agree s w sb -> follows s w sb ->
  wrun w (calls al s o) = Ok w' -> well w' sb' -> follows s' w' sb'.
Proof.
  intros H A E FA PL W (GY & GA & GS & GM) F EW W'. pose proof (bounds s H) as BD. pose proof (reachable_Inv s H) as HI. pose proof (proj1 HI) as H0.
  assert (NONE : calls al s o = [] -> vw s' = vw s -> follows s' w' sb').
  { intros C V. rewrite C in EW. cbn [wrun] in EW. apply ok_inj in EW. subst w'. rewrite <- (well_unique _ _ _ W W'). exact (follows_vw _ _ _ _ V F). }
  assert (KEEP : forall wo, calls al s o = [wo] -> in_range w wo -> keeps wo = true -> (wstep w wo = Ok w' -> pointers w w') -> vw s' = vw s -> follows s' w' sb').
  { intros wo C IR K P V. rewrite C, run1 in EW. destruct (keep_sizes w sb wo W IR K) as (w1 & E1 & W1 & _ & _ & Z3). assert (X : w1 = w') by congruence. subst w1. rewrite <- (well_unique _ _ _ W1 W').
    apply (follows_vw s); [exact V|]. apply (follows_w s w); auto. }
  assert (SAME : forall wo, calls al s o = [wo] -> in_range w wo -> keeps wo = true -> (wstep w wo = Ok w' -> follows s' w' sb) -> follows s' w' sb').
  { intros wo C IR K P. rewrite C, run1 in EW. destruct (keep_sizes w sb wo W IR K) as (w1 & E1 & W1 & _). assert (X : w1 = w') by congruence. subst w1. rewrite <- (well_unique _ _ _ W1 W'). auto. }
  assert (UP : forall n, calls al s o = [WUp (fl s F_ALT) (fl s F_FIXED) (s_mt s) (s_mb s) n al] -> 0 <= n -> went_up s (s_mt s) (s_mb s) n s' -> follows s' w' sb').
  { intros n C HN G. rewrite C, run1 in EW. apply (up_follows al s (s_mt s) (s_mb s) n s' w sb w' sb'); auto; lia. }
  assert (DOWN : forall n, calls al s o = [WDown (s_mt s) (s_mb s) n] -> 0 <= n -> went_down s n s' -> follows s' w' sb').
  { intros n C HN G. apply (SAME (WDown (s_mt s) (s_mb s) n)); auto; [cbn [in_range]; lia|]. intros E1. exact (down_follows s n s' w sb w' W F HN G E1). }
  destruct (quiet o) eqn:Q.
  { pose proof (quiet_vw s o s' Q E) as V. destruct o; try discriminate Q; try (apply NONE; [reflexivity|exact V]).
    - apply (KEEP (WAct false)); [reflexivity|exact I|reflexivity|apply act_pointers|exact V].
    - unfold calls in *. destruct (negb (fl s F_ALT) && bit f F_ALT); [apply (KEEP (WAct true)); [reflexivity|exact I|reflexivity|apply act_pointers|exact V]|apply NONE; auto].
    - unfold calls in *. destruct (fl s F_ALT && bit f F_ALT); [apply (KEEP (WAct false)); [reflexivity|exact I|reflexivity|apply act_pointers|exact V]|apply NONE; auto].
    - destruct b; [discriminate Q|]. apply NONE; [reflexivity|exact V].
    - destruct b; [discriminate Q|]. apply NONE; [reflexivity|exact V].
    - cbn [op_args] in A. unfold u32_arg in A. unfold calls in *. destruct ((n =? 0) || (s_cy s <? s_mt s) || (s_mb s <? s_cy s)) eqn:C; [apply NONE; auto|].
      apply (KEEP (WIns (s_mb s) (s_cy s) n)); [reflexivity|cbn [in_range]; lia|reflexivity|apply ins_pointers|exact V].
    - cbn [op_args] in A. unfold u32_arg in A. unfold calls in *. destruct ((n =? 0) || (s_cy s <? s_mt s) || (s_mb s <? s_cy s)) eqn:C; [apply NONE; auto|].
      apply (KEEP (WDel (s_mb s) (s_cy s) n)); [reflexivity|cbn [in_range]; lia|reflexivity|apply del_pointers|exact V]. }
  destruct o; try discriminate Q; cbn [op_args] in A; unfold u32_arg in *; try (lazymatch type of E with step _ OClearSb = _ => rewrite step_clear in E | _ => cbn [step] in E end).
  - (* resize *)
    destruct (scr_resize s x y) as [[s1 z]|] eqn:ER; [|discriminate]. cbn [bind fst] in E. apply ok_inj in E. subst s'.
    destruct ((x =? 0) || (y =? 0) || ((s_sx s =? x) && (s_sy s =? y))) eqn:C.
    + assert (X : s1 = s). { unfold scr_resize in ER. destruct ((x =? 0) || (y =? 0)); cbn [orb] in C; [congruence|]. rewrite C in ER. congruence. }
      rewrite X in *. apply NONE; [unfold calls; cbv zeta; now rewrite C|reflexivity].
    + clear NONE KEEP SAME UP DOWN. assert (EC : calls al s (OResize x y) = WGrow y true al :: (if y <? s_sy s then [WUp (fl s F_ALT) (fl s F_FIXED) 0 (s_sy s - 1) (s_sy s - y) al] else [])) by (unfold calls; cbv zeta; now rewrite C).
      rewrite EC in EW. clear EC. cbn [wrun] in EW. destruct (grow_sizes w sb y al W FA PL) as (w1 & E1 & W1 & Z1 & Z2 & Z3). rewrite E1 in EW. cbn [bind] in EW.
      assert (F1 : follows s w1 sb) by (apply (follows_w s w); auto; exact (grow_pointers _ _ _ _ _ E1)).
      pose proof (up_resize s x y s1 z HI ltac:(lia) ltac:(lia) ltac:(lia) ER) as G. destruct (Z.ltb_spec y (s_sy s)) as [LT|GE].
      * rewrite run1 in EW. replace (Z.max 0 (s_sy s - y)) with (s_sy s - y) in G by lia. apply (up_follows al s 0 (s_sy s - 1) (s_sy s - y) s1 w1 sb w' sb'); auto; lia.
      * cbn [wrun] in EW. apply ok_inj in EW. subst w'. rewrite <- (well_unique _ _ _ W1 W'). replace (Z.max 0 (s_sy s - y)) with 0 in G by lia. exact (follows_vw _ _ _ _ (went_up_0 _ _ _ _ G) F1).
  - (* limit *)
    unfold calls in EW. rewrite run1 in EW. destruct (step_well w sb (WMax n) W) as (w1 & sb1 & E1 & W1 & MX & _ & SB); [cbn [in_range]; lia|]. assert (X : w1 = w') by congruence. subst w1. rewrite <- (well_unique _ _ _ W1 W'), SB.
    exact (max_follows s n s' w sb w' HI ltac:(lia) W F E EW).
  - (* clear *)
    apply ok_inj in E. rewrite E. unfold calls in EW. rewrite run1 in EW. destruct (step_well w sb WClear W) as (w1 & sb1 & E1 & W1 & MX & _ & SB); [exact I|]. assert (X : w1 = w') by congruence. subst w1. rewrite <- (well_unique _ _ _ W1 W'), SB.
    exact (clear_follows s w sb w' W F EW).
  - apply (SAME (WViewUp n)); [reflexivity|exact I|reflexivity|]. intros E1. exact (sb_up_follows s w sb n s' w' HI W F ltac:(lia) E E1).
  - apply (SAME (WViewDown n)); [reflexivity|exact I|reflexivity|]. intros E1. exact (sb_down_follows s w sb n s' w' HI W F ltac:(lia) E E1).
  - apply (SAME (WViewUp (u32 (n * s_sy s)))); [reflexivity|exact I|reflexivity|]. intros E1. cbn [wstep] in E1. unfold scr_sb_page_up in E. destruct (Z.eqb_spec n 0) as [->|N].
    + apply ok_inj in E. rewrite E. change (u32 (0 * s_sy s)) with 0 in E1. change (Z.to_nat 0) with O in E1. cbn [view_up] in E1. apply ok_inj in E1. now rewrite E1.
    + cbv zeta in E. rewrite inc_sy in E. pose proof (u32_range (n * s_sy s)). exact (sb_up_follows (inc_age s) w sb (u32 (n * s_sy s)) s' w' (Inv_inc s HI) W (follows_vw _ _ _ _ (vw_inc s) F) ltac:(lia) E E1).
  - apply (SAME (WViewDown (u32 (n * s_sy s)))); [reflexivity|exact I|reflexivity|]. intros E1. cbn [wstep] in E1. unfold scr_sb_page_down in E. destruct (Z.eqb_spec n 0) as [->|N].
    + apply ok_inj in E. rewrite E. change (u32 (0 * s_sy s)) with 0 in E1. change (Z.to_nat 0) with O in E1. cbn [view_down] in E1. apply ok_inj in E1. now rewrite E1.
    + cbv zeta in E. rewrite inc_sy in E. pose proof (u32_range (n * s_sy s)). exact (sb_down_follows (inc_age s) w sb (u32 (n * s_sy s)) s' w' (Inv_inc s HI) W (follows_vw _ _ _ _ (vw_inc s) F) ltac:(lia) E E1).
  - apply ok_inj in E. rewrite E. rewrite E in SAME. apply (SAME WViewReset); [reflexivity|exact I|reflexivity|]. intros E1. cbn [wstep] in E1. apply ok_inj in E1. rewrite E1. now apply sb_reset_follows.
  - (* write *)
    destruct (scr_width ch) as [wd|] eqn:WD; [|unfold scr_write in E; rewrite WD in E; discriminate E].
    assert (WP : 0 <= wd) by (destruct (scr_width_ok ch) as (wd' & WE & WR); assert (X : wd' = wd) by congruence; lia).
    pose proof (up_write s ch a wd s' HI WD WP E) as G. unfold calls in *. cbv zeta in *. rewrite WD in *. destruct ((0 <? wd) && write_scrolls s).
    + apply (UP 1); auto; lia.
    + apply NONE; auto. exact (went_up_0 _ _ _ _ G).
  - apply (UP (over_down s 1)); [reflexivity|apply (over_down_range s 1 H)|]. exact (up_newline s s' HI E).
  - apply (UP n); [reflexivity|lia|]. exact (up_scroll s n s' H0 E).
  - apply (DOWN n); [reflexivity|lia|]. exact (down_scroll s n s' H0 E).
  - destruct b; [|discriminate Q]. apply (DOWN (over_up s n)); [reflexivity|apply (over_up_range s n H)|]. exact (down_move_up s n s' HI ltac:(lia) E).
  - destruct b; [|discriminate Q]. apply (UP (over_down s n)); [reflexivity|apply (over_down_range s n H)|]. exact (proj1 (up_move_down s n s' HI ltac:(lia) E)).
  - apply ok_inj in E. rewrite E. rewrite E in SAME. apply (SAME WSelReset); [reflexivity|exact I|reflexivity|]. intros E1. cbn [wstep] in E1. apply ok_inj in E1. rewrite E1. now apply sel_reset_follows.
  - apply (SAME (WSelStart y)); [reflexivity|exact I|reflexivity|]. intros E1. exact (start_follows s x y s' w sb w' HI ltac:(lia) W F E E1).
  - apply (SAME (WSelTarget y)); [reflexivity|exact I|reflexivity|]. intros E1. exact (target_follows s x y s' w sb w' HI ltac:(lia) W F E E1).
Qed.

(* -- as the specification says it --------------------------------------------------------------------------- *)
Lemma line_points s sb k p : Inv0 s -> zlen sb = zlen (s_sb s) -> (is_line s sb k p <-> points (first_id s) sb k p).
Proof.
  intros H EL. destruct k as [k|]; cbn [is_line points]; [|tauto]. unfold first_id. split.
  - intros (j & l & J & K & P). rewrite (i_sbid _ H j l J) in K. assert (X : k = s_sbid s - zlen (s_sb s) + 1 + j) by congruence. rewrite X. replace (_ - _) with j by lia. exact P.
  - intros P. pose proof (znth_Some_range _ _ _ P). destruct (ids_get (s_sb s) (s_sbid s) k (i_sbid _ H) ltac:(lia)) as (l & L1 & L2). exists (k - (s_sbid s - zlen (s_sb s) + 1)), l. auto.
Qed.
Lemma looks_follows s w sb : Inv0 s -> agree s w sb -> (looks s w sb <-> follows s w sb).
Proof.
  intros H (_ & _ & EL & EM). split.
  - intros (P & A & S). constructor; auto; [now apply line_points|..]; intros Y; destruct (S Y) as [[S1 S2] [S3 S4]]; (split; [apply line_points; assumption|assumption]).
  - intros F. split; [apply line_points; auto; apply F|]. split; [apply F|]. intros Y. destruct (fo_1 _ _ _ F Y) as [A1 A2]. destruct (fo_2 _ _ _ F Y) as [B1 B2]. split; (split; [apply line_points; assumption|assumption]).
Qed.
Theorem calls_look al s o s' w sb : reachable s -> op_args o -> step s o = Ok s' -> fair al -> plenty al -> well w sb -> agree s w sb -> looks s w sb ->
  exists w' sb', wrun w (calls al s o) = Ok w' /\ well w' sb' /\ agree s' w' sb' /\ looks s' w' sb'.
Proof.
  intros H A E FA PL W G K. destruct (calls_agree al s o s' w sb H A E FA PL W G) as (w' & sb' & EW & W' & G'). exists w', sb'. split; [exact EW|]. split; [exact W'|]. split; [exact G'|].
  pose proof (reachable_step s o s' H A E) as H'. apply looks_follows; [exact (proj1 (reachable_Inv s' H'))|exact G'|].
  apply (calls_follow al s o s' w sb w' sb'); auto. apply looks_follows; auto. exact (proj1 (reachable_Inv s H)).
Qed.
Lemma calls_from_look al os : forall s w sb s', reachable s -> Forall op_args os -> run s os = Ok s' -> fair al -> plenty al -> well w sb -> agree s w sb -> looks s w sb ->
  exists w' sb', wrun w (calls_from al s os) = Ok w' /\ well w' sb' /\ agree s' w' sb' /\ looks s' w' sb'.
Proof.
  induction os as [|o os IH]; intros s w sb s' H A E FA PL W G K; cbn [run calls_from] in *.
  - apply ok_inj in E. rewrite E. exists w, sb. auto.
  - inversion A as [|? ? A1 A2]; subst. destruct (step s o) as [s1|] eqn:E1; [|discriminate]. cbn [bind] in E. rewrite wrun_app.
    destruct (calls_look al s o s1 w sb H A1 E1 FA PL W G K) as (w1 & sb1 & -> & W1 & G1 & K1). cbn [bind].
    exact (IH s1 w1 sb1 s' (reachable_step s o s1 H A1 E1) A2 E FA PL W1 G1 K1).
Qed.
Lemma init_looks : s_sbpos scr_init = None /\ s_sela scr_init = false.
Proof. vm_compute. auto. Qed.
Theorem life_look al os s : fair al -> plenty al -> Forall op_args os -> run scr_init os = Ok s ->
  exists w sb, wrun own_new (life al os) = Ok w /\ well w sb /\ agree s w sb /\ looks s w sb.
Proof.
  intros FA PL A E. unfold life. cbn [wrun]. destruct (grow_sizes own_new [] 24 al new_well FA PL) as (w1 & E1 & W1 & Z1 & Z2 & Z3). rewrite E1. cbn [bind].
  destruct (grow_pointers _ _ _ _ _ E1) as (P1 & P2 & P3 & P4). destruct init_sizes as (I1 & I2 & I3 & I4). destruct init_looks as [I5 I6].
  assert (H0 : reachable scr_init) by (exists []; split; [constructor|reflexivity]).
  apply (calls_from_look al os scr_init w1 [] s H0 A E FA PL W1).
  - unfold agree. rewrite Z1, Z2, Z3, I1, I2, I3, I4. change (w_main own_new) with (@nil Z). change (w_act own_new) with false. change (w_max own_new) with 0. cbn [length]. clear. repeat match goal with |- _ /\ _ => split end; try reflexivity; lia.
  - unfold looks. rewrite I5, I6, P1, P2. change (w_pos own_new) with 0. change (w_sela own_new) with false. cbn [is_line]. split; [reflexivity|]. split; [reflexivity|]. discriminate.
Qed.

(* -- what is drawn ------------------------------------------------------------------------------------------ *)
Lemma draw_from w L n : inv w (w_main w ++ w_alt w) L -> forall v k, 0 <= v <= zlen L -> 0 <= k -> (v < zlen L -> k = 0) -> k + Z.of_nat n <= zlen (w_rows w) ->
  exists r, draw_rows n w (or0 (znth L v)) k = Ok r /\ zlen r = Z.of_nat n /\ forall i, 0 <= i < Z.of_nat n -> znth r i = znth (L ++ w_rows w) (v + k + i).
Proof.
  intros I. induction n as [|n IH]; intros v k V K0 KV K; cbn [draw_rows].
  - exists []. split; [reflexivity|]. split; [reflexivity|]. intros i J. lia.
  - assert (STEP : forall x v' k', 0 <= v' <= zlen L -> 0 <= k' -> (v' < zlen L -> k' = 0) -> k' + Z.of_nat n <= zlen (w_rows w) -> v' + k' = v + k + 1 -> znth (L ++ w_rows w) (v + k) = Some x ->
      exists r, (do r <- draw_rows n w (or0 (znth L v')) k'; Ok (x :: r)) = Ok r /\ zlen r = Z.of_nat (S n) /\ forall i, 0 <= i < Z.of_nat (S n) -> znth r i = znth (L ++ w_rows w) (v + k + i)).
    { intros x v' k' A1 A2 A3 A4 A5 A6. destruct (IH v' k' A1 A2 A3 A4) as (r & -> & R1 & R2). cbn [bind]. exists (x :: r). split; [reflexivity|]. split; [cbn [length]; lia|].
      intros i J. destruct (Z.eq_dec i 0) as [->|N]; [rewrite Z.add_0_r, A6; reflexivity|]. rewrite znth_cons by lia. replace (i =? 0) with false by lia. rewrite R2 by lia. f_equal. lia. }
    destruct (Z.eq_dec v (zlen L)) as [E|N].
    + rewrite (znth_ge L v) by lia. cbn [or0]. change (0 =? 0) with true. cbv iota. destruct (znth_is (w_rows w) k) as (x & X & XI); [lia|]. rewrite (zget_ok _ _ _ X). cbn [bind].
      destruct (iv_in _ _ _ x I) as [o ->]; [now apply rows_alive|]. cbn [bind]. specialize (STEP x v (k + 1)). rewrite (znth_ge L v) in STEP by lia. cbn [or0] in STEP. apply STEP; try lia.
      rewrite znth_app. replace (v + k <? zlen L) with false by lia. rewrite <- X. f_equal. lia.
    + destruct (znth_some L v) as [p P]; [lia|]. destruct (iv_znth _ _ _ _ _ I P) as [PN _]. rewrite P. cbn [or0]. replace (p =? 0) with false by lia. rewrite (dll_at _ _ _ _ (iv_dll _ _ _ I) P). cbn [bind o_next].
      apply STEP; try lia. rewrite znth_app. replace (v + k <? zlen L) with true by lia. rewrite <- P. f_equal. lia.
Qed.
Theorem draw_shows s w sb n : reachable s -> well w sb -> agree s w sb -> looks s w sb -> 0 <= n <= s_sy s ->
  exists r, draw_rows (Z.to_nat n) w (w_pos w) 0 = Ok r /\ zlen r = n /\ forall i, 0 <= i < n -> znth r i = znth (sb ++ w_rows w) (view_index s + i).
Proof.
  intros H W G K HN. pose proof (proj1 (reachable_Inv s H)) as H0. pose proof (proj1 (looks_follows s w sb H0 G) K) as F. destruct (pos_at s w sb H0 F) as [EP HV]. destruct G as (GY & GA & GS & GM).
  assert (EL : zlen (w_rows w) = zlen (w_main w)) by (unfold w_rows; destruct (w_act w); [symmetry; apply (wl_pairs _ _ W)|reflexivity]).
  destruct (draw_from w sb (Z.to_nat n) (well_inv _ _ W) (view_index s) 0 HV ltac:(lia) ltac:(lia) ltac:(lia)) as (r & R1 & R2 & R3). rewrite <- EP in R1. exists r. split; [exact R1|]. split; [lia|].
  intros i J. rewrite R3 by lia. f_equal. lia.
Qed.
