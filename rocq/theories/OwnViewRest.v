(* The pointers of the view and of the selection in the calls that look at the
   scrollback, select, scroll down and drop lines. *)
From Verif Require Import Base BaseProofs Screen ScreenInv ScreenSb ScreenScroll ScreenSpec ScreenOps ScreenMove ScreenCtl ScreenResize ScreenSafe ScreenHist ScreenThms Own OwnSpec OwnProofs OwnRows OwnThms OwnCalls OwnCallThms OwnView OwnViewCalls OwnViewUp.
From Coq Require Import Permutation.

(* -- down --------------------------------------------------------------------------------------------------- *)
Lemma end_down_points b L num p e : ~ In 0 L -> points_end b L p e -> points_end b L (sel_scroll_down num p) (end_down num e).
Proof.
  intros N [P Y]. unfold points_end, sel_scroll_down, end_down. destruct (p_line p) as [k|] eqn:EP; cbn [points] in P.
  - assert (NZ : fst e <> 0). { intros X. apply N. rewrite <- X. eapply znth_In; eauto. }
    replace (fst e =? 0) with false by lia. cbn [andb]. rewrite EP. auto.
  - rewrite P, Y. cbn [andb]. change (0 =? 0) with true. cbn [andb]. destruct (0 <=? p_y p); cbn [fst snd p_line p_y points]; [auto|rewrite EP; cbn [points]; auto].
Qed.
Lemma down_chunk_sim s w L max mt mb num s' w' : ~ In 0 L -> follows s w L -> scroll_down_chunk s max num = Ok s' -> down_chunk mt mb max num w = Ok w' -> follows s' w' L.
Proof.
  intros N F E EW. unfold scroll_down_chunk in E. destruct (cache_blank s _ num) as [[s1 c]|] eqn:E1; [|discriminate]. cbn [bind] in E. apply vw_cache in E1.
  match type of E with (do _ <- ?e; _) = _ => destruct e as [s2|] eqn:E2; [|discriminate] end. cbn [bind] in E.
  assert (V2 : vw s2 = vw s1) by (destruct (num <? max); [now apply vw_lmove in E2|apply ok_inj in E2; now rewrite E2]).
  destruct (lines_copy s2 (s_mt s2) c) as [s3|] eqn:E3; [|discriminate]. cbn [bind] in E. apply vw_lcopy in E3. assert (V3 : vw s3 = vw s) by congruence. apply ok_inj in E. rewrite E. clear E s' E1 E2 V2 E3 s1 s2 c.
  pose proof (follows_vw _ _ _ _ V3 F) as F3. clear V3 F s.
  unfold down_chunk in EW. destruct (take_rows _ _ num) as [c|]; [|discriminate]. cbn [bind] in EW.
  destruct (if num <? max then _ else _) as [ls|]; [|discriminate]. cbn [bind] in EW. destruct (zcopy ls mt c) as [ls'|]; [|discriminate]. cbn [bind] in EW. apply ok_inj in EW. rewrite EW. clear EW w' ls c.
  destruct F3 as [F1 F2 F3 F4 F5 F6]. unfold sel_map. change (w_sela (put_rows w ls')) with (w_sela w). rewrite F4. destruct (s_sela s3) eqn:ES; constructor; auto; try (intros; now rewrite ES).
  1,2: intros _; apply end_down_points; auto.
  all: congruence.
Qed.
Lemma down_rec_sim L : ~ In 0 L -> forall fuel s w n, Inv0 s -> follows s w L -> 0 <= n -> Z.min n (s_mb s + 1 - s_mt s) / 128 <= Z.of_nat fuel ->
  forall s' w', scroll_down_rec fuel s n = Ok s' -> down_rec fuel (s_mt s) (s_mb s) n w = Ok w' -> follows s' w' L.
Proof.
  intros N0. induction fuel as [|fuel IH]; intros s w n H F HN HF s' w' E1 E2; cbn [scroll_down_rec down_rec] in E1, E2; destruct (Z.eqb_spec n 0) as [Z0|NZ].
  1,3: assert (Y1 : s' = s) by congruence; assert (Y2 : w' = w) by congruence; rewrite Y1, Y2; exact F.
  all: pose proof (Inv0_age_all s H) as HG; pose proof H as H0; inv0 H0; unfold DIM in *; cbv zeta in E1, E2; change (s_mb (age_all s)) with (s_mb s) in E1; change (s_mt (age_all s)) with (s_mt s) in E1;
       rewrite (u32_small (s_mb s + 1 - s_mt s)) in E1 by lia;
       assert (EN : (if s_mb s + 1 - s_mt s <? n then s_mb s + 1 - s_mt s else n) = Z.min n (s_mb s + 1 - s_mt s)) by (destruct (Z.ltb_spec (s_mb s + 1 - s_mt s) n); lia); rewrite EN in E1, E2; set (m := Z.min n (s_mb s + 1 - s_mt s)) in *.
  - replace (128 <? m) with false in E1, E2 by lia. exact (down_chunk_sim _ _ _ _ _ _ _ _ _ N0 (follows_age _ _ _ F) E1 E2).
  - destruct (Z.ltb_spec 128 m) as [BIG|SM]; [|exact (down_chunk_sim _ _ _ _ _ _ _ _ _ N0 (follows_age _ _ _ F) E1 E2)].
    destruct (scroll_down_chunk_ok (age_all s) 128 HG) as (s1 & L1 & P1); [change (s_mb (age_all s)) with (s_mb s); change (s_mt (age_all s)) with (s_mt s); lia|reflexivity|].
    change (s_mb (age_all s)) with (s_mb s) in L1. change (s_mt (age_all s)) with (s_mt s) in L1. rewrite L1 in E1. cbn [bind] in E1. apply scrolled_down_age in P1. pose proof (sd_env _ _ _ P1) as PE.
    destruct (down_chunk (s_mt s) (s_mb s) (s_mb s + 1 - s_mt s) 128 w) as [w1|] eqn:L2; [|discriminate]. cbn [bind] in E2.
    rewrite <- (f_mt _ _ PE), <- (f_mb _ _ PE) in E2.
    apply (IH s1 w1 (m - 128)); [apply P1|exact (down_chunk_sim _ _ _ _ _ _ _ _ _ N0 (follows_age _ _ _ F) L1 L2)|lia|rewrite (f_mt _ _ PE), (f_mb _ _ PE); lia|exact E1|exact E2].
Qed.
Definition went_down (s : screen) (n : Z) (s' : screen) : Prop :=
  exists t t', Inv0 t /\ vw t = vw s /\ s_mt t = s_mt s /\ s_mb t = s_mb s /\ scroll_down t n = Ok t' /\ vw s' = vw t'.
Lemma well_nz w sb : well w sb -> ~ In 0 sb.
Proof. intros W X. apply (wl_null _ _ W). apply (Permutation_in _ (Permutation_sym (wl_alive _ _ W))). rewrite !in_app_iff. auto. Qed.
Lemma down_follows s n s' w sb w' : well w sb -> follows s w sb -> 0 <= n -> went_down s n s' -> wstep w (WDown (s_mt s) (s_mb s) n) = Ok w' -> follows s' w' sb.
Proof.
  intros W F HN (t & t' & H & V & M1 & M2 & E & V') EW. apply (follows_vw t'); [exact V'|]. pose proof H as H0. inv0 H0. unfold DIM in *.
  unfold scroll_down in E. rewrite u32_small in E by lia. cbn [wstep] in EW. unfold up_fuel in EW. rewrite <- M1, <- M2 in EW.
  refine (down_rec_sim sb (well_nz _ _ W) _ t w n H (follows_vw _ _ _ _ V F) HN _ _ _ E EW). lia.
Qed.
Lemma scroll_down_0 s : scroll_down s 0 = Ok s.
Proof. unfold scroll_down. destruct (Z.to_nat _); reflexivity. Qed.
Lemma scroll_down_cap s n : Inv0 s -> 0 <= n -> scroll_down s (Z.min n (s_mb s + 1 - s_mt s)) = scroll_down s n.
Proof.
  intros H HN. inv0 H. unfold DIM in *. unfold scroll_down. rewrite u32_small by lia. set (r := s_mb s + 1 - s_mt s) in *. replace (Z.min (Z.min n r) r) with (Z.min n r) by lia.
  assert (EZ : (Z.min n r =? 0) = (n =? 0)) by (destruct (Z.eqb_spec n 0), (Z.eqb_spec (Z.min n r) 0); try lia; reflexivity).
  assert (EC : (if r <? Z.min n r then r else Z.min n r) = (if r <? n then r else n)) by (destruct (Z.ltb_spec r n), (Z.ltb_spec r (Z.min n r)); lia).
  destruct (Z.to_nat (Z.min n r / 128)); cbn [scroll_down_rec]; rewrite EZ; destruct (n =? 0); try reflexivity; cbv zeta; change (s_mb (age_all s)) with (s_mb s); change (s_mt (age_all s)) with (s_mt s); rewrite (u32_small (s_mb s + 1 - s_mt s)) by lia; fold r; rewrite EC; reflexivity.
Qed.
Lemma down_scroll s n s' : Inv0 s -> step s (OScrollDown n) = Ok s' -> went_down s n s'.
Proof.
  intros H E. cbn [step] in E. unfold scr_scroll_down in E. destruct (Z.eqb_spec n 0) as [->|N].
  - apply ok_inj in E. exists s, s. rewrite E, scroll_down_0. auto 10.
  - exists (inc_age s), s'. pose proof (frame_inc s) as FI. rewrite vw_inc, (g_mt _ _ FI), (g_mb _ _ FI). auto 10 using Inv0_inc.
Qed.
Lemma down_move_up s n s' : Inv s -> 0 <= n -> scr_move_up s n true = Ok s' -> went_down s (over_up s n) s'.
Proof.
  intros (H & Hcx & Hcy) HN E. pose proof H as H0. inv0 H0. unfold DIM in *. pose proof (frame_inc s) as FI. pose proof (Inv0_inc s H) as HI. unfold scr_move_up in E.
  assert (ID : forall t, vw t = vw s -> went_down s 0 t) by (intros t V; exists s, s; rewrite scroll_down_0; auto 10).
  destruct (Z.eqb_spec n 0) as [->|N].
  - apply ok_inj in E. rewrite E. replace (over_up s 0) with 0; [auto|]. unfold over_up, ceil_row, region. destruct (s_mt s <=? s_cy s) eqn:C; lia.
  - cbv zeta in E. incs s. rewrite INmt, INcy, INcx in E.
    assert (Ht : 0 <= ceil_row s <= s_cy s) by (unfold ceil_row; destruct (s_mt s <=? s_cy s) eqn:C; lia).
    change (if s_mt s <=? s_cy s then s_mt s else 0) with (ceil_row s) in E. rewrite (u32_small (s_cy s - ceil_row s)) in E by lia.
    destruct (Z.ltb_spec (s_cy s - ceil_row s) n) as [LT|GE].
    + destruct (scroll_down (inc_age s) (n - (s_cy s - ceil_row s))) as [t|] eqn:ES; [|discriminate]. cbn [bind] in E. pose proof (vw_move _ _ _ _ E) as V.
      exists (inc_age s), t. rewrite vw_inc, (g_mt _ _ FI), (g_mb _ _ FI). repeat match goal with |- _ /\ _ => split end; auto.
      rewrite <- ES. rewrite <- (scroll_down_cap (inc_age s) (n - (s_cy s - ceil_row s)) HI) by lia. rewrite INmb, INmt. f_equal. unfold over_up, region. lia.
    + replace (over_up s n) with 0 by (unfold over_up, region; lia). apply ID. rewrite (vw_move _ _ _ _ E). apply vw_inc.
Qed.

(* -- the view ----------------------------------------------------------------------------------------------- *)
Lemma points_vpos s L v : zlen L = zlen (s_sb s) -> 0 <= v <= zlen L -> points (first_id s) L (vpos s v) (or0 (znth L v)).
Proof.
  intros EL HV. unfold vpos. destruct (Z.eqb_spec v (zlen (s_sb s))) as [E|N]; cbn [points].
  - rewrite znth_ge by lia. reflexivity.
  - replace (first_id s + v - first_id s) with v by lia. destruct (znth_some L v) as [x ->]; [lia|reflexivity].
Qed.
Lemma pos_at s w L : Inv0 s -> follows s w L -> w_pos w = or0 (znth L (view_index s)) /\ 0 <= view_index s <= zlen L.
Proof.
  intros H F. destruct (view_range s H) as [V1 V2]. pose proof (fo_len _ _ _ F) as EL. split; [|lia]. pose proof (fo_pos _ _ _ F) as P. rewrite V2 in P. pose proof (points_vpos s L (view_index s) EL ltac:(lia)) as P'.
  destruct (vpos s (view_index s)); cbn [points] in *; congruence.
Qed.
Lemma view_up_at live L n : forall w v, inv w live L -> w_pos w = or0 (znth L v) -> 0 <= v <= zlen L -> view_up n w = Ok (put_pos w (or0 (znth L (Z.max 0 (v - Z.of_nat n))))).
Proof.
  induction n as [|n IH]; intros w v I EP HV; cbn [view_up].
  - replace (Z.max 0 (v - Z.of_nat 0)) with v by lia. rewrite <- EP, put_pos_same. reflexivity.
  - assert (NX : 0 < v -> view_up n (put_pos w (or0 (znth L (v - 1)))) = Ok (put_pos w (or0 (znth L (Z.max 0 (v - Z.of_nat (S n))))))).
    { intros V0. rewrite (IH (put_pos w (or0 (znth L (v - 1)))) (v - 1)); [rewrite put_pos_twice; do 4 f_equal; lia| |reflexivity|lia].
      apply inv_pos; [exact I|]. destruct (znth_some L (v - 1)) as [x E]; [lia|]. rewrite E. cbn [or0]. right. eapply znth_In; eauto. }
    destruct (Z.eq_dec v (zlen L)) as [EV|NV].
    + assert (P0 : w_pos w = 0) by (rewrite EP, znth_ge by lia; reflexivity). rewrite P0. change (0 =? 0) with true. cbv iota. rewrite (iv_last _ _ _ I), last_znth, <- EV.
      destruct (Z.eqb_spec v 0) as [V0|V0].
      * rewrite (znth_neg L) by lia. cbn [or0]. change (0 =? 0) with true. cbv iota. do 2 f_equal. replace (Z.max 0 (v - Z.of_nat (S n))) with v by lia. rewrite <- EP. now rewrite put_pos_same.
      * destruct (znth_some L (v - 1)) as [x E]; [lia|]. destruct (iv_znth _ _ _ _ _ I E) as [X0 _]. rewrite E in *. cbn [or0] in *. replace (x =? 0) with false by lia. apply NX. lia.
    + destruct (znth_some L v) as [p E]; [lia|]. destruct (iv_znth _ _ _ _ _ I E) as [X0 _]. rewrite E in EP. cbn [or0] in EP. rewrite EP. replace (p =? 0) with false by lia.
      rewrite (dll_at _ _ _ _ (iv_dll _ _ _ I) E). cbn [bind o_prev]. destruct (Z.eqb_spec v 0) as [V0|V0].
      * rewrite (znth_neg L) by lia. cbn [or0]. change (0 =? 0) with true. cbv iota. f_equal. replace (Z.max 0 (v - Z.of_nat (S n))) with v by lia. rewrite E. cbn [or0]. rewrite <- EP. now rewrite put_pos_same.
      * destruct (znth_some L (v - 1)) as [x E']; [lia|]. destruct (iv_znth _ _ _ _ _ I E') as [X1 _]. rewrite E' in *. cbn [or0] in *. replace (x =? 0) with false by lia. apply NX. lia.
Qed.
Lemma view_down_at live L n : forall w v, inv w live L -> w_pos w = or0 (znth L v) -> 0 <= v <= zlen L -> view_down n w = Ok (put_pos w (or0 (znth L (Z.min (zlen L) (v + Z.of_nat n))))).
Proof.
  induction n as [|n IH]; intros w v I EP HV; cbn [view_down].
  - replace (Z.min (zlen L) (v + Z.of_nat 0)) with v by lia. rewrite <- EP, put_pos_same. reflexivity.
  - destruct (Z.eq_dec v (zlen L)) as [EV|NV].
    + assert (P0 : w_pos w = 0) by (rewrite EP, znth_ge by lia; reflexivity). rewrite P0. change (0 =? 0) with true. cbv iota. replace (Z.min (zlen L) (v + Z.of_nat (S n))) with v by lia. rewrite <- EP. now rewrite put_pos_same.
    + destruct (znth_some L v) as [p E]; [lia|]. destruct (iv_znth _ _ _ _ _ I E) as [X0 _]. rewrite E in EP. cbn [or0] in EP. rewrite EP. replace (p =? 0) with false by lia.
      rewrite (dll_at _ _ _ _ (iv_dll _ _ _ I) E). cbn [bind o_next].
      rewrite (IH (put_pos w (or0 (znth L (v + 1)))) (v + 1)); [rewrite put_pos_twice; do 4 f_equal; lia| |reflexivity|lia].
      apply inv_pos; [exact I|]. destruct (Z.eq_dec (v + 1) (zlen L)) as [E1|N1]; [rewrite znth_ge by lia; left; reflexivity|]. destruct (znth_some L (v + 1)) as [x E']; [lia|]. rewrite E'. right. eapply znth_In; eauto.
Qed.
Lemma vw_aged s : vw (aged s) = vw s.
Proof. unfold aged. rewrite vw_age. apply vw_inc. Qed.
Lemma viewed_follows s w L v pn : follows s w L -> 0 <= v <= zlen L -> follows (viewed (aged s) v pn) (put_pos w (or0 (znth L v))) L.
Proof.
  intros F HV. apply (follows_vw _ _ _ _ (vw_aged s)) in F. generalize dependent (aged s). intros t F. pose proof (points_vpos t L v (fo_len _ _ _ F) HV) as P. unfold viewed. destruct F as [F1 F2 F3 F4 F5 F6]. constructor; auto.
Qed.
Lemma sb_up_follows s w L n s' w' : Inv s -> well w L -> follows s w L -> 0 <= n -> scr_sb_up s n = Ok s' -> view_up (Z.to_nat n) w = Ok w' -> follows s' w' L.
Proof.
  intros H W F HN E EW. destruct (pos_at s w L (proj1 H) F) as [EP HV]. rewrite (view_up_at _ _ _ _ _ (well_inv _ _ W) EP HV) in EW. apply ok_inj in EW.
  destruct (Z.eq_dec n 0) as [->|N].
  - unfold scr_sb_up in E. change (0 =? 0) with true in E. cbv iota in E. apply ok_inj in E. rewrite E, EW. replace (Z.max 0 (view_index s - Z.of_nat (Z.to_nat 0))) with (view_index s) by lia. rewrite <- EP, put_pos_same. exact F.
  - destruct (sb_up_ok s n H ltac:(lia)) as (pn & E1 & _). rewrite E1 in E. apply ok_inj in E. rewrite E, EW. rewrite Z2Nat.id by lia. apply viewed_follows; [exact F|lia].
Qed.
Lemma sb_down_follows s w L n s' w' : Inv s -> well w L -> follows s w L -> 0 <= n -> scr_sb_down s n = Ok s' -> view_down (Z.to_nat n) w = Ok w' -> follows s' w' L.
Proof.
  intros H W F HN E EW. destruct (pos_at s w L (proj1 H) F) as [EP HV]. rewrite (view_down_at _ _ _ _ _ (well_inv _ _ W) EP HV) in EW. apply ok_inj in EW.
  destruct (Z.eq_dec n 0) as [->|N].
  - unfold scr_sb_down in E. change (0 =? 0) with true in E. cbv iota in E. apply ok_inj in E. rewrite E, EW. replace (Z.min (zlen L) (view_index s + Z.of_nat (Z.to_nat 0))) with (view_index s) by lia. rewrite <- EP, put_pos_same. exact F.
  - destruct (sb_down_ok s n H ltac:(lia)) as (pn & E1 & _). rewrite E1 in E. apply ok_inj in E. rewrite E, EW. rewrite Z2Nat.id by lia. rewrite <- (fo_len _ _ _ F). apply viewed_follows; [exact F|lia].
Qed.
Lemma sb_reset_follows s w L : follows s w L -> follows (scr_sb_reset s) (put_pos w 0) L.
Proof.
  intros F. unfold scr_sb_reset. destruct (s_sbpos s) as [p|] eqn:E.
  - apply (follows_vw _ _ _ _ (vw_aged s)) in F. unfold aged in F. generalize dependent (age_all (inc_age s)). intros t F. destruct F as [F1 F2 F3 F4 F5 F6]. constructor; auto. reflexivity.
  - destruct F as [F1 F2 F3 F4 F5 F6]. constructor; auto. rewrite E. reflexivity.
Qed.
