(* The pointers of the view and of the selection: all calls. *)
From Verif Require Import Base BaseProofs Screen ScreenInv ScreenSb ScreenScroll ScreenSpec ScreenOps ScreenMove ScreenCtl ScreenResize ScreenSafe ScreenHist ScreenRz ScreenThms Own OwnSpec OwnProofs OwnRows OwnThms OwnCalls OwnCallThms OwnView OwnViewCalls OwnViewUp OwnViewRest.
From Coq Require Import Permutation.

(* -- the limit ---------------------------------------------------------------------------------------------- *)
Lemma sel_live_first s s1 p : Inv0 s -> s_sbid s1 = s_sbid s -> first_id s1 = first_id s + 1 -> sb_ptr (s_sb s) (s_sbid s) (p_line p) ->
  sel_live s1 p = match p_line p with Some k => if k =? first_id s then mkP None (p_x p) SELECTION_TOP else p | None => p end.
Proof.
  intros H E1 E2 P. unfold sel_live, live. rewrite E1, E2. destruct (p_line p) as [k|]; [|reflexivity]. cbn in P. unfold first_id in *.
  destruct (Z.eqb_spec k (s_sbid s - zlen (s_sb s) + 1)); [replace (_ && _) with false by lia|replace (_ && _) with true by lia]; reflexivity.
Qed.
Lemma trim1_sim s s1 w live a L w1 w3 : Inv0 s -> sb_trim1 s = Ok s1 -> inv w live (a :: L) -> follows s w (a :: L) -> unlink_first w = Ok w1 ->
  free_line (forget (if w_pos w1 =? w_first w then put_pos w1 (w_first w1) else w1) (w_first w)) (w_first w) = Ok w3 -> follows s1 w3 L.
Proof.
  intros H E I F U FR. pose proof H as H0. inv0 H0. pose proof (fo_len _ _ _ F) as EL. cbn [length] in EL.
  destruct (sb_trim1_ok s H) as (s2 & E2 & P); [intros X; rewrite X in EL; cbn [length] in EL; lia|]. assert (X : s2 = s1) by congruence. subst s2.
  destruct (unlink_ok w live a L I) as (h & U' & _). rewrite U' in U. apply ok_inj in U. rewrite (iv_first _ _ _ I) in FR. cbn [hd] in FR.
  assert (U1 : w_pos w1 = w_pos w /\ w_sela w1 = w_sela w /\ w_sel1 w1 = w_sel1 w /\ w_sel2 w1 = w_sel2 w /\ w_first w1 = hd 0 L /\ w_max w1 = w_max w) by (rewrite U; cbn; auto 10).
  destruct U1 as (U1 & U2 & U3 & U4 & U5 & U6).
  set (w2 := if w_pos w1 =? a then put_pos w1 (w_first w1) else w1) in *.
  assert (Q : w_pos w2 = (if w_pos w =? a then hd 0 L else w_pos w) /\ w_sela w2 = w_sela w /\ w_sel1 w2 = w_sel1 w /\ w_sel2 w2 = w_sel2 w /\ w_max w2 = w_max w).
  { unfold w2. rewrite U1. destruct (w_pos w =? a); cbn; auto 10. }
  destruct Q as (Q1 & Q2 & Q3 & Q4 & Q5). clearbody w2. destruct (forget_pointers w2 a) as (G1 & G2 & G3 & G4). pose proof (free_pointers _ _ _ FR) as (D1 & D2 & D3 & D4).
  assert (MX : w_max w3 = w_max w). { unfold free_line in FR. destruct (hfree _ _) as [h'|]; [|discriminate]. cbn [bind] in FR. apply ok_inj in FR. rewrite FR. cbn [put_heap w_max]. rewrite <- Q5. apply forget_rest. }
  assert (N0 : ~ In 0 (a :: L)) by (intros X; apply (iv_null _ _ _ I); apply in_or_app; auto). assert (ND : NoDup (a :: L)) by exact (iv_ndL _ _ _ I).
  assert (L1 : zlen (s_sb s1) = zlen L) by (rewrite (tr_sb _ _ _ P), skipn_length; lia).
  assert (FI : first_id s1 = first_id s + 1) by (unfold first_id; rewrite (tr_id _ _ _ P), L1; lia).
  constructor.
  - auto.
  - rewrite MX, (fo_max _ _ _ F). symmetry. apply (f_sbmax _ _ (tr_env _ _ _ P)).
  - rewrite D1, G1, Q1, FI, (tr_pos _ _ _ P). pose proof (fo_pos _ _ _ F) as FP. destruct (s_sbpos s) as [p|]; cbn [points] in *.
    + cbn in Isbpos. rewrite FI, L1. destruct (Z.eqb_spec (w_pos w) a) as [EA|NA].
      * assert (KP : p - first_id s = 0). { apply (znth_inj (a :: L) _ _ a ND); [congruence|reflexivity]. } destruct L as [|b L]; [reflexivity|]. change (zlen (b :: L) =? 0) with false. cbn [hd points].
        replace (Z.max p (first_id s + 1) - (first_id s + 1)) with 0 by lia. reflexivity.
      * assert (KP : p <> first_id s). { intros ->. rewrite Z.sub_diag in FP. change (znth (a :: L) 0) with (Some a) in FP. congruence. }
        pose proof (points_tail _ _ _ _ _ KP FP) as FT. pose proof (znth_Some_range _ _ _ FT). replace (zlen L =? 0) with false by lia. cbn [points]. replace (Z.max p (first_id s + 1)) with p by lia. exact FT.
    + rewrite FP. destruct (Z.eqb_spec 0 a) as [X|_]; [exfalso; apply N0; left; congruence|reflexivity].
  - rewrite D2, G2, Q2, (fo_sela _ _ _ F). symmetry. apply (f_sela _ _ (tr_env _ _ _ P)).
  - intros S1. rewrite (f_sela _ _ (tr_env _ _ _ P)) in S1. rewrite D3, G3, Q2, Q3, (fo_sela _ _ _ F), (tr_sel1 _ _ _ P), S1, FI.
    rewrite (sel_live_first s s1) by (auto; apply P). apply forget_points; auto. exact (fo_1 _ _ _ F S1).
  - intros S1. rewrite (f_sela _ _ (tr_env _ _ _ P)) in S1. rewrite D4, G4, Q2, Q4, (fo_sela _ _ _ F), (tr_sel2 _ _ _ P), S1, FI.
    rewrite (sel_live_first s s1) by (auto; apply P). apply forget_points; auto. exact (fo_2 _ _ _ F S1).
Qed.
Lemma trim_sim n : forall s s' w live L w', Inv0 s -> inv w live L -> follows s w L -> (n <= length L)%nat -> sb_trim n s = Ok s' -> trim n w = Ok w' -> follows s' w' (skipn n L).
Proof.
  induction n as [|n IH]; intros s s' w live L w' H I F HN E EW; cbn [sb_trim trim skipn] in *.
  - apply ok_inj in E. apply ok_inj in EW. rewrite E, EW. exact F.
  - destruct L as [|a L]; [cbn [length] in HN; lia|]. cbn [length] in HN.
    destruct (sb_trim1 s) as [s1|] eqn:E1; [|discriminate]. cbn [bind] in E. destruct (unlink_first w) as [w1|] eqn:U; [|discriminate]. cbn [bind] in EW.
    destruct (free_line (forget (if w_pos w1 =? w_first w then put_pos w1 (w_first w1) else w1) (w_first w)) (w_first w)) as [w3|] eqn:FR; [|discriminate]. cbn [bind] in EW.
    pose proof (trim1_sim s s1 w live a L w1 w3 H E1 I F U FR) as F1.
    assert (H1 : Inv0 s1). { destruct (sb_trim1_ok s H) as (s2 & E2 & P); [intros X; pose proof (fo_len _ _ _ F) as EL; rewrite X in EL; cbn [length] in EL; lia|]. assert (X : s2 = s1) by congruence. rewrite <- X. apply P. }
    assert (I1 : inv w3 live L).
    { destruct (trim_ok 1 w live (a :: L) I) as (w4 & E4 & I4 & _); [cbn [length]; lia|]. cbn [trim] in E4. rewrite U in E4. cbn [bind] in E4. rewrite FR in E4. cbn [bind] in E4. apply ok_inj in E4. rewrite <- E4. exact I4. }
    exact (IH s1 s' w3 live L w' H1 I1 F1 ltac:(lia) E EW).
Qed.
Lemma max_follows s n s' w sb w' : Inv s -> 0 <= n < 2 ^ 32 -> well w sb -> follows s w sb -> scr_set_max_sb s n = Ok s' -> max_sb n w = Ok w' -> follows s' w' (youngest n sb).
Proof.
  intros H HN W F E EW. unfold scr_set_max_sb in E. fold (aged s) in E. pose proof (Inv_aged s H) as (HA & _). apply (follows_vw _ _ _ _ (vw_aged s)) in F. unfold max_sb in EW.
  set (t := aged s) in *. clearbody t. cbv zeta in E. destruct (sb_trim (Z.to_nat (s_sbn t - n)) t) as [t1|] eqn:E1; [|discriminate]. cbn [bind] in E. destruct (trim (Z.to_nat (w_count w - n)) w) as [w1|] eqn:E2; [|discriminate]. cbn [bind] in EW.
  apply ok_inj in E. apply ok_inj in EW. rewrite E, EW. pose proof HA as HA0. inv0 HA0. rewrite Isbn, <- (fo_len _ _ _ F) in E1. rewrite (wl_count _ _ W) in E2. replace (Z.to_nat (zlen sb - n)) with (length sb - Z.to_nat n)%nat in * by lia.
  pose proof (fun K => trim_sim _ _ _ _ _ _ _ HA (well_inv _ _ W) F K E1 E2) as G. specialize (G ltac:(lia)). fold (youngest n sb) in G. destruct G as [G1 G2 G3 G4 G5 G6]. constructor; auto.
Qed.
(* -- clearing ----------------------------------------------------------------------------------------------- *)
Lemma clear_points s L p e : ~ In 0 L -> points_end (first_id s) L p e -> forall b, points_end b [] (sel_unline p) (clear_end e).
Proof.
  intros N [P Y] b. unfold sel_unline, clear_end. destruct (p_line p) as [k|] eqn:EP; cbn [points] in P.
  - assert (NZ : fst e <> 0). { intros X. apply N. rewrite <- X. eapply znth_In; eauto. } replace (fst e =? 0) with false by lia. split; reflexivity.
  - rewrite P. change (0 =? 0) with true. cbv iota. split; [rewrite EP; exact P|exact Y].
Qed.
Lemma clear_follows s w sb w' : well w sb -> follows s w sb -> clear_list w = Ok w' -> follows (scr_clear_sb s) w' [].
Proof.
  intros W F EW. unfold scr_clear_sb. fold (aged s). apply (follows_vw _ _ _ _ (vw_aged s)) in F. generalize dependent (aged s). intros t F. cbv zeta. pose proof (well_nz _ _ W) as N0.
  unfold clear_list in EW. destruct (free_list _ _ _) as [h|]; [|discriminate]. cbn [bind] in EW. apply ok_inj in EW. rewrite EW. clear EW w'. destruct F as [F1 F2 F3 F4 F5 F6].
  unfold sel_map. change (w_sela (put_pos (put_list w 0 0 0 h) 0)) with (w_sela w). rewrite F4. set (t1 := set_sbposn (set_sbpos (set_sbn (set_sb t []) 0) None) 0). change (s_sela t1) with (s_sela t).
  destruct (s_sela t) eqn:ES; constructor; auto; try reflexivity.
  - intros _. exact (clear_points t sb _ _ N0 (F5 eq_refl) _).
  - intros _. exact (clear_points t sb _ _ N0 (F6 eq_refl) _).
  - change (w_sela w = s_sela t). congruence.
  - intros X. change (s_sela t1) with (s_sela t) in X. congruence.
  - intros X. change (s_sela t1) with (s_sela t) in X. congruence.
Qed.
(* -- the selection ------------------------------------------------------------------------------------------ *)
Lemma sel_find_at w live L : inv w live L -> forall n v y, 0 <= v <= zlen L -> 0 <= y -> (Z.to_nat (zlen L - v) < n)%nat ->
  sel_find n (w_heap w) (or0 (znth L v)) y = Ok (if y <? zlen L - v then (or0 (znth L (v + y)), 0) else (0, y - (zlen L - v))).
Proof.
  intros I. induction n as [|n IH]; intros v y HV HY HN; [lia|]. cbn [sel_find]. destruct (Z.eqb_spec y 0) as [->|NY]; cbn [orb].
  - destruct (Z.ltb_spec 0 (zlen L - v)); [do 4 f_equal; lia|]. rewrite znth_ge by lia. cbn [or0]. do 2 f_equal. lia.
  - destruct (Z.eq_dec v (zlen L)) as [EV|NV].
    + rewrite (znth_ge L v) by lia. cbn [or0]. change (0 =? 0) with true. cbv iota. replace (y <? zlen L - v) with false by lia. do 2 f_equal. lia.
    + destruct (znth_some L v) as [p E]; [lia|]. destruct (iv_znth _ _ _ _ _ I E) as [X0 _]. rewrite E. cbn [or0]. replace (p =? 0) with false by lia.
      rewrite (dll_at _ _ _ _ (iv_dll _ _ _ I) E). cbn [bind o_next]. rewrite IH by lia. replace (y - 1 <? zlen L - (v + 1)) with (y <? zlen L - v) by lia. destruct (y <? zlen L - v); [replace (v + 1 + (y - 1)) with (v + y) by lia; reflexivity|do 2 f_equal; lia].
Qed.
Lemma find_end_points s w live L x y e : Inv0 s -> inv w live L -> follows s w L -> 0 <= y < 2 ^ 32 -> find_end w y = Ok e -> points_end (first_id s) L (sel_at s x y) e.
Proof.
  intros H I F HY E. destruct (pos_at s w L H F) as [EP HV]. unfold find_end in E. rewrite EP, u32_small in E by lia. rewrite (sel_find_at w live L I) in E; [|lia|lia|pose proof (heap_len _ _ _ I); lia].
  cbn [bind] in E. apply ok_inj in E. rewrite E. clear E e. pose proof (fo_len _ _ _ F) as EL. unfold sel_at. cbv zeta. rewrite <- EL. destruct (Z.ltb_spec y (zlen L - view_index s)) as [LT|GE]; cbn [fst snd]; split; cbn [p_line p_y points fst snd]; try reflexivity.
  replace (first_id s + view_index s + y - first_id s) with (view_index s + y) by lia. destruct (znth_some L (view_index s + y)) as [q ->]; [lia|reflexivity].
Qed.
Lemma sel_at_aged s x y : sel_at (aged s) x y = sel_at s x y.
Proof. destruct (aged_sb s) as (A1 & A2 & A3 & _). unfold sel_at, first_id. now rewrite A1, A2, A3. Qed.
Lemma first_aged s : first_id (aged s) = first_id s.
Proof. destruct (aged_sb s) as (A1 & A2 & A3 & _). unfold first_id. now rewrite A1, A2. Qed.
Lemma start_follows s x y s' w sb w' : Inv s -> 0 <= y < 2 ^ 32 -> well w sb -> follows s w sb -> scr_sel_start s x y = Ok s' -> wstep w (WSelStart y) = Ok w' -> follows s' w' sb.
Proof.
  intros H HY W F E EW. destruct (sel_start_ok s x y H ltac:(lia)) as [E1 _]. rewrite E1 in E. apply ok_inj in E. rewrite E. clear E E1 s'. cbn [wstep] in EW. destruct (find_end w y) as [e|] eqn:EF; [|discriminate]. cbn [bind] in EW. apply ok_inj in EW. rewrite EW.
  pose proof (find_end_points s w _ sb x y e (proj1 H) (well_inv _ _ W) F HY EF) as P. rewrite <- sel_at_aged, <- first_aged in P. apply (follows_vw _ _ _ _ (vw_aged s)) in F. set (p := sel_at (aged s) x y) in *. clearbody p. set (t := aged s) in *. clearbody t. destruct F as [F1 F2 F3 F4 F5 F6]. constructor; auto.
Qed.
Lemma target_follows s x y s' w sb w' : Inv s -> 0 <= y < 2 ^ 32 -> well w sb -> follows s w sb -> scr_sel_target s x y = Ok s' -> wstep w (WSelTarget y) = Ok w' -> follows s' w' sb.
Proof.
  intros H HY W F E EW. destruct (sel_target_ok s x y H ltac:(lia)) as [E1 _]. rewrite E1 in E. apply ok_inj in E. rewrite E. clear E E1 s'. cbn [wstep] in EW. rewrite (fo_sela _ _ _ F) in EW. destruct (s_sela s) eqn:ES; [|apply ok_inj in EW; now rewrite EW].
  destruct (find_end w y) as [e|] eqn:EF; [|discriminate]. cbn [bind] in EW. apply ok_inj in EW. rewrite EW. assert (ES' : s_sela (aged s) = true) by (unfold aged; rewrite inc_age_eq; exact ES).
  pose proof (find_end_points s w _ sb x y e (proj1 H) (well_inv _ _ W) F HY EF) as P. rewrite <- sel_at_aged, <- first_aged in P. apply (follows_vw _ _ _ _ (vw_aged s)) in F. set (p := sel_at (aged s) x y) in *. clearbody p. set (t := aged s) in *. clearbody t. destruct F as [F1 F2 F3 F4 F5 F6]. constructor; auto.
Qed.
Lemma sel_reset_follows s w sb : follows s w sb -> follows (scr_sel_reset s) (put_sel w false (w_sel1 w) (w_sel2 w)) sb.
Proof.
  intros F. unfold scr_sel_reset. fold (aged s). apply (follows_vw _ _ _ _ (vw_aged s)) in F. generalize dependent (aged s). intros t F. destruct F as [F1 F2 F3 F4 F5 F6]. constructor; auto; intros X; discriminate X.
Qed.
