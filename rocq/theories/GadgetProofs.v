From Verif Require Import Base BaseProofs Screen ScreenSpec ScreenResize ScreenInv ScreenSafe Render RenderSpec RenderProofs RenderThms Utf8 Symbol VteData Vte VteKeys VteSpec VteView VteInv VteSafe VteReply VteDevSpec VteDev VteFrame VteParse VteStr VteThms VteThms2 VteThms3 Gadget GadgetSpec.

(* -- frames ------------------------------------------------------------------------------- *)
Lemma on_screen_queued h o h' : on_screen h o = Ok h' -> h_queued h' = true.
Proof. unfold on_screen. intros E. destruct (scr (h_vte h) o); [|discriminate]. cbn [bind] in E. now injection E as <-. Qed.
Lemma sel_call_queued h f b x y h' : sel_call h f b x y = Ok h' -> h_queued h' = true.
Proof. unfold sel_call. intros E. destruct (to_cell x _); [|discriminate]. cbn [bind] in E. destruct (to_cell y _); [|discriminate]. cbn [bind] in E. eapply on_screen_queued; eauto. Qed.
Lemma con_sr v b n : v_con (set_reset v b n) = v_con v.
Proof. reflexivity. Qed.
Definition still (h h' : gadget) : Prop := h_queued h' = true \/ h_queued h' = h_queued h /\ v_con (h_vte h') = v_con (h_vte h).
Lemma still_refl h : still h h. Proof. right; auto. Qed.
Lemma step_still sg h e h' : (forall n, e <> EvSbSize n) -> e <> EvFrame -> on_gev sg h e = Ok h' -> still h h'.
Proof.
  intros N F E. destruct e; cbn [on_gev] in E; try congruence.
  - unfold on_key in E. destruct pressed; cbn [negb] in E; [|injection E as <-; apply still_refl].
    destruct (scroll_key state tr); [left; eapply on_screen_queued; eauto|].
    unfold vte_key in E. destruct (key_bytes _ _ _ _ _) as [bs|].
    + destruct (vte_write _ _ _) as [v|]; [|discriminate]. cbn [bind fst snd] in E. left. eapply on_screen_queued; eauto.
    + cbn [bind fst snd] in E. injection E as <-. right. split; [reflexivity|]. cbn [served h_vte]. rewrite con_sr. match goal with |- context [if ?b then _ else _] => now destruct b end.
  - unfold on_button in E. destruct (button =? 1); cbn [negb] in E; [|injection E as <-; apply still_refl]. destruct (h_face h) as [f|]; [|injection E as <-; apply still_refl].
    destruct k.
    + injection E as <-. right; auto.
    + left. eapply sel_call_queued; eauto.
    + left. eapply sel_call_queued; eauto.
    + destruct ((h_sel h =? 1) && _).
      * destruct (on_screen h OSelReset) as [h1|] eqn:E1; [|discriminate]. cbn [bind] in E. injection E as <-. left. cbn. eapply on_screen_queued; eauto.
      * cbn [bind] in E. injection E as <-. right; auto.
  - unfold on_motion in E. destruct (h_sel h =? 0); [injection E as <-; apply still_refl|]. destruct (h_face h) as [f|]; [|injection E as <-; apply still_refl].
    destruct (h_sel h =? 1); [destruct (_ || _); [left; eapply sel_call_queued; eauto|injection E as <-; apply still_refl]|left; eapply sel_call_queued; eauto].
  - injection E as <-. destruct (h_pty h); right; auto.
  - destruct (h_pty h); [|injection E as <-; apply still_refl]. destruct (vte_input _ _ _); [|discriminate]. cbn [bind] in E. injection E as <-. now left.
  - injection E as <-. right; auto.
  - destruct (h_pty h); [injection E as <-; apply still_refl|]. injection E as <-. destruct (h_face h); [right|left]; cbn; auto.
  - left. eapply on_screen_queued; eauto.
Qed.
Lemma pending sg es : forall h h', Forall (fun e => (forall n, e <> EvSbSize n) /\ e <> EvFrame) es -> on_gevs sg h es = Ok h' -> h_queued h' = false -> v_con (h_vte h') = v_con (h_vte h).
Proof.
  assert (G : forall h h', Forall (fun e => (forall n, e <> EvSbSize n) /\ e <> EvFrame) es -> on_gevs sg h es = Ok h' -> still h h').
  { induction es as [|e r IH]; intros h h' A E; cbn [on_gevs] in E; [injection E as <-; apply still_refl|]. inversion A as [|? ? [A1 A2] A3]; subst.
    destruct (on_gev sg h e) as [h1|] eqn:E1; [|discriminate]. cbn [bind] in E. pose proof (step_still _ _ _ _ A1 A2 E1) as S1. destruct (IH _ _ A3 E) as [S|[S S']]; [now left|].
    destruct S1 as [S1|[S1 S2]]; [left; congruence|right; split; congruence]. }
  intros h h' A E Q. destruct (G h h' A E) as [S|[_ S]]; [congruence|exact S].
Qed.

(* -- cells ------------------------------------------------------------------------------- *)
Lemma to_cell_ok pos size c : 0 < size -> 0 <= c < 4294967296 -> in_cell pos size c -> to_cell pos size = Ok c.
Proof.
  intros S C [L U]. unfold to_cell. replace (size =? 0) with false by lia. assert (0 <= pos) by nia.
  assert (Q : Z.quot pos (1024 * size) = c) by (rewrite Z.quot_div_nonneg by lia; symmetry; apply (Z.div_unique pos (1024 * size) c (pos - c * size * 1024)); [left; lia|lia]).
  rewrite Q. replace ((0 <=? c) && (c <? 4294967296)) with true by lia. reflexivity.
Qed.
Lemma to_cell_iff pos size : 0 <= size -> (to_cell pos size <> Ub <-> has_cell size pos).
Proof.
  intros S. unfold to_cell, has_cell. destruct (Z.eqb_spec size 0) as [->|N]; [split; [congruence|lia]|].
  assert (K : ((0 <=? pos ÷ (1024 * size)) && (pos ÷ (1024 * size) <? 4294967296) = true) <-> - (size * 1024) < pos < 4294967296 * size * 1024).
  { rewrite andb_true_iff, Z.leb_le, Z.ltb_lt. assert (P : 0 < 1024 * size) by lia. destruct (Z.le_gt_cases 0 pos) as [G|G].
    - rewrite Z.quot_div_nonneg by lia. split.
      + intros [_ H]. split; [lia|]. apply Z.nle_gt. intros X. apply Z.lt_nge in H. apply H. apply Z.div_le_lower_bound; lia.
      + intros [_ H]. split; [apply Z.div_pos; lia|apply Z.div_lt_upper_bound; lia].
    - replace pos with (- - pos) by lia. rewrite Z.quot_opp_l by lia. rewrite Z.quot_div_nonneg by lia. split.
      + intros [H _]. split; [|lia]. assert (D : (- pos) / (1024 * size) < 1) by lia. apply Z.nle_gt. intros X. assert (1 <= (- pos) / (1024 * size)) by (apply Z.div_le_lower_bound; lia). lia.
      + intros [H _]. assert ((- pos) / (1024 * size) = 0) by (apply Z.div_small; lia). lia. }
  destruct ((0 <=? _) && _); split; intros H; try congruence; try (split; [lia|now apply K]). exfalso. destruct H as [_ H]. now apply K in H.
Qed.

(* -- the selection ------------------------------------------------------------------------- *)
Lemma unaged_all s : unaged (age_all (inc_age s)) = unaged s.
Proof. rewrite inc_age_eq. destruct s; reflexivity. Qed.
Lemma set_same s s' x y : s_sbpos s = s_sbpos s' -> s_sb s = s_sb s' -> selection_set s x y = selection_set s' x y.
Proof. intros A B. unfold selection_set. now rewrite A, B. Qed.
Lemma set_ok s x y : Inv s -> exists p, selection_set s x y = Ok p.
Proof.
  intros H. destruct (step_ok s (OSelStart 0 0) H) as (s' & E & _); [split; unfold u32_arg; lia|intros []|].
  cbn [step] in E. unfold scr_sel_start in E. rewrite (set_same (set_sela (age_all (inc_age s)) true) s) in E by (rewrite inc_age_eq; destruct s; reflexivity).
  unfold selection_set in *. destruct (s_sbpos s) as [q|]; [|eauto]. destruct (sb_from q (s_sb s)); [|discriminate E]. destruct (sel_walk _ y). eauto.
Qed.
Lemma start_spec s x y : Inv s -> exists p s', step s (OSelStart x y) = Ok s' /\ selection_set s x y = Ok p /\ unaged s' = set_sel2 (set_sel1 (set_sela (unaged s) true) p) p.
Proof.
  intros H. destruct (set_ok s x y H) as (p & P). exists p. cbn [step]. unfold scr_sel_start. rewrite (set_same (set_sela (age_all (inc_age s)) true) s) by (rewrite inc_age_eq; destruct s; reflexivity).
  rewrite P. cbn [bind]. eexists. split; [reflexivity|]. split; [reflexivity|]. rewrite <- (unaged_all s). destruct (age_all (inc_age s)); reflexivity.
Qed.
Lemma target_spec s x y p : s_sela s = true -> selection_set s x y = Ok p -> exists s', step s (OSelTarget x y) = Ok s' /\ unaged s' = set_sel2 (unaged s) p.
Proof.
  intros A P. cbn [step]. unfold scr_sel_target. rewrite A. rewrite (set_same (age_all (inc_age s)) s) by (rewrite inc_age_eq; destruct s; reflexivity).
  rewrite P. cbn [bind]. eexists. split; [reflexivity|]. rewrite <- (unaged_all s). destruct (age_all (inc_age s)); reflexivity.
Qed.
Lemma sela_unaged s : s_sela s = s_sela (unaged s). Proof. reflexivity. Qed.
Lemma set_unaged s x y : selection_set s x y = selection_set (unaged s) x y.
Proof. apply set_same; reflexivity. Qed.

(* The gadget after a call on the screen. *)
Lemma on_screen_ok h o s : step (v_con (h_vte h)) o = Ok s -> on_screen h o = Ok (queue (served h (w_con (h_vte h) s))).
Proof. intros E. unfold on_screen, scr. rewrite E. reflexivity. Qed.
Lemma served_pty h s : h_pty (served h (w_con (h_vte h) s)) = h_pty h.
Proof. unfold served. cbn. rewrite skipn_all2 by lia. cbn. destruct (h_pty h) as [q|]; [now rewrite app_nil_r|reflexivity]. Qed.
Record holds (h h' : gadget) (sel : Z) : Prop := mkHo {
  ho_face : h_face h' = h_face h; ho_pty : h_pty h' = h_pty h; ho_sel : h_sel h' = sel }.
Lemma sel_call_ok h f (b : bool) x y cx cy s : to_cell x (fst f) = Ok cx -> to_cell y (snd f) = Ok cy ->
  step (v_con (h_vte h)) (if b then OSelStart cx cy else OSelTarget cx cy) = Ok s ->
  exists h', sel_call h f b x y = Ok h' /\ v_con (h_vte h') = s /\ holds h h' (h_sel h) /\ h_queued h' = true.
Proof.
  intros A B E. unfold sel_call. rewrite A, B. cbn [bind]. rewrite (on_screen_ok _ _ _ E). eexists. split; [reflexivity|]. split; [reflexivity|]. split; [|reflexivity]. constructor; try reflexivity. exact (served_pty h s).
Qed.
(* Targets one after the other: the last one counts. *)
Lemma cell_of pos size : has_cell size pos -> exists c, to_cell pos size = Ok c.
Proof. intros H. pose proof H as [P _]. apply (to_cell_iff pos size ltac:(lia)) in H. destruct (to_cell pos size); [eauto|congruence]. Qed.
Lemma moves_spec sg w hh base : s_sela base = true -> forall ps h q, h_face h = Some (w, hh) -> h_sel h = 2 -> unaged (v_con (h_vte h)) = set_sel2 base q -> (forall x y, exists p, selection_set base x y = Ok p) -> aimed w hh ps ->
  exists h', on_gevs sg h (moves ps) = Ok h' /\ holds h h' 2 /\ (ps <> [] -> h_queued h' = true) /\ exists q', unaged (v_con (h_vte h')) = set_sel2 base q' /\
  (ps = [] -> q' = q) /\ forall pre x y cx cy, ps = pre ++ [(x, y)] -> to_cell x w = Ok cx -> to_cell y hh = Ok cy -> selection_set base cx cy = Ok q'.
Proof.
  intros A. induction ps as [|[x y] r IH]; intros h q F S U P G; cbn [moves map on_gevs].
  - exists h. split; [reflexivity|]. split; [now constructor|]. split; [congruence|]. exists q. split; [exact U|]. split; [auto|]. intros pre x y cx cy E. now destruct pre.
  - inversion G as [|? ? [G1 G2] G3]; subst. destruct (cell_of _ _ G1) as (cx & Cx). destruct (cell_of _ _ G2) as (cy & Cy). cbn [fst snd] in *.
    destruct (P cx cy) as (p & Pp).
    assert (Ps : selection_set (v_con (h_vte h)) cx cy = Ok p) by (rewrite set_unaged, U; rewrite <- Pp; apply set_same; destruct base; reflexivity).
    assert (Pa : s_sela (v_con (h_vte h)) = true) by (rewrite sela_unaged, U; destruct base; exact A).
    destruct (target_spec _ _ _ _ Pa Ps) as (s1 & E1 & U1).
    destruct (sel_call_ok h (w, hh) false x y cx cy s1 Cx Cy E1) as (h1 & E2 & C1 & [Hf Hp Hs] & Q1).
    cbn [on_gev]. unfold on_motion. rewrite S, F. change (2 =? 0) with false. change (2 =? 1) with false. cbv iota. rewrite E2. cbn [bind].
    destruct (IH h1 p ltac:(congruence) ltac:(congruence) ltac:(rewrite C1, U1, U; destruct base; reflexivity) P G3) as (h' & E' & [Hf' Hp' Hs'] & Q' & q' & U' & N' & L').
    exists h'. split; [exact E'|]. split; [constructor; congruence|]. split.
    { intros _. destruct r; [cbn in E'; injection E' as <-; exact Q1|apply Q'; congruence]. }
    exists q'. split; [exact U'|]. split; [congruence|]. intros pre x' y' cx' cy' E Cx' Cy'. destruct pre as [|a pre].
    + injection E as <- <- ->. rewrite (N' eq_refl). congruence.
    + injection E as <- ->. now apply (L' pre x' y').
Qed.
Lemma run_two s o1 o2 s1 s2 : step s o1 = Ok s1 -> step s1 o2 = Ok s2 -> run s [o1; o2] = Ok s2.
Proof. intros A B. cbn [run]. rewrite A. cbn [bind]. rewrite B. reflexivity. Qed.
Lemma gevs_app sg a b : forall h, on_gevs sg h (a ++ b) = do h' <- on_gevs sg h a; on_gevs sg h' b.
Proof. induction a as [|e r IH]; intros h; cbn [on_gevs app bind]; [reflexivity|]. destruct (on_gev sg h e); cbn [bind]; auto. Qed.
Lemma drag sg h w hh t t' x0 y0 x1 y1 ps x y xu yu cx0 cy0 cx cy : drawn_reachable (v_con (h_vte h)) -> h_face h = Some (w, hh) -> 0 < w -> 0 < hh ->
  0 <= cx0 < 4294967296 -> 0 <= cy0 < 4294967296 -> 0 <= cx < 4294967296 -> 0 <= cy < 4294967296 ->
  in_cell x0 w cx0 -> in_cell y0 hh cy0 -> in_cell x w cx -> in_cell y hh cy -> far x0 y0 x1 y1 -> aimed w hh ps ->
  exists h' s, on_gevs sg h (EvButton Down 1 t x0 y0 :: EvMotion x1 y1 :: moves (ps ++ [(x, y)]) ++ [EvButton Up 1 t' xu yu]) = Ok h' /\
  run (v_con (h_vte h)) [OSelStart cx0 cy0; OSelTarget cx cy] = Ok s /\ same_but_age (v_con (h_vte h')) s /\ h_queued h' = true /\ sent h h' [].
Proof.
  intros R F W H X0 Y0 X Y I1 I2 I3 I4 Fr Ai. pose proof (drawn_Inv _ R) as V.
  destruct (start_spec (v_con (h_vte h)) cx0 cy0 V) as (p & s1 & E1 & P1 & U1).
  destruct (set_ok (v_con (h_vte h)) cx cy V) as (q & Q).
  set (base := set_sel2 (set_sel1 (set_sela (unaged (v_con (h_vte h))) true) p) p) in *.
  assert (PB : forall a b, selection_set base a b = selection_set (v_con (h_vte h)) a b) by (intros; apply set_same; reflexivity).
  assert (A1 : s_sela s1 = true) by (rewrite sela_unaged, U1; reflexivity).
  assert (Q1 : selection_set s1 cx cy = Ok q) by (rewrite set_unaged, U1, PB; exact Q).
  destruct (target_spec s1 cx cy q A1 Q1) as (s2 & E2 & U2).
  set (h1 := set_sel h 1 t x0 y0). set (h2 := set_sel h1 2 t x0 y0).
  destruct (sel_call_ok h2 (w, hh) true x0 y0 cx0 cy0 s1 (to_cell_ok _ _ _ W X0 I1) (to_cell_ok _ _ _ H Y0 I2) E1) as (h3 & E3 & C3 & [F3 P3 S3] & Q3).
  assert (M : on_motion h1 x1 y1 = Ok h3).
  { unfold on_motion. change (h_sel h1 =? 0) with false. change (h_sel h1 =? 1) with true. cbv iota. change (h_face h1) with (h_face h). rewrite F.
    change (h_x h1) with x0. change (h_y h1) with y0. change (h_time h1) with t. replace ((3 * 1024 <? Z.abs (x0 - x1)) || (3 * 1024 <? Z.abs (y0 - y1))) with true by (unfold far in Fr; lia). exact E3. }
  assert (Ai' : aimed w hh (ps ++ [(x, y)])).
  { apply Forall_app. split; [exact Ai|]. constructor; [|constructor]. cbn [fst snd]. unfold has_cell, in_cell in *. nia. }
  destruct (moves_spec sg w hh base eq_refl (ps ++ [(x, y)]) h3 p ltac:(rewrite F3; exact F) ltac:(rewrite S3; reflexivity) ltac:(rewrite C3, U1; reflexivity)
    ltac:(intros a b; rewrite PB; apply (set_ok _ a b V)) Ai') as (h4 & E4 & [F4 P4 S4] & Q4 & q' & U4 & _ & L4).
  specialize (L4 ps x y cx cy eq_refl (to_cell_ok _ _ _ W X I3) (to_cell_ok _ _ _ H Y I4)). rewrite PB, Q in L4. injection L4 as <-.
  exists (set_sel h4 0 (h_time h4) (h_x h4) (h_y h4)), s2. split.
  { cbn [on_gevs on_gev]. unfold on_button at 1. change (1 =? 1) with true. cbn [negb]. cbv iota. rewrite F. cbn [bind]. fold h1. rewrite M. cbn [bind]. rewrite gevs_app, E4. cbn [bind on_gevs on_gev].
    unfold on_button. change (1 =? 1) with true. cbn [negb]. cbv iota. rewrite F4, F3. change (h_face h2) with (h_face h). rewrite F, S4. change (2 =? 1) with false. cbn [andb bind]. reflexivity. }
  split; [exact (run_two _ _ _ _ _ E1 E2)|]. split.
  { unfold same_but_age. cbn [set_sel h_vte]. rewrite U4, U2, U1. reflexivity. }
  split; [cbn; apply Q4; destruct ps; discriminate|]. unfold sent. cbn [set_sel h_pty]. rewrite P4, P3. change (h_pty h2) with (h_pty h). destruct (h_pty h); [now rewrite app_nil_r|reflexivity].
Qed.
Lemma near_moves sg h x0 y0 ps : h_sel h = 1 -> h_x h = x0 -> h_y h = y0 -> Forall (fun p => ~ far x0 y0 (fst p) (snd p)) ps -> on_gevs sg h (moves ps) = Ok h.
Proof.
  intros S X Y. induction ps as [|[x y] r IH]; intros A; cbn [moves map on_gevs]; [reflexivity|]. inversion A as [|? ? A1 A2]; subst. cbn [on_gev fst snd]. unfold on_motion. rewrite S. change (1 =? 0) with false. change (1 =? 1) with true. cbv iota.
  replace ((3 * 1024 <? Z.abs (h_x h - x)) || (3 * 1024 <? Z.abs (h_y h - y))) with false by (unfold far in A1; cbn [fst snd] in A1; lia). destruct (h_face h); cbn [bind]; apply (IH A2).
Qed.
Lemma click sg h f t t' x0 y0 ps x y : h_face h = Some f -> 0 <= t -> t + 100 < 4294967296 -> t' < t + 100 -> Forall (fun p => ~ far x0 y0 (fst p) (snd p)) ps ->
  exists h', on_gevs sg h (EvButton Down 1 t x0 y0 :: moves ps ++ [EvButton Up 1 t' x y]) = Ok h' /\
  s_sela (v_con (h_vte h')) = false /\ same_but_age (v_con (h_vte h')) (set_sela (v_con (h_vte h)) false) /\ h_queued h' = true /\ sent h h' [].
Proof.
  intros F T T1 T2 N. set (h1 := set_sel h 1 t x0 y0). cbn [on_gevs on_gev]. unfold on_button at 1. change (1 =? 1) with true. cbn [negb]. cbv iota. rewrite F. cbn [bind]. fold h1.
  rewrite gevs_app, (near_moves sg h1 x0 y0 ps eq_refl eq_refl eq_refl N). cbn [bind on_gevs on_gev]. unfold on_button. change (1 =? 1) with true. cbn [negb]. cbv iota. change (h_face h1) with (h_face h). rewrite F.
  change (h_sel h1) with 1. change (h_time h1) with t. rewrite u32_small by lia. replace ((1 =? 1) && (t' <? t + 100)) with true by lia. cbv iota.
  rewrite (on_screen_ok h1 OSelReset (scr_sel_reset (v_con (h_vte h))) eq_refl). cbn [bind]. eexists. split; [reflexivity|]. split; [reflexivity|]. split.
  { unfold same_but_age. cbn. unfold scr_sel_reset. change (unaged (set_sela (age_all (inc_age (v_con (h_vte h)))) false)) with (set_sela (unaged (age_all (inc_age (v_con (h_vte h))))) false). rewrite unaged_all. reflexivity. }
  split; [reflexivity|]. unfold sent. pose proof (served_pty h1 (scr_sel_reset (v_con (h_vte h)))) as K. change (h_pty h1) with (h_pty h) in K. change (h_vte h1) with (h_vte h) in K. cbn [set_sel h_pty queue]. change (h_vte h1) with (h_vte h). rewrite K. destruct (h_pty h); [now rewrite app_nil_r|reflexivity].
Qed.

(* -- where the mouse may be ---------------------------------------------------------------- *)
Lemma sel_call_iff h w hh (b : bool) x y : drawn_reachable (v_con (h_vte h)) -> 0 <= w -> 0 <= hh -> (sel_call h (w, hh) b x y = Ub <-> ~ (has_cell w x /\ has_cell hh y)).
Proof.
  intros R W H. pose proof (drawn_Inv _ R) as V. split.
  - intros E [A B]. destruct (cell_of _ _ A) as (cx & Cx). destruct (cell_of _ _ B) as (cy & Cy).
    assert (S : exists s, step (v_con (h_vte h)) (if b then OSelStart cx cy else OSelTarget cx cy) = Ok s).
    { destruct b; [destruct (start_spec _ cx cy V) as (p & s & S & _); eauto|]. destruct (s_sela (v_con (h_vte h))) eqn:Sa.
      - destruct (set_ok _ cx cy V) as (p & P). destruct (target_spec _ _ _ _ Sa P) as (s & S & _). eauto.
      - exists (v_con (h_vte h)). cbn [step]. unfold scr_sel_target. now rewrite Sa. }
    destruct S as (s & S). destruct (sel_call_ok h (w, hh) b x y cx cy s Cx Cy S) as (h' & E' & _). congruence.
  - intros N. unfold sel_call. cbn [fst snd]. destruct (to_cell x w) as [cx|] eqn:A; [|reflexivity]. destruct (to_cell y hh) as [cy|] eqn:B; [|reflexivity].
    exfalso. apply N. split; [apply (to_cell_iff x w W)|apply (to_cell_iff y hh H)]; congruence.
Qed.
Lemma button_ub h w hh k b t x y : drawn_reachable (v_con (h_vte h)) -> h_face h = Some (w, hh) -> 0 <= w -> 0 <= hh ->
  (on_button h k b t x y = Ub <-> b = 1 /\ (k = Double \/ k = Triple) /\ ~ (has_cell w x /\ has_cell hh y)).
Proof.
  intros R F W H. unfold on_button. destruct (Z.eqb_spec b 1) as [->|N]; cbn [negb]; [|split; [discriminate|tauto]]. rewrite F. destruct k.
  - split; [discriminate|intros (_ & [X|X] & _); discriminate].
  - rewrite (sel_call_iff (set_sel h 2 (h_time h) (h_x h) (h_y h)) w hh true x y R W H). tauto.
  - rewrite (sel_call_iff (set_sel h 2 (h_time h) (h_x h) (h_y h)) w hh true x y R W H). tauto.
  - split; [|intros (_ & [X|X] & _); discriminate]. destruct ((h_sel h =? 1) && _); [rewrite (on_screen_ok h OSelReset (scr_sel_reset (v_con (h_vte h))) eq_refl)|]; discriminate.
Qed.
Lemma motion_ub h w hh x y : drawn_reachable (v_con (h_vte h)) -> h_face h = Some (w, hh) -> 0 <= w -> 0 <= hh ->
  (on_motion h x y = Ub <-> h_sel h = 1 /\ far (h_x h) (h_y h) x y /\ ~ (has_cell w (h_x h) /\ has_cell hh (h_y h)) \/ h_sel h <> 0 /\ h_sel h <> 1 /\ ~ (has_cell w x /\ has_cell hh y)).
Proof.
  intros R F W H. unfold on_motion. destruct (Z.eqb_spec (h_sel h) 0) as [E0|N0]; [split; [discriminate|intros [(A & _)|(A & _)]; lia]|]. rewrite F.
  destruct (Z.eqb_spec (h_sel h) 1) as [E1|N1].
  - destruct ((3 * 1024 <? Z.abs (h_x h - x)) || (3 * 1024 <? Z.abs (h_y h - y))) eqn:D.
    + rewrite (sel_call_iff (set_sel h 2 (h_time h) (h_x h) (h_y h)) w hh true (h_x h) (h_y h) R W H). assert (far (h_x h) (h_y h) x y) by (unfold far; lia). tauto.
    + split; [discriminate|]. intros [(_ & A & _)|(_ & A & _)]; [unfold far in A; lia|lia].
  - rewrite (sel_call_iff h w hh false x y R W H). tauto.
Qed.

(* -- keys --------------------------------------------------------------------------------- *)
Lemma alone_bits state cmod : (Z.land (Z.land state (Z.lnot cmod)) ALL_MODS = 1) <-> shift_alone state cmod.
Proof.
  unfold shift_alone. assert (B : forall n, 0 <= n -> Z.testbit (Z.land (Z.land state (Z.lnot cmod)) ALL_MODS) n = Z.testbit state n && negb (Z.testbit cmod n) && Z.testbit ALL_MODS n) by (intros n N; now rewrite !Z.land_spec, Z.lnot_spec).
  split.
  - intros E n I. assert (N : 0 <= n) by (cbn in I; lia). specialize (B n N). rewrite E in B. cbn in I. destruct I as [<-|[<-|[<-|[<-|[<-|[]]]]]]; cbn in B; rewrite andb_true_r in B; now rewrite <- B.
  - intros A. apply Z.bits_inj'. intros n N. rewrite (B n N). destruct (in_dec Z.eq_dec n [0; 1; 2; 3; 6]) as [I|I].
    + rewrite (A n I). cbn in I. destruct I as [<-|[<-|[<-|[<-|[<-|[]]]]]]; reflexivity.
    + assert (Z.testbit ALL_MODS n = false /\ Z.testbit 1 n = false) as [-> ->]; [|apply andb_false_r]. cbn in I.
      assert (n = 4 \/ n = 5 \/ 7 <= n) as [->|[->|G]] by lia; [split; reflexivity|split; reflexivity|]. split; apply Z.bits_above_log2; try (unfold ALL_MODS; lia); change (Z.log2 ALL_MODS) with 6 || change (Z.log2 1) with 0; lia.
Qed.
Lemma scroll_iff state tr o : scroll_key state tr = Some o <-> scrolls state tr o.
Proof.
  unfold scroll_key, scrolls. destruct tr as [[key cmod]|]; [|split; [discriminate|intros (a & b & E & _); discriminate]].
  destruct (Z.eqb_spec (Z.land (Z.land state (Z.lnot cmod)) ALL_MODS) 1) as [E|N].
  - apply alone_bits in E. split.
    + intros K. exists key, cmod. split; [reflexivity|]. split; [exact E|]. unfold scroll_keys. cbn [In].
      repeat match type of K with (if ?a =? ?b then _ else _) = _ => destruct (Z.eqb_spec a b); [injection K as <-; subst; auto|] end. 
      all: try discriminate.
    + intros (k & c & X & _ & I). injection X as <- <-. unfold scroll_keys in I. cbn [In] in I. destruct I as [I|[I|[I|[I|[]]]]]; injection I as <- <-; reflexivity.
  - split; [discriminate|]. intros (k & c & X & A & _). injection X as <- <-. apply alone_bits in A. contradiction.
Qed.
Lemma scroll_key_spec sg h state keyval tr ucs4 o s : scrolls state tr o -> step (v_con (h_vte h)) o = Ok s ->
  exists h', on_gev sg h (EvKey true state keyval tr ucs4) = Ok h' /\ v_con (h_vte h') = s /\ h_queued h' = true /\ sent h h' [].
Proof.
  intros K E. apply scroll_iff in K. cbn [on_gev]. unfold on_key. cbn [negb]. rewrite K, (on_screen_ok _ _ _ E). eexists. split; [reflexivity|]. split; [reflexivity|]. split; [reflexivity|].
  unfold sent. cbn [queue h_pty]. rewrite served_pty. destruct (h_pty h); [now rewrite app_nil_r|reflexivity].
Qed.
Lemma key_plain_np sg v k a m u : vfl v VF_PREPEND = false -> vfl v VF_SRM = true -> typable v u -> odd_pad (vfl v VF_KEYPAD_APP) k = false ->
  vte_key sg v k a m u = Ok (match key_sends v k a m u with Some bs => (wrote v (alt_prefix m ++ [bs]), true) | None => (v, false) end).
Proof.
  intros N S T O. unfold vte_key, alt_prefix. cbv zeta. unfold bit, M_ALT. destruct (Z.testbit m 3).
  - rewrite bytes_alt, (bytes_eq v k a m u T O). destruct (key_sends v k a m u) as [bs|].
    + unfold vte_write. rewrite (sr_other v true VF_PREPEND VF_SRM) by (unfold VF_PREPEND, VF_SRM; lia). rewrite S. cbn [bind]. rewrite send_alt by exact N. reflexivity.
    + rewrite unprep by exact N. reflexivity.
  - rewrite (bytes_eq v k a m u T O). destruct (key_sends v k a m u) as [bs|].
    + unfold vte_write. rewrite S. cbn [bind]. rewrite send_plain by exact N. reflexivity.
    + rewrite clear_none by exact N. reflexivity.
Qed.
Lemma mods_bits state n : In n [0; 1; 2; 3] -> Z.testbit (tsm_mods state) n = Z.testbit state n.
Proof.
  unfold tsm_mods, bit. intros I. cbn [In] in I. destruct I as [<-|[<-|[<-|[<-|[]]]]];
    destruct (Z.testbit state 0), (Z.testbit state 1), (Z.testbit state 2), (Z.testbit state 3), (Z.testbit state 6); reflexivity.
Qed.
Lemma sends_mods v k a m m' u : Z.testbit m 0 = Z.testbit m' 0 -> Z.testbit m 2 = Z.testbit m' 2 -> key_sends v k a m u = key_sends v k a m' u.
Proof. intros A B. unfold key_sends. now rewrite A, B. Qed.
Lemma said_wrote ws : said (map EWrite ws) = concat ws.
Proof. unfold said. induction ws as [|w r IH]; [reflexivity|]. cbn [map flat_map concat]. now rewrite IH. Qed.
Lemma titles_wrote ws : titles (map EWrite ws) = [].
Proof. unfold titles. induction ws as [|w r IH]; [reflexivity|]. cbn [map flat_map app]. exact IH. Qed.
Lemma type_spec sg h state keyval tr ucs4 : let v := h_vte h in let u := if ucs4 =? 0 then 0xffffffff else ucs4 in
  (forall o, ~ scrolls state tr o) -> vfl v VF_PREPEND = false -> vfl v VF_SRM = true -> typable v u -> odd_pad (vfl v VF_KEYPAD_APP) keyval = false ->
  exists h', on_gev sg h (EvKey true state keyval tr ucs4) = Ok h' /\
  match key_sends v keyval 0 state u with
  | Some bs => sent h h' ((if Z.testbit state 3 then [27] else []) ++ bs) /\ s_sbpos (v_con (h_vte h')) = None /\ same_but_age (v_con (h_vte h')) (scr_sb_reset (v_con v)) /\ h_queued h' = true
  | None => sent h h' [] /\ v_con (h_vte h') = v_con v /\ h_queued h' = h_queued h
  end.
Proof.
  intros v u N P S T O. cbn [on_gev]. unfold on_key. cbn [negb]. destruct (scroll_key state tr) as [o|] eqn:K; [exfalso; apply (N o), scroll_iff, K|].
  change VTE_INVALID with 0xffffffff. fold u. fold v. rewrite (key_plain_np sg v keyval 0 (tsm_mods state) u P S T O).
  rewrite (sends_mods v keyval 0 (tsm_mods state) state u) by (apply mods_bits; cbn; tauto). destruct (key_sends v keyval 0 state u) as [bs|]; cbn [bind fst snd].
  - set (h1 := served h (wrote v (alt_prefix (tsm_mods state) ++ [bs]))).
    assert (E1 : h_pty h1 = match h_pty h with Some q => Some (q ++ (if Z.testbit state 3 then [27] else []) ++ bs) | None => None end).
    { unfold h1, served. fold v. unfold wrote. cbn [w_out v_out h_pty]. rewrite skipn_app, skipn_all, Nat.sub_diag. cbn [skipn app]. rewrite said_wrote. unfold alt_prefix. rewrite (mods_bits state 3) by (cbn; tauto).
      destruct (h_pty h); [|reflexivity]. do 2 f_equal. destruct (Z.testbit state 3); cbn [app concat]; now rewrite app_nil_r. }
    rewrite (on_screen_ok h1 OSbReset (scr_sb_reset (v_con v)) eq_refl). eexists. split; [reflexivity|]. split.
    + unfold sent. cbn [queue h_pty]. rewrite served_pty. exact E1.
    + split; [|split; [reflexivity|reflexivity]]. cbn [queue served h_vte w_con v_con]. unfold scr_sb_reset. destruct (s_sbpos (v_con v)) eqn:B; [reflexivity|exact B].
  - eexists. split; [reflexivity|]. split; [|split; reflexivity]. unfold sent, served. fold v. cbn [h_pty]. rewrite skipn_all. cbn. destruct (h_pty h); reflexivity.
Qed.

(* -- titles ------------------------------------------------------------------------------- *)
Lemma cstr_all l : Forall (fun b => b <> 0) l -> cstr l = l.
Proof. induction 1 as [|b r B _ IH]; [reflexivity|]. cbn [cstr]. replace (b =? 0) with false by lia. now rewrite IH. Qed.
Lemma lor_ne a b : 0 < a -> Z.lor a b <> 0.
Proof. intros A E. apply Z.lor_eq_0_iff in E. lia. Qed.
Lemma utf8_ne c : 32 <= c -> Forall (fun b => b <> 0) (ucs4_to_utf8 c).
Proof.
  intros C. unfold ucs4_to_utf8. destruct ((0xd800 <=? c) && (c <=? 0xdfff)); [constructor|]. destruct (_ || _ || _); [constructor|]. destruct ((0xfdd0 <=? c) && (c <=? 0xfdef)); [constructor|].
  destruct (c <? Z.shiftl 1 7) eqn:E.
  - change (Z.shiftl 1 7) with 128 in E. constructor; [|constructor]. change 0x7f with (Z.ones 7). rewrite Z.land_ones by lia. rewrite Z.mod_small by (change (2 ^ 7) with 128; lia). lia.
  - repeat match goal with |- context [if ?b then _ else _] => destruct b end; repeat constructor; apply lor_ne; lia.
Qed.
Lemma utf8s_ne l : Forall (fun c => 32 <= c) l -> Forall (fun b => b <> 0) (flat_map ucs4_to_utf8 l).
Proof. induction 1 as [|c r C _ IH]; [constructor|]. cbn [flat_map]. apply Forall_app. split; [now apply utf8_ne|exact IH]. Qed.
Lemma title_spec sg h intro t stop bs rest : vreachable sg (h_vte h) -> text_mode (h_vte h) -> v_oscb (h_vte h) = true -> h_pty h <> None -> h_pipe h = bs ++ rest ->
  osc_intro intro -> osc_stop stop -> Forall osc_char t -> Forall (fun c => 32 <= c) t -> zlen (flat_map ucs4_to_utf8 t) <= 125 ->
  encodes sg (v_flags (h_vte h)) (intro ++ (50 :: 59 :: t) ++ stop) bs ->
  exists h', on_gev sg h (EvRead (length bs)) = Ok h' /\ h_titles h' = h_titles h ++ [flat_map ucs4_to_utf8 t] /\ v_con (h_vte h') = v_con (h_vte h) /\ sent h h' [] /\ h_pipe h' = rest.
Proof.
  intros R T O P B I S C C' Z E.
  destruct (osc_r sg (h_vte h) intro (50 :: 59 :: t) stop bs R T I ltac:(repeat constructor; try exact C; unfold osc_char; lia) S E) as (v' & text & E' & _ & K & _ & X).
  rewrite O in K. assert (text = 50 :: 59 :: flat_map ucs4_to_utf8 t) as ->.
  { apply X; [repeat constructor; [lia|lia|exact C']|]. cbn [flat_map]. change (ucs4_to_utf8 50) with [50]. change (ucs4_to_utf8 59) with [59]. cbn [app length] in *. lia. }
  assert (Ko : v_out v' = v_out (h_vte h) ++ [EOsc (50 :: 59 :: flat_map ucs4_to_utf8 t)]) by exact (f_equal v_out K).
  assert (Kc : v_con v' = v_con (h_vte h)) by exact (f_equal v_con K).
  cbn [on_gev]. destruct (h_pty h) as [q|] eqn:Q; [|congruence]. rewrite B. rewrite firstn_app, firstn_all, Nat.sub_diag. cbn [firstn]. rewrite app_nil_r, E'. cbn [bind]. eexists. split; [reflexivity|].
  cbn [queue h_titles h_vte h_pipe served]. rewrite Ko, skipn_app, skipn_all, Nat.sub_diag. cbn [skipn app titles flat_map title_of]. change ((50 =? 50) && (59 =? 59)) with true. cbv iota. rewrite app_nil_r.
  rewrite (cstr_all _ (utf8s_ne t C')). split; [reflexivity|]. split; [exact Kc|]. split; [|now rewrite ?skipn_app, ?skipn_all, ?Nat.sub_diag].
  unfold sent. cbn [queue h_pty served]. rewrite Q, Ko, skipn_app, skipn_all, Nat.sub_diag. reflexivity.
Qed.
