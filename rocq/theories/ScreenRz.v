(* Resizing cell by cell, the scrollback as a history of scrolled off rows,
   the cursor column. *)
From Verif Require Import Base BaseProofs Screen ScreenInv ScreenSb ScreenScroll ScreenSpec ScreenOps ScreenMove ScreenCtl ScreenResize ScreenSafe ScreenLaws ScreenAlt ScreenHist.

(* rz_s7 without its definition. *)
Lemma rz_wide_env s x y : s_sb (rz_wide s x y) = s_sb s /\ s_sbmax (rz_wide s x y) = s_sbmax s /\
  s_flags (rz_wide s x y) = s_flags s /\ s_act (rz_wide s x y) = s_act s /\ s_tabs (rz_wide s x y) = rz_tabs s x /\
  s_main (rz_wide s x y) = rz_main s x y /\ s_alt (rz_wide s x y) = rz_alt s x y /\ s_def (rz_wide s x y) = s_def s /\
  s_defm (rz_wide s x y) = s_defm s.
Proof.
  pose proof (frame_inc s) as F. unfold rz_wide. repeat split; sredg; try apply F.
  all: set (m := rz_main s x y); set (a := rz_alt s x y); set (tb := rz_tabs s x); clearbody m a tb; reflexivity.
Qed.
Lemma rz_s7_facts s x y : Inv s -> 0 < x <= DIM -> 0 < y <= DIM -> exists s7, s7 = rz_s7 s x y /\ Inv0 s7 /\
  s_sx s7 = x /\ s_sy s7 = s_sy s /\ s_mt s7 = 0 /\ s_mb s7 = s_sy s - 1 /\ s_cx s7 = Z.min (s_cx s) (x - 1) /\ s_cy s7 = s_cy s /\
  s_sb s7 = s_sb s /\ s_sbmax s7 = s_sbmax s /\ s_flags s7 = s_flags s /\ s_act s7 = s_act s /\ s_tabs s7 = rz_tabs s x /\
  txt (lines s7) = txt (if s_act s then rz_alt s x y else rz_main s x y) /\
  (forall j i, main_at s7 j i = rows_at (rz_main s x y) j i) /\ (forall j i, alt_at s7 j i = rows_at (rz_alt s x y) j i) /\
  s_ln s7 = Z.max (s_ln s) y /\ s_def s7 = s_def s /\ s_defm s7 = s_defm s.
Proof.
  intros (H & Hcx & Hcy) Hx Hy. exists (rz_s7 s x y). split; [reflexivity|].
  destruct (rz_wide_fields s x y) as (W1 & W2 & W3 & W4 & W5 & W6 & W7).
  destruct (rz_wide_env s x y) as (V1 & V2 & V3 & V4 & V5 & V6 & V7 & V8 & V9).
  pose proof (rz_wide_Inv0 s x y H Hx Hy) as IW. unfold rz_s7.
  pose proof (i_cy _ H).
  set (w := rz_wide s x y) in *. clearbody w.
  assert (TW : lines w = if s_act s then rz_alt s x y else rz_main s x y) by (unfold lines; rewrite V4, V6, V7; reflexivity).
  destruct (x <=? s_cx s) eqn:E.
  - pose proof (env_moved w (x - 1) (s_cy s)) as EM.
    split; [apply Inv0_moved; auto; lia|].
    rewrite (e_sx _ _ EM), (e_sy _ _ EM), (e_mt _ _ EM), (e_mb _ _ EM), moved_cx, moved_cy, (e_sb _ _ EM), (e_sbmax _ _ EM),
      (e_flags _ _ EM), (e_act _ _ EM), (e_tabs _ _ EM), txt_moved, (e_ln _ _ EM), (e_def _ _ EM), (e_defm _ _ EM), TW.
    repeat match goal with |- _ /\ _ => split end; auto; try lia.
    + intros j i. rewrite (proj1 (same_text_moved w (x - 1) (s_cy s) j i)). unfold main_at. now rewrite V6.
    + intros j i. rewrite (proj2 (same_text_moved w (x - 1) (s_cy s) j i)). unfold alt_at. now rewrite V7.
  - split; [exact IW|]. rewrite TW. repeat match goal with |- _ /\ _ => split end; auto; try lia.
    + intros j i. unfold main_at. now rewrite V6.
    + intros j i. unfold alt_at. now rewrite V7.
Qed.

Record resize_effect (s s' : screen) (x y : Z) : Prop := mkRE {
  re_sx : s_sx s' = x; re_sy : s_sy s' = y; re_mt : s_mt s' = 0; re_mb : s_mb s' = y - 1;
  re_cx : s_cx s' = Z.min (s_cx s) (x - 1);
  re_cy : s_cy s' = Z.min (Z.max 0 (s_cy s - rz_off s y)) (y - 1);
  re_flags : s_flags s' = s_flags s;
  re_tabs : forall k, 0 <= k < x -> is_stop s' k = (k mod 8 =? 0);
  re_main : fl s F_ALT = false -> forall j i, 0 <= j < y -> 0 <= i < x ->
    main_at s' j i = rz_cell s (s_defm s) (main_at s (j + rz_off s y) i) (j + rz_off s y) i;
  re_alt : fl s F_ALT = true -> forall j i, 0 <= j < y -> 0 <= i < x ->
    alt_at s' j i = rz_cell s (s_def s) (alt_at s (j + rz_off s y) i) (j + rz_off s y) i;
  re_main_off : fl s F_ALT = true -> forall j i, 0 <= j < y -> 0 <= i < x ->
    main_at s' j i = rz_cell s (s_defm s) (main_at s j i) j i;
  re_alt_off : fl s F_ALT = false -> forall j i, 0 <= j < y -> 0 <= i < x ->
    alt_at s' j i = rz_cell s (s_def s) (alt_at s j i) j i;
  re_hist : hist s s' (if fl s F_ALT then [] else if y <? s_sy s then
       map (fun l => fit_row s x (row_text l)) (zslice (s_main s) 0 (s_sy s - y)) else [])
}.
Lemma rz_tabs_stop s x k : Inv0 s -> 0 < x -> 0 <= k < x -> tstop (rz_tabs s x) k = (k mod 8 =? 0).
Proof.
  intros H Hx Hk. pose proof (rz_tabs_len s x H Hx) as L. unfold rz_tabs in *. fold (rz_tabs0 s x) in *. unfold tstop, tabs_upto in *.
  rewrite length_mapi in L. rewrite znth_mapi. destruct (znth_some (rz_tabs0 s x) k) as [b E]; [lia|]. rewrite E. cbn [option_map].
  replace (k <? x) with true by lia. reflexivity.
Qed.
Lemma env_set_rows s y m : let t := set_mb (set_sy s y) m in
  lines t = lines s /\ s_main t = s_main s /\ s_alt t = s_alt s.
Proof. destruct s. repeat split. Qed.
Lemma at_active s : Inv0 s -> forall j i, at_ s j i = if fl s F_ALT then alt_at s j i else main_at s j i.
Proof. intros H j i. unfold at_, lines. rewrite (i_act _ H). destruct (fl s F_ALT); reflexivity. Qed.

Lemma resized_effect s s' x y : Inv s -> 0 < x <= DIM -> 0 < y <= DIM -> resized s s' x y -> resize_effect s s' x y.
Proof.
  intros H Hx Hy [(s8 & P8 & I8 & E)].
  destruct (rz_s7_facts s x y H Hx Hy) as (s7 & E7 & I7 & A1 & A2 & A3 & A4 & A5 & A6 & A7 & A8 & A9 & A10 & A11 & A12 & A13 & A14 & A15 & A16 & A17).
  rewrite <- E7 in P8. clear E7. pose proof (i_sy _ (proj1 H)) as Hsy. pose proof (i_cy _ (proj1 H)) as Hcy0. destruct H as (H & Hcx & Hcy).
  pose proof (i_act _ H) as Hact. pose proof (i_ln _ H) as Hln.
  assert (AM : forall j i, 0 <= j < Z.max (s_ln s) y -> 0 <= i < x -> main_at s7 j i = rz_cell s (s_defm s) (main_at s j i) j i).
  { intros j i Hj Hi. rewrite A13, rz_main_at by (auto; lia). reflexivity. }
  assert (AA : forall j i, 0 <= j < Z.max (s_ln s) y -> 0 <= i < x -> alt_at s7 j i = rz_cell s (s_def s) (alt_at s j i) j i).
  { intros j i Hj Hi. rewrite A14, rz_alt_at by (auto; lia). reflexivity. }
  assert (FA : fl s7 F_ALT = fl s F_ALT) by (unfold fl; now rewrite A9).
  (* s8 *)
  assert (Q : s_sx s8 = x /\ s_mt s8 = 0 /\ s_cx s8 = Z.min (s_cx s) (x - 1) /\ s_cy s8 = Z.max 0 (s_cy s - rz_off s y) /\
    s_flags s8 = s_flags s /\ s_tabs s8 = rz_tabs s x /\
    (forall j i, 0 <= j < y -> 0 <= i < x -> at_ s8 j i = at_ s7 (j + rz_off s y) i) /\
    (fl s F_ALT = true -> s_main s8 = s_main s7) /\ (fl s F_ALT = false -> s_alt s8 = s_alt s7) /\
    hist s s8 (if fl s F_ALT then [] else if y <? s_sy s then
       map (fun l => fit_row s x (row_text l)) (zslice (s_main s) 0 (s_sy s - y)) else [])).
  { unfold rz_off. destruct (y <? s_sy s) eqn:Ey.
    - destruct P8 as (t & S & ->). pose proof (su_env _ _ _ S) as V. 
      pose proof (env_moved t (s_cx t) (Z.max 0 (s_cy t - (s_sy s - y)))) as EM.
      rewrite (e_sx _ _ EM), (e_mt _ _ EM), (e_flags _ _ EM), (e_tabs _ _ EM), moved_cx, moved_cy.
      rewrite (f_sx _ _ V), (f_mt _ _ V), (f_flags _ _ V), (f_tabs _ _ V), (f_cx _ _ V), (f_cy _ _ V).
      split; [auto|]. split; [auto|]. split; [auto|]. split; [rewrite A6; lia|]. split; [auto|]. split; [auto|].
      split.
      { intros j i Hj Hi. rewrite at_moved. rewrite (scrolled_up_at s7 t (s_sy s - y) j i I7); auto.
        - rewrite A3, A4. unfold shift_up. replace (_ && _) with true by lia. replace (_ <=? _) with true by lia. f_equal. lia.
        - rewrite A3, A4. lia.
        - unfold on_screen. rewrite A1, A2. lia. }
      pose proof (e_other _ _ EM) as OE. pose proof (f_other _ _ V) as OV. rewrite (f_act _ _ V), A10, Hact, (f_cx _ _ V), (f_cy _ _ V) in OE. rewrite A10, Hact in OV.
      split; [intros F; rewrite F in OE, OV; congruence|]. split; [intros F; rewrite F in OE, OV; congruence|].
      apply hist_moved. pose proof (hist_up _ _ _ I7 S) as [K1 K2]. unfold hist, sb_text in *. rewrite FA, A3, A7, A8 in *.
      split; [|congruence]. rewrite K1. destruct (fl s F_ALT) eqn:EF; [reflexivity|]. rewrite A12, Hact.
      now rewrite rz_main_top by (auto; lia).
    - subst s8. rewrite A1, A3, A5, A6, A9, A11.
      repeat match goal with |- _ /\ _ => split end; auto; try lia.
      { intros j i _ _. f_equal. lia. }
      rewrite if_nil. apply hist_same; auto. }
  destruct Q as (Q1 & Q2 & Q3 & Q4 & Q5 & Q6 & Q7 & Q8 & Q9 & Q10).
  cbv zeta in E. set (s9 := set_mb (set_sy s8 y) (y - 1)) in *.
  assert (F9 : s_sx s9 = x /\ s_sy s9 = y /\ s_mt s9 = 0 /\ s_mb s9 = y - 1 /\ s_cx s9 = s_cx s8 /\ s_cy s9 = s_cy s8 /\
     s_flags s9 = s_flags s /\ s_tabs s9 = rz_tabs s x /\ s_main s9 = s_main s8 /\ s_alt s9 = s_alt s8 /\ s_sb s9 = s_sb s8 /\ s_sbmax s9 = s_sbmax s8).
  { unfold s9. clear - Q1 Q2 Q5 Q6. destruct s8. cbn in *. repeat split; auto. }
  clearbody s9. destruct F9 as (B1 & B2 & B3 & B4 & B5 & B6 & B7 & B8 & B9 & B10 & B11 & B12).
  assert (R : s_sx s' = x /\ s_sy s' = y /\ s_mt s' = 0 /\ s_mb s' = y - 1 /\ s_cx s' = s_cx s8 /\ s_cy s' = Z.min (s_cy s8) (y - 1) /\
     s_flags s' = s_flags s /\ s_tabs s' = rz_tabs s x /\ (forall j i, main_at s' j i = main_at s8 j i) /\
     (forall j i, alt_at s' j i = alt_at s8 j i) /\ s_sb s' = s_sb s8 /\ s_sbmax s' = s_sbmax s8).
  { subst s'. destruct (y <=? s_cy s8) eqn:Ec.
    - pose proof (env_moved s9 (s_cx s8) (y - 1)) as EM. pose proof (same_text_moved s9 (s_cx s8) (y - 1)) as ST.
      rewrite (e_sx _ _ EM), (e_sy _ _ EM), (e_mt _ _ EM), (e_mb _ _ EM), (e_flags _ _ EM), (e_tabs _ _ EM), (e_sb _ _ EM), (e_sbmax _ _ EM), moved_cx, moved_cy.
      repeat match goal with |- _ /\ _ => split end; auto; try lia.
      + intros j i. rewrite (proj1 (ST j i)). unfold main_at. now rewrite B9.
      + intros j i. rewrite (proj2 (ST j i)). unfold alt_at. now rewrite B10.
    - repeat match goal with |- _ /\ _ => split end; auto; try lia.
      + intros j i. unfold main_at. now rewrite B9.
      + intros j i. unfold alt_at. now rewrite B10. }
  clear E. destruct R as (R1 & R2 & R3 & R4 & R5 & R6 & R7 & R8 & R9 & R10 & R11 & R12).
  assert (F8 : fl s8 F_ALT = fl s F_ALT) by (unfold fl; now rewrite Q5).
  assert (Hr : rz_off s y + y <= Z.max (s_ln s) y) by (unfold rz_off; lia). assert (Hr0 : 0 <= rz_off s y) by (unfold rz_off; lia).
  constructor; auto; try congruence.
  - intros k Hk. unfold is_stop. rewrite R8. apply rz_tabs_stop; auto; lia.
  - intros F j i Hj Hi. rewrite R9. pose proof (Q7 j i Hj Hi) as K. rewrite (at_active s8 I8), (at_active s7 I7), F8, FA, F in K.
    rewrite K. apply AM; lia.
  - intros F j i Hj Hi. rewrite R10. pose proof (Q7 j i Hj Hi) as K. rewrite (at_active s8 I8), (at_active s7 I7), F8, FA, F in K.
    rewrite K. apply AA; lia.
  - intros F j i Hj Hi. rewrite R9. unfold main_at at 1. rewrite (Q8 F). apply AM; lia.
  - intros F j i Hj Hi. rewrite R10. unfold alt_at at 1. rewrite (Q9 F). apply AA; lia.
  - destruct Q10 as [K1 K2]. unfold hist, sb_text in *. rewrite R11, R12. auto.
Qed.

Lemma resize_law s x y : Inv s -> 0 < x <= DIM -> 0 < y <= DIM -> s_sx s <> x \/ s_sy s <> y ->
  exists s', scr_resize s x y = Ok (s', 0) /\ resize_effect s s' x y.
Proof.
  intros H Hx Hy Hn. destruct (resize_ok s x y H Hx Hy Hn) as (s' & E & R & _). exists s'. split; [exact E|]. now apply resized_effect.
Qed.
Lemma resize_same s x y : 0 < x -> 0 < y -> s_sx s = x -> s_sy s = y -> scr_resize s x y = Ok (s, 0).
Proof.
  intros Hx Hy <- <-. unfold scr_resize. replace (_ || _) with false by lia. now rewrite !Z.eqb_refl.
Qed.
Lemma resize_zero s x y : x = 0 \/ y = 0 -> exists e, e <> 0 /\ scr_resize s x y = Ok (s, e).
Proof.
  intros H. unfold scr_resize. replace ((x =? 0) || (y =? 0)) with true by lia. eexists. split; [|reflexivity]. discriminate.
Qed.

Lemma hist_resize s x y s' : Inv s -> op_args (OResize x y) -> step s (OResize x y) = Ok s' -> hist s s' (off s (OResize x y)).
Proof.
  intros H [Hx Hy] E. cbn [step] in E. unfold off.
  destruct (Z.eq_dec x 0) as [->|Nx].
  { destruct (resize_zero s 0 y ltac:(auto)) as (e & _ & E1). rewrite E1 in E. inversion E; subst s'. apply hist_stay; auto. cbn [andb Z.ltb]. apply if_nil. }
  destruct (Z.eq_dec y 0) as [->|Ny].
  { destruct (resize_zero s x 0 ltac:(auto)) as (e & _ & E1). rewrite E1 in E. inversion E; subst s'. apply hist_stay; auto. 
    rewrite andb_false_r. apply if_nil. }
  replace (0 <? x) with true by lia. replace (0 <? y) with true by lia. cbn [andb].
  destruct (Z.eq_dec (s_sx s) x) as [Ex|Ex]; [destruct (Z.eq_dec (s_sy s) y) as [Ey|Ey]|].
  - rewrite resize_same in E by (auto; lia). inversion E; subst s'. apply hist_stay; auto. rewrite Ey, Z.ltb_irrefl. apply if_nil.
  - destruct (resize_law s x y H ltac:(lia) ltac:(lia) ltac:(auto)) as (s1 & E1 & R). rewrite E1 in E. inversion E; subst s'. apply (re_hist _ _ _ _ R).
  - destruct (resize_law s x y H ltac:(lia) ltac:(lia) ltac:(auto)) as (s1 & E1 & R). rewrite E1 in E. inversion E; subst s'. apply (re_hist _ _ _ _ R).
Qed.

Lemma skip_last {A} n (l : list A) : skipn (Z.to_nat (Z.max 0 (zlen l - n))) l = last_n n l.
Proof. unfold last_n. f_equal. lia. Qed.
Lemma aged_facts s : s_sb (aged s) = s_sb s /\ s_sbmax (aged s) = s_sbmax s /\ s_cx (aged s) = s_cx s /\ s_sx (aged s) = s_sx s.
Proof. unfold aged. pose proof (frame_inc s) as F. repeat split; (etransitivity; [|first [apply F|apply inc_cx]]); reflexivity. Qed.
Lemma clear_facts s : s_sb (scr_clear_sb s) = [] /\ s_sbmax (scr_clear_sb s) = s_sbmax s /\ s_cx (scr_clear_sb s) = s_cx s /\ s_sx (scr_clear_sb s) = s_sx s.
Proof.
  destruct (aged_facts s) as (A & B & C & D). unfold scr_clear_sb. fold (aged s). unfold sel_map.
  destruct (s_sela _); cbn; auto.
Qed.
Lemma op_calm_dec s o : calm_op s o = true \/ calm_op s o = false.
Proof. destruct (calm_op s o); auto. Qed.
Lemma calm_off s o : calm_op s o = true -> off s o = [].
Proof. unfold off. destruct o; cbn [calm_op]; try discriminate; try (intros _; apply if_nil). destruct b; [discriminate|intros _; apply if_nil]. Qed.
Lemma step_clear s : step s OClearSb = Ok (scr_clear_sb s).
Proof. reflexivity. Qed.
Lemma hist_clear s s' : step s OClearSb = Ok s' -> sb_text s' = [] /\ s_sbmax s' = s_sbmax s.
Proof.
  intros E. rewrite step_clear in E. apply ok_inj in E. rewrite E. unfold sb_text. destruct (clear_facts s) as (A & B & _). now rewrite A, B.
Qed.
Lemma hist_set_max s n s' : Inv s -> u32_arg n -> step s (OSetMaxSb n) = Ok s' ->
  sb_text s' = last_n n (sb_text s ++ off s (OSetMaxSb n)) /\ s_sbmax s' = n.
Proof.
  intros H Ha E. destruct (set_max_sb_ok s n H Ha) as (s1 & P & E1 & _). cbn [step] in E. rewrite E1 in E. apply ok_inj in E. rewrite E.
  split; [|reflexivity]. unfold sb_text. change (s_sb (set_sbmax s1 n)) with (s_sb s1).
  rewrite (tr_sb _ _ _ P). destruct (aged_facts s) as (-> & _). unfold off. rewrite if_nil, app_nil_r.
  rewrite <- skip_last, map_length. now rewrite skipn_map.
Qed.
Lemma hist_sb s o s' : Inv s -> op_args o -> step s o = Ok s' ->
  sb_text s' = sb_spec s o /\ s_sbmax s' = sb_limit s o.
Proof.
  intros H Ha E.
  assert (K : (forall n, o <> OSetMaxSb n) -> o <> OClearSb -> hist s s' (off s o) -> sb_text s' = sb_spec s o /\ s_sbmax s' = sb_limit s o).
  { intros K1 K2 K3. destruct o; try exact K3; [now destruct (K1 n)|congruence]. }
  destruct (calm_op s o) eqn:Ec.
  - apply K; [intros n ->; discriminate|intros ->; discriminate|]. apply hist_calm; [auto| |now apply calm_off]. now apply (calm_step s o).
  - destruct o; try discriminate.
    + apply K; try congruence. exact (hist_resize s x y s' H Ha E).
    + exact (hist_set_max s n s' H Ha E).
    + exact (hist_clear s s' E).
    + apply K; try congruence. exact (hist_write s ch a s' H E).
    + apply K; try congruence. exact (hist_newline s s' H E).
    + apply K; try congruence. exact (hist_scroll s n s' H Ha E).
    + destruct b; [|discriminate]. apply K; try congruence. exact (hist_move_down s n s' H Ha E).
Qed.

(* Over a whole run: first in, first out. *)
Lemma last_n_suffix {A} n (l : list A) : exists pre, l = pre ++ last_n n l.
Proof. exists (firstn (Z.to_nat (zlen l - n)) l). unfold last_n. symmetry. apply firstn_skipn. Qed.
Lemma sb_suffix ops : forall s s' pre hist0, Inv s -> Forall op_args ops -> run s ops = Ok s' -> hist0 = pre ++ sb_text s ->
  exists pre', hist0 ++ offs s ops = pre' ++ sb_text s'.
Proof.
  induction ops as [|o ops IH]; intros s s' pre h H Ha E Eh; cbn [run offs] in *.
  - inversion E; subst s'. exists pre. now rewrite app_nil_r.
  - inversion Ha as [|? ? Ho Hr]; subst. destruct (step s o) as [s1|] eqn:Es; [|discriminate]. cbn [bind] in E.
    destruct (hist_sb s o s1 H Ho Es) as [K _]. rewrite app_assoc.
    assert (X : exists p1, (pre ++ sb_text s) ++ off s o = p1 ++ sb_text s1).
    { rewrite K. destruct (last_n_suffix (sb_limit s o) (sb_text s ++ off s o)) as [q Eq].
      unfold sb_spec. destruct o; try (exists (pre ++ q); rewrite <- !app_assoc, <- Eq; reflexivity).
      eexists. now rewrite app_nil_r. }
    destruct X as [p1 Ep]. apply (IH s1 s' p1); auto. now apply (step_Inv s o).
Qed.
Lemma init_sb : sb_text scr_init = [].
Proof. reflexivity. Qed.
Lemma sb_history ops s' : Forall op_args ops -> run scr_init ops = Ok s' ->
  exists pre, offs scr_init ops = pre ++ sb_text s'.
Proof.
  intros Ha E. destruct (sb_suffix ops scr_init s' [] [] scr_init_Inv Ha E) as [p Ep]; [now rewrite init_sb|]. now exists p.
Qed.
Lemma last_n_app {A} n (a b : list A) : 0 <= n -> last_n n (last_n n a ++ b) = last_n n (a ++ b).
Proof. apply keep_last_app. Qed.
Lemma sb_exact ops : forall s s', Inv s -> Forall op_args ops -> Forall keeps_limit ops -> run s ops = Ok s' ->
  sb_text s' = last_n (s_sbmax s) (sb_text s ++ offs s ops) /\ s_sbmax s' = s_sbmax s.
Proof.
  induction ops as [|o ops IH]; intros s s' H Ha Hk E; cbn [run offs] in *.
  - inversion E; subst s'. split; [|reflexivity]. rewrite app_nil_r, last_n_all by (apply sb_bound, H). reflexivity.
  - inversion Ha as [|? ? Ho Hr]; subst. inversion Hk as [|? ? Ko Kr]; subst. destruct (step s o) as [s1|] eqn:Es; [|discriminate]. cbn [bind] in E.
    destruct (hist_sb s o s1 H Ho Es) as [K L]. pose proof (step_Inv s o s1 H Ho Es) as H1.
    destruct (IH s1 s' H1 Hr Kr E) as [A B].
    assert (M : s_sbmax s1 = s_sbmax s) by (rewrite L; destruct o; try reflexivity; contradiction).
    assert (N : sb_text s1 = last_n (s_sbmax s) (sb_text s ++ off s o)) by (rewrite K; destruct o; try reflexivity; contradiction).
    rewrite A, B, M, N. split; [|reflexivity]. rewrite last_n_app, app_assoc; [reflexivity|].
    pose proof (i_sbmax _ (proj1 H)). rewrite (i_sbn _ (proj1 H)) in *. lia.
Qed.

(* C08: the cursor leaves the last column only by writing. *)
Lemma col_step s o s' : Inv s -> op_args o -> (forall ch a, o <> OWrite ch a) -> step s o = Ok s' ->
  s_cx s' < s_sx s' \/ (s_cx s' <= s_cx s /\ s_sx s' = s_sx s).
Proof.
  intros H Ha Hw E. pose proof (i_sx _ (proj1 H)) as Hsx. destruct (calm_op s o) eqn:Ec; [now apply (calm_step s o)|].
  destruct o; try discriminate.
  - destruct Ha as [Hx Hy]. cbn [step] in E. destruct (Z.eq_dec x 0) as [->|Nx].
    { destruct (resize_zero s 0 y ltac:(auto)) as (e & _ & E1). rewrite E1 in E. inversion E; subst s'. right. lia. }
    destruct (Z.eq_dec y 0) as [->|Ny].
    { destruct (resize_zero s x 0 ltac:(auto)) as (e & _ & E1). rewrite E1 in E. inversion E; subst s'. right. lia. }
    destruct (Z.eq_dec (s_sx s) x) as [Ex|Ex]; [destruct (Z.eq_dec (s_sy s) y) as [Ey|Ey]|].
    + rewrite resize_same in E by (auto; lia). inversion E; subst s'. right. lia.
    + destruct (resize_law s x y H ltac:(lia) ltac:(lia) ltac:(auto)) as (s1 & E1 & R). rewrite E1 in E. inversion E; subst s'.
      left. cbn [fst]. rewrite (re_cx _ _ _ _ R), (re_sx _ _ _ _ R). lia.
    + destruct (resize_law s x y H ltac:(lia) ltac:(lia) ltac:(auto)) as (s1 & E1 & R). rewrite E1 in E. inversion E; subst s'.
      left. cbn [fst]. rewrite (re_cx _ _ _ _ R), (re_sx _ _ _ _ R). lia.
  - destruct (set_max_sb_ok s n H Ha) as (s1 & P & E1 & _). cbn [step] in E. rewrite E1 in E. apply ok_inj in E. rewrite E. clear E.
    right. pose proof (tr_env _ _ _ P) as V. destruct (aged_facts s) as (_ & _ & A & B).
    change (s_cx s1 <= s_cx s /\ s_sx s1 = s_sx s). rewrite (f_cx _ _ V), (f_sx _ _ V), A, B. lia.
  - rewrite step_clear in E. apply ok_inj in E. rewrite E. destruct (clear_facts s) as (_ & _ & A & B). right. rewrite A, B. lia.
  - now destruct (Hw ch a).
  - cbn [step] in E. unfold scr_newline in E.
    destruct (move_down_any (inc_age s) 1 true (Inv_inc s H) ltac:(lia)) as (s1 & E1 & I1). rewrite E1 in E. cbn [bind] in E.
    destruct (line_home_ok s1 I1) as [E2 I2]. rewrite E2 in E. inversion E; subst s'. left. rewrite moved_cx. pose proof (i_sx _ (proj1 I2)). lia.
  - destruct (Z.eq_dec n 0) as [->|]; [inversion E; subst; right; lia|]. cbn [step] in E. unfold scr_scroll_up in E. unfold op_args, u32_arg in Ha.
    replace (n =? 0) with false in E by lia. destruct (scroll_call_up s n H ltac:(lia)) as (s1 & E1 & S & _). rewrite E in E1. inversion E1; subst s1.
    pose proof (su_env _ _ _ S) as V. right. rewrite (f_cx _ _ V), (f_sx _ _ V), inc_cx, inc_sx. lia.
  - destruct b; [|discriminate]. destruct (move_down_law s n true H Ha) as (s1 & E1 & _ & A & _ & _ & B & _). cbn [step] in E.
    rewrite E in E1. inversion E1; subst s1. right. lia.
Qed.
Lemma col_write s ch a s' : Inv s -> step s (OWrite ch a) = Ok s' ->
  s_cx s' <= s_sx s' - 1 + (match scr_width ch with Ok w => w | Ub => 0 end) \/ s' = s.
Proof.
  intros H E. destruct (scr_width_ok ch) as (w & Ew & Hw). rewrite Ew. destruct (Z.eq_dec w 0) as [->|].
  - right. rewrite write_zero_law in E by exact Ew. now inversion E.
  - left. destruct (hazard_dec s (OWrite ch a)) as [Hz|Hz]; [rewrite (hazard_ub s (OWrite ch a) H I Hz) in E; discriminate|].
    pose proof (i_sx _ (proj1 H)) as Hsx.
    assert (Hf : write_fits s w).
    { intros Hi. destruct (Z.eq_dec (s_sx s) 1); [|lia]. destruct (Z.eq_dec w 2) as [->|]; [|lia].
      exfalso. apply Hz. split; [exact Hi|]. split; [assumption|exact Ew]. }
    destruct (write_law s ch a w H Ew ltac:(lia) Hf) as (s1 & E1 & C & _).
    assert (X : s_sx s' = s_sx s).
    { destruct (scr_write_ok s ch a w H Ew ltac:(lia) Hf) as (s2 & E2 & W & _). cbn [step] in E. rewrite E in E2. inversion E2; subst s2.
      destruct W as [(s3 & E3 & I3 & X3 & Y3 & ->)]. clear - E3.
      rewrite (e_sx _ _ (env_moved _ _ _)). change (s_sx (written s3 (s_cx s3) (s_cy s3) ch w a)) with (s_sx s3).
      rewrite <- (inc_sx s). generalize dependent (inc_age s). intros i E3. pose proof (e_sx _ _ (env_wr_s1 i)) as V.
      destruct (wr_last i <? s_cy (wr_s1 i)); [|now subst].
      rewrite (f_sx _ _ (su_env _ _ _ E3)), (e_sx _ _ (env_moved _ _ _)). exact V. }
    rewrite E in E1. inversion E1; subst s1. rewrite C, X. unfold write_col.
    destruct (s_cx s <? s_sx s) eqn:E0; [lia|]. destruct (fl s F_WRAP); lia.
Qed.
