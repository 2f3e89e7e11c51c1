(* Exact effect of tsm_screen_resize. *)
From Verif Require Import Base BaseProofs Screen ScreenInv ScreenSb ScreenScroll ScreenSpec ScreenOps ScreenMove ScreenCtl.

Definition rz_rows (s : screen) (x y : Z) (ls : list line) : list line :=
  if s_ln s <? y then ls ++ repeat (line_new s (Z.max (s_sx s) x)) (Z.to_nat (y - s_ln s)) else ls.
Definition rz_cols (s : screen) (x : Z) (ls : list line) : list line :=
  if s_sx s <? x then map (line_resize s x) ls else ls.
Definition rz_pad_main (s : screen) (c : cell) (x : Z) (ls : list line) : list line :=
  mapi (fun j l => set_cells l (filled c (if j <? s_sy s then Z.min (s_sx s) x else 0) (zlen (l_cells l)) (l_cells l))) ls.
Definition rz_pad_alt (s : screen) (c : cell) (x : Z) (ls : list line) : list line :=
  mapi (fun j l => set_cells l (filled c (if j <? s_sy s then s_sx s else 0) x (l_cells l))) ls.
Definition rz_main (s : screen) (x y : Z) : list line :=
  rz_pad_main s (blank_of (inc_age s) (s_defm s)) x (rz_cols s x (rz_rows s x y (s_main s))).
Definition rz_alt (s : screen) (x y : Z) : list line :=
  rz_pad_alt s (blank (inc_age s)) x (rz_cols s x (rz_rows s x y (s_alt s))).
Definition rz_tabs (s : screen) (x : Z) : list bool :=
  tabs_upto x (fun i => i mod 8 =? 0)
    (if s_sx s <? x then firstn (Z.to_nat x) (s_tabs s) ++ repeat false (Z.to_nat (x - zlen (s_tabs s))) else s_tabs s).
(* The screen at the new width, still at the old height. *)
Definition rz_wide (s : screen) (x y : Z) : screen :=
  set_sx (set_tabs (set_mb (set_mt (set_alt (set_main (set_ln (inc_age s) (Z.max (s_ln s) y))
     (rz_main s x y)) (rz_alt s x y)) 0) (s_sy s - 1)) (rz_tabs s x)) x.

Lemma rz_rows_wf s x y ls : Inv0 s -> 0 < y -> lines_wf (s_sx s) (s_ln s) ls ->
  zlen (rz_rows s x y ls) = Z.max (s_ln s) y /\
  (forall j l, znth (rz_rows s x y ls) j = Some l ->
    (s_sx s <= zlen (l_cells l) <= Z.max DIM x /\ l_sbid l = None) /\ (s_ln s <= j -> x <= zlen (l_cells l))).
Proof.
  intros H Hy [W1 W2]. pose proof H as H0. inv0 H0. unfold rz_rows. destruct (s_ln s <? y) eqn:E.
  - split; [rewrite app_length, repeat_length; lia|]. intros j l Hl. rewrite znth_app in Hl.
    destruct (j <? zlen ls) eqn:E1.
    + destruct (Forall_get _ _ _ _ W2 Hl). repeat split; auto; lia.
    + apply znth_In, repeat_spec in Hl. subst l. unfold line_wf, line_new. cbn [l_cells l_sbid].
      rewrite repeat_length. repeat split; unfold DIM in *; lia.
  - split; [lia|]. intros j l Hl. destruct (Forall_get _ _ _ _ W2 Hl). apply znth_Some_range in Hl. repeat split; auto; lia.
Qed.
Lemma line_resize_len s x l : zlen (l_cells (line_resize s x l)) = Z.max x (zlen (l_cells l)) /\
  l_sbid (line_resize s x l) = l_sbid l.
Proof.
  unfold line_resize. destruct (zlen (l_cells l) <? x) eqn:E; cbn [set_cells l_cells l_sbid].
  - rewrite app_length, repeat_length. split; [lia|reflexivity].
  - split; [lia|reflexivity].
Qed.
Lemma rz_cols_wf s x y ls : Inv0 s -> 0 < y -> lines_wf (s_sx s) (s_ln s) ls ->
  let r := rz_cols s x (rz_rows s x y ls) in
  zlen r = Z.max (s_ln s) y /\
  (forall j l, znth r j = Some l -> Z.max (s_sx s) x <= zlen (l_cells l) <= Z.max DIM x /\ l_sbid l = None).
Proof.
  intros H Hy W. cbv zeta. destruct (rz_rows_wf s x y ls H Hy W) as [L R]. unfold rz_cols.
  destruct (s_sx s <? x) eqn:E.
  - split; [rewrite map_length; exact L|]. intros j l Hl. rewrite znth_map in Hl.
    destruct (znth (rz_rows s x y ls) j) as [l0|] eqn:E0; [|discriminate]. cbn in Hl. inversion Hl; subst l.
    destruct (R j l0 E0) as [[A B] _]. destruct (line_resize_len s x l0) as [C D]. rewrite C, D. split; [lia|exact B].
  - split; [exact L|]. intros j l Hl. destruct (R j l Hl) as [[A B] _]. split; [lia|exact B].
Qed.
(* Cells inside the old screen survive rz_rows/rz_cols. *)
Lemma rz_cols_at s x y ls j i : Inv0 s -> 0 < y -> lines_wf (s_sx s) (s_ln s) ls ->
  0 <= j < s_sy s -> 0 <= i < s_sx s ->
  rows_at (rz_cols s x (rz_rows s x y ls)) j i = rows_at ls j i.
Proof.
  intros H Hy [W1 W2] Hj Hi. pose proof (i_ln _ H) as Hln.
  assert (Hr : znth (rz_rows s x y ls) j = znth ls j).
  { unfold rz_rows. destruct (s_ln s <? y); [|reflexivity]. rewrite znth_app. replace (j <? zlen ls) with true by lia. reflexivity. }
  unfold rows_at, rz_cols. destruct (s_sx s <? x) eqn:E; rewrite ?znth_map, Hr; [|reflexivity].
  destruct (znth ls j) as [l|] eqn:El; [|reflexivity]. cbn [option_map].
  pose proof (Forall_get _ _ _ _ W2 El) as [W _]. unfold row_at, line_resize.
  destruct (zlen (l_cells l) <? x); [|reflexivity]. cbn [set_cells l_cells]. rewrite znth_app.
  replace (i <? zlen (l_cells l)) with true by lia. reflexivity.
Qed.

Lemma rz_main_wf s x y : Inv0 s -> x <= DIM -> 0 < y -> lines_wf x (Z.max (s_ln s) y) (rz_main s x y).
Proof.
  intros H Hx Hy. destruct (rz_cols_wf s x y (s_main s) H Hy (i_main _ H)) as [L R].
  apply wf_pointwise; [unfold rz_main, rz_pad_main; rewrite length_mapi; exact L|].
  intros j l Hl. unfold rz_main, rz_pad_main in Hl. rewrite znth_mapi in Hl.
  destruct (znth _ j) as [l0|] eqn:E0; [|discriminate]. cbn [option_map] in Hl. inversion Hl; subst l.
  destruct (R j l0 E0) as [A B]. split; cbn [set_cells l_cells l_sbid]; auto. rewrite length_filled. lia.
Qed.
Lemma rz_alt_wf s x y : Inv0 s -> x <= DIM -> 0 < y -> lines_wf x (Z.max (s_ln s) y) (rz_alt s x y).
Proof.
  intros H Hx Hy. destruct (rz_cols_wf s x y (s_alt s) H Hy (i_alt _ H)) as [L R].
  apply wf_pointwise; [unfold rz_alt, rz_pad_alt; rewrite length_mapi; exact L|].
  intros j l Hl. unfold rz_alt, rz_pad_alt in Hl. rewrite znth_mapi in Hl.
  destruct (znth _ j) as [l0|] eqn:E0; [|discriminate]. cbn [option_map] in Hl. inversion Hl; subst l.
  destruct (R j l0 E0) as [A B]. split; cbn [set_cells l_cells l_sbid]; auto. rewrite length_filled. lia.
Qed.

Definition kept_or_blank (s : screen) (a : attr) (ls : list line) (j i : Z) : option glyph :=
  if (j <? s_sy s) && (i <? s_sx s) then rows_at ls j i else Some (blank_glyph a).

Lemma rz_main_at s x y j i : Inv0 s -> 0 < y -> 0 <= j < Z.max (s_ln s) y -> 0 <= i < x ->
  rows_at (rz_main s x y) j i = kept_or_blank s (s_defm s) (s_main s) j i.
Proof.
  intros H Hy Hj Hi. destruct (rz_cols_wf s x y (s_main s) H Hy (i_main _ H)) as [L R].
  destruct (znth_some (rz_cols s x (rz_rows s x y (s_main s))) j) as [l El]; [lia|].
  destruct (R j l El) as [A B]. unfold kept_or_blank.
  assert (E1 : rows_at (rz_main s x y) j i = row_at (set_cells l (filled (blank_of (inc_age s) (s_defm s))
      (if j <? s_sy s then Z.min (s_sx s) x else 0) (zlen (l_cells l)) (l_cells l))) i).
  { unfold rows_at, rz_main, rz_pad_main. rewrite znth_mapi, El. reflexivity. }
  rewrite E1. unfold row_at. cbn [set_cells l_cells]. rewrite znth_filled.
  destruct (znth_some (l_cells l) i) as [c Ec]; [lia|]. rewrite Ec. cbn [option_map].
  destruct ((j <? s_sy s) && (i <? s_sx s)) eqn:E.
  - replace (j <? s_sy s) with true by lia. replace (_ && _) with false by lia.
    rewrite <- (rz_cols_at s x y (s_main s)) by (auto; try apply (i_main _ H); lia).
    unfold rows_at. rewrite El. unfold row_at. rewrite Ec. reflexivity.
  - destruct (j <? s_sy s) eqn:E2; replace (_ && _) with true by lia; reflexivity.
Qed.
Lemma rz_alt_at s x y j i : Inv0 s -> 0 < y -> 0 <= j < Z.max (s_ln s) y -> 0 <= i < x ->
  rows_at (rz_alt s x y) j i = kept_or_blank s (s_def s) (s_alt s) j i.
Proof.
  intros H Hy Hj Hi. destruct (rz_cols_wf s x y (s_alt s) H Hy (i_alt _ H)) as [L R].
  destruct (znth_some (rz_cols s x (rz_rows s x y (s_alt s))) j) as [l El]; [lia|].
  destruct (R j l El) as [A B]. unfold kept_or_blank.
  assert (E1 : rows_at (rz_alt s x y) j i = row_at (set_cells l (filled (blank (inc_age s))
      (if j <? s_sy s then s_sx s else 0) x (l_cells l))) i).
  { unfold rows_at, rz_alt, rz_pad_alt. rewrite znth_mapi, El. reflexivity. }
  rewrite E1. unfold row_at. cbn [set_cells l_cells]. rewrite znth_filled.
  destruct (znth_some (l_cells l) i) as [c Ec]; [lia|]. rewrite Ec. cbn [option_map].
  assert (Hd : look (blank (inc_age s)) = blank_glyph (s_def s)) by (rewrite inc_age_eq; reflexivity).
  destruct ((j <? s_sy s) && (i <? s_sx s)) eqn:E.
  - replace (j <? s_sy s) with true by lia. replace (_ && _) with false by lia.
    rewrite <- (rz_cols_at s x y (s_alt s)) by (auto; try apply (i_alt _ H); lia).
    unfold rows_at. rewrite El. unfold row_at. rewrite Ec. reflexivity.
  - destruct (j <? s_sy s) eqn:E2; replace (_ && _) with true by lia; cbn [option_map]; now rewrite Hd.
Qed.

Lemma mapi_all {A} (f : A -> A) n (l : list A) : n = zlen l ->
  mapi (fun k c => if (0 <=? k) && (k <? n) then f c else c) l = map f l.
Proof.
  intros ->. apply znth_ext'. intros i. rewrite znth_mapi, znth_map. destruct (znth l i) eqn:E; [|reflexivity].
  apply znth_Some_range in E. cbn [option_map]. replace (_ && _) with true by lia. reflexivity.
Qed.

Definition rz_s1 (s : screen) (x y : Z) : screen := set_ln (set_alt (set_main s (rz_rows s x y (s_main s)))
    (rz_rows s x y (s_alt s))) (Z.max (s_ln s) y).
Lemma grow_y_eq s x y : resize_grow_y s x y = rz_s1 s x y.
Proof.
  unfold resize_grow_y, rz_s1, rz_rows. destruct (s_ln s <? y) eqn:E.
  - replace (if s_sx s <? x then x else s_sx s) with (Z.max (s_sx s) x) by (destruct (s_sx s <? x) eqn:E1; lia).
    replace (Z.max (s_ln s) y) with y by lia. reflexivity.
  - replace (Z.max (s_ln s) y) with (s_ln s) by lia. destruct s; reflexivity.
Qed.
Definition rz_tabs0 (s : screen) (x : Z) : list bool :=
  if s_sx s <? x then firstn (Z.to_nat x) (s_tabs s) ++ repeat false (Z.to_nat (x - zlen (s_tabs s))) else s_tabs s.
Definition rz_s2 (s : screen) (x y : Z) : screen :=
  set_tabs (set_alt (set_main (rz_s1 s x y) (rz_cols s x (rz_rows s x y (s_main s)))) (rz_cols s x (rz_rows s x y (s_alt s))))
   (rz_tabs0 s x).
Lemma grow_x_eq s x y : Inv0 s -> 0 < y -> resize_grow_x (rz_s1 s x y) x = Ok (rz_s2 s x y).
Proof.
  intros H Hy. destruct (rz_rows_wf s x y (s_main s) H Hy (i_main _ H)) as [L1 _].
  destruct (rz_rows_wf s x y (s_alt s) H Hy (i_alt _ H)) as [L2 _].
  unfold resize_grow_x, rz_s2, rz_cols, rz_tabs0. change (s_sx (rz_s1 s x y)) with (s_sx s).
  destruct (s_sx s <? x); [|destruct s; reflexivity].
  change (s_ln (rz_s1 s x y)) with (Z.max (s_ln s) y).
  change (s_main (rz_s1 s x y)) with (rz_rows s x y (s_main s)).
  change (s_alt (rz_s1 s x y)) with (rz_rows s x y (s_alt s)).
  rewrite (forz_zupd (fun _ => line_resize (rz_s1 s x y) x) 0 _ (rz_rows s x y (s_main s))) by lia. cbn [bind].
  rewrite (forz_zupd (fun _ => line_resize (rz_s1 s x y) x) 0 _ (rz_rows s x y (s_alt s))) by lia. cbn [bind].
  rewrite !mapi_all by lia. reflexivity.
Qed.
Definition rz_s4 (s : screen) (x y : Z) : screen :=
  set_alt (set_main (inc_age (rz_s2 s x y)) (rz_main s x y)) (rz_alt s x y).
Lemma inc_fields2 s : s_cnt (inc_age s) = next_cnt s /\ s_rst (inc_age s) = next_rst s.
Proof. rewrite inc_age_eq. split; reflexivity. Qed.
Lemma inc_main s : s_main (inc_age s) = s_main s. Proof. now rewrite inc_age_eq. Qed.
Lemma inc_alt s : s_alt (inc_age s) = s_alt s. Proof. now rewrite inc_age_eq. Qed.
Lemma inc_def s : s_def (inc_age s) = s_def s. Proof. now rewrite inc_age_eq. Qed.
Lemma inc_defm s : s_defm (inc_age s) = s_defm s. Proof. now rewrite inc_age_eq. Qed.
Lemma inc_ln s : s_ln (inc_age s) = s_ln s. Proof. now rewrite inc_age_eq. Qed.
Lemma inc_cnt s : s_cnt (inc_age s) = next_cnt s. Proof. now rewrite inc_age_eq. Qed.

Lemma clear_eq s x y : Inv0 s -> 0 < y -> 0 < x -> resize_clear (inc_age (rz_s2 s x y)) x = Ok (rz_s4 s x y).
Proof.
  intros H Hy Hx. destruct (rz_cols_wf s x y (s_main s) H Hy (i_main _ H)) as [L1 R1].
  destruct (rz_cols_wf s x y (s_alt s) H Hy (i_alt _ H)) as [L2 R2].
  pose proof H as H0. inv0 H0.
  unfold resize_clear. set (t := inc_age (rz_s2 s x y)).
  assert (T1 : s_sx t = s_sx s) by (unfold t; now rewrite inc_sx).
  assert (T2 : s_sy t = s_sy s) by (unfold t; now rewrite inc_sy).
  assert (T3 : s_ln t = Z.max (s_ln s) y) by (unfold t; now rewrite inc_ln).
  assert (T4 : s_main t = rz_cols s x (rz_rows s x y (s_main s))) by (unfold t; now rewrite inc_main).
  assert (T5 : s_alt t = rz_cols s x (rz_rows s x y (s_alt s))) by (unfold t; now rewrite inc_alt).
  assert (T6 : blank_of t (s_defm t) = blank_of (inc_age s) (s_defm s)) by (unfold t, blank_of; now rewrite inc_defm, !inc_cnt).
  assert (T7 : blank t = blank (inc_age s)) by (unfold t, blank, blank_of; now rewrite !inc_def, !inc_cnt).
  rewrite T1, T2, T3, T4, T5, T6, T7.
  replace (if s_sx s <? x then s_sx s else x) with (Z.min (s_sx s) x) by (destruct (s_sx s <? x) eqn:E; lia).
  rewrite (forz_zmodm _ (fun j l => set_cells l (filled (blank_of (inc_age s) (s_defm s))
      (if j <? s_sy s then Z.min (s_sx s) x else 0) (zlen (l_cells l)) (l_cells l)))).
  2:{ lia. } 2:{ lia. }
  2:{ intros j l Hj Hl. unfold on_cells. destruct (R1 j l Hl) as [A _].
      rewrite fill_ok; [reflexivity|destruct (j <? s_sy s); lia|lia]. }
  cbn [bind].
  rewrite (forz_zmodm _ (fun j l => set_cells l (filled (blank (inc_age s))
      (if j <? s_sy s then s_sx s else 0) x (l_cells l)))).
  2:{ lia. } 2:{ lia. }
  2:{ intros j l Hj Hl. unfold on_cells. destruct (R2 j l Hl) as [A _].
      rewrite fill_ok; [reflexivity|destruct (j <? s_sy s); lia|lia]. }
  cbn [bind]. unfold rz_s4. fold t.
  match goal with |- Ok (set_alt (set_main _ ?m) ?a) = _ =>
    assert (Em : m = rz_main s x y); [|assert (Ea : a = rz_alt s x y); [|rewrite Em, Ea; reflexivity]] end.
  - unfold rz_main, rz_pad_main. apply mapi_ext. intros j l Hl. apply znth_Some_range in Hl.
    replace (_ && _) with true by lia. reflexivity.
  - unfold rz_alt, rz_pad_alt. apply mapi_ext. intros j l Hl. apply znth_Some_range in Hl.
    replace (_ && _) with true by lia. reflexivity.
Qed.

Lemma rz_tabs0_len s x : Inv0 s -> 0 < x -> x <= zlen (rz_tabs0 s x).
Proof.
  intros H Hx. pose proof (i_tabs _ H). unfold rz_tabs0. destruct (s_sx s <? x) eqn:E; [|lia].
  rewrite app_length, repeat_length, firstn_length. lia.
Qed.
Lemma rz_tabs_len s x : Inv0 s -> 0 < x -> x <= zlen (rz_tabs s x).
Proof. intros H Hx. unfold rz_tabs, tabs_upto. rewrite length_mapi. now apply rz_tabs0_len. Qed.

Lemma rz_wide_Inv0 s x y : Inv0 s -> 0 < x <= DIM -> 0 < y <= DIM -> Inv0 (rz_wide s x y).
Proof.
  intros H Hx Hy. pose proof (rz_main_wf s x y H ltac:(lia) ltac:(lia)) as W1. pose proof (rz_alt_wf s x y H ltac:(lia) ltac:(lia)) as W2.
  pose proof (rz_tabs_len s x H ltac:(lia)) as W3. pose proof (Inv0_inc s H) as HI. 
  pose proof (i_sy _ H) as A1. pose proof (i_ln _ H) as A2. inv0 HI. unfold rz_wide.
  constructor; sredg; auto; rewrite ?inc_sy; lia.
Qed.

(* State with the width changed, the cursor pulled left. *)
Definition rz_s7 (s : screen) (x y : Z) : screen :=
  if x <=? s_cx s then moved (rz_wide s x y) (x - 1) (s_cy s) else rz_wide s x y.
Record resized (s s' : screen) (x y : Z) : Prop := mkRz {
  rz_sh : exists s8, (if y <? s_sy s then
                        exists t, scrolled_up (rz_s7 s x y) t (s_sy s - y) /\ s8 = moved t (s_cx t) (Z.max 0 (s_cy t - (s_sy s - y)))
                      else s8 = rz_s7 s x y) /\
     Inv0 s8 /\
     s' = let s9 := set_mb (set_sy s8 y) (y - 1) in
          if y <=? s_cy s8 then moved s9 (s_cx s8) (y - 1) else s9
}.

Lemma rz_wide_eq s x y : set_sx (set_tabs (set_mb (set_mt (rz_s4 s x y) 0) (s_sy s - 1))
      (tabs_upto x (fun i => i mod 8 =? 0) (rz_tabs0 s x))) x = rz_wide s x y.
Proof.
  unfold rz_s4, rz_wide. change (tabs_upto x (fun i : Z => i mod 8 =? 0) (rz_tabs0 s x)) with (rz_tabs s x).
  generalize (rz_tabs s x) (rz_main s x y) (rz_alt s x y). intros tt mm aa.
  rewrite !inc_age_eq. reflexivity.
Qed.
Lemma rz_wide_fields s x y : s_sx (rz_wide s x y) = x /\ s_cx (rz_wide s x y) = s_cx s /\
  s_cy (rz_wide s x y) = s_cy s /\ s_sy (rz_wide s x y) = s_sy s /\ s_mt (rz_wide s x y) = 0 /\
  s_mb (rz_wide s x y) = s_sy s - 1 /\ s_ln (rz_wide s x y) = Z.max (s_ln s) y.
Proof.
  unfold rz_wide. generalize (rz_tabs s x) (rz_main s x y) (rz_alt s x y). intros tt mm aa.
  sredg. rewrite inc_cx, inc_cy, inc_sy. repeat split.
Qed.
Lemma set_both t m a : s_sy (set_alt (set_main t m) a) = s_sy t /\ s_tabs (set_alt (set_main t m) a) = s_tabs t.
Proof. split; reflexivity. Qed.
Lemma inc_tabs t : s_tabs (inc_age t) = s_tabs t.
Proof. now rewrite inc_age_eq. Qed.
Lemma rz_s2_fields s x y : s_sy (rz_s2 s x y) = s_sy s /\ s_tabs (rz_s2 s x y) = rz_tabs0 s x.
Proof. split; reflexivity. Qed.
Lemma set_mtb t a b : s_tabs (set_mb (set_mt t a) b) = s_tabs t.
Proof. reflexivity. Qed.
Lemma rz_s4_fields s x y : s_sy (rz_s4 s x y) = s_sy s /\ s_tabs (rz_s4 s x y) = rz_tabs0 s x.
Proof.
  unfold rz_s4. destruct (set_both (inc_age (rz_s2 s x y)) (rz_main s x y) (rz_alt s x y)) as [A B].
  rewrite A, B, inc_sy, inc_tabs. apply rz_s2_fields.
Qed.
Lemma resize_ok s x y : Inv s -> 0 < x <= DIM -> 0 < y <= DIM -> (s_sx s <> x \/ s_sy s <> y) ->
  exists s', scr_resize s x y = Ok (s', 0) /\ resized s s' x y /\ Inv s'.
Proof.
  intros (H & Hcx & Hcy) Hx Hy Hne. pose proof H as H0. inv0 H0. unfold scr_resize.
  replace ((x =? 0) || (y =? 0)) with false by lia. replace (_ && _) with false by lia.
  rewrite grow_y_eq. cbv zeta. rewrite grow_x_eq by (auto; lia). cbn [bind]. rewrite clear_eq by (auto; lia). cbn [bind].
  destruct (rz_s4_fields s x y) as [F FT0].
  rewrite F. rewrite (u32_small (s_sy s - 1)) by (unfold DIM in *; lia).
  rewrite set_mtb, FT0.
  unfold reset_tabs. rewrite (tabs_upto_ok _ (fun i => i mod 8 =? 0)) by (apply rz_tabs0_len; auto; lia).
  cbn [bind]. rewrite rz_wide_eq. pose proof (rz_wide_Inv0 s x y H Hx Hy) as IW.
  destruct (rz_wide_fields s x y) as (W1 & W2 & W3 & W4 & W5 & W6 & W7).
  assert (D7 : rz_s7 s x y = if x <=? s_cx s then moved (rz_wide s x y) (x - 1) (s_cy s) else rz_wide s x y) by reflexivity.
  set (w := rz_wide s x y) in *. clearbody w.
  rewrite W1, W2, W3.
  set (s7 := if x <=? s_cx s then moved w (x - 1) (s_cy s) else w) in *.
  assert (E7 : (if x <=? s_cx s then move_cursor (w) (u32 (x - 1)) (s_cy s) else Ok (w)) = Ok (s7)).
  { unfold s7. destruct (x <=? s_cx s); [|reflexivity]. rewrite u32_small by (unfold DIM in *; lia).
    apply move_cursor_ok; auto; lia. }
  rewrite E7. cbn [bind].
  assert (I7 : Inv0 (s7)).
  { unfold s7. destruct (x <=? s_cx s); [apply Inv0_moved; auto; lia|auto]. }
  assert (V7 : same_env (w) (s7)).
  { unfold s7. destruct (x <=? s_cx s); [apply env_moved|apply same_env_refl]. }
  assert (X7 : 0 <= s_cx (s7) < x).
  { unfold s7. destruct (x <=? s_cx s) eqn:E; rewrite ?moved_cx, ?W2; lia. }
  assert (Y7 : s_cy (s7) = s_cy s).
  { unfold s7. destruct (x <=? s_cx s) eqn:E; rewrite ?moved_cy, ?W3; lia. }
  assert (S7 : s_sy (s7) = s_sy s) by (rewrite (e_sy _ _ V7); exact W4).
  assert (SX7 : s_sx (s7) = x) by (rewrite (e_sx _ _ V7); exact W1).
  assert (MT7 : s_mt (s7) = 0) by (rewrite (e_mt _ _ V7); exact W5).
  assert (MB7 : s_mb (s7) = s_sy s - 1) by (rewrite (e_mb _ _ V7); exact W6).
  assert (LN7 : s_ln (s7) = Z.max (s_ln s) y) by (rewrite (e_ln _ _ V7); exact W7).
  clearbody s7. rewrite S7.
  assert (E8 : exists s8, (if y <? s_sy s then do s' <- scroll_up (s7) (s_sy s - y);
       if s_sy s - y <? s_cy s' then move_cursor s' (s_cx s') (s_cy s' - (s_sy s - y)) else move_cursor s' (s_cx s') 0
       else Ok (s7)) = Ok s8 /\ (if y <? s_sy s then
                        exists t, scrolled_up (s7) t (s_sy s - y) /\ s8 = moved t (s_cx t) (Z.max 0 (s_cy t - (s_sy s - y)))
                      else s8 = s7) /\ Inv0 s8 /\ 0 <= s_cx s8 < x /\ s_sx s8 = x /\ s_ln s8 = Z.max (s_ln s) y /\
                      s_mt s8 = 0).
  { destruct (y <? s_sy s) eqn:E.
    - destruct (scroll_up_ok (s7) (s_sy s - y) I7 ltac:(lia)) as (t & Et & Pt).
      rewrite MB7, MT7, Z.min_l in Pt by lia. rewrite Et. cbn [bind].
      pose proof (su_inv _ _ _ Pt) as It. pose proof (su_env _ _ _ Pt) as Vt.
      pose proof (i_cx _ It). pose proof (i_cy _ It).
      exists (moved t (s_cx t) (Z.max 0 (s_cy t - (s_sy s - y)))). split.
      + destruct (s_sy s - y <? s_cy t) eqn:E1; rewrite move_cursor_ok by (auto; lia); do 2 f_equal; lia.
      + pose proof (env_moved t (s_cx t) (Z.max 0 (s_cy t - (s_sy s - y)))) as EM.
        split; [exists t; auto|]. split; [apply Inv0_moved; auto; lia|].
        rewrite moved_cx, (e_sx _ _ EM), (e_ln _ _ EM), (e_mt _ _ EM), (f_cx _ _ Vt), (f_sx _ _ Vt), (f_ln _ _ Vt), (f_mt _ _ Vt).
        auto.
    - exists (s7). auto 10. }
  destruct E8 as (s8 & E8 & P8 & I8 & X8 & SX8 & LN8 & MT8). rewrite E8. cbn [bind].
  rewrite (u32_small (y - 1)) by (unfold DIM in *; lia).
  set (s9 := set_mb (set_sy s8 y) (y - 1)).
  assert (I9 : Inv0 s9).
  { pose proof (i_main _ I8) as M1. pose proof (i_alt _ I8) as M2. clear - I8 Hy LN8 MT8 M1 M2.
    assert (LNb : s_ln s8 <= DIM) by (apply (i_ln _ I8)).
    inv0 I8. unfold s9. constructor; sredg; auto; try lia. }
  change (s_sy s9) with y. change (s_cy s9) with (s_cy s8). change (s_cx s9) with (s_cx s8).
  rewrite (u32_small (y - 1)) by (unfold DIM in *; lia).
  destruct (y <=? s_cy s8) eqn:E10.
  - rewrite move_cursor_ok by (auto; lia). cbn [bind]. eexists; split; [reflexivity|]. split.
    + constructor. rewrite D7. exists s8. split; [exact P8|]. split; [exact I8|]. cbv zeta. now rewrite E10.
    + apply Inv_moved; auto; change (s_sx s9) with (s_sx s8); change (s_sy s9) with y; lia.
  - cbn [bind]. eexists; split; [reflexivity|]. split.
    + constructor. rewrite D7. exists s8. split; [exact P8|]. split; [exact I8|]. cbv zeta. now rewrite E10.
    + split; [exact I9|]. change (s_sx s9) with (s_sx s8). change (s_cx s9) with (s_cx s8). change (s_cy s9) with (s_cy s8).
      change (s_sy s9) with y. lia.
Qed.

Definition scr_init : screen := match scr_new with Ok s => s | Ub => screen0 end.
Lemma scr_new_eq : scr_new = Ok scr_init.
Proof. vm_compute. reflexivity. Qed.
Lemma scr_init_Inv : Inv scr_init.
Proof.
  assert (D : forall (l : list line), forallb (fun l => (80 <=? zlen (l_cells l)) && (zlen (l_cells l) <=? DIM) && match l_sbid l with None => true | _ => false end) l = true ->
     Forall (line_wf 80) l).
  { intros l Hl. apply Forall_forall. intros x Hx. rewrite forallb_forall in Hl. specialize (Hl x Hx).
    unfold line_wf. destruct (l_sbid x); [lia|]. split; [lia|reflexivity]. }
  assert (E1 : s_sx scr_init = 80) by (vm_compute; reflexivity).
  assert (E2 : s_sb scr_init = []) by (vm_compute; reflexivity).
  assert (E3 : s_sela scr_init = false) by (vm_compute; reflexivity).
  split; [|split; vm_compute; congruence || reflexivity].
  constructor.
  8,9: rewrite E1; split; [vm_compute; reflexivity|apply D; vm_compute; reflexivity].
  all: rewrite ?E2, ?E3.
  11: apply ids_nil.
  12,13: intros HH; discriminate HH.
  all: vm_compute; repeat split; congruence.
Qed.
