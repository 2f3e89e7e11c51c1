(* Resizing when memory may be refused: a call that fails has only made the
   arrays and lines larger, outside of the screen. *)
From Verif Require Import Base BaseProofs Wcwidth Symbol Screen ScreenInv ScreenSb ScreenScroll ScreenSpec ScreenOps ScreenMove ScreenCtl ScreenResize
  ScreenSafe ScreenLaws ScreenAlt ScreenHist ScreenRz TwinSpec TwinProofs Alloc AllocSpec AllocProofs AllocCalls.

(* The rows of a are in b, possibly with more cells at their end. *)
Definition ext_rows (a b : list line) : Prop :=
  forall j l, znth a j = Some l -> exists e, znth b j = Some (set_cells l (l_cells l ++ e)).
Lemma set_cells_id l : set_cells l (l_cells l) = l.
Proof. destruct l; reflexivity. Qed.
Lemma ext_refl a : ext_rows a a.
Proof. intros j l E. exists []. now rewrite app_nil_r, set_cells_id. Qed.
Lemma ext_trans a b c : ext_rows a b -> ext_rows b c -> ext_rows a c.
Proof.
  intros A B j l E. destruct (A j l E) as [e E1]. destruct (B j _ E1) as [e2 E2]. exists (e ++ e2). rewrite E2. cbn [set_cells l_cells].
  rewrite app_assoc. reflexivity.
Qed.
Lemma ext_app a b : ext_rows a (a ++ b).
Proof. intros j l E. exists []. rewrite app_nil_r, set_cells_id, znth_app. pose proof (znth_Some_range _ _ _ E). now replace (j <? zlen a) with true by lia. Qed.
Lemma ext_cons l e a b : ext_rows a b -> ext_rows (l :: a) (set_cells l (l_cells l ++ e) :: b).
Proof.
  intros H j k E. pose proof (znth_Some_range _ _ _ E) as R. destruct (Z.eq_dec j 0) as [->|N].
  - change (Some l = Some k) in E. inversion E; subst. exists e. reflexivity.
  - change (l :: a) with ([l] ++ a) in E. rewrite znth_app in E. replace (j <? zlen [l]) with false in E by (cbn [length]; lia).
    destruct (H _ _ E) as [e1 E1]. exists e1. change (?u :: b) with ([u] ++ b). rewrite znth_app.
    replace (j <? zlen [_]) with false by (cbn [length]; lia). exact E1.
Qed.
Lemma ext_at w n a b y x : lines_wf w n a -> ext_rows a b -> 0 <= y < n -> 0 <= x < w ->
  cell_at b y x = cell_at a y x /\ age_at b y = age_at a y /\ rows_at b y x = rows_at a y x.
Proof.
  intros [L W] E Hy Hx. destruct (znth_some a y) as [l El]; [lia|]. destruct (E y l El) as [e E2].
  pose proof (Forall_get _ _ _ _ W El) as [Wl _].
  unfold cell_at, age_at, rows_at, row_at. rewrite El, E2. cbn [option_map set_cells l_cells l_age].
  rewrite znth_app. replace (x <? zlen (l_cells l)) with true by lia. auto.
Qed.

(* t is s with more room. *)
Record grown (s t : screen) : Prop := mkGrown {
  gr_main : ext_rows (s_main s) (s_main t); gr_alt : ext_rows (s_alt s) (s_alt t);
  gr_tabs : forall k, k <= s_sx s -> znth (s_tabs t) k = znth (s_tabs s) k;
  gr_eq : t = set_ln (set_tabs (set_alt (set_main s (s_main t)) (s_alt t)) (s_tabs t)) (s_ln t)
}.
Lemma grown_unchanged s t : Inv0 s -> grown s t -> unchanged s t.
Proof.
  intros H [M A T E]. pose proof (i_ln _ H) as L. pose proof (i_main _ H) as WM. pose proof (i_alt _ H) as WA.
  set (m := s_main t) in *. set (a := s_alt t) in *. set (tb := s_tabs t) in *. set (n := s_ln t) in *. clearbody m a tb n. subst t.
  assert (KM : forall y x, on_screen s y x -> cell_at m y x = cell_at (s_main s) y x /\ age_at m y = age_at (s_main s) y /\ rows_at m y x = rows_at (s_main s) y x).
  { intros y x [Hy Hx]. apply (ext_at _ _ _ _ _ _ WM M); lia. }
  assert (KA : forall y x, on_screen s y x -> cell_at a y x = cell_at (s_alt s) y x /\ age_at a y = age_at (s_alt s) y /\ rows_at a y x = rows_at (s_alt s) y x).
  { intros y x [Hy Hx]. apply (ext_at _ _ _ _ _ _ WA A); lia. }
  constructor; try reflexivity.
  - constructor; try reflexivity; [exact T| |]; intros y x O; unfold main_at, alt_at; [apply (KM y x O)|apply (KA y x O)].
  - intros y x O. destruct (KM y x O) as (K1 & K2 & _). auto.
  - intros y x O. destruct (KA y x O) as (K1 & K2 & _). auto.
Qed.

(* -- more lines ---------------------------------------------------------------- *)
Definition plus_lines (s : screen) (w : Z) (k : nat) : screen :=
  set_ln (set_alt (set_main s (s_main s ++ repeat (line_new s w) k)) (s_alt s ++ repeat (line_new s w) k)) (s_ln s + Z.of_nat k).
Lemma f_new_lines_ok n : forall s w al, 0 <= s_ln s -> s_ln s + Z.of_nat n <= DIM -> exists k b al',
  f_new_lines n s w al = (plus_lines s w k, b, al') /\ (k <= n)%nat /\ (b = true -> k = n).
Proof.
  assert (Z0 : forall s w, plus_lines s w 0 = s).
  { intros s w. unfold plus_lines. cbn [repeat]. rewrite !app_nil_r. replace (s_ln s + Z.of_nat 0) with (s_ln s) by lia. destruct s; reflexivity. }
  induction n as [|n IH]; intros s w al H0 Hn; cbn [f_new_lines].
  - exists 0%nat, true, al. rewrite Z0. auto.
  - destruct (f_line_new_cases s w al) as (r & al1 & E1 & [->| ->]); rewrite E1.
    { exists 0%nat, false, al1. rewrite Z0. split; [reflexivity|]. split; [lia|discriminate]. }
    destruct (f_line_new_cases s w al1) as (r & al2 & E2 & [->| ->]); rewrite E2.
    { exists 0%nat, false, al2. rewrite Z0. split; [reflexivity|]. split; [lia|discriminate]. }
    rewrite u32_small by (unfold DIM in *; lia).
    set (s1 := set_ln _ _). destruct (IH s1 w al2) as (k & b & al3 & E3 & K1 & K2).
    { change (s_ln s1) with (s_ln s + 1). lia. } { change (s_ln s1) with (s_ln s + 1). lia. }
    exists (S k), b, al3. rewrite E3. split; [|split; [lia|intros B; rewrite (K2 B); reflexivity]]. f_equal. f_equal.
    unfold plus_lines. change (line_new s1 w) with (line_new s w). change (s_main s1) with (s_main s ++ [line_new s w]).
    change (s_alt s1) with (s_alt s ++ [line_new s w]). change (s_ln s1) with (s_ln s + 1).
    rewrite <- !app_assoc. cbn [app repeat]. replace (s_ln s + 1 + Z.of_nat k) with (s_ln s + Z.of_nat (S k)) by lia. reflexivity.
Qed.
Lemma plus_lines_ok s x k : Inv s -> x <= DIM -> s_ln s + Z.of_nat k <= DIM ->
  let t := plus_lines s (Z.max (s_sx s) x) k in Inv t /\ grown s t.
Proof.
  intros (H & Hcx & Hcy) Hx Hk. cbv zeta. split.
  - assert (W : forall ls, lines_wf (s_sx s) (s_ln s) ls -> lines_wf (s_sx s) (s_ln s + Z.of_nat k) (ls ++ repeat (line_new s (Z.max (s_sx s) x)) k)).
    { intros ls [L W]. split; [rewrite app_length, repeat_length; lia|]. apply Forall_app. split; [exact W|]. apply Forall_forall. intros l Hl.
      apply repeat_spec in Hl. subst l. unfold line_wf, line_new. cbn [l_cells l_sbid]. rewrite repeat_length. pose proof (i_sx _ H). split; [lia|reflexivity]. }
    pose proof (W _ (i_main _ H)) as WM. pose proof (W _ (i_alt _ H)) as WA. split; [|auto].
    unfold plus_lines. set (m := s_main s ++ _) in *. set (a := s_alt s ++ _) in *. clearbody m a. inv0 H. constructor; sredg; auto; lia.
  - constructor; [apply ext_app|apply ext_app|reflexivity|]. unfold plus_lines.
    set (m := s_main s ++ _). set (a := s_alt s ++ _). clearbody m a. destruct s; reflexivity.
Qed.
Lemma f_grow_y_ok s x y al : Inv s -> 0 < x <= DIM -> 0 < y <= DIM -> exists s1 b al1,
  f_grow_y s x y al = (s1, b, al1) /\ Inv s1 /\ grown s s1 /\ s_sx s1 = s_sx s /\ (b = true -> s1 = rz_s1 s x y).
Proof.
  intros H Hx Hy. pose proof (i_ln _ (proj1 H)) as L. pose proof (i_sy _ (proj1 H)).
  assert (G0 : grown s s) by (constructor; auto using ext_refl; destruct s; reflexivity).
  unfold f_grow_y. destruct (s_ln s <? y) eqn:E.
  - destruct (ask al) as [[] al1]; [exists s, false, al1; repeat match goal with |- _ /\ _ => split end; auto; discriminate|].
    destruct (ask al1) as [[] al2]; [exists s, false, al2; repeat match goal with |- _ /\ _ => split end; auto; discriminate|].
    replace (if s_sx s <? x then x else s_sx s) with (Z.max (s_sx s) x) by (destruct (s_sx s <? x) eqn:E1; lia).
    destruct (f_new_lines_ok (Z.to_nat (y - s_ln s)) s (Z.max (s_sx s) x) al2 ltac:(lia) ltac:(lia)) as (k & b & al3 & E3 & K1 & K2).
    destruct (plus_lines_ok s x k H ltac:(lia) ltac:(lia)) as [I G].
    exists (plus_lines s (Z.max (s_sx s) x) k), b, al3. repeat match goal with |- _ /\ _ => split end; auto.
    intros B. rewrite (K2 B). unfold plus_lines, rz_s1, rz_rows. rewrite E. replace (s_ln s + Z.of_nat (Z.to_nat (y - s_ln s))) with (Z.max (s_ln s) y) by lia. reflexivity.
  - exists s, true, al. repeat match goal with |- _ /\ _ => split end; auto. intros _. rewrite <- grow_y_eq. unfold resize_grow_y. now rewrite E.
Qed.

(* -- longer lines ---------------------------------------------------------------- *)
Lemma f_line_resize_cases s x l al : exists r al', f_line_resize s x l al = (r, al') /\ (r = None \/ r = Some (line_resize s x l)).
Proof.
  unfold f_line_resize, line_resize. destruct (zlen (l_cells l) <? x); [|eauto]. destruct (ask al) as [[] al1]; eauto.
Qed.
Lemma line_resize_ext s x l : exists e, line_resize s x l = set_cells l (l_cells l ++ e).
Proof. unfold line_resize. destruct (_ <? _); [eauto|]. exists []. now rewrite app_nil_r, set_cells_id. Qed.
Lemma line_resize_wf s x w l : x <= DIM -> line_wf w l -> line_wf w (line_resize s x l).
Proof. intros Hx [A B]. destruct (line_resize_len s x l) as [C D]. split; [rewrite C; lia|now rewrite D]. Qed.
Lemma f_resize_lines_ok s x w : x <= DIM -> forall n ms os al, length ms = n -> length os = n -> Forall (line_wf w) ms -> Forall (line_wf w) os ->
  exists mr or b al', f_resize_lines n s x ms os al = Ok (mr, or, b, al') /\ length mr = n /\ length or = n /\
    Forall (line_wf w) mr /\ Forall (line_wf w) or /\ ext_rows ms mr /\ ext_rows os or /\
    (b = true -> mr = map (line_resize s x) ms /\ or = map (line_resize s x) os).
Proof.
  intros Hx. induction n as [|n IH]; intros [|m ms] [|o os] al Lm Lo Wm Wo; try discriminate; cbn [f_resize_lines].
  - exists [], [], true, al. repeat match goal with |- _ /\ _ => split end; auto using ext_refl.
  - inversion Wm as [|? ? Wm1 Wm2]; subst. inversion Wo as [|? ? Wo1 Wo2]; subst. injection Lm as Lm. injection Lo as Lo.
    destruct (line_resize_ext s x m) as [em Em]. destruct (line_resize_ext s x o) as [eo Eo].
    destruct (f_line_resize_cases s x m al) as (r & al1 & E1 & [->| ->]); rewrite E1.
    { exists (m :: ms), (o :: os), false, al1. repeat match goal with |- _ /\ _ => split end; auto using ext_refl; try (cbn [length]; congruence). }
    destruct (f_line_resize_cases s x o al1) as (r & al2 & E2 & [->| ->]); rewrite E2.
    { exists (line_resize s x m :: ms), (o :: os), false, al2.
      repeat match goal with |- _ /\ _ => split end; auto using ext_refl; try (cbn [length]; congruence).
      - constructor; auto using line_resize_wf.
      - rewrite Em. apply ext_cons, ext_refl. }
    destruct (IH ms os al2 Lm Lo Wm2 Wo2) as (mr & or & b & al3 & E3 & A1 & A2 & A3 & A4 & A5 & A6 & A7). rewrite E3. cbn [bind].
    exists (line_resize s x m :: mr), (line_resize s x o :: or), b, al3.
    repeat match goal with |- _ /\ _ => split end; auto; try (cbn [length]; congruence).
    + constructor; auto using line_resize_wf.
    + constructor; auto using line_resize_wf.
    + rewrite Em. now apply ext_cons.
    + rewrite Eo. now apply ext_cons.
    + intros B. destruct (A7 B) as [-> ->]. split; reflexivity.
Qed.
Lemma f_grow_x_ok s x al : Inv s -> 0 < x <= DIM -> exists s1 b al1,
  f_grow_x s x al = Ok (s1, b, al1) /\ (b = true -> resize_grow_x s x = Ok s1) /\ (b = false -> Inv s1 /\ grown s s1).
Proof.
  intros H Hx. assert (G0 : grown s s) by (constructor; auto using ext_refl; destruct s; reflexivity).
  unfold f_grow_x, resize_grow_x. destruct (s_sx s <? x) eqn:E; [|exists s, true, al; split; [reflexivity|]; split; [auto|discriminate]].
  destruct (ask al) as [[] al1]; [exists s, false, al1; split; [reflexivity|]; split; [discriminate|auto]|].
  destruct H as (H & Hcx & Hcy). pose proof (i_main _ H) as [LM WM]. pose proof (i_alt _ H) as [LA WA]. pose proof (i_tabs _ H) as LT. pose proof (i_sx _ H) as SX.
  destruct (f_resize_lines_ok s x (s_sx s) ltac:(lia) (Z.to_nat (s_ln s)) (s_main s) (s_alt s) al1 ltac:(lia) ltac:(lia) WM WA)
    as (mr & or & b & al2 & E2 & A1 & A2 & A3 & A4 & A5 & A6 & A7).
  rewrite E2. cbn [bind]. eexists _, b, al2. split; [reflexivity|]. split.
  - intros ->. destruct (A7 eq_refl) as [-> ->].
    rewrite (forz_zupd (fun _ => line_resize s x) 0 _ (s_main s)) by lia. cbn [bind].
    rewrite (forz_zupd (fun _ => line_resize s x) 0 _ (s_alt s)) by lia. cbn [bind]. rewrite !mapi_all by lia. reflexivity.
  - intros ->. set (tb := firstn (Z.to_nat x) (s_tabs s)).
    assert (T1 : s_sx s <= zlen tb) by (unfold tb; rewrite firstn_length; lia).
    assert (T2 : forall k, k <= s_sx s -> znth tb k = znth (s_tabs s) k).
    { intros k Hk. unfold tb. destruct (Z_lt_le_dec k 0) as [N|N]; [now rewrite !znth_neg|].
      rewrite <- (firstn_skipn (Z.to_nat x) (s_tabs s)) at 2. rewrite znth_app.
      destruct (k <? zlen (firstn (Z.to_nat x) (s_tabs s))) eqn:Ek; [reflexivity|].
      rewrite firstn_length in Ek. rewrite !znth_ge; [reflexivity| |]; rewrite ?skipn_length, ?firstn_length; lia. }
    clearbody tb. split.
    + split; [|auto]. assert (WM' : lines_wf (s_sx s) (s_ln s) mr) by (split; [lia|auto]). assert (WA' : lines_wf (s_sx s) (s_ln s) or) by (split; [lia|auto]).
      clear - H T1 WM' WA'. inv0 H. constructor; sredg; auto; lia.
    + constructor; auto.
Qed.
Lemma unchanged_grown2 s a b : grown s a -> grown a b -> s_sx a = s_sx s -> grown s b.
Proof.
  intros [A1 A2 A3 A4] [B1 B2 B3 B4] E. constructor; [eapply ext_trans; eauto|eapply ext_trans; eauto| |].
  - intros k Hk. rewrite B3 by lia. auto.
  - rewrite B4 at 1. rewrite A4 at 1. clear. generalize (s_main b) (s_alt b) (s_tabs b) (s_ln b). intros. destruct s; reflexivity.
Qed.

(* -- the whole call ---------------------------------------------------------------- *)
Record fresized (s s' : screen) (x y : Z) : Prop := mkFrz {
  frz_sh : exists s8, (if y <? s_sy s then
                        exists t, fscrolled (rz_s7 s x y) t (s_sy s - y) /\ s8 = moved t (s_cx t) (Z.max 0 (s_cy t - (s_sy s - y)))
                      else s8 = rz_s7 s x y) /\
     Inv0 s8 /\
     s' = let s9 := set_mb (set_sy s8 y) (y - 1) in
          if y <=? s_cy s8 then moved s9 (s_cx s8) (y - 1) else s9
}.
Lemma f_resize_ok s x y al : Inv s -> 0 < x <= DIM -> 0 < y <= DIM -> (s_sx s <> x \/ s_sy s <> y) ->
  exists s' c al', f_resize s x y al = Ok (s', c, al') /\ Inv s' /\
    (c = ENOMEM_RET /\ unchanged s s' \/ c = 0 /\ fresized s s' x y).
Proof.
  intros HI Hx Hy Hne. unfold f_resize.
  replace ((x =? 0) || (y =? 0)) with false by lia. replace (_ && _) with false by lia.
  destruct (f_grow_y_ok s x y al HI Hx Hy) as (g1 & b1 & al1 & E1 & J1 & G1 & X1 & R1). rewrite E1.
  destruct b1; cbn [negb].
  2:{ exists g1, ENOMEM_RET, al1. split; [reflexivity|]. split; [exact J1|]. left. split; [reflexivity|]. apply grown_unchanged; [apply HI|exact G1]. }
  destruct (f_grow_x_ok g1 x al1 J1 Hx) as (g2 & b2 & al2 & E2 & R2 & F2). rewrite E2. cbn [bind].
  destruct b2; cbn [negb].
  2:{ destruct (F2 eq_refl) as [J2 G2]. exists g2, ENOMEM_RET, al2. split; [reflexivity|]. split; [exact J2|]. left. split; [reflexivity|].
      apply grown_unchanged; [apply HI|]. now apply (unchanged_grown2 s g1). }
  specialize (R1 eq_refl). specialize (R2 eq_refl). destruct HI as (H & Hcx & Hcy).
  rewrite R1, grow_x_eq in R2 by (auto; lia). apply ok_inj in R2. subst g2. clear E1 E2 F2 J1 G1 X1 R1 g1.
  pose proof H as H0. inv0 H0. cbv zeta.
  rewrite clear_eq by (auto; lia). cbn [bind].
  destruct (rz_s4_fields s x y) as [F FT0].
  rewrite F. rewrite (u32_small (s_sy s - 1)) by (unfold DIM in *; lia).
  rewrite set_mtb, FT0.
  unfold reset_tabs. rewrite (tabs_upto_ok _ (fun i => i mod 8 =? 0)) by (apply rz_tabs0_len; auto; lia).
  cbn [bind]. rewrite rz_wide_eq. pose proof (rz_wide_Inv0 s x y H Hx Hy) as IW.
  destruct (rz_wide_fields s x y) as (W1 & W2 & W3 & W4 & W5 & W6 & W7).
  assert (D7 : rz_s7 s x y = if x <=? s_cx s then moved (rz_wide s x y) (x - 1) (s_cy s) else rz_wide s x y) by reflexivity.
  set (w := rz_wide s x y) in *. clearbody w.
  rewrite W1, W2, W3.
  set (s7 := if x <=? s_cx s then moved w (x - 1) (s_cy s) else w) in *.
  assert (E7 : (if x <=? s_cx s then move_cursor (w) (u32 (x - 1)) (s_cy s) else Ok (w)) = Ok (s7)).
  { unfold s7. destruct (x <=? s_cx s); [|reflexivity]. rewrite u32_small by (unfold DIM in *; lia).
    apply move_cursor_ok; auto; lia. }
  rewrite E7. cbn [bind].
  assert (I7 : Inv0 (s7)).
  { unfold s7. destruct (x <=? s_cx s); [apply Inv0_moved; auto; lia|auto]. }
  assert (V7 : same_env (w) (s7)).
  { unfold s7. destruct (x <=? s_cx s); [apply env_moved|apply same_env_refl]. }
  assert (X7 : 0 <= s_cx (s7) < x).
  { unfold s7. destruct (x <=? s_cx s) eqn:E; rewrite ?moved_cx, ?W2; lia. }
  assert (S7 : s_sy (s7) = s_sy s) by (rewrite (e_sy _ _ V7); exact W4).
  assert (SX7 : s_sx (s7) = x) by (rewrite (e_sx _ _ V7); exact W1).
  assert (MT7 : s_mt (s7) = 0) by (rewrite (e_mt _ _ V7); exact W5).
  assert (MB7 : s_mb (s7) = s_sy s - 1) by (rewrite (e_mb _ _ V7); exact W6).
  assert (LN7 : s_ln (s7) = Z.max (s_ln s) y) by (rewrite (e_ln _ _ V7); exact W7).
  clearbody s7. rewrite S7.
  assert (E8 : exists s8 al3, (if y <? s_sy s then do r <- f_scroll_up (s7) (s_sy s - y) al2;
       let '(s', al3) := r in
       do s'' <- (if s_sy s - y <? s_cy s' then move_cursor s' (s_cx s') (s_cy s' - (s_sy s - y)) else move_cursor s' (s_cx s') 0);
       Ok (s'', al3)
       else Ok (s7, al2)) = Ok (s8, al3) /\ (if y <? s_sy s then
                        exists t, fscrolled (s7) t (s_sy s - y) /\ s8 = moved t (s_cx t) (Z.max 0 (s_cy t - (s_sy s - y)))
                      else s8 = s7) /\ Inv0 s8 /\ 0 <= s_cx s8 < x /\ s_sx s8 = x /\ s_ln s8 = Z.max (s_ln s) y /\
                      s_mt s8 = 0).
  { destruct (y <? s_sy s) eqn:E.
    - destruct (f_scroll_up_ok (s7) (s_sy s - y) al2 I7 ltac:(lia)) as (t & al3 & Et & Pt).
      rewrite MB7, MT7, Z.min_l in Pt by lia. rewrite Et. cbn [bind].
      pose proof (fs_inv _ _ _ Pt) as It. pose proof (fs_env _ _ _ Pt) as Vt.
      pose proof (i_cx _ It). pose proof (i_cy _ It).
      exists (moved t (s_cx t) (Z.max 0 (s_cy t - (s_sy s - y)))), al3. split.
      + destruct (s_sy s - y <? s_cy t) eqn:E1; rewrite move_cursor_ok by (auto; lia); cbn [bind]; do 3 f_equal; lia.
      + pose proof (env_moved t (s_cx t) (Z.max 0 (s_cy t - (s_sy s - y)))) as EM.
        split; [exists t; auto|]. split; [apply Inv0_moved; auto; lia|].
        rewrite moved_cx, (e_sx _ _ EM), (e_ln _ _ EM), (e_mt _ _ EM), (f_cx _ _ Vt), (f_sx _ _ Vt), (f_ln _ _ Vt), (f_mt _ _ Vt).
        auto.
    - exists (s7), al2. auto 10. }
  destruct E8 as (s8 & al3 & E8 & P8 & I8 & X8 & SX8 & LN8 & MT8). rewrite E8. cbn [bind].
  rewrite (u32_small (y - 1)) by (unfold DIM in *; lia).
  set (s9 := set_mb (set_sy s8 y) (y - 1)).
  assert (I9 : Inv0 s9).
  { pose proof (i_main _ I8) as M1. pose proof (i_alt _ I8) as M2. clear - I8 Hy LN8 MT8 M1 M2.
    assert (LNb : s_ln s8 <= DIM) by (apply (i_ln _ I8)).
    inv0 I8. unfold s9. constructor; sredg; auto; try lia. }
  change (s_sy s9) with y. change (s_cy s9) with (s_cy s8). change (s_cx s9) with (s_cx s8).
  rewrite (u32_small (y - 1)) by (unfold DIM in *; lia).
  destruct (y <=? s_cy s8) eqn:E10.
  - rewrite move_cursor_ok by (auto; lia). cbn [bind]. eexists _, 0, al3; split; [reflexivity|]. split.
    + apply Inv_moved; auto; change (s_sx s9) with (s_sx s8); change (s_sy s9) with y; lia.
    + right. split; [reflexivity|]. constructor. rewrite D7. exists s8. split; [exact P8|]. split; [exact I8|]. cbv zeta. now rewrite E10.
  - cbn [bind]. eexists _, 0, al3; split; [reflexivity|]. split.
    + split; [exact I9|]. change (s_sx s9) with (s_sx s8). change (s_cx s9) with (s_cx s8). change (s_cy s9) with (s_cy s8).
      change (s_sy s9) with y. lia.
    + right. split; [reflexivity|]. constructor. rewrite D7. exists s8. split; [exact P8|]. split; [exact I8|]. cbv zeta. now rewrite E10.
Qed.

Lemma page_fewer a b y m : same_page a b -> y <= s_sy a -> same_page (set_mb (set_sy a y) m) (set_mb (set_sy b y) m).
Proof.
  intros P Hy. destruct P as [P1 P2 P3 P4 P5 P6 P7 P8 P9 P10 P11 P12]. constructor; auto.
  - intros j i [Hj Hi]. apply P11. split; [|exact Hi]. change (0 <= j < y) in Hj. lia.
  - intros j i [Hj Hi]. apply P12. split; [|exact Hi]. change (0 <= j < y) in Hj. lia.
Qed.
Lemma page_resized s a b x y : Inv s -> 0 < x <= DIM -> 0 < y <= DIM -> resized s a x y -> fresized s b x y -> same_page a b.
Proof.
  intros H Hx Hy [(s8 & P & _ & ->)] [(t8 & Q & _ & ->)]. cbv zeta.
  destruct (rz_s7_facts s x y H Hx Hy) as (s7 & E7 & I7 & A1 & A2 & A3 & A4 & _). rewrite <- E7 in *. clear E7.
  destruct (y <? s_sy s) eqn:E; [|subst; apply page_refl].
  destruct P as (u & U & ->). destruct Q as (v & V & ->).
  assert (K : same_page u v) by (refine (page_scrolled s7 u v _ I7 _ U V); lia).
  rewrite (pg_cx _ _ K), (pg_cy _ _ K). set (cy := Z.max 0 _). 
  pose proof (page_moved u v (s_cx u) cy K) as K2. pose proof (env_moved u (s_cx u) cy) as EM.
  rewrite !moved_cy, !moved_cx.
  assert (K3 : same_page (set_mb (set_sy (moved u (s_cx u) cy) y) (y - 1)) (set_mb (set_sy (moved v (s_cx u) cy) y) (y - 1))).
  { apply page_fewer; [exact K2|]. rewrite (e_sy _ _ EM), (f_sy _ _ (su_env _ _ _ U)). lia. }
  destruct (y <=? cy); [now apply page_moved|exact K3].
Qed.
Lemma fhist_resized s s' x y : Inv s -> 0 < x <= DIM -> 0 < y <= DIM -> fresized s s' x y ->
  fhist s s' (if fl s F_ALT then [] else if y <? s_sy s then map (fun l => fit_row s x (row_text l)) (zslice (s_main s) 0 (s_sy s - y)) else []).
Proof.
  intros H Hx Hy [(s8 & P & _ & ->)]. cbv zeta.
  destruct (rz_s7_facts s x y H Hx Hy) as (s7 & E7 & I7 & A1 & A2 & A3 & A4 & A5 & A6 & A7 & A8 & A9 & A10 & A11 & A12 & A13 & A14 & A15 & A16 & A17).
  rewrite <- E7 in P. clear E7. pose proof (i_sy _ (proj1 H)) as Hsy. pose proof (i_act _ (proj1 H)) as Hact.
  assert (FA : fl s7 F_ALT = fl s F_ALT) by (unfold fl; now rewrite A9).
  assert (K : fhist s s8 (if fl s F_ALT then [] else if y <? s_sy s then map (fun l => fit_row s x (row_text l)) (zslice (s_main s) 0 (s_sy s - y)) else [])).
  { destruct (y <? s_sy s) eqn:E.
    - destruct P as (t & S1 & ->). apply fhist_moved. pose proof (fs_sb _ _ _ S1) as [K1 (k & K2 & K3)].
      unfold sb_text in *. rewrite A7, A8 in *. split; [congruence|]. exists k. split; [|exact K3].
      rewrite FA, A3 in K2. destruct (fl s F_ALT) eqn:EF; [exact K2|].
      unfold txt in K2. rewrite map_zslice in K2. fold (txt (lines s7)) in K2. rewrite A12, Hact, rz_main_top in K2 by (first [exact (proj1 H)|lia]). exact K2.
    - subst s8. rewrite if_nil. apply fhist_same; auto. apply fhist_refl, H. }
  destruct (y <=? s_cy s8); [apply fhist_moved|]; exact K.
Qed.
Lemma fine_resize s x y al : Inv s -> op_args (OResize x y) -> fine s (OResize x y) al.
Proof.
  intros H [Hx Hy]. unfold fine. cbn [fstep].
  destruct ((x =? 0) || (y =? 0)) eqn:E0.
  { exists s, (-22), al. unfold f_resize. rewrite E0. split; [reflexivity|]. split; [exact H|]. right. split; [cbn [ok_ret]; now rewrite E0|].
    split; [intros _; apply fhist_refl, H|]. intros s2 E. cbn [step] in E. unfold scr_resize in E. rewrite E0 in E. apply ok_inj in E. subst. apply page_refl. }
  destruct ((s_sx s =? x) && (s_sy s =? y)) eqn:E1.
  { exists s, 0, al. unfold f_resize. rewrite E0, E1. split; [reflexivity|]. split; [exact H|]. right. split; [cbn [ok_ret]; now rewrite E0|].
    split; [intros _; apply fhist_refl, H|]. intros s2 E. cbn [step] in E. unfold scr_resize in E. rewrite E0, E1 in E. apply ok_inj in E. subst. apply page_refl. }
  destruct (f_resize_ok s x y al H ltac:(lia) ltac:(lia) ltac:(lia)) as (s1 & c & al1 & E & I & [[-> U]|[-> R]]).
  - exists s1, ENOMEM_RET, al1. auto 6.
  - exists s1, 0, al1. split; [exact E|]. split; [exact I|]. right. split; [cbn [ok_ret]; now rewrite E0|]. split.
    + intros _. unfold off. replace (0 <? x) with true by lia. replace (0 <? y) with true by lia. cbn [andb]. apply fhist_resized; auto; lia.
    + intros s2 E2. cbn [step] in E2. destruct (resize_ok s x y H ltac:(lia) ltac:(lia) ltac:(lia)) as (s3 & E3 & R3 & _). rewrite E3 in E2. apply ok_inj in E2. cbn [fst] in E2. subst s3.
      apply (page_resized s s2 s1 x y); auto; lia.
Qed.
