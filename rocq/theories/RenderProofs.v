(* tsm_screen_draw makes the calls described in RenderSpec.v. *)
From Verif Require Import Base BaseProofs Symbol Screen ScreenInv ScreenSb ScreenScroll ScreenSpec ScreenOps ScreenMove ScreenCtl ScreenResize ScreenSafe Render RenderSpec.

(* One column: selection state and whether the cell is drawn as selected. *)
Definition col_sel (s : screen) (ss se : bool) (j : Z) (i0 : bool) : bool * bool :=
  let '(in1, was1) :=
    if s_sela s && ss && (j =? p_x (s_sel1 s)) then (negb i0, i0) else (i0, false) in
  let '(in2, was2) :=
    if s_sela s && se && (j =? p_x (s_sel2 s)) then (negb in1, in1) else (in1, was1) in
  (in2, in2 || was2).
Definition col_call (s : screen) (l : line) (i k j : Z) (b : bool) : dcall :=
  let c := match znth (l_cells l) j with Some c => c | None => blank s end in
  let cur := (k =? u32 (draw_cur_y s + 1)) && (j =? draw_cur_x s) && negb (fl s F_HIDE) in
  let a := flip b (flip (fl s F_INVERSE) (flip cur (c_attr c))) in
  let ch := symbol_get symtab_new (c_ch c) in
  mkD (draw_id (c_ch c) a) ch (if (c_ch c =? 0) || (c_ch c =? 32) && negb (a_underline a) then 0 else zlen ch)
      (c_width c) j i a (draw_age s l c).
Lemma draw_cols_S s l i k ss se n j i0 :
  draw_cols s l i k ss se (S n) j i0 =
  (col_call s l i k j (snd (col_sel s ss se j i0)) :: fst (draw_cols s l i k ss se n (j + 1) (fst (col_sel s ss se j i0))),
   snd (draw_cols s l i k ss se n (j + 1) (fst (col_sel s ss se j i0)))).
Proof.
  cbn [draw_cols]. unfold col_sel, col_call.
  destruct (s_sela s && ss && (j =? p_x (s_sel1 s))), (s_sela s && se && (j =? p_x (s_sel2 s))); cbn [fst snd];
    destruct (draw_cols s l i k ss se n (j + 1) _); reflexivity.
Qed.

Lemma draw_cols_ok (Q : Z -> bool -> Prop) (J : Z -> bool -> Prop) s l i k ss se w :
  (forall j b, 0 <= j < w -> J j b -> Q j (snd (col_sel s ss se j b)) /\ J (j + 1) (fst (col_sel s ss se j b))) ->
  forall n j b, 0 <= j -> j + Z.of_nat n = w -> J j b ->
  let r := draw_cols s l i k ss se n j b in
  zlen (fst r) = Z.of_nat n /\ J w (snd r) /\
  (forall m, 0 <= m < Z.of_nat n -> exists q, Q (j + m) q /\ znth (fst r) m = Some (col_call s l i k (j + m) q)).
Proof.
  intros St. induction n as [|n IH]; intros j b Hj Hw HJ; cbv zeta.
  - cbn [draw_cols fst snd length]. split; [reflexivity|]. split; [now replace w with j by lia|]. intros m Hm. lia.
  - rewrite draw_cols_S. cbn [fst snd length]. destruct (St j b ltac:(lia) HJ) as [Hq HJ'].
    destruct (IH (j + 1) (fst (col_sel s ss se j b)) ltac:(lia) ltac:(lia) HJ') as (L & HJw & R).
    split; [lia|]. split; [exact HJw|]. intros m Hm. rewrite znth_cons by lia. destruct (m =? 0) eqn:E.
    + assert (m = 0) by lia. subst m. rewrite Z.add_0_r. eauto.
    + destruct (R (m - 1) ltac:(lia)) as (q & Hq' & Em). replace (j + 1 + (m - 1)) with (j + m) in * by lia. eauto.
Qed.

Lemma flip_flip a b x : flip a (flip b x) = flip (xorb a b) x.
Proof. destruct x; unfold flip; cbn. f_equal. now rewrite xorb_assoc. Qed.
Lemma flip_false a : flip false a = a.
Proof. destruct a, a_inverse; reflexivity. Qed.

Lemma shown_some s i : Inv s -> 0 <= i < s_sy s -> exists l, shown_line s i = Some l.
Proof.
  intros H Hi. destruct (view_range s (proj1 H)) as [V _]. pose proof (inv_lines s (proj1 H)) as [L _].
  pose proof (i_ln _ (proj1 H)). unfold shown_line. apply znth_some. rewrite app_length. lia.
Qed.
Lemma draw_age_max s l c : draw_age s l c = if s_rst s then 0 else Z.max (c_age c) (Z.max (l_age l) (s_age s)).
Proof.
  unfold draw_age. destruct (s_rst s); [reflexivity|]. destruct (c_age c <? l_age l) eqn:E1.
  - destruct (l_age l <? s_age s) eqn:E2; lia.
  - destruct (c_age c <? s_age s) eqn:E2; lia.
Qed.
Lemma col_call_expected s l i j b : Inv s -> shown_line s i = Some l -> 0 <= i < s_sy s -> 0 <= j < s_sx s ->
  col_call s l i (Z.max 0 (view_index s + i + 1 - zlen (s_sb s))) j b = expected s b i j.
Proof.
  intros H El Hi Hj. destruct H as (H0 & Hx & Hy). pose proof (view_range s H0) as [V _].
  assert (Ecy : draw_cur_y s = s_cy s).
  { unfold draw_cur_y. rewrite (proj2 (clamp_y_ok s _ H0 (i_cy _ H0))). lia. }
  assert (Ecx : draw_cur_x s = cursor_col s).
  { unfold draw_cur_x. rewrite (proj2 (clamp_x_ok s _ H0 (i_cx _ H0))). reflexivity. }
  inv0 H0. unfold DIM in *.
  unfold col_call, expected, shown_cell, reported_age, shown_age. rewrite El, Ecy, Ecx.
  assert (Ecur : ((Z.max 0 (view_index s + i + 1 - zlen (s_sb s)) =? u32 (s_cy s + 1)) && (j =? cursor_col s) && negb (fl s F_HIDE))
    = cursor_at s i j).
  { unfold cursor_at. rewrite u32_small by lia. destruct (fl s F_HIDE); cbn [negb andb]; [now rewrite andb_false_r|].
    rewrite andb_true_r. f_equal. destruct (view_index s + i =? zlen (s_sb s) + s_cy s) eqn:E; lia. }
  rewrite Ecur. unfold row_at. rewrite !flip_flip, draw_age_max.
  replace (xorb (xorb b (fl s F_INVERSE)) (cursor_at s i j)) with (xorb (cursor_at s i j) (xorb (fl s F_INVERSE) b))
    by (destruct b, (fl s F_INVERSE), (cursor_at s i j); reflexivity).
  destruct (znth (l_cells l) j) as [c|]; cbn [option_map]; unfold dcall_of, look, blank_glyph; [destruct c|]; reflexivity.
Qed.

Lemma draw_rows_ok (Q : Z -> Z -> bool -> Prop) (R : Z -> bool -> Prop) s : Inv s ->
  (forall i l b, 0 <= i < s_sy s -> shown_line s i = Some l -> R i b ->
     let k := Z.max 0 (view_index s + i + 1 - zlen (s_sb s)) in
     let r := draw_cols s l i k (s_sela s && sel_here (s_sel1 s) l k) (s_sela s && sel_here (s_sel2 s) l k) (Z.to_nat (s_sx s)) 0 b in
     zlen (fst r) = s_sx s /\ R (i + 1) (snd r) /\
     forall x, 0 <= x < s_sx s -> exists q, Q i x q /\ znth (fst r) x = Some (col_call s l i k x q)) ->
  forall n i b, 0 <= i -> i + Z.of_nat n = s_sy s -> R i b ->
  exists ds, draw_rows s n i (skipn (Z.to_nat (view_index s + i)) (s_sb s)) (Z.max 0 (view_index s + i - zlen (s_sb s))) b = Ok ds /\
    zlen ds = Z.of_nat n * s_sx s /\
    forall y x, i <= y < s_sy s -> 0 <= x < s_sx s -> exists q, Q y x q /\ znth ds ((y - i) * s_sx s + x) = Some (expected s q y x).
Proof.
  intros H St. pose proof (view_range s (proj1 H)) as [V _]. pose proof (inv_lines s (proj1 H)) as [Lw _].
  pose proof (proj1 H) as H0. inv0 H0. unfold DIM in *.
  induction n as [|n IH]; intros i b Hi Hn HR.
  - exists []. cbn [draw_rows length]. split; [reflexivity|]. split; [lia|]. intros; lia.
  - destruct (shown_some s i H ltac:(lia)) as [l El]. cbn [draw_rows].
    set (k' := Z.max 0 (view_index s + i + 1 - zlen (s_sb s))).
    assert (Et : match skipn (Z.to_nat (view_index s + i)) (s_sb s) with
            | l :: r => Ok (l, r, Z.max 0 (view_index s + i - zlen (s_sb s)))
            | [] => do l <- zget (lines s) (Z.max 0 (view_index s + i - zlen (s_sb s)));
                    Ok (l, [], u32 (Z.max 0 (view_index s + i - zlen (s_sb s)) + 1))
            end = Ok (l, skipn (Z.to_nat (view_index s + (i + 1))) (s_sb s), k')).
    { unfold shown_line in El. rewrite znth_app in El. destruct (view_index s + i <? zlen (s_sb s)) eqn:E.
      - destruct (skipn_znth _ _ _ El). replace (Z.to_nat (view_index s + (i + 1))) with (S (Z.to_nat (view_index s + i))) by lia.
        rewrite znth_pos in El by lia. rewrite (skipn_nth _ _ _ El). do 2 f_equal. unfold k'. lia.
      - rewrite !skipn_all2 by lia. replace (Z.max 0 (view_index s + i - zlen (s_sb s))) with (view_index s + i - zlen (s_sb s)) by lia.
        rewrite (zget_ok _ _ _ El). cbn [bind]. do 2 f_equal. unfold k'. rewrite u32_small by lia. lia. }
    rewrite Et. cbn [bind]. destruct (St i l b ltac:(lia) El HR) as (L & HR' & Hq). fold k' in L, HR', Hq.
    destruct (draw_cols s l i k' _ _ _ 0 b) as [ds e]. cbn [fst snd] in L, HR', Hq.
    destruct (IH (i + 1) e ltac:(lia) ltac:(lia) HR') as (r & Er & Lr & Hr).
    replace (Z.max 0 (view_index s + (i + 1) - zlen (s_sb s))) with k' in Er by (unfold k'; lia).
    rewrite Er. cbn [bind]. exists (ds ++ r). split; [reflexivity|]. split; [rewrite app_length; lia|].
    intros y x Hy Hx. rewrite znth_app. destruct (Z.eq_dec y i) as [->|Hne].
    + replace ((i - i) * s_sx s + x) with x by lia. replace (x <? zlen ds) with true by lia.
      destruct (Hq x Hx) as (q & HQ & Eq). exists q. split; [exact HQ|]. rewrite Eq.
      unfold k'. rewrite (col_call_expected s l i x q H El); auto; lia.
    + assert (s_sx s <= (y - i) * s_sx s) by nia. replace ((y - i) * s_sx s + x <? zlen ds) with false by lia.
      destruct (Hr y x ltac:(lia) Hx) as (q & HQ & Eq). exists q. split; [exact HQ|]. rewrite <- Eq. f_equal. nia.
Qed.

Lemma draw_shape (Q : Z -> Z -> bool -> Prop) (R : Z -> bool -> Prop) s : Inv s ->
  R 0 (s_sela s && xorb (sel_above (s_sbpos s) (s_sel1 s)) (sel_above (s_sbpos s) (s_sel2 s))) ->
  (forall i l b, 0 <= i < s_sy s -> shown_line s i = Some l -> R i b ->
     let k := Z.max 0 (view_index s + i + 1 - zlen (s_sb s)) in
     let r := draw_cols s l i k (s_sela s && sel_here (s_sel1 s) l k) (s_sela s && sel_here (s_sel2 s) l k) (Z.to_nat (s_sx s)) 0 b in
     zlen (fst r) = s_sx s /\ R (i + 1) (snd r) /\
     forall x, 0 <= x < s_sx s -> exists q, Q i x q /\ znth (fst r) x = Some (col_call s l i k x q)) ->
  exists ds, draw s = Ok (ds, set_rst s false, if s_rst s then 0 else s_cnt s) /\ zlen ds = s_sy s * s_sx s /\
    forall y x, on_screen s y x -> exists q, Q y x q /\ znth ds (y * s_sx s + x) = Some (expected s q y x).
Proof.
  intros H HR St. pose proof (view_range s (proj1 H)) as [V P]. pose proof (proj1 H) as H0. inv0 H0.
  destruct (draw_rows_ok Q R s H St (Z.to_nat (s_sy s)) 0 _ ltac:(lia) ltac:(lia) HR) as (ds & E & L & D).
  exists ds. split; [|split; [lia|]].
  - unfold draw. replace (Z.max 0 (view_index s + 0 - zlen (s_sb s))) with 0 in E by lia. rewrite Z.add_0_r in E.
    assert (Ei : match s_sbpos s with None => Ok [] | Some p => match sb_from p (s_sb s) with None => Ub | Some l => Ok l end end
      = Ok (skipn (Z.to_nat (view_index s)) (s_sb s))).
    { destruct (s_sbpos s) as [p|] eqn:Ep.
      - cbn [sb_ptr] in Isbpos. rewrite (sb_from_ids _ _ _ Isbid Isbpos). unfold view_index. rewrite Ep. reflexivity.
      - unfold view_index. rewrite Ep. rewrite skipn_all2 by lia. reflexivity. }
    rewrite Ei. cbn [bind]. rewrite E. reflexivity.
  - intros y x [Hy Hx]. destruct (D y x ltac:(lia) Hx) as (q & HQ & Eq). exists q. split; [exact HQ|]. now rewrite Z.sub_0_r in Eq.
Qed.

(* Whatever the selection. *)
Lemma draw_any s : Inv s ->
  exists ds, draw s = Ok (ds, set_rst s false, if s_rst s then 0 else s_cnt s) /\ zlen ds = s_sy s * s_sx s /\
    forall y x, on_screen s y x -> exists q, (s_sela s = false -> q = false) /\ znth ds (y * s_sx s + x) = Some (expected s q y x).
Proof.
  intros H. apply (draw_shape (fun _ _ q => s_sela s = false -> q = false) (fun _ b => s_sela s = false -> b = false) s H).
  - intros E. rewrite E. reflexivity.
  - intros i l b Hi El HR k r.
    destruct (draw_cols_ok (fun _ q => s_sela s = false -> q = false) (fun _ b => s_sela s = false -> b = false) s l i k
       (s_sela s && sel_here (s_sel1 s) l k) (s_sela s && sel_here (s_sel2 s) l k) (s_sx s)) with (n := Z.to_nat (s_sx s)) (j := 0) (b := b)
      as (A & B & C); auto; try lia.
    { intros j q Hj HJ. unfold col_sel. split; intros E; specialize (HJ E); subst q; rewrite E; reflexivity. }
    { pose proof (i_sx _ (proj1 H)). lia. }
    fold r in A, B, C. pose proof (i_sx _ (proj1 H)). split; [lia|]. split; [exact B|]. intros x Hx.
    destruct (C x ltac:(lia)) as (q & Hq & E). rewrite Z.add_0_l in E. eauto.
Qed.

(* Is an end of the selection strictly before a position? *)
Definition past (s : screen) (p : selpos) (r c : Z) : bool :=
  (text_row s p <? r) || (text_row s p =? r) && (p_x p <? c).

Lemma end_above s p : Inv s -> sb_ptr (s_sb s) (s_sbid s) (p_line p) -> end_shown s p ->
  sel_above (s_sbpos s) p = past s p (view_index s) 0.
Proof.
  intros H Hp He. pose proof (view_range s (proj1 H)) as [V P]. pose proof (proj1 H) as H0. inv0 H0.
  unfold sel_above, past, text_row, end_shown in *. unfold view_index in *.
  destruct (p_line p) as [a|]; cbn [sb_ptr] in Hp.
  - destruct (s_sbpos s) as [b|]; cbn [sb_ptr] in Isbpos.
    + match goal with |- ?a = ?b => destruct a eqn:A; destruct b eqn:B; lia end.
    + match goal with |- ?a = ?b => destruct b eqn:B; lia end.
  - unfold SELECTION_TOP in *. destruct (p_y p =? -1) eqn:E.
    + destruct He as [[_ Es]|]; [|lia]. rewrite Es. lia.
    + destruct (s_sbpos s) as [b|]; cbn [sb_ptr] in Isbpos; match goal with |- _ = ?b => destruct b eqn:B; lia end.
Qed.
Lemma end_here s p i l : Inv s -> sb_ptr (s_sb s) (s_sbid s) (p_line p) -> end_shown s p ->
  0 <= i < s_sy s -> shown_line s i = Some l ->
  sel_here p l (Z.max 0 (view_index s + i + 1 - zlen (s_sb s))) = (text_row s p =? view_index s + i).
Proof.
  intros H Hp He Hi El. pose proof (view_range s (proj1 H)) as [V P]. pose proof (proj1 H) as H0. inv0 H0. unfold DIM in *.
  unfold shown_line in El. rewrite znth_app in El. unfold sel_here, text_row, end_shown in *.
  destruct (p_line p) as [a|]; cbn [sb_ptr] in Hp.
  - rewrite orb_false_r. destruct (view_index s + i <? zlen (s_sb s)) eqn:E.
    + specialize (Isbid _ _ El). unfold ptr_is. rewrite Isbid. lia.
    + pose proof (inv_lines s (proj1 H)) as [_ W]. destruct (Forall_get _ _ _ _ W El) as [_ W2].
      rewrite ptr_is_unlinked by exact W2. lia.
  - rewrite ptr_is_none. cbn [orb]. unfold SELECTION_TOP in *. destruct (p_y p =? -1) eqn:E.
    + destruct He as [[Ey Es]|]; [|lia]. rewrite Ey. assert (view_index s = zlen (s_sb s)) by (unfold view_index; now rewrite Es).
      unfold u32. rewrite (Z.mod_small (_ - 1)) by lia. change (-1 mod 4294967296) with 4294967295. lia.
    + destruct He as [|[Hy Hx]]; [lia|]. rewrite (u32_small (p_y p)) by lia.
      destruct (view_index s + i <? zlen (s_sb s)) eqn:E2.
      * replace (Z.max 0 (view_index s + i + 1 - zlen (s_sb s))) with 0 by lia. change (u32 (0 - 1)) with 4294967295. lia.
      * rewrite u32_small by lia. lia.
Qed.
Lemma end_x s p : Inv s -> sb_ptr (s_sb s) (s_sbid s) (p_line p) -> end_shown s p -> text_row s p < 0 \/ 0 <= p_x p < s_sx s.
Proof.
  intros H Hp He. pose proof (proj1 H) as H0. inv0 H0. unfold end_shown, text_row in *. destruct (p_line p); cbn [sb_ptr] in *; auto.
  destruct He as [[E _]|[E1 E2]]; [rewrite E; left; reflexivity|right; lia].
Qed.

Lemma draw_sel s : Inv s -> s_sela s = true -> end_shown s (s_sel1 s) -> end_shown s (s_sel2 s) ->
  exists ds, draw s = Ok (ds, set_rst s false, if s_rst s then 0 else s_cnt s) /\ zlen ds = s_sy s * s_sx s /\
    forall y x, on_screen s y x -> znth ds (y * s_sx s + x) = Some (expected s (selected s y x) y x).
Proof.
  intros H Hs E1 E2. pose proof (i_sel1 _ (proj1 H) Hs) as P1. pose proof (i_sel2 _ (proj1 H) Hs) as P2.
  pose proof (i_sx _ (proj1 H)) as Isx. pose proof (view_range s (proj1 H)) as [V _].
  set (B := fun r c => xorb (past s (s_sel1 s) r c) (past s (s_sel2 s) r c)).
  destruct (draw_shape (fun y x q => q = selected s y x) (fun i b => b = B (view_index s + i) 0) s H) as (ds & E & L & D).
  - rewrite Hs, (end_above s _ H P1 E1), (end_above s _ H P2 E2), Z.add_0_r. reflexivity.
  - intros i l b Hi El HR k r.
    destruct (draw_cols_ok (fun x q => q = selected s i x) (fun j b => b = B (view_index s + i) j) s l i k
       (s_sela s && sel_here (s_sel1 s) l k) (s_sela s && sel_here (s_sel2 s) l k) (s_sx s)) with (n := Z.to_nat (s_sx s)) (j := 0) (b := b)
      as (A & Bq & C); auto; try lia.
    { intros j q Hj ->. unfold col_sel. unfold k. rewrite (end_here s _ i l H P1 E1 Hi El), (end_here s _ i l H P2 E2 Hi El), Hs.
      cbn [andb]. unfold B, selected, between, upto, past. rewrite Hs. cbn [andb]. cbv zeta.
      set (r1 := text_row s (s_sel1 s)). set (r2 := text_row s (s_sel2 s)). set (x1 := p_x (s_sel1 s)). set (x2 := p_x (s_sel2 s)).
      set (d := view_index s + i). clearbody r1 r2 x1 x2 d. clear.
      assert (F : forall r x : Z, (r <? d = true /\ r =? d = false /\ d <? r = false /\ d =? r = false) \/
         (r <? d = false /\ r =? d = false /\ d <? r = true /\ d =? r = false) \/
         (r <? d = false /\ r =? d = true /\ d <? r = false /\ d =? r = true)) by (intros; lia).
      assert (G : forall x : Z, (x <? j = true /\ j =? x = false /\ x <=? j = true /\ j <=? x = false /\ x <? j + 1 = true) \/
         (x <? j = false /\ j =? x = true /\ x <=? j = true /\ j <=? x = true /\ x <? j + 1 = true) \/
         (x <? j = false /\ j =? x = false /\ x <=? j = false /\ j <=? x = true /\ x <? j + 1 = false)) by (intros; lia).
      destruct (F r1 0) as [(->&->&->&->)|[(->&->&->&->)|(->&->&->&->)]];
      destruct (F r2 0) as [(->&->&->&->)|[(->&->&->&->)|(->&->&->&->)]];
      destruct (G x1) as [(->&->&->&->&->)|[(->&->&->&->&->)|(->&->&->&->&->)]];
      destruct (G x2) as [(->&->&->&->&->)|[(->&->&->&->&->)|(->&->&->&->&->)]]; split; reflexivity. }
    fold r in A, Bq, C. split; [lia|]. split.
    + rewrite Bq. unfold B, past. destruct (end_x s _ H P1 E1), (end_x s _ H P2 E2); f_equal; 
      match goal with |- ?a = ?b => destruct a eqn:X; destruct b eqn:Y; lia end.
    + intros x Hx. destruct (C x ltac:(lia)) as (q & Hq & Eq). rewrite Z.add_0_l in Eq, Hq. eauto.
  - exists ds. split; [exact E|]. split; [exact L|]. intros y x Hyx. destruct (D y x Hyx) as (q & -> & Eq). exact Eq.
Qed.
