(* Every screen call ages the cells whose picture it changes. *)
From Verif Require Import Base BaseProofs Symbol Screen ScreenInv ScreenSb ScreenScroll ScreenSpec ScreenOps ScreenMove ScreenCtl ScreenResize ScreenSafe Render RenderSpec RenderProofs.

(* -- the selection as the renderer computes it ----------------------------------- *)
Definition shown_id (s : screen) (i : Z) : option Z :=
  match shown_line s i with Some l => l_sbid l | None => None end.
Definition here (s : screen) (p : selpos) (i : Z) : bool :=
  s_sela s && sel_here p (mkL [] 0 (shown_id s i)) (Z.max 0 (view_index s + i + 1 - zlen (s_sb s))).
Fixpoint col_state (s : screen) (ss se : bool) (n : nat) (b : bool) : bool :=
  match n with
  | O => b
  | S n' => fst (col_sel s ss se (Z.of_nat n') (col_state s ss se n' b))
  end.
Fixpoint row_state (s : screen) (n : nat) : bool :=
  match n with
  | O => s_sela s && xorb (sel_above (s_sbpos s) (s_sel1 s)) (sel_above (s_sbpos s) (s_sel2 s))
  | S n' => let i := Z.of_nat n' in
            col_state s (here s (s_sel1 s) i) (here s (s_sel2 s) i) (Z.to_nat (s_sx s)) (row_state s n')
  end.
Definition lit (s : screen) (i x : Z) : bool :=
  let ss := here s (s_sel1 s) i in let se := here s (s_sel2 s) i in
  snd (col_sel s ss se x (col_state s ss se (Z.to_nat x) (row_state s (Z.to_nat i)))).

Lemma draw_lit s : Inv s ->
  exists ds, draw s = Ok (ds, set_rst s false, if s_rst s then 0 else s_cnt s) /\ zlen ds = s_sy s * s_sx s /\
    forall y x, on_screen s y x -> znth ds (y * s_sx s + x) = Some (expected s (lit s y x) y x).
Proof.
  intros H. pose proof (i_sx _ (proj1 H)) as Isx.
  destruct (draw_shape (fun y x q => q = lit s y x) (fun i b => b = row_state s (Z.to_nat i)) s H) as (ds & E & L & D).
  - reflexivity.
  - intros i l b Hi El HR k r.
    assert (Eh : forall p, s_sela s && sel_here p l k = here s p i).
    { intros p. unfold here, shown_id. rewrite El. reflexivity. }
    destruct (draw_cols_ok (fun x q => q = lit s i x)
       (fun j b => b = col_state s (here s (s_sel1 s) i) (here s (s_sel2 s) i) (Z.to_nat j) (row_state s (Z.to_nat i))) s l i k
       (s_sela s && sel_here (s_sel1 s) l k) (s_sela s && sel_here (s_sel2 s) l k) (s_sx s)) with (n := Z.to_nat (s_sx s)) (j := 0) (b := b)
      as (A & B & C); auto; try lia.
    { intros j q Hj ->. rewrite !Eh. split; [reflexivity|]. replace (Z.to_nat (j + 1)) with (S (Z.to_nat j)) by lia.
      cbn [col_state]. replace (Z.of_nat (Z.to_nat j)) with j by lia. reflexivity. }
    fold r in A, B, C. split; [lia|]. split.
    + rewrite B. replace (Z.to_nat (i + 1)) with (S (Z.to_nat i)) by lia. cbn [row_state].
      replace (Z.of_nat (Z.to_nat i)) with i by lia. reflexivity.
    + intros x Hx. destruct (C x ltac:(lia)) as (q & Hq & Eq). rewrite Z.add_0_l in Eq, Hq. eauto.
  - exists ds. split; [exact E|]. split; [exact L|]. intros y x Hyx. destruct (D y x Hyx) as (q & -> & Eq). exact Eq.
Qed.

(* What the selection depends on. *)
Record same_sel (s s' : screen) : Prop := mkSameSel {
  sl_a : s_sela s' = s_sela s; sl_1 : s_sel1 s' = s_sel1 s; sl_2 : s_sel2 s' = s_sel2 s;
  sl_pos : s_sbpos s' = s_sbpos s; sl_sb : s_sb s' = s_sb s; sl_id : s_sbid s' = s_sbid s;
  sl_sx : s_sx s' = s_sx s; sl_sy : s_sy s' = s_sy s
}.
Lemma same_view s s' : same_sel s s' -> view_index s' = view_index s.
Proof. intros []. unfold view_index. now rewrite sl_pos0, sl_sb0, sl_id0. Qed.
Lemma shown_id_none s i : Inv0 s -> zlen (s_sb s) <= view_index s + i -> shown_id s i = None.
Proof.
  intros H Hi. unfold shown_id, shown_line. rewrite znth_app. replace (_ <? _) with false by lia.
  destruct (znth _ _) as [l|] eqn:E; [|reflexivity]. pose proof (inv_lines s H) as [_ W].
  destruct (Forall_get _ _ _ _ W E) as [_ ?]. assumption.
Qed.
Lemma shown_line_sb s i : view_index s + i < zlen (s_sb s) -> shown_line s i = znth (s_sb s) (view_index s + i).
Proof. intros H. unfold shown_line. rewrite znth_app. replace (_ <? _) with true by lia. reflexivity. Qed.
Lemma shown_line_scr s i : zlen (s_sb s) <= view_index s + i ->
  shown_line s i = znth (lines s) (view_index s + i - zlen (s_sb s)).
Proof. intros H. unfold shown_line. rewrite znth_app. replace (_ <? _) with false by lia. reflexivity. Qed.
Lemma same_id s s' i : Inv0 s -> Inv0 s' -> same_sel s s' -> shown_id s' i = shown_id s i.
Proof.
  intros H H' E. pose proof (same_view _ _ E) as V. destruct E.
  destruct (Z_lt_le_dec (view_index s + i) (zlen (s_sb s))).
  - unfold shown_id. rewrite !shown_line_sb by (rewrite ?V, ?sl_sb0; lia). now rewrite V, sl_sb0.
  - rewrite !shown_id_none; auto. rewrite V, sl_sb0. lia.
Qed.
Lemma same_lit s s' i x : Inv0 s -> Inv0 s' -> same_sel s s' -> lit s' i x = lit s i x.
Proof.
  intros H H' E. pose proof (same_view _ _ E) as V. pose proof (fun i => same_id s s' i H H' E) as I. destruct E as [Ea E1 E2 Ep Eb Ei Ex Ey].
  assert (Ec : forall ss se j b, col_sel s' ss se j b = col_sel s ss se j b).
  { intros. unfold col_sel. now rewrite Ea, E1, E2. }
  assert (Eh : forall p i, here s' p i = here s p i).
  { intros. unfold here. now rewrite Ea, I, V, Eb. }
  assert (Es : forall n ss se b, col_state s' ss se n b = col_state s ss se n b).
  { induction n; intros; cbn [col_state]; [reflexivity|]. now rewrite Ec, IHn. }
  assert (Er : forall n, row_state s' n = row_state s n).
  { induction n; cbn [row_state]; [now rewrite Ea, E1, E2, Ep|]. now rewrite Es, !Eh, IHn, E1, E2, Ex. }
  unfold lit. now rewrite Ec, Es, Er, !Eh, E1, E2.
Qed.

(* -- ageing ---------------------------------------------------------------------- *)
Definition drawn_at (s : screen) (y x : Z) : drawn := what (expected s (lit s y x) y x).
(* From s to s', every position keeps its picture and gets no older, or is newer
   than c; after an overflow everything is redrawn anyway. *)
Definition ages (c : Z) (s s' : screen) : Prop :=
  (0 <= s_age s -> 0 <= s_age s') /\
  (s_rst s' = true \/
  (s_rst s = false /\ s_cnt s <= s_cnt s' /\ s_sx s' = s_sx s /\ s_sy s' = s_sy s /\
   forall y x, on_screen s' y x ->
     (drawn_at s' y x = drawn_at s y x /\ shown_age s y x <= shown_age s' y x) \/ c < shown_age s' y x)).
(* The counter has moved on from c. *)
Definition later (c : Z) (s : screen) : Prop := s_rst s = true \/ c < s_cnt s.

Lemma ages_trans c a b d : ages c a b -> ages c b d -> ages c a d.
Proof.
  intros [G [R|(R & C & X & Y & P)]] [G' [R'|(R' & C' & X' & Y' & P')]]; (split; [auto|]); [left; auto|congruence|left; auto|].
  right. split; [exact R|]. split; [lia|]. split; [congruence|]. split; [congruence|]. intros y x Hyx.
  destruct (P' y x Hyx) as [[E A]|A]; [|auto].
  assert (Hb : on_screen b y x) by (unfold on_screen in *; rewrite X', Y' in Hyx; exact Hyx).
  destruct (P y x Hb) as [[E1 A1]|A1]; [left; split; [congruence|lia]|right; lia].
Qed.
Lemma ages_refl c s : ages c s s.
Proof.
  split; [auto|]. destruct (s_rst s) eqn:E; [left; reflexivity|right]. split; [reflexivity|]. split; [lia|]. split; [reflexivity|]. split; [reflexivity|].
  intros y x _. left. split; [reflexivity|lia].
Qed.

Lemma shown_some0 s i : Inv0 s -> 0 <= i < s_sy s -> exists l, shown_line s i = Some l.
Proof.
  intros H Hi. destruct (view_range s H) as [V _]. pose proof (inv_lines s H) as [L _].
  pose proof (i_ln _ H). unfold shown_line. apply znth_some. rewrite app_length. lia.
Qed.
(* Everything aged. *)
Lemma ages_all c s s' : Inv0 s' -> s_rst s' = s_rst s -> s_cnt s' = s_cnt s -> s_sx s' = s_sx s -> s_sy s' = s_sy s ->
  s_age s' = s_cnt s -> later c s -> ages c s s'.
Proof.
  intros H R C X Y A L. split; [intros _; pose proof (i_cnt _ H); lia|]. destruct (s_rst s) eqn:E; [left; exact R|].
  destruct L as [L|L]; [congruence|]. right. split; [reflexivity|]. split; [lia|]. split; [exact X|]. split; [exact Y|].
  intros y x [Hy Hx]. right. destruct (shown_some0 s' y H Hy) as [l El]. unfold shown_age. rewrite El. lia.
Qed.

(* Row r, column x of the screen itself. *)
Definition row_age (s : screen) (r x : Z) : Z :=
  match znth (lines s) r with
  | Some l => Z.max (match znth (l_cells l) x with Some c => c_age c | None => s_cnt s end) (Z.max (l_age l) (s_age s))
  | None => 0
  end.
Definition cursor_on (s : screen) (r x : Z) : bool := negb (fl s F_HIDE) && (r =? s_cy s) && (x =? cursor_col s).

Lemma ages_rows c s s' : Inv0 s -> Inv0 s' -> same_sel s s' -> s_rst s' = s_rst s -> s_cnt s <= s_cnt s' ->
  s_def s' = s_def s -> fl s' F_INVERSE = fl s F_INVERSE -> s_age s <= s_age s' ->
  (s_rst s = false -> forall r x, 0 <= r < s_sy s -> 0 <= x < s_sx s ->
     (at_ s' r x = at_ s r x /\ cursor_on s' r x = cursor_on s r x /\ row_age s r x <= row_age s' r x) \/ c < row_age s' r x) ->
  ages c s s'.
Proof.
  intros H H' E R C D F A P. pose proof (same_view _ _ E) as V. pose proof (view_range s H) as [VR _].
  split; [lia|]. destruct (s_rst s) eqn:Er; [left; exact R|]. specialize (P eq_refl).
  right. split; [reflexivity|]. split; [exact C|]. split; [apply E|]. split; [apply E|].
  intros y x [Hy Hx]. rewrite (sl_sy _ _ E) in Hy. rewrite (sl_sx _ _ E) in Hx.
  assert (El : lit s' y x = lit s y x) by now apply same_lit.
  assert (Esb : s_sb s' = s_sb s) by apply E.
  unfold drawn_at, expected. rewrite El, F.
  assert (Ww : forall g b1 b2 a1 a2, b1 = b2 -> what (dcall_of g b1 a1 y x) = what (dcall_of g b2 a2 y x)).
  { intros [[ch w] a] b1 b2 a1 a2 ->. reflexivity. }
  destruct (Z_lt_le_dec (view_index s + y) (zlen (s_sb s))) as [Hsb|Hscr].
  - left. unfold shown_cell, shown_age. rewrite !shown_line_sb by (rewrite ?V, ?Esb; lia). rewrite V, Esb.
    destruct (znth_some (s_sb s) (view_index s + y)) as [l Ez]; [lia|]. rewrite Ez. split.
    + rewrite D. apply Ww. f_equal. unfold cursor_at. rewrite V, Esb.
      destruct (fl s' F_HIDE), (fl s F_HIDE); cbn [negb andb]; pose proof (i_cy _ H); pose proof (i_cy _ H');
        repeat match goal with |- context [?a =? ?b] => destruct (Z.eqb_spec a b) end; try reflexivity; lia.
    + destruct (znth (l_cells l) x); lia.
  - set (r := view_index s + y - zlen (s_sb s)) in *.
    assert (Hr : 0 <= r < s_sy s) by (unfold r; lia).
    assert (Sl : shown_line s y = znth (lines s) r) by (apply shown_line_scr; lia).
    assert (Sl' : shown_line s' y = znth (lines s') r) by (rewrite shown_line_scr by (rewrite V, Esb; lia); now rewrite V, Esb).
    destruct (P r x Hr Hx) as [(P1 & P2 & P3)|P3].
    + left. unfold shown_cell, shown_age, row_age in *. rewrite Sl, Sl'. unfold at_, rows_at in P1. rewrite D.
      destruct (inv_row s r H) as (l & Ez & [W _]); [pose proof (i_ln _ H); lia|].
      destruct (inv_row s' r H') as (l' & Ez' & [W' _]); [pose proof (i_ln _ H'); pose proof (sl_sy _ _ E); lia|].
      rewrite Ez, Ez' in *. split.
      * rewrite P1. apply Ww. f_equal. unfold cursor_at, cursor_on in *. rewrite V, Esb.
        replace (view_index s + y =? zlen (s_sb s) + s_cy s') with (r =? s_cy s') by (unfold r; lia).
        replace (view_index s + y =? zlen (s_sb s) + s_cy s) with (r =? s_cy s) by (unfold r; lia). exact P2.
      * exact P3.
    + right. unfold shown_age, row_age in *. rewrite Sl'. exact P3.
Qed.

Lemma same_sel_env s s' : same_env s s' -> same_sel s s'.
Proof. intros []. constructor; assumption. Qed.

Lemma ages_inc c s : Inv0 s -> ages c s (inc_age s).
Proof.
  intros H. pose proof (Inv0_inc s H) as HI. rewrite inc_age_eq in *. unfold next_rst, next_cnt in *.
  pose proof (i_cnt _ H) as Hc.
  destruct (u64 (s_cnt s + 1) =? 0) eqn:E; [split; [auto|left; reflexivity]|].
  assert (E64 : u64 (s_cnt s + 1) = s_cnt s + 1) by (unfold u64 in *; lia).
  apply ages_rows; auto; try reflexivity; sredg; try lia.
  - constructor; reflexivity.
  - intros _ r x Hr Hx. left. split; [reflexivity|]. split; [reflexivity|]. unfold row_age.
    change (lines (set_cnt (set_rst s (s_rst s)) (u64 (s_cnt s + 1)))) with (lines s).
    sredg. destruct (znth (lines s) r) as [l|]; [|lia]. destruct (znth (l_cells l) x); lia.
Qed.
Lemma later_inc s : Inv0 s -> later (s_cnt s) (inc_age s).
Proof.
  intros H. pose proof (i_cnt _ H) as Hc. rewrite inc_age_eq. unfold later, next_rst, next_cnt. sredg.
  destruct (u64 (s_cnt s + 1) =? 0) eqn:E; [auto|right]. unfold u64 in *. lia.
Qed.
Lemma later_env c s s' : s_rst s' = s_rst s -> s_cnt s' = s_cnt s -> later c s -> later c s'.
Proof. intros R C. unfold later. now rewrite R, C. Qed.

(* Touching the cursor cell. *)
Lemma row_age_touched s r x : Inv0 s -> 0 <= r < s_ln s -> 0 <= x < s_sx s ->
  row_age (touched s) r x =
  if (r =? clamp_y s (s_cy s)) && (x =? clamp_x s (s_cx s))
  then match znth (lines s) r with Some l => Z.max (s_cnt s) (Z.max (l_age l) (s_age s)) | None => 0 end
  else row_age s r x.
Proof.
  intros H Hr Hx. destruct (inv_row s r H Hr) as (l & El & [W _]). unfold row_age, touched, touch.
  rewrite lines_set_lines. rewrite znth_zupd, El. destruct (r =? clamp_y s (s_cy s)) eqn:E; cbn [andb option_map]; [|reflexivity].
  unfold set_cells. cbn [l_cells l_age]. rewrite znth_zupd.
  destruct (znth_some (l_cells l) x) as [c Ec]; [lia|]. rewrite Ec.
  destruct (x =? clamp_x s (s_cx s)); reflexivity.
Qed.
Lemma cursor_on_clamp s r x : Inv0 s -> 0 <= r < s_sy s -> cursor_on s r x = true ->
  r = clamp_y s (s_cy s) /\ x = clamp_x s (s_cx s).
Proof.
  intros H Hr Hc. unfold cursor_on, cursor_col in Hc. rewrite (proj2 (clamp_y_ok s _ H (i_cy _ H))), (proj2 (clamp_x_ok s _ H (i_cx _ H))). lia.
Qed.
Lemma touched_ge c s r x : Inv0 s -> c < s_cnt s -> 0 <= r < s_ln s -> 0 <= x < s_sx s ->
  (r = clamp_y s (s_cy s) /\ x = clamp_x s (s_cx s)) -> c < row_age (touched s) r x.
Proof.
  intros H L Hr Hx [-> ->]. rewrite row_age_touched by auto. rewrite !Z.eqb_refl. cbn [andb].
  destruct (inv_row s _ H Hr) as (l & El & _). rewrite El. lia.
Qed.
Lemma touched_keep s r x : Inv0 s -> 0 <= r < s_ln s -> 0 <= x < s_sx s ->
  ~ (r = clamp_y s (s_cy s) /\ x = clamp_x s (s_cx s)) -> row_age (touched s) r x = row_age s r x.
Proof.
  intros H Hr Hx N. rewrite row_age_touched by auto. replace (_ && _) with false by lia. reflexivity.
Qed.
Lemma later_cnt c s : later c s -> s_rst s = false -> c < s_cnt s.
Proof. intros [L|L] R; [congruence|exact L]. Qed.
Lemma at_dec (a b c d : Z) : (a = b /\ c = d) \/ ~ (a = b /\ c = d).
Proof. lia. Qed.

Lemma ages_touched c s : Inv0 s -> later c s -> ages c s (touched s).
Proof.
  intros H L. pose proof (i_ln _ H). apply ages_rows; auto; try reflexivity; try (sredg; lia).
  - now apply Inv0_touched.
  - apply same_sel_env, env_touched.
  - intros R r x Hr Hx. destruct (at_dec r (clamp_y s (s_cy s)) x (clamp_x s (s_cx s))) as [P|P].
    + right. apply touched_ge; auto; [now apply later_cnt|lia].
    + left. split; [apply at_touched|]. split; [reflexivity|]. rewrite touched_keep; auto; lia.
Qed.
Lemma ages_moved c s x y : Inv0 s -> 0 <= x -> 0 <= y -> later c s -> ages c s (moved s x y).
Proof.
  intros H Hx Hy L. pose proof (i_ln _ H) as Hln. pose proof (env_moved s x y) as EM. pose proof (Inv0_moved s x y H Hx Hy) as HM.
  assert (Hage : s_age (moved s x y) = s_age s).
  { unfold moved. destruct (fl s F_HIDE); [reflexivity|]. destruct (_ && _); reflexivity. }
  apply ages_rows; auto; try apply EM; try (rewrite Hage; lia).
  - now apply same_sel_env.
  - rewrite (e_cnt _ _ EM). lia.
  - now apply fl_env.
  - intros R r z Hr Hz. pose proof (later_cnt _ _ L R) as Lc. rewrite at_moved.
    unfold moved. destruct (fl s F_HIDE) eqn:Eh.
    + left. split; [reflexivity|]. split; [|unfold row_age; change (lines (set_cy (set_cx s x) y)) with (lines s); sredg; lia].
      unfold cursor_on. change (fl (set_cy (set_cx s x) y) F_HIDE) with (fl s F_HIDE). rewrite Eh. reflexivity.
    + destruct ((s_cx s =? x) && (s_cy s =? y)); [left; split; [reflexivity|]; split; [reflexivity|lia]|].
      set (u := set_cy (set_cx (touched s) x) y).
      assert (Hu : Inv0 u) by (apply Inv0_cursor; auto; now apply Inv0_touched).
      assert (Eu : row_age u r z = row_age (touched s) r z) by reflexivity.
      assert (Hlu : 0 <= r < s_ln u) by (change (s_ln u) with (s_ln s); lia).
      destruct (at_dec r (clamp_y u (s_cy u)) z (clamp_x u (s_cx u))) as [P|P].
      { right. apply touched_ge; auto. }
      rewrite (touched_keep u r z Hu Hlu Hz P), Eu.
      destruct (at_dec r (clamp_y s (s_cy s)) z (clamp_x s (s_cx s))) as [Q|Q].
      { right. apply touched_ge; auto; lia. }
      rewrite (touched_keep s r z H ltac:(lia) Hz Q). left. split; [reflexivity|]. split; [|lia].
      change (cursor_on (touched u) r z) with (cursor_on u r z).
      destruct (cursor_on u r z) eqn:Cu; [exfalso; apply P, (cursor_on_clamp u r z Hu Hr Cu)|].
      destruct (cursor_on s r z) eqn:Cs; [exfalso; apply Q, (cursor_on_clamp s r z H Hr Cs)|reflexivity].
Qed.
Lemma ages_written c s x y ch len a : Inv0 s -> 0 <= x < s_sx s -> 1 <= len -> later c s ->
  ages c s (written s x y ch len a).
Proof.
  intros H Hx Hl L. pose proof (i_ln _ H) as Hln.
  apply ages_rows; auto; try reflexivity; try (sredg; lia).
  - now apply Inv0_written.
  - apply same_sel_env, env_set_lines.
  - intros R r z Hr Hz. pose proof (later_cnt _ _ L R) as Lc.
    destruct (inv_row s r H ltac:(lia)) as (l & El & [W _]).
    destruct (znth_some (l_cells l) z) as [cc Ec]; [lia|].
    unfold written, at_, rows_at, row_age. rewrite lines_set_lines, znth_zupd, El.
    destruct (r =? y); [|left; repeat match goal with |- _ /\ _ => split end; try reflexivity; lia].
    cbn [option_map wr_line l_cells l_age]. unfold row_at, wr_line, wr_cells. cbn [l_cells].
    destruct (wr_shift s x len).
    { right. lia. }
    rewrite !znth_mapi, Ec. cbn [option_map].
    destruct (z =? x); [right; cbn [put_cell c_age]; lia|].
    destruct (_ && _); [right; cbn [cont_cell c_age]; lia|].
    left. split; [reflexivity|]. split; [reflexivity|]. sredg. lia.
Qed.

(* Nothing visible changes. *)
Lemma ages_quiet c s s' : Inv0 s -> Inv0 s' -> same_sel s s' -> s_rst s' = s_rst s -> s_cnt s' = s_cnt s ->
  s_def s' = s_def s -> fl s' F_INVERSE = fl s F_INVERSE -> fl s' F_HIDE = fl s F_HIDE -> s_age s' = s_age s ->
  lines s' = lines s -> s_cx s' = s_cx s -> s_cy s' = s_cy s -> ages c s s'.
Proof.
  intros H H' E R C D F Fh A L X Y. apply ages_rows; auto; try lia.
  intros _ r x Hr Hx. left. split; [now apply at_lines|]. split.
  - unfold cursor_on, cursor_col. now rewrite Fh, X, Y, (sl_sx _ _ E).
  - unfold row_age. rewrite L, C, A. lia.
Qed.
Lemma ages_def c s a : Inv0 s -> s_sbpos s = None \/ Forall (fun l => s_sx s <= zlen (l_cells l)) (s_sb s) ->
  ages c s (set_def s a).
Proof.
  intros H Hw. pose proof (view_range s H) as [V _].
  split; [auto|]. destruct (s_rst s) eqn:R; [left; exact R|right]. split; [reflexivity|]. split; [sredg; lia|]. split; [reflexivity|]. split; [reflexivity|].
  intros y x [Hy Hx]. left. split; [|unfold shown_age; reflexivity || (sredg; lia)].
  unfold drawn_at.
  assert (H' : Inv0 (set_def s a)) by (pose proof H as H0; inv0 H0; constructor; sredg; auto).
  rewrite (same_lit s (set_def s a) y x H H') by (constructor; reflexivity).
  unfold expected. replace (shown_cell (set_def s a) y x) with (shown_cell s y x); [reflexivity|].
  unfold shown_cell. change (shown_line (set_def s a) y) with (shown_line s y).
  destruct (shown_some0 s y H Hy) as [l El]. rewrite El.
  assert (Hl : s_sx s <= zlen (l_cells l)).
  { destruct (Z_lt_le_dec (view_index s + y) (zlen (s_sb s))).
    - destruct Hw as [Hw|Hw]; [unfold view_index in *; rewrite Hw in *; lia|].
      rewrite shown_line_sb in El by lia. exact (Forall_get _ _ _ _ Hw El).
    - rewrite shown_line_scr in El by lia. pose proof (inv_lines s H) as [_ W]. apply (Forall_get _ _ _ _ W El). }
  unfold row_at. destruct (znth_some (l_cells l) x) as [cc Ec]; [sred; lia|]. rewrite Ec. reflexivity.
Qed.

(* -- the calls ------------------------------------------------------------------- *)
Lemma later_aged s : Inv0 s -> later (s_cnt s) (aged s).
Proof. intros H. exact (later_inc s H). Qed.
Lemma ages_inc_then s s' : Inv0 s -> (later (s_cnt s) (inc_age s) -> ages (s_cnt s) (inc_age s) s') -> ages (s_cnt s) s s'.
Proof. intros H P. eapply ages_trans; [now apply ages_inc|]. apply P. now apply later_inc. Qed.
(* A call that ages the whole screen. *)
Lemma ages_call s s' : Inv0 s -> Inv0 s' -> s_rst s' = s_rst (inc_age s) -> s_cnt s' = s_cnt (inc_age s) ->
  s_sx s' = s_sx s -> s_sy s' = s_sy s -> s_age s' = s_cnt (inc_age s) -> ages (s_cnt s) s s'.
Proof.
  intros H H' R C X Y A. apply ages_inc_then; auto. intros L. apply ages_all; auto.
  - now rewrite inc_sx.
  - now rewrite inc_sy.
Qed.
Lemma ages_move_call s x y : Inv0 s -> 0 <= x -> 0 <= y -> ages (s_cnt s) s (moved (inc_age s) x y).
Proof. intros H Hx Hy. apply ages_inc_then; auto. intros L. apply ages_moved; auto. now apply Inv0_inc. Qed.
Lemma moved_age s x y : s_age (moved s x y) = s_age s.
Proof. unfold moved. destruct (fl s F_HIDE); [reflexivity|]. destruct (_ && _); reflexivity. Qed.
Lemma ages_scrolled_move s s1 x y n : Inv0 s -> 0 <= x -> 0 <= y ->
  scrolled_up (inc_age s) s1 n \/ scrolled_down (inc_age s) s1 n -> ages (s_cnt s) s (moved s1 x y).
Proof.
  intros H Hx Hy P.
  assert (F : Inv0 s1 /\ env2 (inc_age s) s1 /\ s_age s1 = s_cnt (inc_age s)).
  { destruct P as [P|P]; split; try apply P; split; apply P. }
  destruct F as (I1 & V & A). pose proof (env_moved s1 x y) as EM.
  apply ages_call; auto.
  - now apply Inv0_moved.
  - now rewrite (e_rst _ _ EM), (f_rst _ _ V).
  - now rewrite (e_cnt _ _ EM), (f_cnt _ _ V).
  - now rewrite (e_sx _ _ EM), (f_sx _ _ V), inc_sx.
  - now rewrite (e_sy _ _ EM), (f_sy _ _ V), inc_sy.
  - now rewrite moved_age.
Qed.
Lemma ages_scrolled s s1 n : Inv0 s ->
  scrolled_up (inc_age s) s1 n \/ scrolled_down (inc_age s) s1 n -> ages (s_cnt s) s s1.
Proof.
  intros H P.
  assert (F : Inv0 s1 /\ env2 (inc_age s) s1 /\ s_age s1 = s_cnt (inc_age s)).
  { destruct P as [P|P]; split; try apply P; split; apply P. }
  destruct F as (I1 & V & A). apply ages_call; auto.
  - now rewrite (f_rst _ _ V).
  - now rewrite (f_cnt _ _ V).
  - now rewrite (f_sx _ _ V), inc_sx.
  - now rewrite (f_sy _ _ V), inc_sy.
Qed.

Lemma ages_flags s v (e l h i : bool) : Inv s ->
  let s1 := inc_age s in
  bit v F_ALT = (if e then true else if l then false else fl s1 F_ALT) ->
  bit v F_HIDE = xorb h (fl s1 F_HIDE) -> bit v F_INVERSE = xorb i (fl s1 F_INVERSE) ->
  ages (s_cnt s) s (fl_end (fl_alt (set_flags s1 v) e l) h i).
Proof.
  intros H s1 Ha Hh Hi. pose proof (proj1 H) as H0. pose proof (Inv0_inc s H0) as HI.
  pose proof (Inv_fl_end s1 v e l h i (Inv_inc s H) Ha) as (I' & _).
  destruct (e || l || i) eqn:Eall.
  - apply ages_call; auto.
    + unfold fl_end, fl_alt. destruct e, l, h, i; reflexivity.
    + unfold fl_end, fl_alt. destruct e, l, h, i; reflexivity.
    + rewrite <- (inc_sx s). unfold fl_end, fl_alt. destruct e, l, h, i; reflexivity.
    + rewrite <- (inc_sy s). unfold fl_end, fl_alt. destruct e, l, h, i; reflexivity.
    + unfold fl_end, fl_alt. destruct e, l, h, i; try discriminate; reflexivity.
  - destruct e, l, i; try discriminate. cbn [fl_alt fl_end] in *. apply ages_inc_then; auto. intros L. fold s1 in L |- *.
    rewrite xorb_false_l in Hi. destruct h.
    + unfold fl_end, fl_alt in *. set (t := set_flags s1 v) in *.
      assert (Ht : Inv0 t) by exact (Inv0_fl_alt s1 v false false HI Ha). pose proof (i_ln _ HI) as Hln. fold s1 in Hln.
      apply ages_rows; auto; try reflexivity; try (sredg; lia).
      * destruct (same_sel_env t _ (env_touched t)) as [T1 T2 T3 T4 T5 T6 T7 T8]. constructor; assumption.
      * intros R r x Hr Hx. assert (Lc : s_cnt s < s_cnt t) by exact (later_cnt _ _ L R).
        assert (Hlt : 0 <= r < s_ln t) by (change (s_ln t) with (s_ln s1); lia).
        destruct (at_dec r (clamp_y t (s_cy t)) x (clamp_x t (s_cx t))) as [P|P].
        { right. apply touched_ge; auto. }
        rewrite (touched_keep t r x Ht Hlt Hx P). left. split; [exact (at_touched t r x)|]. split; [|change (row_age t r x) with (row_age s1 r x); lia].
        assert (N : forall u, s_cx u = s_cx t -> s_cy u = s_cy t -> s_sx u = s_sx t -> s_sy u = s_sy t -> Inv0 u -> cursor_on u r x = false).
        { intros u E1 E2 E3 E4 Hu. destruct (cursor_on u r x) eqn:Cu; [|reflexivity]. exfalso. apply P.
          assert (Hru : 0 <= r < s_sy u) by (rewrite E4; exact Hr).
          destruct (cursor_on_clamp u r x Hu Hru Cu) as [A B]. unfold clamp_y, clamp_x in *. now rewrite E1, E2, E3, E4 in *. }
        rewrite (N (touched t)), (N s1); auto; try reflexivity.
    + unfold fl_end, fl_alt in *. rewrite xorb_false_l in Hh. apply ages_quiet; auto; try reflexivity.
      constructor; reflexivity.
Qed.

Lemma ages_set_flags s f : Inv s -> ages (s_cnt s) s (flags_set s f).
Proof.
  intros H. unfold flags_set. apply ages_flags; auto; rewrite fl_inc; unfold bit, fl, bit; rewrite Z.lor_spec;
    destruct (Z.testbit (s_flags s) _), (Z.testbit f _); reflexivity.
Qed.
Lemma ages_reset_flags s f : Inv s -> ages (s_cnt s) s (flags_reset s f).
Proof.
  intros H. unfold flags_reset. apply ages_flags; auto; rewrite fl_inc; unfold bit, fl, bit; rewrite Z.ldiff_spec;
    destruct (Z.testbit (s_flags s) _), (Z.testbit f _); reflexivity.
Qed.

Lemma ages_wrote s s' ch len a : Inv s -> 1 <= len -> wrote (inc_age s) s' ch len a -> ages (s_cnt s) s s'.
Proof.
  intros H Hl [(s2 & P & I2 & X2 & Y2 & ->)]. pose proof (Inv0_inc s (proj1 H)) as HI.
  apply ages_inc_then; [apply H|]. intros L. set (i := inc_age s) in *.
  pose proof (Inv0_wr_s1 i HI) as H1. pose proof (env_wr_s1 i) as E1. pose proof HI as HI0. inv0 HI0.
  assert (A1 : ages (s_cnt s) i (wr_s1 i)).
  { unfold wr_s1. destruct (s_sx i <=? s_cx i); [|apply ages_refl]. destruct (fl i F_WRAP); apply ages_moved; auto; lia. }
  assert (L1 : later (s_cnt s) (wr_s1 i)) by (apply (later_env _ i); [apply E1|apply E1|exact L]).
  assert (A2 : ages (s_cnt s) (wr_s1 i) s2 /\ later (s_cnt s) s2).
  { destruct (wr_last i <? s_cy (wr_s1 i)) eqn:Ew; [|subst s2; split; [apply ages_refl|exact L1]].
    assert (Hwl : 0 <= wr_last i) by (unfold wr_last; destruct (_ <=? _); lia).
    assert (Hcx : 0 <= s_cx (wr_s1 i)) by apply (i_cx _ H1).
    set (m := moved (wr_s1 i) (s_cx (wr_s1 i)) (wr_last i)) in *.
    pose proof (env_moved (wr_s1 i) (s_cx (wr_s1 i)) (wr_last i)) as EM. fold m in EM.
    assert (Lm : later (s_cnt s) m) by (apply (later_env _ (wr_s1 i)); [apply EM|apply EM|exact L1]).
    pose proof (su_env _ _ _ P) as V. split.
    - eapply ages_trans; [apply (ages_moved _ _ (s_cx (wr_s1 i)) (wr_last i)); auto|]. fold m.
      apply ages_all; auto; try apply V. apply P.
    - apply (later_env _ m); [apply V|apply V|exact Lm]. }
  destruct A2 as [A2 L2].
  eapply ages_trans; [exact A1|]. eapply ages_trans; [exact A2|].
  eapply ages_trans; [apply (ages_written _ s2 (s_cx s2) (s_cy s2) ch len a); auto|].
  apply ages_moved; [now apply Inv0_written|lia|lia|exact L2].
Qed.

Lemma ages_move_down s n b s' : Inv s -> 0 <= n -> scr_move_down s n b = Ok s' -> ages (s_cnt s) s s'.
Proof.
  intros H Hn E. destruct (Z.eq_dec n 0) as [->|Hne].
  { change (Ok s = Ok s') in E. replace s' with s by congruence. apply ages_refl. }
  pose proof (move_down_ok s n b H ltac:(lia)) as M. cbv zeta in M. pose proof (proj1 H) as H0. pose proof H0 as H1. inv0 H1.
  assert (Hb : 0 <= bot_stop s) by (unfold bot_stop; destruct (_ <=? _); lia).
  destruct (_ <? _) eqn:Eb; [destruct b|].
  - destruct M as (s1 & P & E1 & _). replace s' with (moved s1 (s_cx s) (bot_stop s)) by congruence.
    eapply ages_scrolled_move; eauto.
  - destruct M as (E1 & _). replace s' with (moved (inc_age s) (s_cx s) (bot_stop s)) by congruence. now apply ages_move_call.
  - destruct M as (E1 & _). replace s' with (moved (inc_age s) (s_cx s) (s_cy s + n)) by congruence. apply ages_move_call; auto; lia.
Qed.
Lemma ages_move_up s n b s' : Inv s -> 0 <= n -> scr_move_up s n b = Ok s' -> ages (s_cnt s) s s'.
Proof.
  intros H Hn E. destruct (Z.eq_dec n 0) as [->|Hne].
  { change (Ok s = Ok s') in E. replace s' with s by congruence. apply ages_refl. }
  pose proof (move_up_ok s n b H ltac:(lia)) as M. cbv zeta in M. pose proof (proj1 H) as H0. pose proof H0 as H1. inv0 H1.
  assert (Hb : 0 <= top_stop s) by (unfold top_stop; destruct (_ <=? _); lia).
  destruct (_ <? _) eqn:Eb; [destruct b|].
  - destruct M as (s1 & P & E1 & _). replace s' with (moved s1 (s_cx s) (top_stop s)) by congruence.
    eapply ages_scrolled_move; eauto.
  - destruct M as (E1 & _). replace s' with (moved (inc_age s) (s_cx s) (top_stop s)) by congruence. now apply ages_move_call.
  - destruct M as (E1 & _). replace s' with (moved (inc_age s) (s_cx s) (s_cy s - n)) by congruence.
    unfold top_stop in Eb. apply ages_move_call; auto. destruct (_ <=? s_cy s) eqn:E2; lia.
Qed.

(* Calls made after the first counter step; the counter never goes back without the reset mark. *)
Lemma ages_weak c c' s s' : c' <= c -> ages c s s' -> ages c' s s'.
Proof.
  intros Hc [G [R|(R & C & X & Y & P)]]; (split; [exact G|]); [left; exact R|right]. split; [exact R|]. split; [exact C|]. split; [exact X|]. split; [exact Y|].
  intros y x Hyx. destruct (P y x Hyx) as [A|A]; [auto|right; lia].
Qed.
Lemma ages_after s s1 s' : ages (s_cnt s) s s1 -> ages (s_cnt s1) s1 s' -> (s_rst s1 = true -> s_rst s' = true) -> ages (s_cnt s) s s'.
Proof.
  intros A B K. destruct A as [G [R|A]]; [split; [intros ?; apply B; auto|left; auto]|].
  eapply ages_trans; [split; [exact G|right; exact A]|]. eapply ages_weak; [|exact B]. lia.
Qed.
Lemma inc_rst s : s_rst s = true -> s_rst (inc_age s) = true.
Proof. intros R. rewrite inc_age_eq. unfold next_rst. sredg. rewrite R. now destruct (_ =? 0). Qed.

Lemma ages_viewed s v pn : Inv s -> Inv (viewed (aged s) v pn) -> ages (s_cnt s) s (viewed (aged s) v pn).
Proof.
  intros H I. apply ages_call; try reflexivity; [apply H|apply I| |].
  - exact (inc_sx s).
  - exact (inc_sy s).
Qed.
Lemma rst_viewed s v pn : s_rst s = true -> s_rst (viewed (aged s) v pn) = true.
Proof. exact (inc_rst s). Qed.

Ltac nothing n := destruct (Z.eq_dec n 0) as [->|?];
  [match goal with E : _ = Ok ?s' |- ages _ ?s _ => replace s' with s by (change (Ok s = Ok s') in E; congruence); apply ages_refl end|].

(* One lemma per call. *)
Ltac call_start :=
  intros H Ha Hg D E; pose proof (proj1 H) as H0; pose proof H0 as H1; inv0 H1;
  cbn [step op_args op_hazard act_aged] in *; unfold u32_arg in *.
Lemma ages_OResize s (x y : Z) s' : Inv s -> op_args (OResize x y) -> act_aged s (ACall (OResize x y)) -> ~ op_hazard s (OResize x y) ->
  step s (OResize x y) = Ok s' -> ages (s_cnt s) s s'.
Proof.
  call_start.
  contradiction.
Qed.
Lemma ages_OSetMargins s (t b : Z) s' : Inv s -> op_args (OSetMargins t b) -> act_aged s (ACall (OSetMargins t b)) -> ~ op_hazard s (OSetMargins t b) ->
  step s (OSetMargins t b) = Ok s' -> ages (s_cnt s) s s'.
Proof.
  call_start.
  destruct Ha. destruct (set_margins_ok s t b H) as [E1 I]; auto. replace s' with (scr_set_margins s t b) by congruence.
  destruct I as [I _]. rewrite E1 in *. apply ages_quiet; auto; try (destruct (_ && _); reflexivity).
  destruct (_ && _); constructor; reflexivity.
Qed.
Lemma ages_OSetMaxSb s (n : Z) s' : Inv s -> op_args (OSetMaxSb n) -> act_aged s (ACall (OSetMaxSb n)) -> ~ op_hazard s (OSetMaxSb n) ->
  step s (OSetMaxSb n) = Ok s' -> ages (s_cnt s) s s'.
Proof.
  call_start.
  destruct (set_max_sb_ok s n H Ha) as (s1 & P & E1 & I). replace s' with (set_sbmax s1 n) by congruence.
  pose proof (tr_env _ _ _ P) as V. apply ages_call; try apply H; try apply I.
  - exact (f_rst _ _ V).
  - exact (f_cnt _ _ V).
  - rewrite <- (inc_sx s). exact (f_sx _ _ V).
  - rewrite <- (inc_sy s). exact (f_sy _ _ V).
  - exact (tr_age _ _ _ P).
Qed.
Lemma ages_OClearSb s s' : Inv s -> op_args OClearSb -> act_aged s (ACall OClearSb) -> ~ op_hazard s OClearSb ->
  step s OClearSb = Ok s' -> ages (s_cnt s) s s'.
Proof.
  call_start.
  replace s' with (scr_clear_sb s) by congruence. pose proof (clear_sb_ok s H) as [I _].
  apply ages_call; auto; try rewrite <- (inc_sx s); try rewrite <- (inc_sy s);
    unfold scr_clear_sb, sel_map; match goal with |- context [if ?b then _ else _] => destruct b end; reflexivity.
Qed.
Lemma ages_OSbUp s (n : Z) s' : Inv s -> op_args (OSbUp n) -> act_aged s (ACall (OSbUp n)) -> ~ op_hazard s (OSbUp n) ->
  step s (OSbUp n) = Ok s' -> ages (s_cnt s) s s'.
Proof.
  call_start.
  nothing n. destruct (sb_up_ok s n H ltac:(lia)) as (pn & E1 & I). rewrite E1 in E.
  match type of E with Ok ?t = _ => replace s' with t by congruence end. now apply ages_viewed.
Qed.
Lemma ages_OSbDown s (n : Z) s' : Inv s -> op_args (OSbDown n) -> act_aged s (ACall (OSbDown n)) -> ~ op_hazard s (OSbDown n) ->
  step s (OSbDown n) = Ok s' -> ages (s_cnt s) s s'.
Proof.
  call_start.
  nothing n. destruct (sb_down_ok s n H ltac:(lia)) as (pn & E1 & I). rewrite E1 in E.
  match type of E with Ok ?t = _ => replace s' with t by congruence end. now apply ages_viewed.
Qed.
Lemma ages_OSbPageUp s (n : Z) s' : Inv s -> op_args (OSbPageUp n) -> act_aged s (ACall (OSbPageUp n)) -> ~ op_hazard s (OSbPageUp n) ->
  step s (OSbPageUp n) = Ok s' -> ages (s_cnt s) s s'.
Proof.
  call_start.
  unfold scr_sb_page_up in E. nothing n. replace (n =? 0) with false in E by lia. cbv zeta in E.
  pose proof (u32_range (n * s_sy (inc_age s))) as R. pose proof (Inv_inc s H) as HI.
  set (m := u32 (n * s_sy (inc_age s))) in *. clearbody m.
  destruct (Z.eq_dec m 0) as [->|Hm]; [replace s' with (inc_age s) by (change (Ok (inc_age s) = Ok s') in E; congruence); now apply ages_inc|].
  destruct (sb_up_ok (inc_age s) m HI ltac:(lia)) as (pn & E1 & I). rewrite E1 in E.
  match type of E with Ok ?t = _ => replace s' with t by congruence end.
  eapply ages_after; [now apply ages_inc|now apply ages_viewed|apply rst_viewed].
Qed.
Lemma ages_OSbPageDown s (n : Z) s' : Inv s -> op_args (OSbPageDown n) -> act_aged s (ACall (OSbPageDown n)) -> ~ op_hazard s (OSbPageDown n) ->
  step s (OSbPageDown n) = Ok s' -> ages (s_cnt s) s s'.
Proof.
  call_start.
  unfold scr_sb_page_down in E. nothing n. replace (n =? 0) with false in E by lia. cbv zeta in E.
  pose proof (u32_range (n * s_sy (inc_age s))) as R. pose proof (Inv_inc s H) as HI.
  set (m := u32 (n * s_sy (inc_age s))) in *. clearbody m.
  destruct (Z.eq_dec m 0) as [->|Hm]; [replace s' with (inc_age s) by (change (Ok (inc_age s) = Ok s') in E; congruence); now apply ages_inc|].
  destruct (sb_down_ok (inc_age s) m HI ltac:(lia)) as (pn & E1 & I). rewrite E1 in E.
  match type of E with Ok ?t = _ => replace s' with t by congruence end.
  eapply ages_after; [now apply ages_inc|now apply ages_viewed|apply rst_viewed].
Qed.
Lemma ages_OSbReset s s' : Inv s -> op_args OSbReset -> act_aged s (ACall OSbReset) -> ~ op_hazard s OSbReset ->
  step s OSbReset = Ok s' -> ages (s_cnt s) s s'.
Proof.
  call_start.
  replace s' with (scr_sb_reset s) by congruence. destruct (sb_reset_ok s H) as (I & _ & N & V).
  destruct (s_sbpos s) eqn:Ep; [|rewrite (N eq_refl); apply ages_refl].
  assert (V' : scr_sb_reset s = viewed (aged s) (zlen (s_sb s)) 0) by (apply V; discriminate).
  rewrite V' in *. now apply ages_viewed.
Qed.
Lemma ages_OSetDefAttr s (a : attr) s' : Inv s -> op_args (OSetDefAttr a) -> act_aged s (ACall (OSetDefAttr a)) -> ~ op_hazard s (OSetDefAttr a) ->
  step s (OSetDefAttr a) = Ok s' -> ages (s_cnt s) s s'.
Proof.
  call_start.
  replace s' with (set_def s a) by (change (Ok (set_def s a) = Ok s') in E; congruence). now apply ages_def.
Qed.
Lemma reset_fields s mt mb tabs : let s' := set_tabs (set_act (set_mb (set_mt (set_flags s 0) mt) mb) false) tabs in
  s_rst s' = s_rst s /\ s_cnt s' = s_cnt s /\ s_sx s' = s_sx s /\ s_sy s' = s_sy s /\ s_age s' = s_age s.
Proof. destruct s; cbv zeta; cbn. auto 10. Qed.
Lemma ages_reset_to s : Inv s -> Inv (reset_to s) -> ages (s_cnt s) s (reset_to s).
Proof.
  intros H I. destruct (reset_fields (aged s) 0 (s_sy s - 1) (tabs_upto (s_sx s) (fun i => i mod 8 =? 0) (s_tabs s)))
    as (R & C & X & Y & A). fold (reset_to s) in R, C, X, Y, A. revert R C X Y A I. generalize (reset_to s). intros t R C X Y A I.
  apply ages_call; [apply H|apply I|exact R|exact C| | |exact A].
  - rewrite X. exact (inc_sx s).
  - rewrite Y. exact (inc_sy s).
Qed.
Lemma step_reset s : step s OReset = scr_reset s.
Proof. reflexivity. Qed.
Lemma ages_OReset s s' : Inv s -> op_args OReset -> act_aged s (ACall OReset) -> ~ op_hazard s OReset ->
  step s OReset = Ok s' -> ages (s_cnt s) s s'.
Proof.
  intros H Ha Hg D E. destruct (reset_ok s H) as [E1 I]. rewrite step_reset, E1 in E.
  replace s' with (reset_to s) by congruence. now apply ages_reset_to.
Qed.
Lemma ages_OSetFlags s (f : Z) s' : Inv s -> op_args (OSetFlags f) -> act_aged s (ACall (OSetFlags f)) -> ~ op_hazard s (OSetFlags f) ->
  step s (OSetFlags f) = Ok s' -> ages (s_cnt s) s s'.
Proof.
  call_start.
  nothing f. destruct (set_flags_ok s f H ltac:(lia)) as [E1 _]. replace s' with (flags_set s f) by congruence. now apply ages_set_flags.
Qed.
Lemma ages_OResetFlags s (f : Z) s' : Inv s -> op_args (OResetFlags f) -> act_aged s (ACall (OResetFlags f)) -> ~ op_hazard s (OResetFlags f) ->
  step s (OResetFlags f) = Ok s' -> ages (s_cnt s) s s'.
Proof.
  call_start.
  nothing f. destruct (reset_flags_ok s f H ltac:(lia)) as [E1 _]. replace s' with (flags_reset s f) by congruence. now apply ages_reset_flags.
Qed.
Lemma ages_OSetTabstop s s' : Inv s -> op_args OSetTabstop -> act_aged s (ACall OSetTabstop) -> ~ op_hazard s OSetTabstop ->
  step s OSetTabstop = Ok s' -> ages (s_cnt s) s s'.
Proof.
  call_start.
  destruct (tabstop_ok true s H) as [E1 I]. rewrite E1 in E. destruct (_ <? _); [|replace s' with s by congruence; apply ages_refl].
  match type of E with Ok ?t = _ => replace s' with t by congruence end. apply ages_quiet; auto; try apply I; try reflexivity. constructor; reflexivity.
Qed.
Lemma ages_OResetTabstop s s' : Inv s -> op_args OResetTabstop -> act_aged s (ACall OResetTabstop) -> ~ op_hazard s OResetTabstop ->
  step s OResetTabstop = Ok s' -> ages (s_cnt s) s s'.
Proof.
  call_start.
  destruct (tabstop_ok false s H) as [E1 I]. rewrite E1 in E. destruct (_ <? _); [|replace s' with s by congruence; apply ages_refl].
  match type of E with Ok ?t = _ => replace s' with t by congruence end. apply ages_quiet; auto; try apply I; try reflexivity. constructor; reflexivity.
Qed.
Lemma ages_OResetAllTabstops s s' : Inv s -> op_args OResetAllTabstops -> act_aged s (ACall OResetAllTabstops) -> ~ op_hazard s OResetAllTabstops ->
  step s OResetAllTabstops = Ok s' -> ages (s_cnt s) s s'.
Proof.
  call_start.
  destruct (reset_all_tabstops_ok s H) as [E1 I]. rewrite E1 in E.
  match type of E with Ok ?t = _ => replace s' with t by congruence end. apply ages_quiet; auto; try apply I; try reflexivity. constructor; reflexivity.
Qed.
Lemma ages_OWrite s (ch : Z) (a : attr) s' : Inv s -> op_args (OWrite ch a) -> act_aged s (ACall (OWrite ch a)) -> ~ op_hazard s (OWrite ch a) ->
  step s (OWrite ch a) = Ok s' -> ages (s_cnt s) s s'.
Proof.
  call_start.
  destruct (scr_width_ok ch) as (w & Ew & Hw). destruct (Z.eq_dec w 0) as [->|Hne].
  { unfold scr_write in E. rewrite Ew in E. replace s' with s by (change (Ok s = Ok s') in E; congruence). apply ages_refl. }
  assert (Hf : write_fits s w).
  { intros Hi. destruct (Z_le_gt_dec w (s_sx s)); [auto|]. exfalso. apply D.
    assert (w = 2) by lia. subst w. split; [exact Hi|]. split; [lia|exact Ew]. }
  destruct (scr_write_ok s ch a w H Ew ltac:(lia) Hf) as (s2 & E1 & P & _). replace s' with s2 by congruence.
  eapply ages_wrote; [exact H| |exact P]. lia.
Qed.
Lemma ages_ONewline s s' : Inv s -> op_args ONewline -> act_aged s (ACall ONewline) -> ~ op_hazard s ONewline ->
  step s ONewline = Ok s' -> ages (s_cnt s) s s'.
Proof.
  call_start.
  unfold scr_newline in E. pose proof (Inv_inc s H) as HI.
  destruct (move_down_any (inc_age s) 1 true HI ltac:(lia)) as (s1 & E1 & I1). rewrite E1 in E. cbn [bind] in E.
  destruct (line_home_ok s1 I1) as [E2 I2]. replace s' with (moved (inc_age s1) 0 (s_cy s1)) by congruence.
  pose proof (ages_move_down (inc_age s) 1 true s1 HI ltac:(lia) E1) as A1.
  assert (K1 : s_rst (inc_age s) = true -> s_rst s1 = true).
  { intros R. destruct A1 as [_ [A1|A1]]; [exact A1|]. destruct A1 as (A1 & _). congruence. }
  pose proof (i_cy _ (proj1 I1)) as Hcy1.
  eapply ages_after; [|apply ages_move_call; [apply I1|lia|lia]|].
  - eapply ages_after; [now apply ages_inc|exact A1|exact K1].
  - intros R. pose proof (env_moved (inc_age s1) 0 (s_cy s1)) as EM. rewrite (e_rst _ _ EM). now apply inc_rst.
Qed.
Lemma ages_OScrollUp s (n : Z) s' : Inv s -> op_args (OScrollUp n) -> act_aged s (ACall (OScrollUp n)) -> ~ op_hazard s (OScrollUp n) ->
  step s (OScrollUp n) = Ok s' -> ages (s_cnt s) s s'.
Proof.
  call_start.
  unfold scr_scroll_up in E. nothing n. replace (n =? 0) with false in E by lia.
  destruct (scroll_call_up s n H ltac:(lia)) as (s1 & E1 & P & I). replace s' with s1 by congruence. eapply ages_scrolled; eauto.
Qed.
Lemma ages_OScrollDown s (n : Z) s' : Inv s -> op_args (OScrollDown n) -> act_aged s (ACall (OScrollDown n)) -> ~ op_hazard s (OScrollDown n) ->
  step s (OScrollDown n) = Ok s' -> ages (s_cnt s) s s'.
Proof.
  call_start.
  unfold scr_scroll_down in E. nothing n. replace (n =? 0) with false in E by lia.
  destruct (scroll_call_down s n H ltac:(lia)) as (s1 & E1 & P & I). replace s' with s1 by congruence. eapply ages_scrolled; eauto.
Qed.
Lemma ages_OMoveTo s (x y : Z) s' : Inv s -> op_args (OMoveTo x y) -> act_aged s (ACall (OMoveTo x y)) -> ~ op_hazard s (OMoveTo x y) ->
  step s (OMoveTo x y) = Ok s' -> ages (s_cnt s) s s'.
Proof.
  call_start.
  destruct (move_to_ok s x y H ltac:(lia) ltac:(lia)) as [E1 _]. rewrite E1 in E. match type of E with Ok ?t = _ => replace s' with t by congruence end.
  apply ages_move_call; auto; [lia|]. unfold to_y. pose proof (u32_range (s_mt s + y)). destruct (fl s F_ORIGIN); lia.
Qed.
Lemma ages_OMoveUp s (n : Z) (b : bool) s' : Inv s -> op_args (OMoveUp n b) -> act_aged s (ACall (OMoveUp n b)) -> ~ op_hazard s (OMoveUp n b) ->
  step s (OMoveUp n b) = Ok s' -> ages (s_cnt s) s s'.
Proof.
  call_start.
  exact (ages_move_up s n b s' H ltac:(lia) E).
Qed.
Lemma ages_OMoveDown s (n : Z) (b : bool) s' : Inv s -> op_args (OMoveDown n b) -> act_aged s (ACall (OMoveDown n b)) -> ~ op_hazard s (OMoveDown n b) ->
  step s (OMoveDown n b) = Ok s' -> ages (s_cnt s) s s'.
Proof.
  call_start.
  exact (ages_move_down s n b s' H ltac:(lia) E).
Qed.
Lemma ages_OMoveLeft s (n : Z) s' : Inv s -> op_args (OMoveLeft n) -> act_aged s (ACall (OMoveLeft n)) -> ~ op_hazard s (OMoveLeft n) ->
  step s (OMoveLeft n) = Ok s' -> ages (s_cnt s) s s'.
Proof.
  call_start.
  nothing n. destruct (move_left_ok s n H ltac:(lia)) as [E1 _]. rewrite E1 in E. match type of E with Ok ?t = _ => replace s' with t by congruence end.
  apply ages_move_call; auto; lia.
Qed.
Lemma ages_OMoveRight s (n : Z) s' : Inv s -> op_args (OMoveRight n) -> act_aged s (ACall (OMoveRight n)) -> ~ op_hazard s (OMoveRight n) ->
  step s (OMoveRight n) = Ok s' -> ages (s_cnt s) s s'.
Proof.
  call_start.
  nothing n. destruct (move_right_ok s n H ltac:(lia)) as [E1 _]. rewrite E1 in E. match type of E with Ok ?t = _ => replace s' with t by congruence end.
  apply ages_move_call; auto; lia.
Qed.
Lemma ages_OLineEnd s s' : Inv s -> op_args OLineEnd -> act_aged s (ACall OLineEnd) -> ~ op_hazard s OLineEnd ->
  step s OLineEnd = Ok s' -> ages (s_cnt s) s s'.
Proof.
  call_start.
  destruct (line_end_ok s H) as [E1 _]. rewrite E1 in E. match type of E with Ok ?t = _ => replace s' with t by congruence end.
  apply ages_move_call; auto; lia.
Qed.
Lemma ages_OLineHome s s' : Inv s -> op_args OLineHome -> act_aged s (ACall OLineHome) -> ~ op_hazard s OLineHome ->
  step s OLineHome = Ok s' -> ages (s_cnt s) s s'.
Proof.
  call_start.
  destruct (line_home_ok s H) as [E1 _]. rewrite E1 in E. match type of E with Ok ?t = _ => replace s' with t by congruence end.
  apply ages_move_call; auto; lia.
Qed.
Lemma ages_OTabRight s (n : Z) s' : Inv s -> op_args (OTabRight n) -> act_aged s (ACall (OTabRight n)) -> ~ op_hazard s (OTabRight n) ->
  step s (OTabRight n) = Ok s' -> ages (s_cnt s) s s'.
Proof.
  call_start.
  nothing n. destruct (tab_right_ok s n H ltac:(lia)) as (x & E1 & I & A & B). rewrite E1 in E. match type of E with Ok ?t = _ => replace s' with t by congruence end.
  apply ages_move_call; auto. pose proof (i_cx _ (proj1 I)) as Hx. rewrite moved_cx in Hx. exact Hx.
Qed.
Lemma ages_OTabLeft s (n : Z) s' : Inv s -> op_args (OTabLeft n) -> act_aged s (ACall (OTabLeft n)) -> ~ op_hazard s (OTabLeft n) ->
  step s (OTabLeft n) = Ok s' -> ages (s_cnt s) s s'.
Proof.
  call_start.
  nothing n. destruct (tab_left_ok s n H ltac:(lia)) as (x & E1 & I & A & B); [unfold tab_fits; lia|]. rewrite E1 in E. match type of E with Ok ?t = _ => replace s' with t by congruence end.
  apply ages_move_call; auto. pose proof (i_cx _ (proj1 I)) as Hx. rewrite moved_cx in Hx. exact Hx.
Qed.
Lemma ages_OInsLines s (n : Z) s' : Inv s -> op_args (OInsLines n) -> act_aged s (ACall (OInsLines n)) -> ~ op_hazard s (OInsLines n) ->
  step s (OInsLines n) = Ok s' -> ages (s_cnt s) s s'.
Proof.
  call_start.
  nothing n. destruct ((s_cy s <? s_mt s) || (s_mb s <? s_cy s)) eqn:Eo.
  - unfold scr_insert_lines in E. replace (n =? 0) with false in E by lia. rewrite Eo in E. replace s' with s by congruence. apply ages_refl.
  - destruct (insert_lines_ok s n H ltac:(lia) ltac:(lia)) as (ls' & E1 & I & _). rewrite E1 in E. match type of E with Ok ?t = _ => replace s' with t by congruence end.
    apply ages_call; auto; try apply I; try reflexivity; [exact (inc_sx s)|exact (inc_sy s)].
Qed.
Lemma ages_ODelLines s (n : Z) s' : Inv s -> op_args (ODelLines n) -> act_aged s (ACall (ODelLines n)) -> ~ op_hazard s (ODelLines n) ->
  step s (ODelLines n) = Ok s' -> ages (s_cnt s) s s'.
Proof.
  call_start.
  nothing n. destruct ((s_cy s <? s_mt s) || (s_mb s <? s_cy s)) eqn:Eo.
  - unfold scr_delete_lines in E. replace (n =? 0) with false in E by lia. rewrite Eo in E. replace s' with s by congruence. apply ages_refl.
  - destruct (delete_lines_ok s n H ltac:(lia) ltac:(lia)) as (ls' & E1 & I & _). rewrite E1 in E. match type of E with Ok ?t = _ => replace s' with t by congruence end.
    apply ages_call; auto; try apply I; try reflexivity; [exact (inc_sx s)|exact (inc_sy s)].
Qed.
Lemma ages_OInsChars s (n : Z) s' : Inv s -> op_args (OInsChars n) -> act_aged s (ACall (OInsChars n)) -> ~ op_hazard s (OInsChars n) ->
  step s (OInsChars n) = Ok s' -> ages (s_cnt s) s s'.
Proof.
  call_start.
  nothing n. destruct (insert_chars_ok s n H ltac:(lia)) as [E1 I]. rewrite E1 in E. match type of E with Ok ?t = _ => replace s' with t by congruence end.
  apply ages_call; auto; try apply I; try reflexivity; [exact (inc_sx s)|exact (inc_sy s)].
Qed.
Lemma ages_ODelChars s (n : Z) s' : Inv s -> op_args (ODelChars n) -> act_aged s (ACall (ODelChars n)) -> ~ op_hazard s (ODelChars n) ->
  step s (ODelChars n) = Ok s' -> ages (s_cnt s) s s'.
Proof.
  call_start.
  nothing n. destruct (delete_chars_ok s n H ltac:(lia)) as [E1 I]. rewrite E1 in E. match type of E with Ok ?t = _ => replace s' with t by congruence end.
  apply ages_call; auto; try apply I; try reflexivity; [exact (inc_sx s)|exact (inc_sy s)].
Qed.
Lemma ages_OEraseCursor s s' : Inv s -> op_args OEraseCursor -> act_aged s (ACall OEraseCursor) -> ~ op_hazard s OEraseCursor ->
  step s OEraseCursor = Ok s' -> ages (s_cnt s) s s'.
Proof.
  call_start.
  destruct (erase_cursor_ok s H) as [E1 I]. rewrite E1 in E. match type of E with Ok ?t = _ => replace s' with t by congruence end.
  apply ages_call; auto; try apply I; try reflexivity; [exact (inc_sx s)|exact (inc_sy s)].
Qed.
Lemma ages_OEraseChars s (n : Z) s' : Inv s -> op_args (OEraseChars n) -> act_aged s (ACall (OEraseChars n)) -> ~ op_hazard s (OEraseChars n) ->
  step s (OEraseChars n) = Ok s' -> ages (s_cnt s) s s'.
Proof.
  call_start.
  nothing n. destruct (erase_chars_ok s n H ltac:(lia)) as [E1 I]. rewrite E1 in E. match type of E with Ok ?t = _ => replace s' with t by congruence end.
  apply ages_call; auto; try apply I; try reflexivity; [exact (inc_sx s)|exact (inc_sy s)].
Qed.
Lemma ages_OEraseToEnd s (p : bool) s' : Inv s -> op_args (OEraseToEnd p) -> act_aged s (ACall (OEraseToEnd p)) -> ~ op_hazard s (OEraseToEnd p) ->
  step s (OEraseToEnd p) = Ok s' -> ages (s_cnt s) s s'.
Proof.
  call_start.
  destruct (erase_to_end_ok s p H) as [E1 I]. rewrite E1 in E. match type of E with Ok ?t = _ => replace s' with t by congruence end.
  apply ages_call; auto; try apply I; try reflexivity; [exact (inc_sx s)|exact (inc_sy s)].
Qed.
Lemma ages_OEraseHome s (p : bool) s' : Inv s -> op_args (OEraseHome p) -> act_aged s (ACall (OEraseHome p)) -> ~ op_hazard s (OEraseHome p) ->
  step s (OEraseHome p) = Ok s' -> ages (s_cnt s) s s'.
Proof.
  call_start.
  destruct (erase_home_ok s p H) as [E1 I]. rewrite E1 in E. match type of E with Ok ?t = _ => replace s' with t by congruence end.
  apply ages_call; auto; try apply I; try reflexivity; [exact (inc_sx s)|exact (inc_sy s)].
Qed.
Lemma ages_OEraseLine s (p : bool) s' : Inv s -> op_args (OEraseLine p) -> act_aged s (ACall (OEraseLine p)) -> ~ op_hazard s (OEraseLine p) ->
  step s (OEraseLine p) = Ok s' -> ages (s_cnt s) s s'.
Proof.
  call_start.
  destruct (erase_line_ok s p H) as [E1 I]. rewrite E1 in E. match type of E with Ok ?t = _ => replace s' with t by congruence end.
  apply ages_call; auto; try apply I; try reflexivity; [exact (inc_sx s)|exact (inc_sy s)].
Qed.
Lemma ages_OEraseScreenToCursor s (p : bool) s' : Inv s -> op_args (OEraseScreenToCursor p) -> act_aged s (ACall (OEraseScreenToCursor p)) -> ~ op_hazard s (OEraseScreenToCursor p) ->
  step s (OEraseScreenToCursor p) = Ok s' -> ages (s_cnt s) s s'.
Proof.
  call_start.
  destruct (erase_screen_to_cursor_ok s p H) as [E1 I]. rewrite E1 in E. match type of E with Ok ?t = _ => replace s' with t by congruence end.
  apply ages_call; auto; try apply I; try reflexivity; [exact (inc_sx s)|exact (inc_sy s)].
Qed.
Lemma ages_OEraseCursorToScreen s (p : bool) s' : Inv s -> op_args (OEraseCursorToScreen p) -> act_aged s (ACall (OEraseCursorToScreen p)) -> ~ op_hazard s (OEraseCursorToScreen p) ->
  step s (OEraseCursorToScreen p) = Ok s' -> ages (s_cnt s) s s'.
Proof.
  call_start.
  destruct (erase_cursor_to_screen_ok s p H) as [E1 I]. rewrite E1 in E. match type of E with Ok ?t = _ => replace s' with t by congruence end.
  apply ages_call; auto; try apply I; try reflexivity; [exact (inc_sx s)|exact (inc_sy s)].
Qed.
Lemma ages_OEraseScreen s (p : bool) s' : Inv s -> op_args (OEraseScreen p) -> act_aged s (ACall (OEraseScreen p)) -> ~ op_hazard s (OEraseScreen p) ->
  step s (OEraseScreen p) = Ok s' -> ages (s_cnt s) s s'.
Proof.
  call_start.
  destruct (erase_screen_ok s p H) as [E1 I]. rewrite E1 in E. match type of E with Ok ?t = _ => replace s' with t by congruence end.
  apply ages_call; auto; try apply I; try reflexivity; [exact (inc_sx s)|exact (inc_sy s)].
Qed.
Lemma ages_OSelReset s s' : Inv s -> op_args OSelReset -> act_aged s (ACall OSelReset) -> ~ op_hazard s OSelReset ->
  step s OSelReset = Ok s' -> ages (s_cnt s) s s'.
Proof.
  call_start.
  replace s' with (scr_sel_reset s) by congruence. pose proof (sel_reset_ok s H) as I.
  apply ages_call; auto; try apply I; try reflexivity; [exact (inc_sx s)|exact (inc_sy s)].
Qed.
Lemma ages_OSelStart s (x y : Z) s' : Inv s -> op_args (OSelStart x y) -> act_aged s (ACall (OSelStart x y)) -> ~ op_hazard s (OSelStart x y) ->
  step s (OSelStart x y) = Ok s' -> ages (s_cnt s) s s'.
Proof.
  call_start.
  destruct (sel_start_ok s x y H ltac:(lia)) as [E1 I]. rewrite E1 in E. match type of E with Ok ?t = _ => replace s' with t by congruence end.
  apply ages_call; auto; try apply I; try reflexivity; [exact (inc_sx s)|exact (inc_sy s)].
Qed.
Lemma ages_OSelTarget s (x y : Z) s' : Inv s -> op_args (OSelTarget x y) -> act_aged s (ACall (OSelTarget x y)) -> ~ op_hazard s (OSelTarget x y) ->
  step s (OSelTarget x y) = Ok s' -> ages (s_cnt s) s s'.
Proof.
  call_start.
  destruct (sel_target_ok s x y H ltac:(lia)) as [E1 I]. rewrite E1 in E. destruct (s_sela s); [|replace s' with s by congruence; apply ages_refl].
  match type of E with Ok ?t = _ => replace s' with t by congruence end.
  apply ages_call; auto; try apply I; try reflexivity; [exact (inc_sx s)|exact (inc_sy s)].
Qed.
Lemma ages_step s o s' : Inv s -> op_args o -> act_aged s (ACall o) -> step s o = Ok s' -> ages (s_cnt s) s s'.
Proof.
  intros H Ha Hg E. destruct (hazard_dec s o) as [D|D]; [rewrite (hazard_ub s o H Ha D) in E; discriminate|].
  destruct o.
  - exact (ages_OResize s x y s' H Ha Hg D E).
  - exact (ages_OSetMargins s t b s' H Ha Hg D E).
  - exact (ages_OSetMaxSb s n s' H Ha Hg D E).
  - exact (ages_OClearSb s  s' H Ha Hg D E).
  - exact (ages_OSbUp s n s' H Ha Hg D E).
  - exact (ages_OSbDown s n s' H Ha Hg D E).
  - exact (ages_OSbPageUp s n s' H Ha Hg D E).
  - exact (ages_OSbPageDown s n s' H Ha Hg D E).
  - exact (ages_OSbReset s  s' H Ha Hg D E).
  - exact (ages_OSetDefAttr s a s' H Ha Hg D E).
  - exact (ages_OReset s  s' H Ha Hg D E).
  - exact (ages_OSetFlags s f s' H Ha Hg D E).
  - exact (ages_OResetFlags s f s' H Ha Hg D E).
  - exact (ages_OSetTabstop s  s' H Ha Hg D E).
  - exact (ages_OResetTabstop s  s' H Ha Hg D E).
  - exact (ages_OResetAllTabstops s  s' H Ha Hg D E).
  - exact (ages_OWrite s ch a s' H Ha Hg D E).
  - exact (ages_ONewline s  s' H Ha Hg D E).
  - exact (ages_OScrollUp s n s' H Ha Hg D E).
  - exact (ages_OScrollDown s n s' H Ha Hg D E).
  - exact (ages_OMoveTo s x y s' H Ha Hg D E).
  - exact (ages_OMoveUp s n b s' H Ha Hg D E).
  - exact (ages_OMoveDown s n b s' H Ha Hg D E).
  - exact (ages_OMoveLeft s n s' H Ha Hg D E).
  - exact (ages_OMoveRight s n s' H Ha Hg D E).
  - exact (ages_OLineEnd s  s' H Ha Hg D E).
  - exact (ages_OLineHome s  s' H Ha Hg D E).
  - exact (ages_OTabRight s n s' H Ha Hg D E).
  - exact (ages_OTabLeft s n s' H Ha Hg D E).
  - exact (ages_OInsLines s n s' H Ha Hg D E).
  - exact (ages_ODelLines s n s' H Ha Hg D E).
  - exact (ages_OInsChars s n s' H Ha Hg D E).
  - exact (ages_ODelChars s n s' H Ha Hg D E).
  - exact (ages_OEraseCursor s  s' H Ha Hg D E).
  - exact (ages_OEraseChars s n s' H Ha Hg D E).
  - exact (ages_OEraseToEnd s p s' H Ha Hg D E).
  - exact (ages_OEraseHome s p s' H Ha Hg D E).
  - exact (ages_OEraseLine s p s' H Ha Hg D E).
  - exact (ages_OEraseScreenToCursor s p s' H Ha Hg D E).
  - exact (ages_OEraseCursorToScreen s p s' H Ha Hg D E).
  - exact (ages_OEraseScreen s p s' H Ha Hg D E).
  - exact (ages_OSelReset s  s' H Ha Hg D E).
  - exact (ages_OSelStart s x y s' H Ha Hg D E).
  - exact (ages_OSelTarget s x y s' H Ha Hg D E).
Qed.
