(* The selection properties in their final form, for reachable screens, and the
   counterexamples. *)
From Verif Require Import Base BaseProofs Screen ScreenInv ScreenSb ScreenScroll ScreenSpec ScreenOps ScreenMove ScreenCtl ScreenResize ScreenSafe ScreenHist ScreenRz ScreenThms.
From Verif Require Import Selection SelectionSpec SelectionProofs SelectionFollow.

(* -- a selection just made ------------------------------------------------------------ *)
Lemma sel_at_same s s' x y : s_sb s' = s_sb s -> s_sbid s' = s_sbid s -> view_index s' = view_index s -> sel_at s' x y = sel_at s x y.
Proof. intros A B C. unfold sel_at, first_id. now rewrite A, B, C. Qed.
Lemma aged_rows s : text_rows (aged s) = text_rows s /\ s_sx (aged s) = s_sx s /\ s_sy (aged s) = s_sy s.
Proof. unfold aged. rewrite inc_age_eq. repeat split. Qed.
Record picked (s s2 : screen) (p q : selpos) : Prop := mkPk {
  pk_inv : Inv0 s2; pk_a : s_sela s2 = true; pk_1 : s_sel1 s2 = p; pk_2 : s_sel2 s2 = q; pk_rows : text_rows s2 = text_rows s;
  pk_sx : s_sx s2 = s_sx s; pk_sy : s_sy s2 = s_sy s; pk_sb : s_sb s2 = s_sb s; pk_id : s_sbid s2 = s_sbid s
}.
Definition two (a : screen) (p : selpos) : screen := set_sel2 (set_sel1 (set_sela a true) p) p.
Lemma pick s x y x' y' : Inv s -> 0 <= y -> 0 <= y' -> exists s2, run s [OSelStart x y; OSelTarget x' y'] = Ok s2 /\ picked s s2 (sel_at s x y) (sel_at s x' y').
Proof.
  intros H Hy Hy'. destruct (sel_start_ok s x y H Hy) as [E1 I1]. cbv zeta in E1, I1. fold (two (aged s) (sel_at (aged s) x y)) in E1, I1.
  destruct (sel_target_ok _ x' y' I1 Hy') as [E2 I2]. cbv zeta in E2, I2.
  destruct (aged_sb s) as (A1 & A2 & A3 & _). destruct (aged_rows s) as (A5 & A6 & A7).
  set (a := aged s) in *. clearbody a. rewrite (sel_at_same s a) in * by auto. set (p := sel_at s x y) in *.
  change (s_sela (two a p)) with true in E2, I2. cbv iota in E2, I2.
  destruct (aged_sb (two a p)) as (B1 & B2 & B3 & _). destruct (aged_rows (two a p)) as (B5 & B6 & B7).
  assert (Bs : s_sel1 (aged (two a p)) = p /\ s_sela (aged (two a p)) = true) by (unfold aged; rewrite inc_age_eq; split; reflexivity).
  change (s_sb (two a p)) with (s_sb a) in *. change (s_sbid (two a p)) with (s_sbid a) in *. change (view_index (two a p)) with (view_index a) in *.
  change (text_rows (two a p)) with (text_rows a) in *. change (s_sx (two a p)) with (s_sx a) in *. change (s_sy (two a p)) with (s_sy a) in *.
  exists (set_sel2 (aged (two a p)) (sel_at (aged (two a p)) x' y')). split.
  - cbn [run step]. rewrite E1. cbn [bind]. rewrite E2. reflexivity.
  - set (b := aged (two a p)) in *. clearbody b. destruct Bs as [Bs1 Bs2]. rewrite (sel_at_same s b) in * by congruence.
    constructor; sredg; auto; try congruence; try exact (proj1 I2).
    change (text_rows (set_sel2 b (sel_at s x' y'))) with (text_rows b). congruence.
Qed.
(* Its ends are at the rows shown. *)
Lemma sel_at_place s x y : Inv0 s -> 0 <= x < s_sx s -> 0 <= y < s_sy s ->
  at_place s (sel_at s x y) (view_index s + y) x /\ ~ on_top (sel_at s x y) /\
  (if view_index s + y <? zlen (s_sb s) then p_line (sel_at s x y) = Some (first_id s + view_index s + y) /\ p_y (sel_at s x y) = 0
   else p_line (sel_at s x y) = None /\ p_y (sel_at s x y) = view_index s + y - zlen (s_sb s)) /\ p_x (sel_at s x y) = x.
Proof.
  intros H Hx Hy. destruct (view_range s H) as [V _]. pose proof (i_sy _ H) as [_ Sy]. unfold DIM in Sy.
  assert (P : (if view_index s + y <? zlen (s_sb s) then p_line (sel_at s x y) = Some (first_id s + view_index s + y) /\ p_y (sel_at s x y) = 0
   else p_line (sel_at s x y) = None /\ p_y (sel_at s x y) = view_index s + y - zlen (s_sb s)) /\ p_x (sel_at s x y) = x).
  { unfold sel_at. destruct (Z.ltb_spec (view_index s + y) (zlen (s_sb s))) as [K|K].
    - replace (y <? _) with true by lia. repeat split.
    - replace (y <? _) with false by lia. cbn [p_line p_y p_x]. rewrite i32_small by lia. repeat split. lia. }
  split; [|split; [|exact P]].
  - unfold at_place. destruct P as [P ->]. split; [|lia]. apply end_row_cases; [exact H|].
    destruct (Z.ltb_spec (view_index s + y) (zlen (s_sb s))) as [K|K]; [left|right]; destruct P as [P1 P2]; rewrite ?P2.
    + rewrite P1. split; [f_equal; lia|lia].
    + split; [exact P1|lia].
  - intros (T1 & T2). destruct P as [P _]. unfold SELECTION_TOP in T2. destruct (Z.ltb_spec (view_index s + y) (zlen (s_sb s))); destruct P as [P1 P2]; [congruence|lia].
Qed.
Lemma place_same s s2 p r c : s_sb s2 = s_sb s -> s_sy s2 = s_sy s -> s_sx s2 = s_sx s -> at_place s p r c -> at_place s2 p r c.
Proof. intros A B C. unfold at_place, end_row. now rewrite A, B, C. Qed.

Lemma fresh_safe s x y x' y' : reachable s -> roomy s -> 0 <= x < s_sx s -> 0 <= y < s_sy s -> 0 <= x' < s_sx s -> 0 <= y' < s_sy s ->
  chars_below 65536 s \/ y = y' ->
  exists s2 o, run s [OSelStart x y; OSelTarget x' y'] = Ok s2 /\ selection_copy s2 = Ok o.
Proof.
  intros Rs R Hx Hy Hx' Hy' C. apply reachable_Inv in Rs. destruct (pick s x y x' y' Rs ltac:(lia) ltac:(lia)) as (s2 & E & K). exists s2.
  destruct (sel_at_place s x y (proj1 Rs) Hx Hy) as (P1 & P2 & P3 & P4). destruct (sel_at_place s x' y' (proj1 Rs) Hx' Hy') as (Q1 & Q2 & Q3 & Q4).
  destruct (copy_within s2 (view_index s + y) x (view_index s + y') x') as (o & Eo).
  - apply K.
  - unfold roomy. rewrite (pk_sx _ _ _ _ K), (pk_sy _ _ _ _ K), (pk_sb _ _ _ _ K). exact R.
  - rewrite (pk_1 _ _ _ _ K), (pk_2 _ _ _ _ K). unfold safe_ends.
    destruct (view_index s + y <? zlen (s_sb s)); destruct P3 as [-> P5]; destruct (view_index s + y' <? zlen (s_sb s)); destruct Q3 as [-> Q5]; auto.
    tauto.
  - rewrite (pk_1 _ _ _ _ K). right. apply (place_same s); try apply K. exact P1.
  - rewrite (pk_2 _ _ _ _ K). right. apply (place_same s); try apply K. exact Q1.
  - unfold chars_below. rewrite (pk_rows _ _ _ _ K), (pk_1 _ _ _ _ K). destruct C as [C|C]; [left; exact C|right]. split; [lia|exact P2].
  - exists o. auto.
Qed.
Lemma row_rows s s2 r : text_rows s2 = text_rows s -> row s2 r = row s r.
Proof. intros A. unfold row. now rewrite A. Qed.
Lemma sel_text_rows pad s s2 r1 c1 r2 c2 : text_rows s2 = text_rows s -> s_sx s2 = s_sx s -> sel_text pad s2 r1 c1 r2 c2 = sel_text pad s r1 c1 r2 c2.
Proof.
  intros A B. unfold sel_text. f_equal. apply map_ext. intros r. unfold sel_part, part, end_col. now rewrite (row_rows s s2), B.
Qed.
Lemma fresh_text s x1 y1 x2 y2 x y x' y' : reachable s -> roomy s -> 0 <= x1 < s_sx s -> 0 <= y1 < s_sy s -> 0 <= x2 < s_sx s -> 0 <= y2 < s_sy s ->
  before y1 x1 y2 x2 ->
  chars_below 65536 s \/ y1 = y2 /\ chars_below (2 ^ 32) s ->
  y1 = y2 \/ x1 <= zlen (trim (row s (view_index s + y1))) ->
  (x = x1 /\ y = y1 /\ x' = x2 /\ y' = y2 /\ ~ (view_index s + y1 < zlen (s_sb s) /\ view_index s + y2 = zlen (s_sb s) /\ x2 < x1) \/
   x = x2 /\ y = y2 /\ x' = x1 /\ y' = y1 /\ ~ (view_index s + y2 = zlen (s_sb s) - 1 /\ y1 < y2)) ->
  exists s2, run s [OSelStart x y; OSelTarget x' y'] = Ok s2 /\
    selection_copy s2 = Ok (CText (sel_text [0] s (view_index s + y1) x1 (view_index s + y2) x2)).
Proof.
  intros Rs R Hx1 Hy1 Hx2 Hy2 B C F O. apply reachable_Inv in Rs.
  destruct (pick s x y x' y' Rs ltac:(lia) ltac:(lia)) as (s2 & E & K). exists s2. split; [exact E|].
  destruct (sel_at_place s x1 y1 (proj1 Rs) Hx1 Hy1) as (P1 & P2 & P3 & P4). destruct (sel_at_place s x2 y2 (proj1 Rs) Hx2 Hy2) as (Q1 & Q2 & Q3 & Q4).
  rewrite <- (sel_text_rows [0] s s2) by apply K.
  pose proof (pk_1 _ _ _ _ K) as K1. pose proof (pk_2 _ _ _ _ K) as K2.
  assert (FI : first_id s = s_sbid s2 - zlen (s_sb s) + 1) by (unfold first_id; rewrite (pk_id _ _ _ _ K); reflexivity).
  apply (copy_text s2 (sel_at s x1 y1) (sel_at s x2 y2)).
  - apply K.
  - unfold roomy. rewrite (pk_sx _ _ _ _ K), (pk_sy _ _ _ _ K), (pk_sb _ _ _ _ K). exact R.
  - apply K.
  - rewrite K1, K2. unfold text_ends.
    destruct O as [(-> & -> & -> & -> & O)|(-> & -> & -> & -> & O)].
    + destruct (Z.ltb_spec (view_index s + y1) (zlen (s_sb s))) as [L1|L1]; destruct P3 as [-> P5];
        destruct (Z.ltb_spec (view_index s + y2) (zlen (s_sb s))) as [L2|L2]; destruct Q3 as [-> Q5].
      * intros _. unfold before in B. lia.
      * right. split; [exact P5|]. rewrite P4, Q4, Q5. unfold before in B. lia.
      * auto.
      * tauto.
    + destruct (Z.ltb_spec (view_index s + y1) (zlen (s_sb s))) as [L1|L1]; destruct P3 as [-> P5];
        destruct (Z.ltb_spec (view_index s + y2) (zlen (s_sb s))) as [L2|L2]; destruct Q3 as [-> Q5].
      * intros L. unfold before in B. lia.
      * auto.
      * unfold before in B. lia.
      * tauto.
  - rewrite K1, K2. destruct O as [(-> & -> & -> & -> & O)|(-> & -> & -> & -> & O)]; auto.
  - right. apply (place_same s); try apply K. exact P1.
  - right. apply (place_same s); try apply K. exact Q1.
  - unfold before in *. lia.
  - unfold chars_below in *. rewrite (pk_rows _ _ _ _ K). destruct C as [C|[C1 C2]]; [left; exact C|right]. split; [lia|exact C2].
  - rewrite (row_rows s s2) by apply K. destruct F as [F|F]; [left; lia|right; exact F].
Qed.

(* -- the general forms ---------------------------------------------------------------------- *)
Lemma copy_safe s r c r' c' : reachable s -> roomy s -> safe_ends s (s_sel1 s) (s_sel2 s) ->
  at_place_or_top s (s_sel1 s) r c -> at_place_or_top s (s_sel2 s) r' c' ->
  chars_below 65536 s \/ r = r' /\ ~ on_top (s_sel1 s) -> exists o, selection_copy s = Ok o.
Proof. intros R. apply copy_within, (reachable_Inv s R). Qed.
Lemma copy_text_r s p q r1 c1 r2 c2 : reachable s -> roomy s -> s_sela s = true -> text_ends s (s_sel1 s) (s_sel2 s) ->
  (p = s_sel1 s /\ q = s_sel2 s \/ p = s_sel2 s /\ q = s_sel1 s) ->
  at_place_or_top s p r1 c1 -> at_place_or_top s q r2 c2 -> before r1 c1 r2 c2 ->
  chars_below 65536 s \/ r1 = r2 /\ chars_below (2 ^ 32) s -> r1 = r2 \/ c1 <= zlen (trim (row s r1)) ->
  selection_copy s = Ok (CText (sel_text [0] s r1 c1 r2 c2)).
Proof. intros R. apply copy_text, (reachable_Inv s R). Qed.
Lemma no_selection s : s_sela s = false -> selection_copy s = Ok CNone.
Proof. intros A. unfold selection_copy. now rewrite A. Qed.

Lemma scroll_up_follows s n s' p p' r : reachable s -> fl s F_ALT = false -> s_mt s = 0 -> s_sela s = true -> u32_arg n -> 0 < n ->
  step s (OScrollUp n) = Ok s' -> same_end s s' p p' -> end_row s p r -> r <= zlen (s_sb s) + s_mb s ->
  stays s s' p' r (Z.max 0 (zlen (s_sb s) + Z.min n (s_mb s + 1) - s_sbmax s)) 0 /\ p_x p' = p_x p.
Proof. intros R. apply scroll_up_end, reachable_Inv, R. Qed.
Lemma newline_follows s s' p p' r : reachable s -> fl s F_ALT = false -> s_mt s = 0 -> s_sela s = true -> s_cy s = s_mb s ->
  step s ONewline = Ok s' -> same_end s s' p p' -> end_row s p r -> r <= zlen (s_sb s) + s_mb s ->
  stays s s' p' r (Z.max 0 (zlen (s_sb s) + 1 - s_sbmax s)) 0 /\ p_x p' = p_x p.
Proof. intros R. apply newline_end, reachable_Inv, R. Qed.
Lemma scroll_down_follows s n s' p p' r : reachable s -> s_sela s = true -> u32_arg n -> 0 < n ->
  step s (OScrollDown n) = Ok s' -> same_end s s' p p' -> end_row s p r ->
  r < zlen (s_sb s) \/ zlen (s_sb s) + s_mt s <= r /\ r + n <= zlen (s_sb s) + s_mb s ->
  stays s s' p' r 0 (if r <? zlen (s_sb s) then 0 else n) /\ p_x p' = p_x p.
Proof. intros R. apply scroll_down_end, reachable_Inv, R. Qed.
Lemma set_max_follows s n s' p p' r : reachable s -> s_sela s = true -> u32_arg n ->
  step s (OSetMaxSb n) = Ok s' -> same_end s s' p p' -> end_row s p r ->
  stays s s' p' r (Z.max 0 (zlen (s_sb s) - n)) 0 /\ p_x p' = p_x p.
Proof. intros R. apply set_max_end, reachable_Inv, R. Qed.
Lemma clear_follows s s' p p' r : reachable s -> s_sela s = true -> step s OClearSb = Ok s' -> same_end s s' p p' -> end_row s p r ->
  stays s s' p' r (zlen (s_sb s)) 0 /\ p_x p' = p_x p.
Proof. intros R. apply clear_sb_end, reachable_Inv, R. Qed.
Lemma history_follows ops s s' p p' r : reachable s -> fl s F_ALT = false -> s_mt s = 0 -> s_mb s = s_sy s - 1 -> s_sela s = true ->
  Forall op_args ops -> Forall scrolls ops -> run s ops = Ok s' -> same_end s s' p p' -> end_row s p r -> attached s s' p' r /\ p_x p' = p_x p.
Proof.
  intros R A B C D Ha Hs E P Q. exact (proj2 (scrolls_history ops s s' (reachable_Inv s R) Ha Hs (mkMF s A B C D) E p p' P) r Q).
Qed.

(* -- counterexamples ---------------------------------------------------------------------------- *)
Definition sees (ops : list op) (f : screen -> bool) : bool := match run scr_init ops with Ok s => f s | Ub => false end.
Lemma sees_run ops f : sees ops f = true -> exists s, run scr_init ops = Ok s /\ f s = true.
Proof. unfold sees. destruct (run scr_init ops) as [s|]; [eauto|discriminate]. Qed.
Lemma sees_reach ops f : Forall op_args ops -> sees ops f = true -> exists s, reachable s /\ f s = true.
Proof. intros A H. destruct (sees_run ops f H) as (s & E & F). exists s. split; [exists ops; auto|exact F]. Qed.

Fixpoint picks_ok (s : screen) (ops : list op) : bool :=
  match ops with
  | [] => true
  | o :: r =>
    match o with
    | OSelStart x y | OSelTarget x y => (x <? s_sx s) && (y <? s_sy s)
    | _ => true
    end && match step s o with Ok s' => picks_ok s' r | Ub => true end
  end.
Lemma picks_ok_ok ops : forall s, picks_ok s ops = true -> selects_on_screen s ops.
Proof.
  induction ops as [|o r IH]; intros s H; [exact I|]. cbn [picks_ok selects_on_screen] in *.
  apply andb_true_iff in H. destruct H as [H1 H2]. split.
  - destruct o; try exact I; lia.
  - destruct (step s o) as [s'|]; [|exact I]. now apply IH.
Qed.
Definition copy_ub (s : screen) : bool := match selection_copy s with Ub => true | Ok _ => false end.
Lemma copy_ub_no s : copy_ub s = true -> ~ exists o, selection_copy s = Ok o.
Proof. unfold copy_ub. intros H (o & E). now rewrite E in H. Qed.

Fixpoint eqb_list (a b : list Z) : bool :=
  match a, b with
  | [], [] => true
  | x :: a, y :: b => (x =? y) && eqb_list a b
  | _, _ => false
  end.
Lemma eqb_list_refl a : eqb_list a a = true.
Proof. induction a as [|x a IH]; [reflexivity|]. cbn. now rewrite Z.eqb_refl, IH. Qed.
Definition copy_is (s : screen) (t : list Z) : bool := match selection_copy s with Ok (CText u) => eqb_list u t | _ => false end.
Lemma copy_is_not s t : copy_is s t = false -> selection_copy s <> Ok (CText t).
Proof. unfold copy_is. intros H E. rewrite E, eqb_list_refl in H. discriminate. Qed.

Definition is_row (s : screen) (p : selpos) (r : Z) : bool :=
  match p_line p with
  | Some k => (k =? first_id s + r) && (0 <=? r) && (r <? zlen (s_sb s))
  | None => (0 <=? p_y p) && (p_y p <? s_sy s) && (r =? zlen (s_sb s) + p_y p)
  end.
Lemma is_row_ok s p r : Inv0 s -> is_row s p r = true -> end_row s p r.
Proof.
  intros H E. apply end_row_cases; [exact H|]. unfold is_row in E. destruct (p_line p) as [k|]; [left|right].
  - split; [f_equal; lia|lia].
  - split; [reflexivity|lia].
Qed.
Definition is_place (s : screen) (p : selpos) (r c : Z) : bool := is_row s p r && (c =? p_x p) && (0 <=? c) && (c <? s_sx s).
Lemma is_place_ok s p r c : Inv0 s -> is_place s p r c = true -> at_place s p r c.
Proof.
  intros H E. unfold is_place in E. repeat (apply andb_true_iff in E; destruct E as [E ?]). unfold at_place. split; [now apply is_row_ok|lia].
Qed.
Definition maybe_attached (s s' : screen) (p' : selpos) (r : Z) : bool :=
  match p_line p' with
  | Some k => eqb_list (row s' (k - first_id s')) (row s r)
  | None => (p_y p' =? SELECTION_TOP) || (0 <=? p_y p') && (p_y p' <? s_sy s') && eqb_list (row s' (zlen (s_sb s') + p_y p')) (row s r)
  end.
Lemma maybe_attached_ok s s' p' r : Inv0 s' -> attached s s' p' r -> maybe_attached s s' p' r = true.
Proof.
  intros H [(T1 & T2)|(r' & E & Q)]; unfold maybe_attached.
  - rewrite T1, T2, Z.eqb_refl. reflexivity.
  - apply end_row_cases in E; [|exact H]. destruct E as [(-> & _)|(-> & Y & ->)].
    + replace (first_id s' + r' - first_id s') with r' by lia. rewrite Q. apply eqb_list_refl.
    + replace ((0 <=? p_y p') && (p_y p' <? s_sy s')) with true by lia. rewrite Q, eqb_list_refl. apply orb_true_r.
Qed.
(* After ops, call o detaches the first end of the selection from row r. *)
Definition detaches (o : op) (r : Z) (s : screen) : bool :=
  s_sela s && is_row s (s_sel1 s) r &&
  match step s o with Ok s' => negb (maybe_attached s s' (s_sel1 s') r) | Ub => false end.
Lemma detaches_ok o r s : reachable s -> op_args o -> detaches o r s = true -> s_sela s = true /\
  exists s', step s o = Ok s' /\ end_row s (s_sel1 s) r /\ ~ attached s s' (s_sel1 s') r.
Proof.
  intros R A D. unfold detaches in D. destruct (step s o) as [s'|] eqn:E; [|rewrite andb_false_r in D; discriminate].
  apply andb_true_iff in D. destruct D as [D N]. apply andb_true_iff in D. destruct D as [D1 D2].
  split; [exact D1|]. exists s'. split; [reflexivity|]. split; [apply is_row_ok; [apply (reachable_Inv s R)|exact D2]|].
  intros T. apply maybe_attached_ok in T; [rewrite T in N; discriminate|]. exact (proj1 (reachable_Inv s' (reachable_step s o s' R A E))).
Qed.
Lemma eqb_list_eq a : forall b, eqb_list a b = true -> a = b.
Proof.
  induction a as [|x a IH]; intros [|y b] H; cbn in H; try discriminate; [reflexivity|]. apply andb_true_iff in H. destruct H as [H1 H2].
  f_equal; [lia|auto].
Qed.
Lemma rows_eq a : forall b, zlen a = zlen b -> forallb (fun ab => eqb_list (fst ab) (snd ab)) (combine a b) = true -> a = b.
Proof.
  induction a as [|x a IH]; intros [|y b] L H; cbn [length] in L; try lia; [reflexivity|]. cbn in H. apply andb_true_iff in H. destruct H as [H1 H2].
  f_equal; [now apply eqb_list_eq|apply IH; [lia|exact H2]].
Qed.
(* Copying from (x1, y1) to (x2, y2), set in the other order if back, gives
   another text. *)
Definition copies_wrong (x1 y1 x2 y2 : Z) (back : bool) (s : screen) : bool :=
  (4 * s_sx s * (zlen (s_sb s) + s_sy s) + 1 <? 2147483648) && forallb (forallb (fun ch => (0 <=? ch) && (ch <? 128))) (text_rows s) &&
  (0 <=? x1) && (x1 <? s_sx s) && (0 <=? y1) && (y1 <? s_sy s) && (0 <=? x2) && (x2 <? s_sx s) && (0 <=? y2) && (y2 <? s_sy s) &&
  ((y1 <? y2) || (y1 =? y2) && (x1 <=? x2)) &&
  match run s (if back then [OSelStart x2 y2; OSelTarget x1 y1] else [OSelStart x1 y1; OSelTarget x2 y2]) with
  | Ok s2 => negb (copy_is s2 (sel_text [0] s (view_index s + y1) x1 (view_index s + y2) x2))
  | Ub => true
  end.
Lemma below_b lim s : forallb (forallb (fun ch => (0 <=? ch) && (ch <? lim))) (text_rows s) = true -> chars_below lim s.
Proof.
  intros G. rewrite forallb_forall in G. apply Forall_forall. intros l Hl. specialize (G l Hl). rewrite forallb_forall in G.
  apply Forall_forall. intros ch Hch. specialize (G ch Hch). lia.
Qed.
Lemma copies_wrong_no x1 y1 x2 y2 (back : bool) s : copies_wrong x1 y1 x2 y2 back s = true ->
  ~ (roomy s -> chars_below 128 s -> 0 <= x1 < s_sx s -> 0 <= y1 < s_sy s -> 0 <= x2 < s_sx s -> 0 <= y2 < s_sy s -> before y1 x1 y2 x2 ->
     exists s2, run s (if back then [OSelStart x2 y2; OSelTarget x1 y1] else [OSelStart x1 y1; OSelTarget x2 y2]) = Ok s2 /\
      selection_copy s2 = Ok (CText (sel_text [0] s (view_index s + y1) x1 (view_index s + y2) x2))).
Proof.
  intros W H. unfold copies_wrong in W. apply andb_true_iff in W. destruct W as [W N].
  repeat (apply andb_true_iff in W; destruct W as [W ?]). destruct H as (s2 & E & C).
  - unfold roomy. lia.
  - now apply below_b.
  - lia.
  - lia.
  - lia.
  - lia.
  - unfold before. lia.
  - rewrite E in N. revert C. apply copy_is_not. destruct (copy_is s2 _); [discriminate|reflexivity].
Qed.
(* The row "a b", with a blank, copied from column 0 to 2. *)
Definition blank_copy (s : screen) : bool :=
  (4 * s_sx s * (zlen (s_sb s) + s_sy s) + 1 <? 2147483648) && forallb (forallb (fun ch => (0 <=? ch) && (ch <? 128))) (text_rows s) &&
  (2 <? s_sx s) && eqb_list (part s (view_index s) 0 3) [97; 0; 98] &&
  match run s [OSelStart 0 0; OSelTarget 2 0] with Ok s2 => copy_is s2 [97; 0; 98] | Ub => false end.
Lemma blank_copy_sx s : blank_copy s = true -> 2 < s_sx s.
Proof. unfold blank_copy. intros W. do 2 (apply andb_true_iff in W; destruct W as [W ?]). apply andb_true_iff in W. lia. Qed.
Lemma blank_copy_pad pad s : reachable s -> blank_copy s = true ->
  (roomy s -> chars_below 128 s -> exists s2, run s [OSelStart 0 0; OSelTarget 2 0] = Ok s2 /\
    selection_copy s2 = Ok (CText (sel_text pad s (view_index s) 0 (view_index s) 2))) -> pad = [0].
Proof.
  intros R W H. unfold blank_copy in W. apply andb_true_iff in W. destruct W as [W N].
  repeat (apply andb_true_iff in W; destruct W as [W ?]). destruct H as (s2 & E & C).
  - unfold roomy. lia.
  - now apply below_b.
  - rewrite E in N. unfold copy_is in N. rewrite C in N. apply eqb_list_eq in N. revert N. unfold sel_text, sel_part, first_col, end_col.
    replace (view_index s - view_index s + 1) with 1 by lia. change (zseq (view_index s) 1) with [view_index s + 0]. rewrite Z.add_0_r. cbn [map join].
    rewrite !Z.eqb_refl. change (2 + 1) with 3. match goal with K : eqb_list (part _ _ _ _) _ = true |- _ => apply eqb_list_eq in K; rewrite K end.
    change (flat_map (char_bytes pad) [97; 0; 98]) with ([97] ++ pad ++ [98] ++ []). intros K. rewrite app_nil_r in K. inversion K as [K1].
    destruct pad as [|a [|b pad]]; inversion K1; [reflexivity|]. destruct pad; discriminate.
Qed.
Lemma fresh_forward s x1 y1 x2 y2 : reachable s -> roomy s ->
  0 <= x1 < s_sx s -> 0 <= y1 < s_sy s -> 0 <= x2 < s_sx s -> 0 <= y2 < s_sy s -> before y1 x1 y2 x2 ->
  chars_below 65536 s \/ y1 = y2 /\ chars_below (2 ^ 32) s ->
  y1 = y2 \/ x1 <= zlen (trim (row s (view_index s + y1))) ->
  ~ (view_index s + y1 < zlen (s_sb s) /\ view_index s + y2 = zlen (s_sb s) /\ x2 < x1) ->
  exists s2, run s [OSelStart x1 y1; OSelTarget x2 y2] = Ok s2 /\
    selection_copy s2 = Ok (CText (sel_text [0] s (view_index s + y1) x1 (view_index s + y2) x2)).
Proof. intros. apply fresh_text; auto. left. auto. Qed.
Lemma fresh_backward s x1 y1 x2 y2 : reachable s -> roomy s ->
  0 <= x1 < s_sx s -> 0 <= y1 < s_sy s -> 0 <= x2 < s_sx s -> 0 <= y2 < s_sy s -> before y1 x1 y2 x2 ->
  chars_below 65536 s \/ y1 = y2 /\ chars_below (2 ^ 32) s ->
  y1 = y2 \/ x1 <= zlen (trim (row s (view_index s + y1))) ->
  ~ (view_index s + y2 = zlen (s_sb s) - 1 /\ y1 < y2) ->
  exists s2, run s [OSelStart x2 y2; OSelTarget x1 y1] = Ok s2 /\
    selection_copy s2 = Ok (CText (sel_text [0] s (view_index s + y1) x1 (view_index s + y2) x2)).
Proof. intros. apply fresh_text; auto. right. auto. Qed.
Lemma solid_text pad s r1 c1 r2 c2 : solid s r1 c1 r2 c2 -> sel_text pad s r1 c1 r2 c2 = sel_text [0] s r1 c1 r2 c2.
Proof. apply solid_pad. Qed.

