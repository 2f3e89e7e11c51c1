(* Exact effect of cursor motion, tabs, and inserting/deleting lines and characters. *)
From Verif Require Import Base BaseProofs Screen ScreenInv ScreenSb ScreenScroll ScreenSpec ScreenOps.

Lemma Inv_moved s x y : Inv0 s -> 0 <= x <= s_sx s + 1 -> 0 <= y < s_sy s -> Inv (moved s x y).
Proof.
  intros H Hx Hy. split; [apply Inv0_moved; auto; lia|]. rewrite moved_cx, moved_cy.
  pose proof (env_moved s x y) as E. rewrite (e_sx _ _ E), (e_sy _ _ E). lia.
Qed.

(* Fields of inc_age s. *)
Lemma inc_fields s : s_sx (inc_age s) = s_sx s /\ s_sy (inc_age s) = s_sy s /\ s_mt (inc_age s) = s_mt s /\
  s_mb (inc_age s) = s_mb s /\ s_cx (inc_age s) = s_cx s /\ s_cy (inc_age s) = s_cy s /\
  s_flags (inc_age s) = s_flags s /\ s_tabs (inc_age s) = s_tabs s /\ s_ln (inc_age s) = s_ln s.
Proof. rewrite inc_age_eq. repeat split. Qed.
Ltac incs s := destruct (inc_fields s) as (INsx & INsy & INmt & INmb & INcx & INcy & INfl & INtabs & INln).

(* -- motion ------------------------------------------------------------------ *)
Definition to_y (s : screen) (y : Z) : Z :=
  if fl s F_ORIGIN then Z.min (u32 (s_mt s + y)) (s_mb s) else Z.min y (s_sy s - 1).
Lemma move_to_ok s x y : Inv s -> 0 <= x -> 0 <= y ->
  scr_move_to s x y = Ok (moved (inc_age s) (Z.min x (s_sx s - 1)) (to_y s y)) /\
  Inv (moved (inc_age s) (Z.min x (s_sx s - 1)) (to_y s y)).
Proof.
  intros (H & Hcx & Hcy) Hx Hy. pose proof H as H0. inv0 H0. incs s. unfold DIM in *.
  pose proof (Inv0_inc s H) as HI. destruct (clamp_x_ok (inc_age s) x HI Hx) as [C1 C2].
  pose proof (u32_range (s_mt s + y)).
  assert (E : scr_move_to s x y = Ok (moved (inc_age s) (Z.min x (s_sx s - 1)) (to_y s y))).
  { unfold scr_move_to, to_abs_y, to_y. rewrite C2, INsx. unfold fl. rewrite INfl.
    destruct (bit (s_flags s) F_ORIGIN).
    - rewrite INmt, INmb. rewrite move_cursor_ok by (auto; try lia; match goal with |- context [if ?b then _ else _] => destruct b end; lia).
      do 2 f_equal. destruct (s_mb s <? u32 (s_mt s + y)) eqn:E; lia.
    - rewrite INsy, u32_small by lia. rewrite move_cursor_ok by (auto; try lia; match goal with |- context [if ?b then _ else _] => destruct b end; lia).
      do 2 f_equal. destruct (s_sy s - 1 <? y) eqn:E; lia. }
  split; [exact E|]. apply Inv_moved; auto; unfold to_y; try lia. destruct (fl s F_ORIGIN); lia.
Qed.

(* First row of the area upward motion stays in. *)
Definition top_stop (s : screen) : Z := if s_mt s <=? s_cy s then s_mt s else 0.
(* Last row of the area downward motion stays in. *)
Definition bot_stop (s : screen) : Z := if s_cy s <=? s_mb s then s_mb s else s_sy s - 1.

Lemma move_up_ok s n (sc : bool) : Inv s -> 0 < n ->
  let i := inc_age s in
  if s_cy s - top_stop s <? n then
    if sc then exists s1, scrolled_down i s1 (Z.min (n - (s_cy s - top_stop s)) (s_mb s + 1 - s_mt s)) /\
       scr_move_up s n sc = Ok (moved s1 (s_cx s) (top_stop s)) /\ Inv (moved s1 (s_cx s) (top_stop s))
    else scr_move_up s n sc = Ok (moved i (s_cx s) (top_stop s)) /\ Inv (moved i (s_cx s) (top_stop s))
  else scr_move_up s n sc = Ok (moved i (s_cx s) (s_cy s - n)) /\ Inv (moved i (s_cx s) (s_cy s - n)).
Proof.
  intros (H & Hcx & Hcy) Hn. pose proof H as H0. inv0 H0. incs s. unfold DIM in *.
  pose proof (Inv0_inc s H) as HI. cbv zeta. unfold scr_move_up. replace (n =? 0) with false by lia.
  rewrite INmt, INcy, INcx. fold (top_stop s).
  assert (Ht : 0 <= top_stop s <= s_cy s) by (unfold top_stop; destruct (s_mt s <=? s_cy s) eqn:E; lia).
  rewrite (u32_small (s_cy s - top_stop s)) by lia.
  destruct (s_cy s - top_stop s <? n) eqn:E; [destruct sc|].
  - destruct (scroll_down_ok (inc_age s) (n - (s_cy s - top_stop s)) HI ltac:(lia)) as (s1 & E1 & P1).
    rewrite INmb, INmt in P1. exists s1. split; [exact P1|]. rewrite E1. cbn [bind].
    pose proof (sd_inv _ _ _ P1) as I1. pose proof (sd_env _ _ _ P1) as V1.
    rewrite (f_cx _ _ V1), INcx, move_cursor_ok by (auto; lia). split; [reflexivity|].
    apply Inv_moved; auto; rewrite ?(f_sx _ _ V1), ?(f_sy _ _ V1), ?INsx, ?INsy; lia.
  - cbn [bind]. rewrite INcx, move_cursor_ok by (auto; lia). split; [reflexivity|]. apply Inv_moved; auto; lia.
  - rewrite u32_small by lia. rewrite move_cursor_ok by (auto; lia). split; [reflexivity|]. apply Inv_moved; auto; lia.
Qed.

Lemma move_down_ok s n (sc : bool) : Inv s -> 0 < n ->
  let i := inc_age s in
  if bot_stop s - s_cy s <? n then
    if sc then exists s1, scrolled_up i s1 (Z.min (n - (bot_stop s - s_cy s)) (s_mb s + 1 - s_mt s)) /\
       scr_move_down s n sc = Ok (moved s1 (s_cx s) (bot_stop s)) /\ Inv (moved s1 (s_cx s) (bot_stop s))
    else scr_move_down s n sc = Ok (moved i (s_cx s) (bot_stop s)) /\ Inv (moved i (s_cx s) (bot_stop s))
  else scr_move_down s n sc = Ok (moved i (s_cx s) (s_cy s + n)) /\ Inv (moved i (s_cx s) (s_cy s + n)).
Proof.
  intros (H & Hcx & Hcy) Hn. pose proof H as H0. inv0 H0. incs s. unfold DIM in *.
  pose proof (Inv0_inc s H) as HI. cbv zeta. unfold scr_move_down. replace (n =? 0) with false by lia.
  rewrite INmb, INcy, INcx, INsy.
  assert (Ht : s_cy s <= bot_stop s < s_sy s) by (unfold bot_stop; destruct (s_cy s <=? s_mb s) eqn:E; lia).
  replace (if s_cy s <=? s_mb s then u32 (s_mb s + 1) else s_sy s) with (bot_stop s + 1).
  2:{ unfold bot_stop. rewrite u32_small by lia. destruct (s_cy s <=? s_mb s); lia. }
  replace (bot_stop s + 1 - s_cy s - 1) with (bot_stop s - s_cy s) by lia.
  replace (bot_stop s + 1 - 1) with (bot_stop s) by lia.
  rewrite (u32_small (bot_stop s - s_cy s)), (u32_small (bot_stop s)) by lia.
  destruct (bot_stop s - s_cy s <? n) eqn:E; [destruct sc|].
  - destruct (scroll_up_ok (inc_age s) (n - (bot_stop s - s_cy s)) HI ltac:(lia)) as (s1 & E1 & P1).
    rewrite INmb, INmt in P1. exists s1. split; [exact P1|]. rewrite E1. cbn [bind].
    pose proof (su_inv _ _ _ P1) as I1. pose proof (su_env _ _ _ P1) as V1.
    rewrite (f_cx _ _ V1), INcx, move_cursor_ok by (auto; lia). split; [reflexivity|].
    apply Inv_moved; auto; rewrite ?(f_sx _ _ V1), ?(f_sy _ _ V1), ?INsx, ?INsy; lia.
  - cbn [bind]. rewrite INcx, move_cursor_ok by (auto; lia). split; [reflexivity|]. apply Inv_moved; auto; lia.
  - rewrite u32_small by lia. rewrite move_cursor_ok by (auto; lia). split; [reflexivity|]. apply Inv_moved; auto; lia.
Qed.

Lemma move_left_ok s n : Inv s -> 0 < n ->
  let x := Z.max 0 (Z.min (s_cx s) (s_sx s - 1) - n) in
  scr_move_left s n = Ok (moved (inc_age s) x (s_cy s)) /\ Inv (moved (inc_age s) x (s_cy s)).
Proof.
  intros (H & Hcx & Hcy) Hn. pose proof H as H0. inv0 H0. incs s. unfold DIM in *.
  pose proof (Inv0_inc s H) as HI. cbv zeta. split; [|apply Inv_moved; auto; lia].
  unfold scr_move_left. replace (n =? 0) with false by lia. rewrite INcx, INcy.
  destruct (clamp_x_ok (inc_age s) (s_cx s) HI Icx) as [C1 C2]. rewrite C2, INsx.
  destruct (s_sx s <? n) eqn:E.
  - replace (_ <? _) with true by lia. rewrite move_cursor_ok by (auto; lia). do 2 f_equal. lia.
  - destruct (Z.min (s_cx s) (s_sx s - 1) <? n) eqn:E1; rewrite move_cursor_ok by (auto; lia); do 2 f_equal; lia.
Qed.
Lemma move_right_ok s n : Inv s -> 0 < n ->
  let x := Z.min (s_cx s + n) (s_sx s - 1) in
  scr_move_right s n = Ok (moved (inc_age s) x (s_cy s)) /\ Inv (moved (inc_age s) x (s_cy s)).
Proof.
  intros (H & Hcx & Hcy) Hn. pose proof H as H0. inv0 H0. incs s. unfold DIM in *.
  pose proof (Inv0_inc s H) as HI. cbv zeta. split; [|apply Inv_moved; auto; lia].
  unfold scr_move_right. replace (n =? 0) with false by lia. rewrite INcx, INcy, INsx.
  destruct (s_sx s <? n) eqn:E.
  - rewrite !u32_small by lia. replace (_ <=? _) with true by lia. rewrite move_cursor_ok by (auto; lia). do 2 f_equal. lia.
  - rewrite !u32_small by lia. destruct (s_sx s <=? n + s_cx s) eqn:E1; rewrite move_cursor_ok by (auto; lia); do 2 f_equal; lia.
Qed.
Lemma line_end_ok s : Inv s ->
  scr_line_end s = Ok (moved (inc_age s) (s_sx s - 1) (s_cy s)) /\ Inv (moved (inc_age s) (s_sx s - 1) (s_cy s)).
Proof.
  intros (H & Hcx & Hcy). pose proof H as H0. inv0 H0. incs s. unfold DIM in *.
  pose proof (Inv0_inc s H) as HI. split; [|apply Inv_moved; auto; lia].
  unfold scr_line_end. rewrite INsx, INcy, u32_small by lia. apply move_cursor_ok; auto; lia.
Qed.
Lemma line_home_ok s : Inv s ->
  scr_line_home s = Ok (moved (inc_age s) 0 (s_cy s)) /\ Inv (moved (inc_age s) 0 (s_cy s)).
Proof.
  intros (H & Hcx & Hcy). pose proof H as H0. inv0 H0. incs s. unfold DIM in *.
  pose proof (Inv0_inc s H) as HI. split; [|apply Inv_moved; auto; lia].
  unfold scr_line_home. rewrite INcy. apply move_cursor_ok; auto; lia.
Qed.

(* -- tabs -------------------------------------------------------------------- *)
Definition tstop (tabs : list bool) (k : Z) : bool := match znth tabs k with Some b => b | None => false end.
Lemma count_stops_app s a n m : count_stops s a (n + m) = count_stops s a n + count_stops s (a + Z.of_nat n) m.
Proof.
  revert a. induction n as [|n IH]; intros a.
  - cbn [Nat.add count_stops]. replace (a + Z.of_nat 0) with a by lia. lia.
  - cbn [Nat.add count_stops]. rewrite IH. replace (a + 1 + Z.of_nat n) with (a + Z.of_nat (S n)) by lia. lia.
Qed.
Lemma stops_split s a b c : a <= b <= c -> stops s a c = stops s a b + stops s b c.
Proof.
  intros H. unfold stops. replace (Z.to_nat (c - a)) with (Z.to_nat (b - a) + Z.to_nat (c - b))%nat by lia.
  rewrite count_stops_app. replace (a + Z.of_nat (Z.to_nat (b - a))) with b by lia. reflexivity.
Qed.
Lemma stops_nil s a b : b <= a -> stops s a b = 0.
Proof. intros H. unfold stops. replace (Z.to_nat (b - a)) with 0%nat by lia. reflexivity. Qed.
Lemma stops_one s a : stops s a (a + 1) = if is_stop s a then 1 else 0.
Proof. unfold stops. replace (Z.to_nat (a + 1 - a)) with 1%nat by lia. cbn [count_stops]. lia. Qed.
Lemma stops_pos s a b : 0 <= stops s a b.
Proof.
  unfold stops. generalize (Z.to_nat (b - a)). intros n. revert a. induction n; intros; cbn [count_stops]; [lia|].
  specialize (IHn (a + 1)). destruct (is_stop s a); lia.
Qed.
Lemma stops_none s a b : (forall k, a <= k < b -> is_stop s k = false) -> stops s a b = 0.
Proof.
  intros H. destruct (Z_lt_le_dec a b); [|now apply stops_nil]. unfold stops.
  remember (Z.to_nat (b - a)) as n. revert a l H Heqn. induction n; intros; [reflexivity|].
  cbn [count_stops]. rewrite H by lia. destruct (Z_lt_le_dec (a + 1) b).
  - rewrite IHn; auto; try lia. intros; apply H; lia.
  - replace n with 0%nat by lia. reflexivity.
Qed.

Lemma find_right_ok s n : forall j, 0 <= j -> j + Z.of_nat n <= zlen (s_tabs s) ->
  exists r, tab_find_right n (s_tabs s) j = Ok r /\ j <= r <= j + Z.of_nat n /\
    (forall k, j <= k < r -> is_stop s k = false) /\ (r < j + Z.of_nat n -> is_stop s r = true).
Proof.
  induction n as [|n IH]; intros j Hj Hn.
  - exists j. repeat split; intros; lia.
  - cbn [tab_find_right]. destruct (znth_some (s_tabs s) j) as [t Et]; [lia|]. rewrite (zget_ok _ _ _ Et). cbn [bind].
    assert (Hs : is_stop s j = t) by (unfold is_stop; now rewrite Et).
    destruct t.
    + exists j. repeat split; intros; try lia. exact Hs.
    + destruct (IH (j + 1)) as (r & Er & R1 & R2 & R3); try lia. exists r. split; [exact Er|].
      split; [lia|]. split.
      * intros k Hk. destruct (Z.eq_dec k j); [now subst|]. apply R2; lia.
      * intros; apply R3; lia.
Qed.

Lemma tab_right_loop s n : forall x, Inv0 s -> 0 <= x < 2147483648 ->
  exists r, loop_n (S n) (tab_right1 (s_sx s) (s_tabs s)) x = Ok r /\ 0 <= r < 2147483649 /\
   ((r < s_sx s /\ is_stop s r = true /\ x < r /\ stops s (x + 1) (r + 1) = Z.of_nat (S n)) \/
    (s_sx s - 1 <= r /\ stops s (x + 1) (s_sx s) < Z.of_nat (S n))).
Proof.
  induction n as [|n IH]; intros x H Hx; pose proof H as H0; inv0 H0; unfold DIM in *.
  all: assert (HB : exists j, tab_right1 (s_sx s) (s_tabs s) x = Ok (j, negb (s_sx s <=? j + 1)) /\ x < j < 2147483649 /\
     (j < s_sx s -> is_stop s j = true /\ stops s (x + 1) (j + 1) = 1) /\
     (s_sx s <= j -> stops s (x + 1) (s_sx s) = 0)).
  1,3: unfold tab_right1; rewrite u32_small by lia;
    destruct (Z_le_gt_dec (s_sx s) (x + 1));
    [ replace (Z.to_nat (s_sx s - (x + 1))) with 0%nat by lia; exists (x + 1); cbn [tab_find_right bind];
      rewrite u32_small by lia; split; [reflexivity|]; split; [lia|]; split; [lia|];
      intros; apply stops_nil; lia
    | destruct (find_right_ok s (Z.to_nat (s_sx s - (x + 1))) (x + 1)) as (r & Er & R1 & R2 & R3); [lia|lia|];
      rewrite Er; exists r; cbn [bind]; rewrite u32_small by lia; split; [reflexivity|]; split; [lia|]; split;
      [ intros Hr; split; [apply R3; lia|]; rewrite (stops_split s (x + 1) r (r + 1)) by lia;
        rewrite stops_one, R3, stops_none by (auto; lia); lia
      | intros Hr; apply stops_none; intros k Hk; apply R2; lia ] ].
  - destruct HB as (j & Ej & Rj & J1 & J2). cbn [loop_n]. rewrite Ej. cbn [bind]. exists j.
    split; [destruct (negb _); reflexivity|]. split; [lia|].
    destruct (Z_lt_le_dec j (s_sx s)).
    + left. destruct (J1 l) as [A B]. repeat split; auto; try lia.
    + right. rewrite J2 by lia. lia.
  - destruct HB as (j & Ej & Rj & J1 & J2).
    change (loop_n (S (S n)) (tab_right1 (s_sx s) (s_tabs s)) x) with
      (do r <- tab_right1 (s_sx s) (s_tabs s) x;
       let '(s', go) := r in if go : bool then loop_n (S n) (tab_right1 (s_sx s) (s_tabs s)) s' else Ok s').
    rewrite Ej. cbn [bind]. destruct (s_sx s <=? j + 1) eqn:Eb; cbn [negb].
    + exists j. split; [reflexivity|]. split; [lia|]. right. split; [lia|].
      destruct (Z_lt_le_dec j (s_sx s)).
      * destruct (J1 l) as [A B]. replace (s_sx s) with (j + 1) by lia. rewrite B. lia.
      * rewrite J2 by lia. lia.
    + destruct (J1 ltac:(lia)) as [A B].
      destruct (IH j H) as (r & Er & R1 & R2); [lia|]. exists r. split; [exact Er|]. split; [exact R1|].
      destruct R2 as [(R2 & R3 & R4 & R5)|(R2 & R3)].
      * left. repeat split; auto; try lia. rewrite (stops_split s (x + 1) (j + 1) (r + 1)) by lia. lia.
      * right. split; [exact R2|]. rewrite (stops_split s (x + 1) (j + 1) (s_sx s)) by lia. lia.
Qed.

Lemma stops_tabs s s' a b : s_tabs s' = s_tabs s -> stops s' a b = stops s a b.
Proof.
  intros H. unfold stops. generalize (Z.to_nat (b - a)). intros n. revert a.
  induction n; intros; cbn [count_stops]; [reflexivity|]. rewrite IHn. unfold is_stop. now rewrite H.
Qed.

Lemma tab_right_ok s n : Inv s -> 0 < n -> exists x,
  scr_tab_right s n = Ok (moved (inc_age s) x (s_cy s)) /\ Inv (moved (inc_age s) x (s_cy s)) /\
  (n <= stops s (s_cx s + 1) (s_sx s) ->
     s_cx s < x < s_sx s /\ is_stop s x = true /\ stops s (s_cx s + 1) (x + 1) = n) /\
  (stops s (s_cx s + 1) (s_sx s) < n -> x = s_sx s - 1).
Proof.
  intros (H & Hcx & Hcy) Hn. pose proof H as H0. inv0 H0. incs s. unfold DIM in *.
  pose proof (Inv0_inc s H) as HI. unfold scr_tab_right. replace (n =? 0) with false by lia.
  rewrite INcx, INcy, INtabs.
  replace (Z.to_nat n) with (S (Z.to_nat (n - 1))) by lia. rewrite INsx.
  destruct (tab_right_loop s (Z.to_nat (n - 1)) (s_cx s) H) as (r & Er & R1 & R2); [lia|].
  rewrite Er. cbn [bind]. replace (Z.of_nat (S (Z.to_nat (n - 1)))) with n in R2 by lia.
  destruct (clamp_x_ok (inc_age s) r HI ltac:(lia)) as [C1 C2]. rewrite INsx in *.
  exists (clamp_x (inc_age s) r). rewrite C2, move_cursor_ok by (auto; lia).
  split; [reflexivity|]. split; [apply Inv_moved; auto; lia|].
  destruct R2 as [(R2 & R3 & R4 & R5)|(R2 & R3)]; split; intros Hs.
  - replace (Z.min r (s_sx s - 1)) with r by lia. repeat split; auto; lia.
  - rewrite (stops_split s (s_cx s + 1) (r + 1) (s_sx s)) in Hs by lia.
    pose proof (stops_pos s (r + 1) (s_sx s)). lia.
  - lia.
  - lia.
Qed.

Lemma find_left_ok s n : forall j, j = Z.of_nat n -> j < zlen (s_tabs s) ->
  exists r, tab_find_left n (s_tabs s) j = Ok r /\ 0 <= r <= j /\
    (forall k, r < k <= j -> is_stop s k = false) /\ (0 < r -> is_stop s r = true).
Proof.
  induction n as [|n IH]; intros j Hj Hn.
  - exists j. repeat split; intros; lia.
  - cbn [tab_find_left]. destruct (znth_some (s_tabs s) j) as [t Et]; [lia|]. rewrite (zget_ok _ _ _ Et). cbn [bind].
    assert (Hs : is_stop s j = t) by (unfold is_stop; now rewrite Et).
    destruct t.
    + exists j. repeat split; intros; try lia. exact Hs.
    + destruct (IH (j - 1)) as (r & Er & R1 & R2 & R3); try lia. exists r. split; [exact Er|].
      split; [lia|]. split.
      * intros k Hk. destruct (Z.eq_dec k j); [now subst|]. apply R2; lia.
      * intros; apply R3; lia.
Qed.

Lemma tab_left_loop s n : forall x, 0 <= x < 2147483648 -> x <= zlen (s_tabs s) ->
  exists r, loop_n (S n) (tab_left1 (s_tabs s)) x = Ok r /\
   ((1 <= r < x /\ is_stop s r = true /\ stops s r x = Z.of_nat (S n)) \/
    (r = 0 /\ stops s 1 x < Z.of_nat (S n))).
Proof.
  induction n as [|n IH]; intros x Hx Hl.
  all: assert (HB : exists j, tab_left1 (s_tabs s) x = Ok (if j <=? 0 then (0, false) else (j, true)) /\ j < x /\
     (0 < j -> is_stop s j = true /\ stops s j x = 1) /\
     (j <= 0 -> stops s 1 x = 0)).
  1,3: unfold tab_left1; rewrite i32_small by lia;
    destruct (Z_le_gt_dec x 0);
    [ exists (x - 1); replace (Z.to_nat (x - 1)) with 0%nat by lia; cbn [tab_find_left bind];
      split; [reflexivity|]; split; [lia|]; split; [lia|]; intros; apply stops_nil; lia
    | destruct (find_left_ok s (Z.to_nat (x - 1)) (x - 1)) as (r & Er & R1 & R2 & R3); [lia|lia|];
      rewrite Er; exists r; cbn [bind]; split; [reflexivity|]; split; [lia|]; split;
      [ intros Hr; split; [apply R3; lia|]; rewrite (stops_split s r (r + 1) x) by lia;
        rewrite stops_one, R3, stops_none by (auto; try lia; intros; apply R2; lia); lia
      | intros Hr; apply stops_none; intros k Hk; apply R2; lia ] ].
  - destruct HB as (j & Ej & Rj & J1 & J2). cbn [loop_n]. rewrite Ej. cbn [bind].
    destruct (j <=? 0) eqn:E.
    + exists 0. split; [reflexivity|]. right. rewrite J2 by lia. lia.
    + exists j. split; [reflexivity|]. left. destruct (J1 ltac:(lia)). repeat split; auto; lia.
  - destruct HB as (j & Ej & Rj & J1 & J2).
    change (loop_n (S (S n)) (tab_left1 (s_tabs s)) x) with
      (do r <- tab_left1 (s_tabs s) x;
       let '(s', go) := r in if go : bool then loop_n (S n) (tab_left1 (s_tabs s)) s' else Ok s').
    rewrite Ej. cbn [bind]. destruct (j <=? 0) eqn:Eb.
    + exists 0. split; [reflexivity|]. right. rewrite J2 by lia. lia.
    + destruct (J1 ltac:(lia)) as [A B].
      destruct (IH j) as (r & Er & R2); [lia|lia|]. exists r. split; [exact Er|].
      destruct R2 as [(R2 & R3 & R4)|(R2 & R3)].
      * left. repeat split; auto; try lia. rewrite (stops_split s r j x) by lia. lia.
      * right. split; [exact R2|]. rewrite (stops_split s 1 j x) by lia. lia.
Qed.

(* The hazard of a backward tab: the ruler must reach the cursor column. *)
Definition tab_fits (s : screen) : Prop := s_cx s <= zlen (s_tabs s).
Lemma tab_left_ok s n : Inv s -> 0 < n -> tab_fits s -> exists x,
  scr_tab_left s n = Ok (moved (inc_age s) x (s_cy s)) /\ Inv (moved (inc_age s) x (s_cy s)) /\
  (n <= stops s 1 (s_cx s) -> 1 <= x < s_cx s /\ is_stop s x = true /\ stops s x (s_cx s) = n) /\
  (stops s 1 (s_cx s) < n -> x = 0).
Proof.
  intros (H & Hcx & Hcy) Hn Hf. pose proof H as H0. inv0 H0. incs s. unfold DIM in *.
  pose proof (Inv0_inc s H) as HI. unfold scr_tab_left. replace (n =? 0) with false by lia.
  rewrite INcx, INcy, INtabs.
  replace (Z.to_nat n) with (S (Z.to_nat (n - 1))) by lia.
  destruct (tab_left_loop s (Z.to_nat (n - 1)) (s_cx s)) as (r & Er & R2); [lia|exact Hf|].
  rewrite Er. cbn [bind]. replace (Z.of_nat (S (Z.to_nat (n - 1)))) with n in R2 by lia.
  exists r. rewrite move_cursor_ok by (auto; lia).
  split; [reflexivity|]. split; [apply Inv_moved; auto; lia|].
  destruct R2 as [(R2 & R3 & R4)|(R2 & R3)]; split; intros Hs; try lia.
  - repeat split; auto; lia.
  - rewrite (stops_split s 1 r (s_cx s)) in Hs by lia. pose proof (stops_pos s 1 r). lia.
Qed.
Lemma tab_left_ub s n : Inv s -> 0 < n -> ~ tab_fits s -> scr_tab_left s n = Ub.
Proof.
  intros (H & Hcx & Hcy) Hn Hf. unfold tab_fits in Hf. pose proof H as H0. inv0 H0. incs s. unfold DIM in *.
  unfold scr_tab_left. replace (n =? 0) with false by lia.
  rewrite INcx, INtabs. replace (Z.to_nat n) with (S (Z.to_nat (n - 1))) by lia. cbn [loop_n].
  assert (E : tab_left1 (s_tabs s) (s_cx s) = Ub); [|now rewrite E].
  unfold tab_left1. rewrite i32_small by lia.
  replace (Z.to_nat (s_cx s - 1)) with (S (Z.to_nat (s_cx s - 2))) by lia. cbn [tab_find_left].
  unfold zget. now rewrite znth_ge by lia.
Qed.

(* -- inserting and deleting lines --------------------------------------------- *)
Definition il_num (s : screen) (n : Z) : Z := Z.min n (s_mb s + 1 - s_cy s).
Lemma insert_lines_ok s n : Inv s -> 0 < n -> s_mt s <= s_cy s <= s_mb s ->
  let i := age_all (inc_age s) in
  exists ls', scr_insert_lines s n = Ok (set_cx (set_lines i ls') 0) /\ Inv (set_cx (set_lines i ls') 0) /\
    rows_down (blanked i) (s_cy s) (s_mb s) (il_num s n) (lines s) ls'.
Proof.
  intros (H & Hcx & Hcy) Hn Hin. pose proof H as H0. inv0 H0. incs s. unfold DIM in *.
  pose proof (Inv0_age_all _ (Inv0_inc s H)) as HI. cbv zeta. unfold scr_insert_lines.
  replace (n =? 0) with false by lia. replace ((_ <? _) || _) with false by lia.
  set (i := age_all (inc_age s)) in *.
  change (s_mb i) with (s_mb (inc_age s)). change (s_cy i) with (s_cy (inc_age s)). rewrite INmb, INcy.
  replace (s_mb s - s_cy s + 1) with (s_mb s + 1 - s_cy s) by lia. rewrite u32_small by lia.
  replace (if s_mb s + 1 - s_cy s <? n then s_mb s + 1 - s_cy s else n) with (il_num s n)
    by (unfold il_num; destruct (_ <? n) eqn:E; lia).
  assert (Hi : 0 < il_num s n <= s_mb s + 1 - s_cy s) by (unfold il_num; lia).
  assert (Li : lines i = lines s) by (subst i; lredg; reflexivity).
  assert (Si : s_sx i = s_sx s /\ s_sy i = s_sy s) by (split; [exact INsx|exact INsy]). destruct Si as [Si1 Si2].
  destruct (insert_rows_ok i (s_cy s) (s_mb s) (il_num s n) false HI ltac:(lia) ltac:(lia) Hi)
    as (ls1 & c & ls' & E & E2 & R & W).
  rewrite E. cbn [bind]. change (s_cy (set_lines i ls1)) with (s_cy (inc_age s)). rewrite INcy.
  assert (E3 : (if il_num s n <? s_mb s + 1 - s_cy s
      then do s' <- lines_move (set_lines i ls1) (u32 (s_cy s + il_num s n)) (s_cy s) (s_mb s + 1 - s_cy s - il_num s n);
           lines_copy s' (s_cy s') c
      else Ok (set_lines i ls1)) = Ok (set_lines i ls')).
  { destruct (il_num s n <? s_mb s + 1 - s_cy s); [|exact E2]. unfold lines_move in *.
    destruct (zmove _ _ _ _); [|discriminate]. cbn [bind] in *. rewrite set_lines_twice in *.
    change (s_cy (set_lines i a)) with (s_cy (inc_age s)). rewrite INcy. exact E2. }
  rewrite E3. cbn [bind]. exists ls'. rewrite Li in R. split; [reflexivity|]. split; [|exact R].
  assert (IL : Inv0 (set_lines i ls')) by (apply Inv0_set_lines; auto).
  split.
  - pose proof (Inv0_cursor _ 0 (s_cy s) IL ltac:(lia) Icy) as IC.
    replace (set_cx (set_lines i ls') 0) with (set_cy (set_cx (set_lines i ls') 0) (s_cy s)); [exact IC|].
    rewrite <- INcy. reflexivity.
  - change (s_cx (set_cx (set_lines i ls') 0)) with 0. change (s_sx (set_cx (set_lines i ls') 0)) with (s_sx i).
    change (s_cy (set_cx (set_lines i ls') 0)) with (s_cy (inc_age s)).
    change (s_sy (set_cx (set_lines i ls') 0)) with (s_sy i). lia.
Qed.

Lemma delete_lines_ok s n : Inv s -> 0 < n -> s_mt s <= s_cy s <= s_mb s ->
  let i := age_all (inc_age s) in
  exists ls', scr_delete_lines s n = Ok (set_cx (set_lines i ls') 0) /\ Inv (set_cx (set_lines i ls') 0) /\
    rows_up (blanked i) (s_cy s) (s_mb s) (il_num s n) (lines s) ls'.
Proof.
  intros (H & Hcx & Hcy) Hn Hin. pose proof H as H0. inv0 H0. incs s. unfold DIM in *.
  pose proof (Inv0_age_all _ (Inv0_inc s H)) as HI. cbv zeta. unfold scr_delete_lines.
  replace (n =? 0) with false by lia. replace ((_ <? _) || _) with false by lia.
  set (i := age_all (inc_age s)) in *.
  change (s_mb i) with (s_mb (inc_age s)). change (s_cy i) with (s_cy (inc_age s)). rewrite INmb, INcy.
  replace (s_mb s - s_cy s + 1) with (s_mb s + 1 - s_cy s) by lia. rewrite u32_small by lia.
  replace (if s_mb s + 1 - s_cy s <? n then s_mb s + 1 - s_cy s else n) with (il_num s n)
    by (unfold il_num; destruct (_ <? n) eqn:E; lia).
  assert (Hi : 0 < il_num s n <= s_mb s + 1 - s_cy s) by (unfold il_num; lia).
  assert (Li : lines i = lines s) by (subst i; lredg; reflexivity).
  assert (Si : s_sx i = s_sx s /\ s_sy i = s_sy s) by (split; [exact INsx|exact INsy]). destruct Si as [Si1 Si2].
  destruct (delete_rows_ok i (s_cy s) (s_mb s) (il_num s n) HI ltac:(lia) ltac:(lia) Hi)
    as (ls1 & c & ls' & E & E2 & R & W).
  rewrite E. cbn [bind]. change (s_cy (set_lines i ls1)) with (s_cy (inc_age s)). rewrite INcy.
  assert (E3 : (if il_num s n <? s_mb s + 1 - s_cy s
      then do s' <- lines_move (set_lines i ls1) (s_cy s) (u32 (s_cy s + il_num s n)) (s_mb s + 1 - s_cy s - il_num s n);
           lines_copy s' (u32 (s_cy s' + (s_mb s + 1 - s_cy s - il_num s n))) c
      else Ok (set_lines i ls1)) = Ok (set_lines i ls')).
  { destruct (il_num s n <? s_mb s + 1 - s_cy s); [|exact E2]. unfold lines_move in *.
    destruct (zmove _ _ _ _); [|discriminate]. cbn [bind] in *. rewrite set_lines_twice in *.
    change (s_cy (set_lines i a)) with (s_cy (inc_age s)). rewrite INcy. exact E2. }
  rewrite E3. cbn [bind]. exists ls'. rewrite Li in R. split; [reflexivity|]. split; [|exact R].
  assert (IL : Inv0 (set_lines i ls')) by (apply Inv0_set_lines; auto).
  split.
  - pose proof (Inv0_cursor _ 0 (s_cy s) IL ltac:(lia) Icy) as IC.
    replace (set_cx (set_lines i ls') 0) with (set_cy (set_cx (set_lines i ls') 0) (s_cy s)); [exact IC|].
    rewrite <- INcy. reflexivity.
  - change (s_cx (set_cx (set_lines i ls') 0)) with 0. change (s_sx (set_cx (set_lines i ls') 0)) with (s_sx i).
    change (s_cy (set_cx (set_lines i ls') 0)) with (s_cy (inc_age s)).
    change (s_sy (set_cx (set_lines i ls') 0)) with (s_sy i). lia.
Qed.

(* -- inserting and deleting characters ----------------------------------------- *)
Definition ins_cells (b : cell) (x n w : Z) (cs : list cell) : list cell :=
  mapi (fun k c => if (x <=? k) && (k <? x + n) then b
                   else if (x + n <=? k) && (k <? w) then match znth cs (k - n) with Some c' => c' | None => c end
                   else c) cs.
Definition del_cells (b : cell) (x n w : Z) (cs : list cell) : list cell :=
  mapi (fun k c => if (w - n <=? k) && (k <? w) then b
                   else if (x <=? k) && (k <? w - n) then match znth cs (k + n) with Some c' => c' | None => c end
                   else c) cs.
Definition chars_s (s : screen) : screen := cursor_in (age_all (inc_age s)).
Definition ch_num (s : screen) (n : Z) : Z := Z.min n (s_sx s - Z.min (s_cx s) (s_sx s - 1)).
Definition char_edit (s : screen) (f : list cell -> list cell) : screen :=
  set_lines (chars_s s) (zupd (lines s) (s_cy s) (fun l => set_cells l (f (l_cells l)))).

Lemma chars_s_ok s : Inv s -> Inv (chars_s s) /\ s_cx (chars_s s) = Z.min (s_cx s) (s_sx s - 1) /\
  s_cy (chars_s s) = s_cy s /\ s_sx (chars_s s) = s_sx s /\ lines (chars_s s) = lines s.
Proof.
  intros (H & Hcx & Hcy). pose proof H as H0. inv0 H0. incs s.
  pose proof (Inv0_age_all _ (Inv0_inc s H)) as HI. unfold chars_s, cursor_in.
  set (i := age_all (inc_age s)) in *. change (s_cx i) with (s_cx (inc_age s)). rewrite INcx.
  destruct (clamp_x_ok i (s_cx s) HI Icx) as [C1 C2].
  set (s1 := set_cx i (clamp_x i (s_cx s))). change (s_cy s1) with (s_cy (inc_age s)). rewrite INcy.
  change (clamp_y s1 (s_cy s)) with (clamp_y i (s_cy s)).
  destruct (clamp_y_ok i (s_cy s) HI Icy) as [D1 D2].
  change (s_sy i) with (s_sy (inc_age s)) in *. change (s_sx i) with (s_sx (inc_age s)) in *. rewrite INsx, INsy in *.
  split; [split; [apply Inv0_cursor; auto; lia|]|].
  - change (s_cx (set_cy s1 (clamp_y i (s_cy s)))) with (clamp_x i (s_cx s)).
    change (s_sx (set_cy s1 (clamp_y i (s_cy s)))) with (s_sx (inc_age s)).
    change (s_cy (set_cy s1 (clamp_y i (s_cy s)))) with (clamp_y i (s_cy s)).
    change (s_sy (set_cy s1 (clamp_y i (s_cy s)))) with (s_sy (inc_age s)). lia.
  - change (s_cx (set_cy s1 (clamp_y i (s_cy s)))) with (clamp_x i (s_cx s)).
    change (s_cy (set_cy s1 (clamp_y i (s_cy s)))) with (clamp_y i (s_cy s)).
    change (s_sx (set_cy s1 (clamp_y i (s_cy s)))) with (s_sx (inc_age s)).
    change (lines (set_cy s1 (clamp_y i (s_cy s)))) with (lines (inc_age s)).
    split; [lia|]. split; [lia|]. split; [lia|]. apply lines_inc_age.
Qed.

Lemma Inv_char_edit s f : Inv s -> (forall cs, length (f cs) = length cs) -> Inv (char_edit s f).
Proof.
  intros H Hf. destruct (chars_s_ok s H) as ((I & Ix & Iy) & C1 & C2 & C3 & C4).
  split; [|exact (conj Ix Iy)]. apply Inv0_set_lines; auto. rewrite <- C4. apply lines_wf_zupd; [now apply inv_lines|].
  intros l [W1 W2]. split; cbn [set_cells l_cells l_sbid]; auto. now rewrite Hf.
Qed.

Lemma upd_row_ok s y g h : 0 <= y < zlen (lines s) ->
  (forall l, znth (lines s) y = Some l -> g (l_cells l) = Ok (h (l_cells l))) ->
  upd_line s y (on_cells g) = Ok (set_lines s (zupd (lines s) y (fun l => set_cells l (h (l_cells l))))).
Proof.
  intros Hy Hg. destruct (znth_some (lines s) y Hy) as [l El].
  erewrite upd_line_ok; [|exact El|unfold on_cells; rewrite (Hg l El); reflexivity].
  do 2 f_equal. exact (zupd_const (lines s) y l (fun l => set_cells l (h (l_cells l))) El).
Qed.

Lemma insert_chars_ok s n : Inv s -> 0 < n ->
  let s' := char_edit s (ins_cells (blank (chars_s s)) (Z.min (s_cx s) (s_sx s - 1)) (ch_num s n) (s_sx s)) in
  scr_insert_chars s n = Ok s' /\ Inv s'.
Proof.
  intros HI Hn. cbv zeta. split; [|apply Inv_char_edit; auto; intros; apply length_mapi].
  destruct (chars_s_ok s HI) as ((I & Ix & Iy) & C1 & C2 & C3 & C4). destruct HI as (H & Hcx & Hcy).
  pose proof H as H0. inv0 H0. pose proof I as I0. unfold DIM in *. unfold scr_insert_chars.
  replace (_ || _) with false by lia. fold (chars_s s). unfold char_edit. set (c := chars_s s) in *.
  rewrite C1, C2, C3. set (x := Z.min (s_cx s) (s_sx s - 1)). rewrite (u32_small (s_sx s - x)) by lia.
  replace (if s_sx s - x <? n then s_sx s - x else n) with (ch_num s n)
    by (unfold ch_num; destruct (_ <? n) eqn:E; lia).
  assert (Hm : 0 < ch_num s n <= s_sx s - x) by (unfold ch_num; lia). rewrite <- C4.
  pose proof (inv_lines c I) as [LL LF]. pose proof (i_ln _ I) as Ln. pose proof (i_cy _ I).
  apply upd_row_ok; [lia|]. intros l El. pose proof (Forall_get _ _ _ _ LF El) as [W1 _]. rewrite C3 in W1.
  rewrite (u32_small (x + ch_num s n)) by lia.
  destruct (s_sx s - x - ch_num s n =? 0) eqn:E.
  - cbn [bind]. rewrite fill_ok by lia. f_equal. apply znth_ext'. intros k. unfold filled, ins_cells. rewrite !znth_mapi.
    destruct (znth (l_cells l) k); [|reflexivity]. cbn [option_map].
    destruct ((x <=? k) && (k <? x + ch_num s n)); [reflexivity|]. replace (_ && _) with false by lia. reflexivity.
  - rewrite zmove_ok by lia. cbn [bind]. rewrite fill_ok by (rewrite ?length_move; lia).
    f_equal. apply znth_ext'. intros k. rewrite znth_filled. unfold ins_cells.
    rewrite znth_mapi. rewrite znth_move by lia.
    destruct (znth (l_cells l) k) as [c0|] eqn:Ek; cbn [option_map].
    2:{ apply znth_None_range in Ek. replace ((x <=? k) && _) with false by lia.
        replace (_ && _) with false by lia. reflexivity. }
    apply znth_Some_range in Ek.
    destruct ((x <=? k) && (k <? x + ch_num s n)) eqn:E1.
    + replace (_ && _) with false by lia. reflexivity.
    + replace (k <? x + ch_num s n + (s_sx s - x - ch_num s n)) with (k <? s_sx s) by lia.
      destruct ((x + ch_num s n <=? k) && (k <? s_sx s)) eqn:E2; [|reflexivity].
      replace (k - (x + ch_num s n) + x) with (k - ch_num s n) by lia.
      replace (x + (k - (x + ch_num s n))) with (k - ch_num s n) by lia.
      destruct (znth_some (l_cells l) (k - ch_num s n)) as [c1 Ec1]; [lia|]. now rewrite Ec1.
Qed.

Lemma delete_chars_ok s n : Inv s -> 0 < n ->
  let s' := char_edit s (del_cells (blank (chars_s s)) (Z.min (s_cx s) (s_sx s - 1)) (ch_num s n) (s_sx s)) in
  scr_delete_chars s n = Ok s' /\ Inv s'.
Proof.
  intros HI Hn. cbv zeta. split; [|apply Inv_char_edit; auto; intros; apply length_mapi].
  destruct (chars_s_ok s HI) as ((I & Ix & Iy) & C1 & C2 & C3 & C4). destruct HI as (H & Hcx & Hcy).
  pose proof H as H0. inv0 H0. pose proof I as I0. unfold DIM in *. unfold scr_delete_chars.
  replace (_ || _) with false by lia. fold (chars_s s). unfold char_edit. set (c := chars_s s) in *.
  rewrite C1, C2, C3. set (x := Z.min (s_cx s) (s_sx s - 1)). rewrite (u32_small (s_sx s - x)) by lia.
  replace (if s_sx s - x <? n then s_sx s - x else n) with (ch_num s n)
    by (unfold ch_num; destruct (_ <? n) eqn:E; lia).
  assert (Hm : 0 < ch_num s n <= s_sx s - x) by (unfold ch_num; lia). rewrite <- C4.
  pose proof (inv_lines c I) as [LL LF]. pose proof (i_ln _ I) as Ln. pose proof (i_cy _ I).
  apply upd_row_ok; [lia|]. intros l El. pose proof (Forall_get _ _ _ _ LF El) as [W1 _]. rewrite C3 in W1.
  rewrite (u32_small (x + ch_num s n)) by lia.
  replace (x + (s_sx s - x - ch_num s n) + ch_num s n) with (s_sx s) by lia.
  replace (x + (s_sx s - x - ch_num s n)) with (s_sx s - ch_num s n) by lia.
  destruct (s_sx s - x - ch_num s n =? 0) eqn:E.
  - cbn [bind]. rewrite fill_ok by lia. f_equal. apply znth_ext'. intros k. unfold filled, del_cells. rewrite !znth_mapi.
    destruct (znth (l_cells l) k); [|reflexivity]. cbn [option_map].
    destruct (_ && _); [reflexivity|]. replace ((x <=? k) && _) with false by lia. reflexivity.
  - rewrite zmove_ok by lia. cbn [bind]. rewrite fill_ok by (rewrite ?length_move; lia).
    f_equal. apply znth_ext'. intros k. rewrite znth_filled. unfold del_cells.
    rewrite znth_mapi. rewrite znth_move by lia.
    destruct (znth (l_cells l) k) as [c0|] eqn:Ek; cbn [option_map].
    2:{ apply znth_None_range in Ek. replace ((s_sx s - ch_num s n <=? k) && _) with false by lia.
        replace (_ && _) with false by lia. reflexivity. }
    apply znth_Some_range in Ek.
    destruct ((s_sx s - ch_num s n <=? k) && (k <? s_sx s)) eqn:E1.
    + replace ((x <=? k) && _) with false by lia. reflexivity.
    + replace (k <? x + (s_sx s - x - ch_num s n)) with (k <? s_sx s - ch_num s n) by lia.
      destruct ((x <=? k) && (k <? s_sx s - ch_num s n)) eqn:E2; [|reflexivity].
      replace (x + ch_num s n + (k - x)) with (k + ch_num s n) by lia.
      replace (k - x + (x + ch_num s n)) with (k + ch_num s n) by lia.
      destruct (znth_some (l_cells l) (k + ch_num s n)) as [c1 Ec1]; [lia|]. now rewrite Ec1.
Qed.
