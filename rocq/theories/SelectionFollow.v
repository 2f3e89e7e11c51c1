(* What happens to the end points of a selection when text moves. *)
From Verif Require Import Base BaseProofs Screen ScreenInv ScreenSb ScreenScroll ScreenSpec ScreenOps ScreenMove ScreenCtl ScreenResize ScreenSafe ScreenHist ScreenRz.
From Verif Require Import Selection SelectionSpec SelectionProofs.

Lemma row_same s s' r : s_sb s' = s_sb s -> lines s' = lines s -> s_sy s' = s_sy s -> row s' r = row s r.
Proof. intros A B C. unfold row, text_rows. now rewrite A, B, C. Qed.
Lemma end_row_same s s' p r : s_sb s' = s_sb s -> s_sy s' = s_sy s -> end_row s' p r <-> end_row s p r.
Proof. intros A C. unfold end_row. now rewrite A, C. Qed.
Lemma end_row_cases s p r : Inv0 s -> end_row s p r <->
  p_line p = Some (first_id s + r) /\ 0 <= r < zlen (s_sb s) \/ p_line p = None /\ 0 <= p_y p < s_sy s /\ r = zlen (s_sb s) + p_y p.
Proof.
  intros H. unfold end_row. destruct (p_line p) as [k|] eqn:E; split.
  - intros (l & El & Ek). left. destruct (from_line_at s r l k H El Ek) as (_ & -> & R). auto.
  - intros [(A & B)|(A & _)]; [|discriminate]. destruct (znth_some (s_sb s) r) as [l El]; [lia|].
    exists l. split; [exact El|]. rewrite (i_sbid _ H _ _ El). unfold first_id in A. congruence.
  - intros (A & B). right. auto.
  - intros [(A & _)|(A & B & C)]; [discriminate|]. tauto.
Qed.
Lemma row_lines s y : 0 <= y < s_sy s -> row s (zlen (s_sb s) + y) = match znth (lines s) y with Some l => map c_ch (l_cells l) | None => [] end.
Proof.
  intros Hy. destruct (znth (lines s) y) eqn:E; [now apply row_scr|]. unfold row, text_rows. rewrite znth_map, znth_app.
  replace (_ <? zlen (s_sb s)) with false by lia. replace (_ + y - _) with y by lia.
  rewrite znth_firstn. destruct (_ <? _); [rewrite E|]; reflexivity.
Qed.
Lemma row_sbs s r : r < zlen (s_sb s) -> row s r = match znth (s_sb s) r with Some l => map c_ch (l_cells l) | None => [] end.
Proof.
  intros Hr. unfold row, text_rows. rewrite znth_map, znth_app. replace (_ <? zlen (s_sb s)) with true by lia.
  destruct (znth (s_sb s) r); reflexivity.
Qed.
Lemma mapi_linked ls : forall id i, option_map (fun l => map c_ch (l_cells l)) (znth (mapi_from id linked ls) i) = option_map (fun l => map c_ch (l_cells l)) (znth ls i).
Proof.
  intros id i. unfold znth. destruct (i <? 0); [reflexivity|]. generalize (Z.to_nat i) as n. revert id.
  induction ls as [|l ls IH]; intros id [|n]; cbn; auto.
Qed.
Lemma row_opt s i l : row s i = match option_map (fun l => map c_ch (l_cells l)) l with Some x => x | None => [] end <->
  row s i = match l with Some l => map c_ch (l_cells l) | None => [] end.
Proof. destruct l; cbn; tauto. Qed.

(* -- scrolling up ------------------------------------------------------------------ *)
Lemma up_rows_text s s' m r : Inv0 s -> fl s F_ALT = false -> s_mt s = 0 -> 0 < m <= s_mb s + 1 -> scrolled_up s s' m ->
  let d := Z.max 0 (zlen (s_sb s) + m - s_sbmax s) in
  zlen (s_sb s') = zlen (s_sb s) + m - d /\ (d <= r <= zlen (s_sb s) + s_mb s -> row s' (r - d) = row s r).
Proof.
  intros H A T M U d. pose proof (su_sb _ _ _ U) as S. rewrite A in S. pose proof (su_inv _ _ _ U) as H'. pose proof (su_env _ _ _ U) as V.
  pose proof (i_sbn _ H). pose proof (i_sbmax _ H). pose proof (i_mb _ H). pose proof (i_ln _ H). pose proof (inv_lines s H) as [LL _].
  assert (LZ : zlen (zslice (lines s) (s_mt s) m) = m) by (rewrite length_zslice; lia).
  assert (L : zlen (s_sb s') = zlen (s_sb s) + m - d).
  { rewrite (us_sb _ _ _ S). unfold sb_after. rewrite length_keep_last by lia. rewrite app_length, length_mapi_from. unfold d. lia. }
  split; [exact L|]. intros R.
  destruct (Z.ltb_spec (r - d) (zlen (s_sb s'))) as [K|K].
  - rewrite row_sbs by exact K. rewrite (us_sb _ _ _ S). unfold sb_after. rewrite znth_keep_last by lia.
    rewrite app_length, length_mapi_from. replace (r - d + _) with r by (unfold d in *; lia). rewrite znth_app.
    destruct (Z.ltb_spec r (zlen (s_sb s))) as [K1|K1]; [symmetry; now apply row_sbs|].
    pose proof (mapi_linked (zslice (lines s) (s_mt s) m) (s_sbid s + 1) (r - zlen (s_sb s))) as E.
    replace r with (zlen (s_sb s) + (r - zlen (s_sb s))) at 2 by lia. rewrite row_lines by lia.
    rewrite znth_zslice in E by lia. replace (_ <? m) with true in E by lia. rewrite T in *. rewrite Z.add_0_l in E.
    destruct (znth (mapi_from _ _ _) _), (znth (lines s) _); cbn in E; congruence.
  - replace (r - d) with (zlen (s_sb s') + (r - zlen (s_sb s) - m)) by lia. 
    replace r with (zlen (s_sb s) + (r - zlen (s_sb s))) at 2 by lia. rewrite !row_lines by (rewrite ?(f_sy _ _ V); lia).
    rewrite (su_rows _ _ _ U). unfold row_up. rewrite T. replace (_ && _) with true by lia.
    replace (_ <=? s_mb s) with true by lia. replace (r - zlen (s_sb s) - m + m) with (r - zlen (s_sb s)) by lia. reflexivity.
Qed.
Lemma up_end s s' m p p' r : Inv0 s -> fl s F_ALT = false -> s_mt s = 0 -> 0 < m <= s_mb s + 1 -> scrolled_up s s' m ->
  s_sela s = true -> same_end s s' p p' -> end_row s p r -> r <= zlen (s_sb s) + s_mb s ->
  stays s s' p' r (Z.max 0 (zlen (s_sb s) + m - s_sbmax s)) 0 /\ p_x p' = p_x p.
Proof.
  intros H A T M U Se P E R. destruct (up_rows_text s s' m r H A T M U) as [L Q]. set (d := Z.max 0 (zlen (s_sb s) + m - s_sbmax s)) in *.
  pose proof (su_inv _ _ _ U) as H'. pose proof (su_env _ _ _ U) as V. pose proof (su_sb _ _ _ U) as S. rewrite A in S.
  pose proof (i_sbn _ H). pose proof (i_sbmax _ H). pose proof (i_mb _ H). pose proof (i_sy _ H) as [_ Sy]. unfold DIM in Sy.
  apply end_row_cases in E; [|exact H].
  assert (Y : p_line p = None -> p_y p < 2147483648) by (intros X; destruct E as [(E & _)|E]; [congruence|lia]).
  pose proof (su_sel _ _ _ U A Se p p' P Y) as F. unfold sel_follow in F. unfold stays. rewrite Z.add_0_r.
  assert (I : s_sbmax s <> 0 -> first_id s' = first_id s + d /\ s_sbid s' = s_sbid s + m).
  { intros N. pose proof (us_id _ _ _ S) as K. replace (s_sbmax s =? 0) with false in K by lia. unfold first_id. lia. }
  assert (Z0 : s_sbmax s = 0 -> zlen (s_sb s) = 0 /\ zlen (s_sb s') = 0).
  { intros N. lia. }
  destruct E as [(E & Er)|(E & Ey & Er)].
  - rewrite E in F. unfold live in F. destruct I as [I1 I2]; [lia|]. rewrite I1, I2 in F. unfold first_id at 3 in F.
    replace ((first_id s + d <=? first_id s + r) && _) with (negb (r <? d)) in F by (unfold first_id; lia).
    destruct (Z.ltb_spec r d) as [K|K]; cbn [negb] in F; rewrite F.
    + split; [split|]; reflexivity.
    + split; [|reflexivity]. split; [|apply Q; lia]. apply end_row_cases; [exact H'|]. left. rewrite I1, E. split; [f_equal; lia|lia].
  - rewrite E in F. replace (p_y p <? 0) with false in F by lia.
    destruct (Z.leb_spec m (p_y p)) as [K|K].
    + replace (r <? d) with false by lia. rewrite F. split; [|reflexivity]. split; [|apply Q; lia]. apply end_row_cases; [exact H'|].
      right. cbn [p_line p_y]. rewrite (f_sy _ _ V). split; [reflexivity|lia].
    + destruct (Z.eqb_spec (s_sbmax s) 0) as [M0|M0].
      * destruct (Z0 M0) as [Z1 Z2]. unfold live, first_id in F. replace (_ && _) with false in F by lia. replace (r <? d) with true by lia.
        rewrite F. split; [split|]; reflexivity.
      * destruct (I M0) as [I1 I2]. unfold live in F. rewrite I1, I2 in F.
        replace (s_sbid s + m + 1 + (p_y p - m)) with (first_id s + r) in F by (unfold first_id; lia).
        replace ((first_id s + d <=? first_id s + r) && _) with (negb (r <? d)) in F by (unfold first_id; lia).
        destruct (Z.ltb_spec r d) as [J|J]; cbn [negb] in F; rewrite F.
        -- split; [split|]; reflexivity.
        -- split; [|reflexivity]. split; [|apply Q; lia]. apply end_row_cases; [exact H'|]. left. cbn [p_line]. rewrite I1. split; [f_equal; lia|lia].
Qed.
Lemma up_top s s' m p p' : Inv0 s -> fl s F_ALT = false -> scrolled_up s s' m -> s_sela s = true -> same_end s s' p p' -> on_top p -> p' = p.
Proof.
  intros H A U Se P (T1 & T2). pose proof (su_sel _ _ _ U A Se p p' P) as F. rewrite F.
  - rewrite T1, T2. reflexivity.
  - intros _. rewrite T2. reflexivity.
Qed.

(* -- calls that leave the text alone ------------------------------------------------- *)
Record same_text (s s' : screen) : Prop := mkST {
  st_sb : s_sb s' = s_sb s; st_sy : s_sy s' = s_sy s; st_sel1 : s_sel1 s' = s_sel1 s; st_sel2 : s_sel2 s' = s_sel2 s;
  st_sela : s_sela s' = s_sela s; st_rows : forall r, row s' r = row s r
}.
Lemma same_text_trans a b c : same_text a b -> same_text b c -> same_text a c.
Proof. intros A B. destruct A, B. constructor; try congruence; try (intros r; now rewrite st_rows1, st_rows0). Qed.
Lemma same_text_inc s : same_text s (inc_age s).
Proof. rewrite inc_age_eq. constructor; reflexivity. Qed.
Lemma touch_chars ls y x a : map (fun l => map c_ch (l_cells l)) (touch ls y x a) = map (fun l => map c_ch (l_cells l)) ls.
Proof.
  apply znth_ext'. intros i. rewrite !znth_map. unfold touch. rewrite znth_zupd. destruct (i =? y); [|reflexivity].
  destruct (znth ls i) as [l|]; cbn; [|reflexivity]. f_equal. apply znth_ext'. intros j. rewrite !znth_map, znth_zupd.
  destruct (j =? x); [|reflexivity]. destruct (znth (l_cells l) j); reflexivity.
Qed.
Lemma row_chars s s' r : s_sb s' = s_sb s -> s_sy s' = s_sy s ->
  map (fun l => map c_ch (l_cells l)) (lines s') = map (fun l => map c_ch (l_cells l)) (lines s) -> row s' r = row s r.
Proof. intros A B C. unfold row, text_rows. now rewrite A, B, !map_app, <- !firstn_map, C. Qed.
Lemma same_text_touched s : same_text s (touched s).
Proof.
  unfold touched. constructor; sredg; try reflexivity. intros r. apply row_chars; sredg; try reflexivity. rewrite lines_set_lines. apply touch_chars.
Qed.
Lemma same_text_cur s x y : same_text s (set_cy (set_cx s x) y).
Proof. constructor; reflexivity. Qed.
Lemma same_text_moved s x y : same_text s (moved s x y).
Proof.
  unfold moved. destruct (fl s F_HIDE); [apply same_text_cur|]. destruct (_ && _); [constructor; reflexivity|].
  eapply same_text_trans; [|apply same_text_touched]. eapply same_text_trans; [apply same_text_touched|apply same_text_cur].
Qed.
Lemma stays_between a b c d p' r n k : same_text a b -> same_text c d -> stays b c p' r n k -> stays a d p' r n k.
Proof.
  intros [] []. unfold stays. destruct (r <? n); [auto|]. intros (E & F). split.
  - apply (end_row_same c d); auto.
  - rewrite st_rows1, F, st_rows0. reflexivity.
Qed.

Lemma scroll_up_end s n s' p p' r : Inv s -> fl s F_ALT = false -> s_mt s = 0 -> s_sela s = true -> u32_arg n -> 0 < n ->
  step s (OScrollUp n) = Ok s' -> same_end s s' p p' -> end_row s p r -> r <= zlen (s_sb s) + s_mb s ->
  stays s s' p' r (Z.max 0 (zlen (s_sb s) + Z.min n (s_mb s + 1) - s_sbmax s)) 0 /\ p_x p' = p_x p.
Proof.
  intros H A T Se Hn Hp E P R L. cbn [step] in E. unfold scr_scroll_up in E. replace (n =? 0) with false in E by lia.
  destruct (scroll_call_up s n H Hp) as (s1 & E1 & U & I). assert (s1 = s') by congruence. subst s1.
  pose proof (Inv_inc s H) as (HI & _). pose proof (same_text_inc s) as ST. destruct ST as [Q1 Q2 Q3 Q4 Q5 Q6]. rewrite T, Z.sub_0_r in U. pose proof (i_mt _ (proj1 H)).
  destruct (up_end (inc_age s) s' (Z.min n (s_mb s + 1)) p p' r HI) as [W X]; rewrite inc_age_eq in *; auto.
  change (s_mb (set_cnt (set_rst s (next_rst s)) (next_cnt s))) with (s_mb s). lia.
Qed.
Lemma newline_end s s' p p' r : Inv s -> fl s F_ALT = false -> s_mt s = 0 -> s_sela s = true -> s_cy s = s_mb s ->
  step s ONewline = Ok s' -> same_end s s' p p' -> end_row s p r -> r <= zlen (s_sb s) + s_mb s ->
  stays s s' p' r (Z.max 0 (zlen (s_sb s) + 1 - s_sbmax s)) 0 /\ p_x p' = p_x p.
Proof.
  intros H A T Se Cy E P R L. cbn [step] in E. unfold scr_newline in E.
  pose proof (move_down_ok (inc_age s) 1 true (Inv_inc s H) ltac:(lia)) as M. cbv zeta in M.
  set (i := inc_age (inc_age s)) in *.
  assert (B : bot_stop (inc_age s) = s_mb s) by (unfold bot_stop; rewrite inc_age_eq; sredg; replace (s_cy s <=? s_mb s) with true by lia; reflexivity).
  rewrite B in M. replace (s_cy (inc_age s)) with (s_cy s) in M by (rewrite inc_age_eq; reflexivity).
  replace (s_mb s - s_cy s <? 1) with true in M by lia. destruct M as (s1 & U & E1 & I1). rewrite E1 in E. cbn [bind] in E.
  destruct (line_home_ok _ I1) as [E2 I2]. rewrite E2 in E. clear E1 E2.
  set (m1 := moved s1 (s_cx (inc_age s)) (s_mb s)) in *. set (m2 := moved (inc_age m1) 0 (s_cy m1)) in *. assert (m2 = s') by congruence. subst s'.
  replace (Z.min (1 - (s_mb s - s_cy s)) (s_mb (inc_age s) + 1 - s_mt (inc_age s))) with 1 in U
    by (rewrite inc_age_eq; sredg; pose proof (i_mt _ (proj1 H)); lia).
  assert (S1 : same_text s i) by (eapply same_text_trans; apply same_text_inc).
  assert (S2 : same_text s1 m2).
  { eapply same_text_trans; [apply same_text_moved|]. eapply same_text_trans; [apply same_text_inc|]. apply same_text_moved. }
  pose proof (Inv_inc _ (Inv_inc s H)) as (HI & _). fold i in HI.
  assert (P' : same_end i s1 p p').
  { unfold same_end in *. rewrite (st_sel1 _ _ S1), (st_sel2 _ _ S1). rewrite (st_sel1 _ _ S2), (st_sel2 _ _ S2) in P. exact P. }
  assert (Eqs : fl i F_ALT = fl s F_ALT /\ s_mt i = s_mt s /\ s_mb i = s_mb s /\ s_sbmax i = s_sbmax s).
  { unfold i. rewrite !inc_age_eq. repeat split. }
  destruct Eqs as (X1 & X2 & X3 & X4).
  destruct (up_end i s1 1 p p' r HI) as [W X]; rewrite ?X1, ?X2, ?X3, ?(st_sb _ _ S1), ?(st_sela _ _ S1); auto.
  - pose proof (i_mt _ (proj1 H)). lia.
  - apply (end_row_same s i); auto using st_sb, st_sy.
  - split; [|exact X]. rewrite X4, (st_sb _ _ S1) in W. eapply stays_between; [exact S1|exact S2|exact W].
Qed.

(* -- scrolling down ---------------------------------------------------------------------- *)
Lemma scroll_down_end s n s' p p' r : Inv s -> s_sela s = true -> u32_arg n -> 0 < n ->
  step s (OScrollDown n) = Ok s' -> same_end s s' p p' -> end_row s p r ->
  r < zlen (s_sb s) \/ zlen (s_sb s) + s_mt s <= r /\ r + n <= zlen (s_sb s) + s_mb s ->
  stays s s' p' r 0 (if r <? zlen (s_sb s) then 0 else n) /\ p_x p' = p_x p.
Proof.
  intros H Se Hn Hp E P R L. cbn [step] in E. unfold scr_scroll_down in E. replace (n =? 0) with false in E by lia.
  destruct (scroll_call_down s n H Hp) as (s1 & E1 & U & I). assert (s1 = s') by congruence. subst s1. clear E E1.
  pose proof (Inv_inc s H) as (HI & _). pose proof (same_text_inc s) as S1. set (i := inc_age s) in *.
  assert (Eqs : s_mt i = s_mt s /\ s_mb i = s_mb s) by (unfold i; rewrite !inc_age_eq; repeat split). destruct Eqs as (X1 & X2).
  assert (P' : same_end i s' p p') by (unfold same_end in *; now rewrite (st_sel1 _ _ S1), (st_sel2 _ _ S1)).
  assert (R' : end_row i p r) by (apply (end_row_same s i); auto using st_sb, st_sy).
  assert (W : stays i s' p' r 0 (if r <? zlen (s_sb s) then 0 else n) /\ p_x p' = p_x p).
  2:{ destruct W as [W X]. split; [|exact X]. eapply stays_between; [exact S1|constructor; reflexivity|exact W]. }
  rewrite <- (st_sb _ _ S1) in *. pose proof (sd_inv _ _ _ U) as H'. pose proof (sd_env _ _ _ U) as V. pose proof (sd_sb _ _ _ U) as S.
  rewrite <- (st_sela _ _ S1) in Se. rewrite <- X1, <- X2 in *. pose proof (i_sy _ HI) as [_ Sy]. unfold DIM in Sy. pose proof (i_mb _ HI). pose proof (i_mt _ HI).
  apply end_row_cases in R'; [|exact HI].
  assert (Y : p_line p = None -> p_y p + Z.min n (s_mb i + 1 - s_mt i) < 2147483648) by (intros X; destruct R' as [(Z & _)|Z]; [congruence|lia]).
  pose proof (sd_sel _ _ _ U Se p p' P' Y) as F. unfold stays.
  assert (FI : first_id s' = first_id i) by (unfold first_id; rewrite (ss_sb _ _ S), (ss_id _ _ S); reflexivity).
  destruct R' as [(E & Er)|(E & Ey & Er)]; rewrite E in F.
  - subst p'. replace (r <? 0) with false by lia. replace (r <? _) with true by lia. split; [|reflexivity]. replace (r - 0 + 0) with r by lia. split.
    + apply end_row_cases; [exact H'|]. left. rewrite FI, (ss_sb _ _ S). auto.
    + rewrite !row_sbs by (rewrite ?(ss_sb _ _ S); lia). now rewrite (ss_sb _ _ S).
  - replace (0 <=? p_y p) with true in F by lia. subst p'. replace (r <? 0) with false by lia. replace (r <? _) with false by lia.
    replace (Z.min n (s_mb i + 1 - s_mt i)) with n in * by lia. split; [|reflexivity]. split.
    + apply end_row_cases; [exact H'|]. right. cbn [p_line p_y]. rewrite (ss_sb _ _ S), (f_sy _ _ V). split; [reflexivity|lia].
    + replace (r - 0 + n) with (zlen (s_sb s') + (p_y p + n)) by (rewrite (ss_sb _ _ S); lia). rewrite Er.
      rewrite !row_lines by (rewrite ?(f_sy _ _ V); lia). destruct (sd_rows _ _ _ U) as [_ D]. destruct (D (p_y p + n)) as (_ & D2 & _).
      rewrite D2 by lia. replace (p_y p + n - n) with (p_y p) by lia. reflexivity.
Qed.

(* -- a smaller scrollback -------------------------------------------------------------------- *)
Lemma set_max_end s n s' p p' r : Inv s -> s_sela s = true -> u32_arg n ->
  step s (OSetMaxSb n) = Ok s' -> same_end s s' p p' -> end_row s p r ->
  stays s s' p' r (Z.max 0 (zlen (s_sb s) - n)) 0 /\ p_x p' = p_x p.
Proof.
  intros H Se Hn E P R. cbn [step] in E. destruct (set_max_sb_ok s n H Hn) as (s1 & T & E1 & I).
  assert (set_sbmax s1 n = s') by congruence. subst s'. clear E E1.
  assert (S0 : same_text s (aged s)).
  { eapply same_text_trans; [apply same_text_inc|]. unfold aged. constructor; reflexivity. }
  set (d := Z.max 0 (zlen (s_sb s) - n)) in *. assert (W : stays (aged s) s1 p' r d 0 /\ p_x p' = p_x p).
  2:{ destruct W as [W X]. split; [|exact X]. eapply stays_between; [exact S0| |exact W]. constructor; reflexivity. }
  assert (P' : same_end (aged s) s1 p p') by (unfold same_end in *; now rewrite (st_sel1 _ _ S0), (st_sel2 _ _ S0)).
  assert (R' : end_row (aged s) p r) by (apply (end_row_same s (aged s)); auto using st_sb, st_sy).
  rewrite <- (st_sela _ _ S0) in Se. pose proof (proj1 (Inv_aged s H)) as HA. unfold d in *. rewrite <- (st_sb _ _ S0) in *. clear P R S0 d. unfold u32_arg in Hn.
  set (a := aged s) in *. clearbody a. clear H I. set (d := Z.max 0 (zlen (s_sb a) - n)) in *.
  pose proof (tr_inv _ _ _ T) as H'. pose proof (tr_env _ _ _ T) as V. pose proof (tr_sb _ _ _ T) as B. pose proof (tr_id _ _ _ T) as ID.
  assert (L : zlen (s_sb s1) = zlen (s_sb a) - d) by (rewrite B, skipn_length; lia).
  assert (F : p' = sel_live s1 p).
  { destruct P' as [(-> & ->)|(-> & ->)]; [rewrite (tr_sel1 _ _ _ T)|rewrite (tr_sel2 _ _ _ T)]; rewrite Se; reflexivity. }
  apply end_row_cases in R'; [|exact HA]. unfold sel_live, live in F. unfold stays. rewrite Z.add_0_r.
  assert (FI : first_id s1 = first_id a + d) by (unfold first_id; lia).
  assert (RW : d <= r -> row s1 (r - d) = row a r).
  { intros K. destruct (Z.ltb_spec r (zlen (s_sb a))) as [J|J].
    - rewrite !row_sbs by lia. rewrite B, znth_skipn by lia. replace (r - d + _) with r by lia. reflexivity.
    - replace (r - d) with (zlen (s_sb s1) + (r - zlen (s_sb a))) by lia. unfold row, text_rows. rewrite !znth_map, !znth_app.
      replace (_ <? zlen (s_sb s1)) with false by lia. replace (r <? _) with false by lia. rewrite (tr_lines _ _ _ T), (f_sy _ _ V).
      replace (zlen (s_sb s1) + (r - zlen (s_sb a)) - zlen (s_sb s1)) with (r - zlen (s_sb a)) by lia. reflexivity. }
  destruct R' as [(E & Er)|(E & Ey & Er)]; rewrite E in F.
  - rewrite FI, ID in F. replace (_ && _) with (negb (r <? d)) in F by (unfold first_id; lia).
    destruct (Z.ltb_spec r d) as [K|K]; cbn [negb] in F; subst p'; [split; [split|]; reflexivity|]. split; [|reflexivity]. split; [|auto].
    apply end_row_cases; [exact H'|]. left. rewrite FI, E. split; [f_equal; lia|lia].
  - subst p'. replace (r <? d) with false by lia. split; [|reflexivity]. split; [|apply RW; lia].
    apply end_row_cases; [exact H'|]. right. rewrite (f_sy _ _ V). split; [exact E|lia].
Qed.
Definition no_sb (a : screen) : screen := sel_map (set_sbposn (set_sbpos (set_sbn (set_sb a []) 0) None) 0) sel_unline.
Lemma no_sb_end a p p' r : Inv0 a -> s_sela a = true -> end_row a p r -> same_end a (no_sb a) p p' ->
  stays a (no_sb a) p' r (zlen (s_sb a)) 0 /\ p_x p' = p_x p.
Proof.
  intros H Se R P. unfold no_sb in *. set (b := set_sbposn (set_sbpos (set_sbn (set_sb a []) 0) None) 0) in *.
  assert (F : p' = sel_unline p) by (unfold same_end, sel_map in P; change (s_sela b) with (s_sela a) in P; rewrite Se in P; destruct P as [(-> & ->)|(-> & ->)]; reflexivity).
  assert (B : s_sb (sel_map b sel_unline) = [] /\ lines (sel_map b sel_unline) = lines a /\ s_sy (sel_map b sel_unline) = s_sy a).
  { unfold sel_map. destruct (s_sela b); repeat split. }
  destruct B as (B1 & B2 & B3). apply end_row_cases in R; [|exact H]. unfold stays, sel_unline in *.
  destruct R as [(E & Er)|(E & Ey & Er)]; rewrite E in F; subst p'.
  - replace (r <? _) with true by lia. split; [split|]; reflexivity.
  - replace (r <? _) with false by lia. split; [|reflexivity]. split.
    + unfold end_row. rewrite E, B1, B3. cbn [length]. lia.
    + unfold row, text_rows. rewrite !znth_map, !znth_app, B1, B2, B3. cbn [length]. replace (r <? _) with false by lia.
      replace (_ <? Z.of_nat 0) with false by lia. replace (r - zlen (s_sb a) + 0 - Z.of_nat 0) with (r - zlen (s_sb a)) by lia. reflexivity.
Qed.
Lemma clear_sb_eq s : scr_clear_sb s = no_sb (aged s).
Proof. unfold scr_clear_sb, no_sb, aged. cbv zeta. reflexivity. Qed.
Lemma same_text_aged s : same_text s (aged s).
Proof. eapply same_text_trans; [apply same_text_inc|]. unfold aged. constructor; reflexivity. Qed.
Lemma clear_sb_end s s' p p' r : Inv s -> s_sela s = true -> step s OClearSb = Ok s' -> same_end s s' p p' -> end_row s p r ->
  stays s s' p' r (zlen (s_sb s)) 0 /\ p_x p' = p_x p.
Proof.
  intros H Se E P R. rewrite step_clear, clear_sb_eq in E. apply ok_inj in E. subst s'.
  pose proof (same_text_aged s) as S0. pose proof (proj1 (Inv_aged s H)) as HA.
  assert (R' : end_row (aged s) p r) by (apply (end_row_same s (aged s)); auto using st_sb, st_sy).
  rewrite <- (st_sela _ _ S0) in Se. rewrite <- (st_sb _ _ S0). unfold same_end in P. rewrite <- (st_sel1 _ _ S0), <- (st_sel2 _ _ S0) in P.
  revert S0 HA Se P R'. generalize (aged s). intros a S0 HA Se P R'. destruct (no_sb_end a p p' r HA Se R' P) as [W1 W2].
  split; [|exact W2]. eapply stays_between; [exact S0| |exact W1]. constructor; reflexivity.
Qed.

(* -- many calls ------------------------------------------------------------------------------------ *)
Record main_full (s : screen) : Prop := mkMF { mf_alt : fl s F_ALT = false; mf_mt : s_mt s = 0; mf_mb : s_mb s = s_sy s - 1; mf_sela : s_sela s = true }.
Definition follows (s s' : screen) : Prop :=
  forall p p', same_end s s' p p' -> (on_top p -> p' = p) /\ forall r, end_row s p r -> attached s s' p' r /\ p_x p' = p_x p.
Lemma stays_attached s s' p' r d k : stays s s' p' r d k -> attached s s' p' r.
Proof. unfold stays, attached. destruct (r <? d); [auto|]. eauto. Qed.
Lemma follows_trans a b c : follows a b -> follows b c -> follows a c.
Proof.
  intros F G p q P.
  assert (M : exists m, same_end a b p m /\ same_end b c m q).
  { destruct P as [(-> & ->)|(-> & ->)]; [exists (s_sel1 b)|exists (s_sel2 b)]; split; [left|left|right|right]; auto. }
  destruct M as (m & P1 & P2). destruct (F p m P1) as [F1 F2]. destruct (G m q P2) as [G1 G2]. split.
  - intros T. pose proof (F1 T). subst m. auto.
  - intros r R. destruct (F2 r R) as [[T|(r' & R' & Q)] X].
    + pose proof (G1 T). subst q. split; [now left|exact X].
    + destruct (G2 r' R') as [[T|(r2 & R2 & Q2)] X2]; (split; [|congruence]); [now left|right]. exists r2. split; [exact R2|congruence].
Qed.
Lemma same_text_follows s s' : same_text s s' -> follows s s'.
Proof.
  intros S p p' P. assert (p' = p) by (destruct S, P as [(-> & ->)|(-> & ->)]; congruence). subst p'.
  split; [reflexivity|]. intros r R. split; [|reflexivity]. right. exists r. split; [|apply S]. apply (end_row_same s s'); auto using st_sb, st_sy.
Qed.
Lemma fl_flags s s' k : s_flags s' = s_flags s -> fl s' k = fl s k.
Proof. intros E. unfold fl. now rewrite E. Qed.
Definition same_frame (s s' : screen) : Prop := s_flags s' = s_flags s /\ s_mt s' = s_mt s /\ s_mb s' = s_mb s /\ s_sy s' = s_sy s /\ s_sela s' = s_sela s.
Lemma same_frame_full s s' : same_frame s s' -> main_full s -> main_full s'.
Proof. intros (A & B & C & D & E) [M1 M2 M3 M4]. constructor; try congruence. rewrite (fl_flags s s'); auto. Qed.
Lemma same_frame_trans a b c : same_frame a b -> same_frame b c -> same_frame a c.
Proof. unfold same_frame. intuition congruence. Qed.
Lemma same_frame_inc s : same_frame s (inc_age s).
Proof. rewrite inc_age_eq. repeat split. Qed.
Lemma same_frame_aged s : same_frame s (aged s).
Proof. unfold aged. rewrite inc_age_eq. repeat split. Qed.
Lemma same_frame_moved s x y : same_frame s (moved s x y).
Proof. unfold moved. destruct (fl s F_HIDE); [repeat split|]. destruct (_ && _); repeat split. Qed.
Lemma same_frame_env s s' : env2 s s' -> same_frame s s'.
Proof. intros []. repeat split; assumption. Qed.

Lemma viewed_frame s v pn : same_frame s (viewed (aged s) v pn) /\ same_text s (viewed (aged s) v pn).
Proof.
  split; [eapply same_frame_trans; [apply same_frame_aged|]|eapply same_text_trans; [apply same_text_aged|]]; generalize (aged s); intros a; [repeat split|constructor; reflexivity].
Qed.
Lemma max_top a n s1 p p' : trimmed a s1 n -> s_sela a = true -> same_end a s1 p p' -> on_top p -> p' = p.
Proof.
  intros T A P (T1 & T2). destruct P as [(-> & ->)|(-> & ->)]; [rewrite (tr_sel1 _ _ _ T)|rewrite (tr_sel2 _ _ _ T)]; rewrite A; unfold sel_live; now rewrite T1.
Qed.
Lemma no_sb_top a p p' : same_end a (no_sb a) p p' -> on_top p -> p' = p.
Proof.
  intros P (T1 & T2). unfold no_sb in P. set (b := set_sbposn _ _) in P.
  assert (S : s_sel1 b = s_sel1 a /\ s_sel2 b = s_sel2 a) by (split; reflexivity). destruct S as [S1 S2].
  unfold same_end, sel_map in P. destruct (s_sela b).
  - destruct P as [(-> & ->)|(-> & ->)].
    + change (sel_unline (s_sel1 b) = s_sel1 a). rewrite S1. unfold sel_unline. now rewrite T1.
    + change (sel_unline (s_sel2 b) = s_sel2 a). rewrite S2. unfold sel_unline. now rewrite T1.
  - destruct P as [(-> & ->)|(-> & ->)]; assumption.
Qed.
Lemma no_sb_frame a : same_frame a (no_sb a).
Proof. unfold no_sb, sel_map. destruct (s_sela _); repeat split. Qed.

Lemma scrolls_follow s o s' : Inv s -> op_args o -> scrolls o -> main_full s -> step s o = Ok s' -> same_frame s s' /\ follows s s'.
Proof.
  intros H Ha So M E. destruct M as [M1 M2 M3 M4]. pose proof (i_mb _ (proj1 H)) as MB. pose proof (i_mt _ (proj1 H)) as MT.
  assert (RB : forall p r, end_row s p r -> r <= zlen (s_sb s) + s_mb s).
  { intros p r R. apply end_row_cases in R; [|apply H]. lia. }
  destruct o; try contradiction.
  - (* OSetMaxSb *)
    assert (E0 := E). cbn [step] in E. destruct (set_max_sb_ok s n H Ha) as (s1 & T & E1 & _). rewrite E1 in E. apply ok_inj in E.
    pose proof (same_text_aged s) as S0. split.
    + subst s'. eapply same_frame_trans; [apply same_frame_aged|]. eapply same_frame_trans; [exact (same_frame_env _ _ (tr_env _ _ _ T))|]. repeat split.
    + intros p p' P. split.
      * intros Tp. apply (max_top (aged s) _ s1 p p' T); [rewrite (st_sela _ _ S0); exact M4| |exact Tp].
        subst s'. unfold same_end in *. now rewrite (st_sel1 _ _ S0), (st_sel2 _ _ S0).
      * intros r R. destruct (set_max_end s n s' p p' r H M4 Ha E0 P R) as [W X]. split; [eapply stays_attached; exact W|exact X].
  - (* OClearSb *)
    assert (E0 := E). rewrite step_clear, clear_sb_eq in E. apply ok_inj in E. pose proof (same_text_aged s) as S0. split.
    + subst s'. eapply same_frame_trans; [apply same_frame_aged|]. apply no_sb_frame.
    + intros p p' P. split.
      * intros Tp. apply (no_sb_top (aged s)); [|exact Tp]. subst s'. unfold same_end in P. unfold same_end. now rewrite (st_sel1 _ _ S0), (st_sel2 _ _ S0).
      * intros r R. destruct (clear_sb_end s s' p p' r H M4 E0 P R) as [W X]. split; [eapply stays_attached; exact W|exact X].
  - (* OSbUp *)
    cbn [step] in E. destruct (Z.eq_dec n 0) as [->|N].
    + unfold scr_sb_up in E. cbn [Z.eqb] in E. apply ok_inj in E. subst s'. split; [repeat split|]. apply same_text_follows. constructor; reflexivity.
    + cbn in Ha. unfold u32_arg in Ha. destruct (sb_up_ok s n H ltac:(lia)) as (pn & E1 & _). rewrite E1 in E. apply ok_inj in E. subst s'.
      destruct (viewed_frame s (Z.max 0 (view_index s - n)) pn) as [V1 V2]. split; [exact V1|now apply same_text_follows].
  - (* OSbDown *)
    cbn [step] in E. destruct (Z.eq_dec n 0) as [->|N].
    + unfold scr_sb_down in E. cbn [Z.eqb] in E. apply ok_inj in E. subst s'. split; [repeat split|]. apply same_text_follows. constructor; reflexivity.
    + cbn in Ha. unfold u32_arg in Ha. destruct (sb_down_ok s n H ltac:(lia)) as (pn & E1 & _). rewrite E1 in E. apply ok_inj in E. subst s'.
      destruct (viewed_frame s (Z.min (zlen (s_sb s)) (view_index s + n)) pn) as [V1 V2]. split; [exact V1|now apply same_text_follows].
  - (* OSbReset *)
    cbn [step] in E. apply ok_inj in E. destruct (sb_reset_ok s H) as (_ & _ & R1 & R2). destruct (s_sbpos s) eqn:Ep.
    + rewrite R2 in E by discriminate. subst s'. destruct (viewed_frame s (zlen (s_sb s)) 0) as [V1 V2]. split; [exact V1|now apply same_text_follows].
    + rewrite R1 in E by reflexivity. subst s'. split; [repeat split|]. apply same_text_follows. constructor; reflexivity.
  - (* ONewline *)
    destruct (Z.eq_dec (s_cy s) (s_mb s)) as [Cy|Cy].
    + assert (E0 := E). cbn [step] in E. unfold scr_newline in E.
      pose proof (move_down_ok (inc_age s) 1 true (Inv_inc s H) ltac:(lia)) as M. cbv zeta in M.
      assert (B : bot_stop (inc_age s) = s_mb s) by (unfold bot_stop; rewrite inc_age_eq; sredg; replace (s_cy s <=? s_mb s) with true by lia; reflexivity).
      rewrite B in M. replace (s_cy (inc_age s)) with (s_cy s) in M by (rewrite inc_age_eq; reflexivity).
      replace (s_mb s - s_cy s <? 1) with true in M by lia. destruct M as (s1 & U & E1 & I1). rewrite E1 in E. cbn [bind] in E.
      destruct (line_home_ok _ I1) as [E2 I2]. rewrite E2 in E. apply ok_inj in E. clear E1 E2 B I2.
      set (m1 := moved s1 (s_cx (inc_age s)) (s_mb s)) in *. set (m2 := moved (inc_age m1) 0 (s_cy m1)) in *.
      assert (S1 : same_text s (inc_age (inc_age s))) by (eapply same_text_trans; apply same_text_inc).
      assert (S2 : same_text s1 m2).
      { eapply same_text_trans; [apply same_text_moved|]. eapply same_text_trans; [apply same_text_inc|]. apply same_text_moved. }
      assert (F1 : same_frame s (inc_age (inc_age s))) by (eapply same_frame_trans; apply same_frame_inc).
      assert (F2 : same_frame s1 m2).
      { eapply same_frame_trans; [apply same_frame_moved|]. eapply same_frame_trans; [apply same_frame_inc|]. apply same_frame_moved. }
      split.
      * subst s'. eapply same_frame_trans; [exact F1|]. eapply same_frame_trans; [exact (same_frame_env _ _ (su_env _ _ _ U))|exact F2].
      * intros p p' P. split.
        -- intros Tp. apply (up_top (inc_age (inc_age s)) s1 _ p p' (proj1 (Inv_inc _ (Inv_inc s H)))) in U; auto.
           ++ rewrite (fl_flags s); [exact M1|]. destruct F1 as (F & _). exact F.
           ++ rewrite (st_sela _ _ S1). exact M4.
           ++ subst s'. unfold same_end in *. rewrite (st_sel1 _ _ S1), (st_sel2 _ _ S1), <- (st_sel1 _ _ S2), <- (st_sel2 _ _ S2). exact P.
        -- intros r R. destruct (newline_end s s' p p' r H M1 M2 M4 Cy E0 P R (RB p r R)) as [W X]. split; [eapply stays_attached; exact W|exact X].
    + assert (Cl : s_cy s < s_mb s) by (destruct H as (H0 & _ & H2); lia).
      cbn [step] in E. unfold scr_newline in E. pose proof (move_down_ok (inc_age s) 1 true (Inv_inc s H) ltac:(lia)) as M. cbv zeta in M.
      assert (B : bot_stop (inc_age s) = s_mb s) by (unfold bot_stop; rewrite inc_age_eq; sredg; replace (s_cy s <=? s_mb s) with true by lia; reflexivity).
      rewrite B in M. replace (s_cy (inc_age s)) with (s_cy s) in M by (rewrite inc_age_eq; reflexivity).
      replace (s_mb s - s_cy s <? 1) with false in M by lia. destruct M as (E1 & I1). rewrite E1 in E. cbn [bind] in E.
      destruct (line_home_ok _ I1) as [E2 I2]. rewrite E2 in E. apply ok_inj in E. clear E1 E2 I2 I1. subst s'.
      split.
      * eapply same_frame_trans; [apply same_frame_inc|]. eapply same_frame_trans; [apply same_frame_inc|]. eapply same_frame_trans; [apply same_frame_moved|].
        eapply same_frame_trans; [apply same_frame_inc|apply same_frame_moved].
      * apply same_text_follows. eapply same_text_trans; [apply same_text_inc|]. eapply same_text_trans; [apply same_text_inc|].
        eapply same_text_trans; [apply same_text_moved|]. eapply same_text_trans; [apply same_text_inc|apply same_text_moved].
  - (* OScrollUp *)
    destruct (Z.eq_dec n 0) as [->|N].
    + cbn [step] in E. unfold scr_scroll_up in E. cbn [Z.eqb] in E. apply ok_inj in E. subst s'. split; [repeat split|].
      apply same_text_follows. constructor; reflexivity.
    + cbn in Ha. assert (Hp : 0 < n) by (unfold u32_arg in Ha; lia). assert (E0 := E). cbn [step] in E. unfold scr_scroll_up in E. replace (n =? 0) with false in E by lia.
      destruct (scroll_call_up s n H Hp) as (s1 & E1 & U & _). rewrite E1 in E. apply ok_inj in E. subst s1. clear E1.
      pose proof (same_text_inc s) as S1. pose proof (same_frame_inc s) as F1. split.
      * eapply same_frame_trans; [exact F1|]. exact (same_frame_env _ _ (su_env _ _ _ U)).
      * intros p p' P. split.
        -- intros Tp. apply (up_top (inc_age s) s' _ p p' (proj1 (Inv_inc s H))) in U; auto.
           ++ rewrite (fl_flags s); [exact M1|]. destruct F1 as (F & _). exact F.
           ++ rewrite (st_sela _ _ S1). exact M4.
           ++ unfold same_end in *. now rewrite (st_sel1 _ _ S1), (st_sel2 _ _ S1).
        -- intros r R. destruct (scroll_up_end s n s' p p' r H M1 M2 M4 Ha Hp E0 P R (RB p r R)) as [W X]. split; [eapply stays_attached; exact W|exact X].
Qed.
Lemma scrolls_history ops : forall s s', Inv s -> Forall op_args ops -> Forall scrolls ops -> main_full s -> run s ops = Ok s' -> follows s s'.
Proof.
  induction ops as [|o ops IH]; intros s s' H Ha Hs M E.
  - cbn [run] in E. apply ok_inj in E. subst s'. apply same_text_follows. constructor; reflexivity.
  - cbn [run] in E. destruct (step s o) as [s1|] eqn:E1; [|discriminate]. cbn [bind] in E.
    inversion Ha as [|? ? A1 A2]; subst. inversion Hs as [|? ? B1 B2]; subst.
    destruct (scrolls_follow s o s1 H A1 B1 M E1) as [F G]. eapply follows_trans; [exact G|]. apply (IH s1 s'); auto.
    + eapply step_Inv; eauto.
    + eapply same_frame_full; eauto.
Qed.
