(* One call, then a run of calls, on two screens with the same page; the calls
   that only look. *)
From Verif Require Import Base BaseProofs Screen ScreenInv ScreenSb ScreenScroll ScreenSpec ScreenOps ScreenMove ScreenCtl ScreenResize
  ScreenSafe ScreenLaws ScreenAlt ScreenHist ScreenRz ScreenThms FrameSpec ScreenFrame TwinSpec TwinProofs.

(* -- calls that edit nothing ---------------------------------------------------- *)
Lemma page_sets o s t s' t' : may_text o = false -> same_page s t -> framed o s s' -> framed o t t' ->
  s_defm t' = s_defm s' ->
  (may_flags o = true -> s_flags t' = s_flags s') ->
  (may_margins o = true -> s_mt t' = s_mt s' /\ s_mb t' = s_mb s') ->
  (may_def o = true -> s_def t' = s_def s') ->
  (may_tabs o = true -> forall k, k <= s_sx s -> znth (s_tabs t') k = znth (s_tabs s') k) ->
  (may_cursor o = true -> s_cx t' = s_cx s' /\ s_cy t' = s_cy s') -> same_page s' t'.
Proof.
  intros M P F F' D A1 A2 A3 A4 A5.
  assert (X : may_size o = false) by (destruct o; try discriminate M; reflexivity).
  destruct F as [F1 F2 F3 F4 F5 _ _ F8 F9 _]. destruct F' as [G1 G2 G3 G4 G5 _ _ G8 G9 _].
  destruct (F1 X), (G1 X). destruct P.
  apply (page_still o s t); auto; try congruence.
  - now constructor.
  - destruct (may_flags o); [now apply A1|]. rewrite F2, G2; auto.
  - destruct (may_margins o); [now apply A2|]. destruct F3, G3; auto. congruence.
  - destruct (may_margins o); [now apply A2|]. destruct F3, G3; auto. congruence.
  - destruct (may_def o); [now apply A3|]. rewrite F4, G4; auto.
  - intros k Hk. destruct (may_tabs o); [apply A4; auto; lia|]. rewrite F5, G5 by auto. apply pg_tabs; lia.
  - destruct (may_cursor o); [now apply A5|]. destruct F8, G8; auto. congruence.
  - destruct (may_cursor o); [now apply A5|]. destruct F8, G8; auto. congruence.
Qed.

Lemma touch_cur s s' : touch_cursor s = Ok s' -> s_cx s' = s_cx s /\ s_cy s' = s_cy s.
Proof.
  unfold touch_cursor, upd_line. destruct (zmodm _ _ _) as [ls|]; cbn [bind]; [|discriminate]. intros E. apply ok_inj in E. rewrite E.
  split; unfold set_lines; destruct (s_act s); reflexivity.
Qed.
Lemma move_cursor_cur s x y s' : move_cursor s x y = Ok s' -> s_cx s' = x /\ s_cy s' = y.
Proof.
  unfold move_cursor. destruct (fl s F_HIDE).
  - intros E. apply ok_inj in E. rewrite E. split; reflexivity.
  - destruct ((s_cx s =? x) && (s_cy s =? y)) eqn:E1.
    + intros E. apply ok_inj in E. subst. lia.
    + destruct (touch_cursor s) as [s1|]; cbn [bind]; [|discriminate]. intros E. exact (touch_cur _ _ E).
Qed.
Lemma reset_fields s : s_flags (reset_to s) = 0 /\ s_mt (reset_to s) = 0 /\ s_mb (reset_to s) = s_sy s - 1 /\
  s_tabs (reset_to s) = tabs_upto (s_sx s) (fun i => i mod 8 =? 0) (s_tabs s).
Proof. unfold reset_to. repeat match goal with |- _ /\ _ => split end; reflexivity. Qed.
Lemma set_fields s f : s_flags (flags_set s f) = Z.lor (s_flags s) f /\
  s_defm (flags_set s f) = if negb (fl s F_ALT) && bit f F_ALT then s_def s else s_defm s.
Proof.
  unfold flags_set, fl_end, fl_alt, touched. cbv zeta. pose proof (g_defm _ _ (frame_inc s)) as D. pose proof (g_def _ _ (frame_inc s)) as D2.
  repeat match goal with |- context [if ?b then _ else _] => destruct b end; split; solve [reflexivity|exact D|exact D2].
Qed.
Lemma clear_fields s f : s_flags (flags_reset s f) = Z.ldiff (s_flags s) f.
Proof.
  unfold flags_reset, fl_end, fl_alt, touched. cbv zeta.
  repeat match goal with |- context [if ?b then _ else _] => destruct b end; reflexivity.
Qed.
(* Tab searches only look at entries up to column sx. *)
Lemma find_right_same t t' sx n : forall j, (forall k, k < sx -> znth t' k = znth t k) -> j + Z.of_nat n <= sx ->
  tab_find_right n t' j = tab_find_right n t j.
Proof.
  induction n as [|n IH]; intros j Hk Hj; [reflexivity|]. cbn [tab_find_right]. unfold zget. rewrite Hk by lia.
  destruct (znth t j) as [[]|]; cbn [bind]; auto. apply IH; auto. lia.
Qed.
Lemma right_same sx t t' n : forall x, (forall k, k < sx -> znth t' k = znth t k) -> loop_n n (tab_right1 sx t') x = loop_n n (tab_right1 sx t) x.
Proof.
  induction n as [|n IH]; intros x Hk; [reflexivity|]. cbn [loop_n]. unfold tab_right1 at 1 3. cbv zeta.
  assert (E : tab_find_right (Z.to_nat (sx - u32 (x + 1))) t' (u32 (x + 1)) = tab_find_right (Z.to_nat (sx - u32 (x + 1))) t (u32 (x + 1))).
  { destruct (Z_le_gt_dec (sx - u32 (x + 1)) 0) as [L|L]; [replace (Z.to_nat (sx - u32 (x + 1))) with 0%nat by lia; reflexivity|]. apply (find_right_same t t' sx); auto. lia. }
  rewrite E. destruct (tab_find_right _ t _) as [j|]; cbn [bind]; [|reflexivity]. destruct (negb _); auto.
Qed.
Lemma find_left_same t t' sx n : forall j, (forall k, k <= sx -> znth t' k = znth t k) -> j <= sx ->
  tab_find_left n t' j = tab_find_left n t j.
Proof.
  induction n as [|n IH]; intros j Hk Hj; [reflexivity|]. cbn [tab_find_left]. unfold zget. rewrite Hk by lia.
  destruct (znth t j) as [[]|]; cbn [bind]; auto. apply IH; auto. lia.
Qed.
Lemma find_left_le t n : forall j r, tab_find_left n t j = Ok r -> r <= j.
Proof.
  induction n as [|n IH]; intros j r; cbn [tab_find_left]; [intros E; inversion E; lia|].
  destruct (zget t j) as [[]|]; cbn [bind]; [intros E; inversion E; lia| |discriminate]. intros E. apply IH in E. lia.
Qed.
Lemma left_same sx t t' n : forall x, (forall k, k <= sx -> znth t' k = znth t k) -> 0 < sx <= DIM -> 0 <= x <= sx + 1 ->
  loop_n n (tab_left1 t') x = loop_n n (tab_left1 t) x.
Proof.
  induction n as [|n IH]; intros x Hk Hs Hx; [reflexivity|]. cbn [loop_n]. unfold tab_left1 at 1 3. cbv zeta. unfold DIM in *.
  assert (J : i32 (x - 1) = x - 1) by (apply i32_small; lia). rewrite J.
  rewrite (find_left_same t t' sx) by (auto; lia). destruct (tab_find_left _ t _) as [j|] eqn:E; cbn [bind]; [|reflexivity].
  apply find_left_le in E. destruct (j <=? 0) eqn:Ej; [reflexivity|]. apply IH; auto. lia.
Qed.
Lemma nop_ok (o : op) s s' : step s o = Ok s -> step s o = Ok s' -> s' = s.
Proof. intros A B. rewrite A in B. now apply ok_inj in B. Qed.

Lemma sets_step o s t s' t' : may_text o = false -> op_args o -> same_page s t -> Inv s -> Inv t ->
  step s o = Ok s' -> step t o = Ok t' -> same_page s' t'.
Proof.
  intros M Ha P H H' E E'.
  assert (D : (forall f, o <> OSetFlags f) -> s_defm t' = s_defm s').
  { intros Hf. rewrite (defm_step s o s' H Ha M Hf E), (defm_step t o t' H' Ha M Hf E'). apply P. }
  pose proof (framed_step s o s' H Ha E) as F. pose proof (framed_step t o t' H' Ha E') as F'.
  assert (D' : match o with OSetFlags _ => True | _ => s_defm t' = s_defm s' end) by (destruct o; auto; apply D; discriminate).
  destruct o; try discriminate M;
    try (apply (page_sets _ s t _ _ M P F F'); [exact D'|intros X; discriminate X ..]);
    try (lazymatch type of E with step _ OReset = _ => idtac | step _ OClearSb = _ => idtac | _ => cbn [step] in E, E' end);
    try (cbn [op_args] in Ha; unfold u32_arg in Ha).
  - apply (page_sets _ s t _ _ M P F F'); [exact D'|try (intros X; discriminate X) ..]. intros _.
    destruct Ha as [Ha1 Ha2]. destruct (set_margins_ok s t0 b H Ha1 Ha2) as [M1 _]. destruct (set_margins_ok t t0 b H' Ha1 Ha2) as [M2 _]. cbv zeta in M1, M2.
    rewrite M1 in E. rewrite M2 in E'. apply ok_inj in E. apply ok_inj in E'. rewrite (pg_sy _ _ P) in E'. clear - E E'. subst s' t'.
    destruct (_ && _); split; reflexivity.
  - apply (page_sets _ s t _ _ M P F F'); [exact D'|try (intros X; discriminate X) ..]. intros _.
    apply ok_inj in E. apply ok_inj in E'. clear - E E'. subst. reflexivity.
  - rewrite step_reset in E, E'. destruct (reset_ok s H) as [E1 _]. destruct (reset_ok t H') as [E2 _]. rewrite E1 in E. rewrite E2 in E'.
    apply ok_inj in E. apply ok_inj in E'. destruct (reset_fields s) as (A1 & A2 & A3 & A4). destruct (reset_fields t) as (B1 & B2 & B3 & B4).
    rewrite <- E in A1, A2, A3, A4. rewrite <- E' in B1, B2, B3, B4. clear E E' E1 E2.
    apply (page_sets _ s t _ _ M P F F'); [exact D'|try (intros X; discriminate X) ..]; intros _.
    + congruence.
    + rewrite A2, A3, B2, B3, (pg_sy _ _ P). auto.
    + intros k Hk. rewrite A4, B4, (pg_sx _ _ P). unfold tabs_upto. now rewrite !znth_mapi, (pg_tabs _ _ P k Hk).
  - destruct (Z.eq_dec f 0) as [->|]; [apply ok_inj in E; apply ok_inj in E'; now subst|].
    destruct (set_flags_ok s f H ltac:(lia)) as [E1 _]. destruct (set_flags_ok t f H' ltac:(lia)) as [E2 _]. rewrite E1 in E. rewrite E2 in E'.
    apply ok_inj in E. apply ok_inj in E'. destruct (set_fields s f) as (A1 & A2). destruct (set_fields t f) as (B1 & B2).
    rewrite <- E in A1, A2. rewrite <- E' in B1, B2.
    apply (page_sets _ s t _ _ M P F F'); [|try (intros X; discriminate X) ..].
    + now rewrite A2, B2, (pg_fl _ _ P), (pg_def _ _ P), (pg_defm _ _ P).
    + intros _. now rewrite A1, B1, (pg_flags _ _ P).
  - destruct (Z.eq_dec f 0) as [->|]; [apply ok_inj in E; apply ok_inj in E'; now subst|].
    destruct (reset_flags_ok s f H ltac:(lia)) as [E1 _]. destruct (reset_flags_ok t f H' ltac:(lia)) as [E2 _]. rewrite E1 in E. rewrite E2 in E'.
    apply ok_inj in E. apply ok_inj in E'. pose proof (clear_fields s f) as A1. pose proof (clear_fields t f) as B1.
    rewrite <- E in A1. rewrite <- E' in B1.
    apply (page_sets _ s t _ _ M P F F'); [exact D'|try (intros X; discriminate X) ..]. intros _. now rewrite A1, B1, (pg_flags _ _ P).
  - apply (page_sets _ s t _ _ M P F F'); [exact D'|try (intros X; discriminate X) ..]. intros _.
    destruct (tabstop_ok true s H) as [E1 _]. destruct (tabstop_ok true t H') as [E2 _]. cbv zeta in E1, E2. rewrite E1 in E. rewrite E2 in E'.
    rewrite (pg_cx _ _ P), (pg_sx _ _ P) in E'. intros k Hk.
    apply ok_inj in E. apply ok_inj in E'. subst s' t'. destruct (s_cx s <? s_sx s); [|apply P; exact Hk].
    sredg. now rewrite !znth_zupd, (pg_tabs _ _ P k Hk).
  - apply (page_sets _ s t _ _ M P F F'); [exact D'|try (intros X; discriminate X) ..]. intros _.
    destruct (tabstop_ok false s H) as [E1 _]. destruct (tabstop_ok false t H') as [E2 _]. cbv zeta in E1, E2. rewrite E1 in E. rewrite E2 in E'.
    rewrite (pg_cx _ _ P), (pg_sx _ _ P) in E'. intros k Hk.
    apply ok_inj in E. apply ok_inj in E'. subst s' t'. destruct (s_cx s <? s_sx s); [|apply P; exact Hk].
    sredg. now rewrite !znth_zupd, (pg_tabs _ _ P k Hk).
  - apply (page_sets _ s t _ _ M P F F'); [exact D'|try (intros X; discriminate X) ..]. intros _.
    destruct (reset_all_tabstops_ok s H) as [E1 _]. destruct (reset_all_tabstops_ok t H') as [E2 _]. cbv zeta in E1, E2. rewrite E1 in E. rewrite E2 in E'.
    intros k Hk. rewrite (pg_sx _ _ P) in E'. apply ok_inj in E. apply ok_inj in E'. subst s' t'. sredg. unfold tabs_upto.
    now rewrite !znth_mapi, (pg_tabs _ _ P k Hk).
  - apply (page_sets _ s t _ _ M P F F'); [exact D'|try (intros X; discriminate X) ..]. intros _.
    destruct (move_to_ok s x y H ltac:(lia) ltac:(lia)) as [E1 _]. destruct (move_to_ok t x y H' ltac:(lia) ltac:(lia)) as [E2 _].
    rewrite E1 in E. rewrite E2 in E'. apply ok_inj in E. apply ok_inj in E'. subst s' t'. rewrite !moved_cx, !moved_cy. unfold to_y.
    now rewrite (pg_fl _ _ P), (pg_mt _ _ P), (pg_mb _ _ P), (pg_sx _ _ P), (pg_sy _ _ P).
  - apply (page_sets _ s t _ _ M P F F'); [exact D'|try (intros X; discriminate X) ..]. intros _.
    destruct (move_up_law s n b H Ha) as (s1 & E1 & _ & A1 & A2 & _). destruct (move_up_law t n b H' Ha) as (t1 & E2 & _ & B1 & B2 & _).
    rewrite E1 in E. rewrite E2 in E'. apply ok_inj in E. apply ok_inj in E'. subst s1 t1.
    now rewrite A1, A2, B1, B2, (pg_ceil _ _ P), (pg_cx _ _ P), (pg_cy _ _ P).
  - apply (page_sets _ s t _ _ M P F F'); [exact D'|try (intros X; discriminate X) ..]. intros _.
    destruct (move_down_law s n b H Ha) as (s1 & E1 & _ & A1 & A2 & _). destruct (move_down_law t n b H' Ha) as (t1 & E2 & _ & B1 & B2 & _).
    rewrite E1 in E. rewrite E2 in E'. apply ok_inj in E. apply ok_inj in E'. subst s1 t1.
    now rewrite A1, A2, B1, B2, (pg_floor _ _ P), (pg_cx _ _ P), (pg_cy _ _ P).
  - destruct (Z.eq_dec n 0) as [->|]; [apply ok_inj in E; apply ok_inj in E'; now subst|].
    apply (page_sets _ s t _ _ M P F F'); [exact D'|try (intros X; discriminate X) ..]. intros _.
    destruct (move_left_ok s n H ltac:(lia)) as [E1 _]. destruct (move_left_ok t n H' ltac:(lia)) as [E2 _].
    rewrite E1 in E. rewrite E2 in E'. apply ok_inj in E. apply ok_inj in E'. subst s' t'. rewrite !moved_cx, !moved_cy. now rewrite (pg_cx _ _ P), (pg_sx _ _ P), (pg_cy _ _ P).
  - destruct (Z.eq_dec n 0) as [->|]; [apply ok_inj in E; apply ok_inj in E'; now subst|].
    apply (page_sets _ s t _ _ M P F F'); [exact D'|try (intros X; discriminate X) ..]. intros _.
    destruct (move_right_ok s n H ltac:(lia)) as [E1 _]. destruct (move_right_ok t n H' ltac:(lia)) as [E2 _].
    rewrite E1 in E. rewrite E2 in E'. apply ok_inj in E. apply ok_inj in E'. subst s' t'. rewrite !moved_cx, !moved_cy. now rewrite (pg_cx _ _ P), (pg_sx _ _ P), (pg_cy _ _ P).
  - apply (page_sets _ s t _ _ M P F F'); [exact D'|try (intros X; discriminate X) ..]. intros _.
    destruct (line_end_ok s H) as [E1 _]. destruct (line_end_ok t H') as [E2 _].
    rewrite E1 in E. rewrite E2 in E'. apply ok_inj in E. apply ok_inj in E'. subst s' t'. rewrite !moved_cx, !moved_cy. now rewrite (pg_sx _ _ P), (pg_cy _ _ P).
  - apply (page_sets _ s t _ _ M P F F'); [exact D'|try (intros X; discriminate X) ..]. intros _.
    destruct (line_home_ok s H) as [E1 _]. destruct (line_home_ok t H') as [E2 _].
    rewrite E1 in E. rewrite E2 in E'. apply ok_inj in E. apply ok_inj in E'. subst s' t'. rewrite !moved_cx, !moved_cy. now rewrite (pg_cy _ _ P).
  - destruct (Z.eq_dec n 0) as [->|]; [apply ok_inj in E; apply ok_inj in E'; now subst|].
    apply (page_sets _ s t _ _ M P F F'); [exact D'|try (intros X; discriminate X) ..]. intros _. clear F F' D D'.
    unfold scr_tab_right in E, E'. replace (n =? 0) with false in * by lia. cbv zeta in E, E'.
    rewrite !inc_sx, !inc_cx, !inc_cy in E, E'. rewrite (g_tabs _ _ (frame_inc s)) in E. rewrite (g_tabs _ _ (frame_inc t)) in E'. rewrite (pg_sx _ _ P), (pg_cx _ _ P), (pg_cy _ _ P) in E'.
    rewrite (right_same (s_sx s) (s_tabs s) (s_tabs t)) in E' by (intros k Hk; apply P; lia).
    destruct (loop_n _ _ _) as [x|]; cbn [bind] in E, E'; [|discriminate].
    assert (C : clamp_x (inc_age t) x = clamp_x (inc_age s) x) by (unfold clamp_x; now rewrite !inc_sx, (pg_sx _ _ P)). rewrite C in E'.
    destruct (move_cursor_cur _ _ _ _ E) as [-> ->]. destruct (move_cursor_cur _ _ _ _ E') as [-> ->]. auto.
  - destruct (Z.eq_dec n 0) as [->|]; [apply ok_inj in E; apply ok_inj in E'; now subst|].
    apply (page_sets _ s t _ _ M P F F'); [exact D'|try (intros X; discriminate X) ..]. intros _. clear F F' D D'.
    unfold scr_tab_left in E, E'. replace (n =? 0) with false in * by lia. cbv zeta in E, E'.
    rewrite !inc_cx, !inc_cy in E, E'. rewrite (g_tabs _ _ (frame_inc s)) in E. rewrite (g_tabs _ _ (frame_inc t)) in E'. rewrite (pg_cx _ _ P), (pg_cy _ _ P) in E'.
    rewrite (left_same (s_sx s) (s_tabs s) (s_tabs t)) in E'; [|intros k Hk; apply P; lia|destruct H as [H _]; pose proof (i_sx _ H); lia|destruct H as [H [X _]]; pose proof (i_cx _ H); lia].
    destruct (loop_n _ _ _) as [x|]; cbn [bind] in E, E'; [|discriminate].
    destruct (move_cursor_cur _ _ _ _ E) as [-> ->]. destruct (move_cursor_cur _ _ _ _ E') as [-> ->]. auto.
Qed.

(* -- resizing ---------------------------------------------------------------- *)
Lemma resized_more s s' x y : Inv s -> 0 < x <= DIM -> 0 < y <= DIM -> resized s s' x y ->
  s_def s' = s_def s /\ s_defm s' = s_defm s /\ s_tabs s' = rz_tabs s x.
Proof.
  intros H Hx Hy [(s8 & P8 & I8 & ->)]. cbv zeta.
  destruct (rz_s7_facts s x y H Hx Hy) as (s7 & E7 & I7 & A1 & A2 & A3 & A4 & A5 & A6 & A7 & A8 & A9 & A10 & A11 & A12 & A13 & A14 & A15 & A16 & A17).
  rewrite <- E7 in P8. clear E7.
  assert (R8 : s_def s8 = s_def s /\ s_defm s8 = s_defm s /\ s_tabs s8 = rz_tabs s x).
  { destruct (y <? s_sy s); [|now subst s8]. destruct P8 as (t & U & ->). pose proof (su_env _ _ _ U) as V.
    pose proof (env_moved t (s_cx t) (Z.max 0 (s_cy t - (s_sy s - y)))) as W.
    rewrite (e_def _ _ W), (e_defm _ _ W), (e_tabs _ _ W), (f_def _ _ V), (f_defm _ _ V), (f_tabs _ _ V). auto. }
  destruct (y <=? s_cy s8); [|exact R8].
  pose proof (env_moved (set_mb (set_sy s8 y) (y - 1)) (s_cx s8) (y - 1)) as W. destruct R8 as (B1 & B2 & B3). rewrite <- B1, <- B2, <- B3.
  split; [exact (e_def _ _ W)|]. split; [exact (e_defm _ _ W)|exact (e_tabs _ _ W)].
Qed.
Lemma resize_cases s x y s' : Inv s -> op_args (OResize x y) -> step s (OResize x y) = Ok s' ->
  if (x =? 0) || (y =? 0) || ((s_sx s =? x) && (s_sy s =? y)) then s' = s else resized s s' x y /\ resize_effect s s' x y.
Proof.
  intros H Ha E. cbn [step op_args] in *. unfold scr_resize in E.
  destruct ((x =? 0) || (y =? 0)) eqn:E0; cbn [orb]; [apply ok_inj in E; now subst|].
  destruct ((s_sx s =? x) && (s_sy s =? y)) eqn:Es; [apply ok_inj in E; now subst|].
  destruct (resize_ok s x y H ltac:(lia) ltac:(lia) ltac:(lia)) as (s2 & E2 & R & _).
  unfold scr_resize in E2. rewrite E0, Es in E2. rewrite E2 in E. apply ok_inj in E. cbn [fst] in E. subst s2. split; [exact R|].
  apply resized_effect; auto; lia.
Qed.
Lemma rz_tabs_same s t x : same_page s t -> Inv s -> Inv t -> 0 < x -> forall k, k <= x -> znth (rz_tabs t x) k = znth (rz_tabs s x) k.
Proof.
  intros P H H' Hx k Hk. pose proof (rz_tabs_len s x (proj1 H) Hx) as L. pose proof (rz_tabs_len t x (proj1 H') Hx) as L'.
  assert (K : k < 0 \/ k < x /\ 0 <= k \/ k = x) by lia. destruct K as [K|[[K K0]| ->]].
  - now rewrite !znth_neg.
  - unfold rz_tabs, tabs_upto in *. rewrite length_mapi in L, L'. rewrite !znth_mapi. replace (k <? x) with true by lia.
    destruct (znth_some _ k (conj K0 (Z.lt_le_trans _ _ _ K L))) as [b ->]. destruct (znth_some _ k (conj K0 (Z.lt_le_trans _ _ _ K L'))) as [b' ->]. reflexivity.
  - unfold rz_tabs, tabs_upto in *. rewrite !znth_mapi. rewrite (pg_sx _ _ P) in *. destruct (s_sx s <? x) eqn:E.
    + rewrite !znth_ge; [reflexivity| |]; rewrite app_length, firstn_length, repeat_length; lia.
    + now rewrite (pg_tabs _ _ P) by lia.
Qed.
Lemma resize_page s t x y s' t' : same_page s t -> Inv s -> Inv t -> op_args (OResize x y) ->
  step s (OResize x y) = Ok s' -> step t (OResize x y) = Ok t' -> same_page s' t'.
Proof.
  intros P H H' Ha E E'. pose proof (resize_cases s x y s' H Ha E) as C. pose proof (resize_cases t x y t' H' Ha E') as C'.
  rewrite (pg_sx _ _ P), (pg_sy _ _ P) in C'. clear E E'. cbn [op_args] in Ha.
  destruct ((x =? 0) || (y =? 0) || ((s_sx s =? x) && (s_sy s =? y))) eqn:E0; [now subst|].
  destruct C as [R1 C]. destruct C' as [R2 C'].
  destruct (resized_more s s' x y H ltac:(lia) ltac:(lia) R1) as (D1 & D2 & D3).
  destruct (resized_more t t' x y H' ltac:(lia) ltac:(lia) R2) as (D1' & D2' & D3').
  pose proof (rz_tabs_same s t x P H H' ltac:(lia)) as T.
  assert (O : rz_off t y = rz_off s y) by (unfold rz_off; now rewrite (pg_sy _ _ P)).
  assert (O0 : 0 <= rz_off s y) by (unfold rz_off; lia).
  assert (RC : forall a g g' j i, (on_screen s j i -> g' = g) -> 0 <= j -> 0 <= i -> rz_cell t a g' j i = rz_cell s a g j i).
  { intros a g g' j i G Hj Hi. unfold rz_cell. rewrite (pg_sx _ _ P), (pg_sy _ _ P). destruct ((j <? _) && _) eqn:E; [|reflexivity]. apply G. unfold on_screen. lia. }
  pose proof (re_sx _ _ _ _ C) as X1. pose proof (re_sy _ _ _ _ C) as X2. destruct C, C'. rewrite O in *. rewrite ?(pg_fl _ _ P) in *. destruct P as [P1 P2 P3 P4 P5 P6 P7 P8 P9 P10 P11 P12].
  constructor; try congruence.
  - intros k Hk. rewrite D3, D3'. apply T. lia.
  - intros j i [Hj Hi]. rewrite X1 in Hi. rewrite X2 in Hj. destruct (fl s F_ALT).
    + rewrite re_main_off, re_main_off0, P7 by auto. apply RC; [|lia|lia]. apply P11.
    + rewrite re_main, re_main0, P7 by auto. apply RC; [|lia|lia]. apply P11.
  - intros j i [Hj Hi]. rewrite X1 in Hi. rewrite X2 in Hj. destruct (fl s F_ALT).
    + rewrite re_alt, re_alt0, P6 by auto. apply RC; [|lia|lia]. apply P12.
    + rewrite re_alt_off, re_alt_off0, P6 by auto. apply RC; [|lia|lia]. apply P12.
Qed.

Lemma page_step s t o s' t' : same_page s t -> Inv s -> Inv t -> op_args o ->
  step s o = Ok s' -> step t o = Ok t' -> same_page s' t'.
Proof.
  intros P H H' Ha E E'. destruct (may_text o) eqn:M; [destruct (is_rz o) eqn:R|].
  - destruct o; try discriminate R. exact (resize_page s t x y s' t' P H H' Ha E E').
  - destruct (eff_step o s t s' t' M R Ha P H H' E E') as (A & B & C).
    apply (page_edit o s t); auto.
    + exact (step_Inv s o s' H Ha E).
    + exact (step_Inv t o t' H' Ha E').
    + exact (framed_step s o s' H Ha E).
    + exact (framed_step t o t' H' Ha E').
    + exact (oth_step s o s' H Ha M R E).
    + exact (oth_step t o t' H' Ha M R E').
  - exact (sets_step o s t s' t' M Ha P H H' E E').
Qed.
Lemma page_runs s t o s' : same_page s t -> Inv s -> Inv t -> op_args o -> step s o = Ok s' -> exists t', step t o = Ok t' /\ same_page s' t'.
Proof.
  intros P H H' Ha E. destruct (step_ok t o H' Ha) as (t' & E' & _).
  - intros Z. apply (pg_hazard s t P H H') in Z. rewrite (hazard_ub s o H Ha Z) in E. discriminate.
  - exists t'. split; [exact E'|]. exact (page_step s t o s' t' P H H' Ha E E').
Qed.

(* -- the scrollback ------------------------------------------------------------- *)
Definition rowsim (w : Z) (r r' : list glyph) : Prop := forall x, 0 <= x < w -> znth r' x = znth r x.
Lemma forall2_znth {A B} (R : A -> B -> Prop) : forall l l', zlen l = zlen l' ->
  (forall i a b, znth l i = Some a -> znth l' i = Some b -> R a b) -> Forall2 R l l'.
Proof.
  induction l as [|a l IH]; intros [|b l'] L E; try (cbn [length] in L; lia); constructor.
  - now apply (E 0).
  - apply IH; [cbn [length] in L; lia|]. intros i c d Hc Hd. apply (E (i + 1)).
    + pose proof (znth_Some_range _ _ _ Hc). change (a :: l) with ([a] ++ l); rewrite (znth_app [a] l (i + 1)). cbn [length]. replace (_ <? _) with false by lia. rewrite <- Hc. f_equal. lia.
    + pose proof (znth_Some_range _ _ _ Hc). change (b :: l') with ([b] ++ l'); rewrite (znth_app [b] l' (i + 1)). cbn [length]. replace (_ <? _) with false by lia. rewrite <- Hd. f_equal. lia.
Qed.
Lemma forall2_skip {A B} (R : A -> B -> Prop) n : forall l l', Forall2 R l l' -> Forall2 R (skipn n l) (skipn n l').
Proof. induction n as [|n IH]; intros l l' F; [exact F|]. destruct F; cbn [skipn]; auto. Qed.
Lemma forall2_last {A B} (R : A -> B -> Prop) n l l' : Forall2 R l l' -> Forall2 R (last_n n l) (last_n n l').
Proof. intros F. unfold last_n. replace (length l) with (length l') by (symmetry; induction F; cbn [length]; congruence). now apply forall2_skip. Qed.
Lemma forall2_same {A} (R : A -> A -> Prop) l : (forall a, R a a) -> Forall2 R l l.
Proof. intros HR. induction l; constructor; auto. Qed.
Lemma row_text_at l x : znth (row_text l) x = row_at l x.
Proof. unfold row_text, row_at. apply znth_map. Qed.
Lemma main_row s y x l : znth (s_main s) y = Some l -> main_at s y x = znth (row_text l) x.
Proof. intros E. unfold main_at, rows_at. rewrite E. symmetry. apply row_text_at. Qed.

Lemma slice_in {A} (l : list A) a n x : In x (zslice l a n) -> In x l.
Proof.
  unfold zslice. intros I. rewrite <- (firstn_skipn (Z.to_nat a) l). apply in_or_app. right.
  rewrite <- (firstn_skipn (Z.to_nat n) (skipn (Z.to_nat a) l)). apply in_or_app. now left.
Qed.
Section Hist.
  Context (w : Z) (s t : screen) (P : same_page s t) (H : Inv s) (H' : Inv t) (Hw : w <= s_sx s).
  Lemma slice_sim a n : 0 <= a -> 0 <= n -> a + n <= s_sy s ->
    Forall2 (fun l l' => rowsim w (row_text l) (row_text l')) (zslice (s_main s) a n) (zslice (s_main t) a n).
  Proof.
    intros Ha Hn Hb. pose proof (i_ln _ (proj1 H)) as L. pose proof (i_ln _ (proj1 H')) as L'. rewrite (pg_sy _ _ P) in L'.
    pose proof (proj1 (i_main _ (proj1 H))) as M. pose proof (proj1 (i_main _ (proj1 H'))) as M'.
    apply forall2_znth; [rewrite !length_zslice; lia|]. intros i l l' E E' x Hx.
    pose proof (znth_Some_range _ _ _ E) as R1. rewrite znth_zslice in E, E' by lia. destruct (i <? n) eqn:Ei; [|discriminate].
    rewrite <- (main_row s _ x l E), <- (main_row t _ x l' E'). apply (pg_main _ _ P). unfold on_screen. lia.
  Qed.
  Lemma top_sim n : 0 <= n <= region s -> Forall2 (rowsim w) (top_rows s n) (top_rows t n).
  Proof.
    intros Hn. unfold top_rows. rewrite (pg_mt _ _ P). pose proof (i_mt _ (proj1 H)). pose proof (i_mb _ (proj1 H)). unfold region in Hn.
    pose proof (slice_sim (s_mt s) n ltac:(lia) ltac:(lia) ltac:(lia)) as F. induction F; cbn [map]; constructor; auto.
  Qed.
  Lemma fit_sim x r r' : w <= x -> s_sx s <= zlen r -> s_sx s <= zlen r' -> rowsim w r r' -> rowsim w (fit_row s x r) (fit_row t x r').
  Proof.
    intros Hx L L' R k Hk. unfold fit_row. rewrite !znth_mapi, !znth_app, (pg_sx _ _ P). replace (k <? zlen r) with true by lia. replace (k <? zlen r') with true by lia.
    replace (k <? Z.min (s_sx s) x) with true by lia. rewrite (R k Hk). reflexivity.
  Qed.
  Lemma off_sim o s' : op_args o -> step s o = Ok s' -> w <= s_sx s' -> Forall2 (rowsim w) (off s o) (off t o).
  Proof.
    intros Ha E Hw'. unfold off. rewrite (pg_fl _ _ P). destruct (fl s F_ALT); [constructor|]. pose proof (i_mt _ (proj1 H)) as Mt.
    destruct o; try constructor.
    - destruct ((0 <? x) && (0 <? y) && (y <? s_sy s)) eqn:B; rewrite (pg_sy _ _ P), B; [|constructor].
      assert (Hx : w <= x).
      { pose proof (resize_cases s x y s' H Ha E) as C. replace (_ || _ || _) with false in C by lia. destruct C as [_ C]. rewrite <- (re_sx _ _ _ _ C). exact Hw'. }
      pose proof (slice_sim 0 (s_sy s - y) ltac:(lia) ltac:(lia) ltac:(lia)) as F.
      assert (W : Forall (fun l => s_sx s <= zlen (row_text l)) (zslice (s_main s) 0 (s_sy s - y))).
      { apply Forall_forall. intros l Hl. pose proof (proj2 (i_main _ (proj1 H))) as X. rewrite Forall_forall in X. unfold row_text. rewrite map_length. apply X. exact (slice_in _ _ _ _ Hl). }
      assert (W' : Forall (fun l => s_sx s <= zlen (row_text l)) (zslice (s_main t) 0 (s_sy s - y))).
      { apply Forall_forall. intros l Hl. pose proof (proj2 (i_main _ (proj1 H'))) as X. rewrite Forall_forall in X. unfold row_text. rewrite map_length. rewrite <- (pg_sx _ _ P). apply X. exact (slice_in _ _ _ _ Hl). }
      revert W W'. induction F as [|l l' a b R F IH]; intros W W'; cbn [map]; constructor.
      + apply Forall_cons_iff in W as [W _]. apply Forall_cons_iff in W' as [W' _]. now apply fit_sim.
      + apply Forall_cons_iff in W as [_ W]. apply Forall_cons_iff in W' as [_ W']. auto.
    - destruct (scr_width ch) as [n|]; [|constructor]. rewrite (pg_scrolls _ _ P). destruct (_ && _); [|constructor]. apply top_sim. unfold region. lia.
    - rewrite (pg_over_down _ _ P). apply top_sim. unfold over_down, region. lia.
    - rewrite (pg_region _ _ P). cbn [op_args] in Ha. unfold u32_arg in Ha. apply top_sim. unfold region. lia.
    - destruct b; [|constructor]. rewrite (pg_over_down _ _ P). apply top_sim. unfold over_down, region. lia.
  Qed.
  Lemma hist_step o s' t' : same_hist w s t -> op_args o -> step s o = Ok s' -> step t o = Ok t' -> w <= s_sx s' -> same_hist w s' t'.
  Proof.
    intros [M F] Ha E E' Hw'. destruct (hist_sb s o s' H Ha E) as [A B]. destruct (hist_sb t o t' H' Ha E') as [A' B'].
    assert (L : sb_limit t o = sb_limit s o) by (unfold sb_limit; now rewrite M).
    split; [congruence|]. rewrite A, A'. pose proof (off_sim o s' Ha E Hw') as O.
    unfold sb_spec. destruct o; try (rewrite L; apply forall2_last, Forall2_app; [exact F|exact O]). constructor.
  Qed.
End Hist.
Lemma hist_refl w s : same_hist w s s.
Proof. split; [reflexivity|]. apply forall2_same. auto. Qed.
Lemma hist_trans w a b c : same_hist w a b -> same_hist w b c -> same_hist w a c.
Proof.
  intros [M F] [M' F']. split; [congruence|]. revert F'. generalize (sb_text c). induction F as [|r r' p q R F IH]; intros m G; inversion G as [|? r2 ? m2 R2 G2]; subst; constructor; auto.
  intros x Hx. rewrite R2, R by auto. reflexivity.
Qed.

(* -- the calls that only look ----------------------------------------------------- *)
Lemma watch_step s o s' : watching o = true -> Inv s -> op_args o -> step s o = Ok s' -> same_page s s' /\ s_sbmax s' = s_sbmax s /\ sb_text s' = sb_text s.
Proof.
  intros W H Ha E. pose proof (framed_step s o s' H Ha E) as F.
  assert (M : may_text o = false) by (destruct o; try discriminate W; reflexivity).
  assert (D : s_defm s' = s_defm s) by (apply (defm_step s o s' H Ha M); [intros f ->; discriminate W|exact E]).
  assert (X : may_size o = false /\ may_flags o = false /\ may_margins o = false /\ may_def o = false /\ may_tabs o = false /\ may_cursor o = false /\ may_limit o = false /\ may_history o = false)
    by (destruct o; try discriminate W; repeat split).
  destruct X as (X1 & X2 & X3 & X4 & X5 & X6 & X7 & X8). destruct F as [F1 F2 F3 F4 F5 F6 _ F8 F9 F10].
  destruct (F1 X1), (F3 X3), (F8 X6). split; [|split; auto].
  constructor; auto; [intros; now rewrite (F5 X5)| |]; intros y x _; apply (F9 M).
Qed.
Lemma keep_step s o s' : keeping o = true -> Inv s -> op_args o -> step s o = Ok s' -> same_page s s'.
Proof.
  intros W H Ha E. pose proof (framed_step s o s' H Ha E) as F.
  assert (M : may_text o = false) by (destruct o; try discriminate W; reflexivity).
  assert (D : s_defm s' = s_defm s) by (apply (defm_step s o s' H Ha M); [intros f ->; discriminate W|exact E]).
  assert (X : may_size o = false /\ may_flags o = false /\ may_margins o = false /\ may_def o = false /\ may_tabs o = false /\ may_cursor o = false)
    by (destruct o; try discriminate W; repeat split).
  destruct X as (X1 & X2 & X3 & X4 & X5 & X6). destruct F as [F1 F2 F3 F4 F5 F6 _ F8 F9 F10].
  destruct (F1 X1), (F3 X3), (F8 X6).
  constructor; auto; [intros; now rewrite (F5 X5)| |]; intros y x _; apply (F9 M).
Qed.

(* -- runs ----------------------------------------------------------------------- *)
Lemma same_run ops : forall s t s', same_page s t -> Inv s -> Inv t -> Forall op_args ops -> run s ops = Ok s' ->
  exists t', run t ops = Ok t' /\ same_page s' t' /\ forall w, wide_run w s ops -> same_hist w s t -> same_hist w s' t'.
Proof.
  induction ops as [|o r IH]; intros s t s' P H H' Ha E; cbn [run wide_run] in *.
  - apply ok_inj in E. subst s'. exists t. auto.
  - apply Forall_cons_iff in Ha as [Ha1 Ha2]. destruct (step s o) as [s1|] eqn:E1; [|discriminate]. cbn [bind] in E.
    destruct (page_runs s t o s1 P H H' Ha1 E1) as (t1 & T1 & P1). rewrite T1. cbn [bind].
    pose proof (step_Inv s o s1 H Ha1 E1) as I1. pose proof (step_Inv t o t1 H' Ha1 T1) as I1'.
    destruct (IH s1 t1 s' P1 I1 I1' Ha2 E) as (t' & T & P2 & Q). exists t'. split; [exact T|]. split; [exact P2|].
    intros w [Hw Hr] Hh. apply Q; [exact Hr|]. apply (hist_step w s t P H H' Hw o); auto. destruct r; cbn [wide_run] in Hr; lia.
Qed.
Lemma drop_run ops : forall s t s', same_page s t -> Inv s -> Inv t -> Forall op_args ops -> run s ops = Ok s' ->
  exists t', run t (unwatched ops) = Ok t' /\ same_page s' t' /\ forall w, wide_run w s ops -> same_hist w s t -> same_hist w s' t'.
Proof.
  induction ops as [|o r IH]; intros s t s' P H H' Ha E; cbn [run wide_run unwatched filter] in *.
  - apply ok_inj in E. subst s'. exists t. auto.
  - apply Forall_cons_iff in Ha as [Ha1 Ha2]. destruct (step s o) as [s1|] eqn:E1; [|discriminate]. cbn [bind] in E. pose proof (step_Inv s o s1 H Ha1 E1) as I1.
    destruct (watching o) eqn:W; cbn [negb].
    + destruct (watch_step s o s1 W H Ha1 E1) as (P1 & M1 & B1). fold (unwatched r).
      destruct (IH s1 t s' (page_trans _ _ _ (page_sym _ _ P1) P) I1 H' Ha2 E) as (t' & T & P2 & Q). exists t'. split; [exact T|]. split; [exact P2|].
      intros w [Hw Hr] [Hh1 Hh2]. apply Q; [exact Hr|]. split; [congruence|]. now rewrite B1.
    + cbn [run]. destruct (page_runs s t o s1 P H H' Ha1 E1) as (t1 & T1 & P1). rewrite T1. cbn [bind]. fold (unwatched r).
      pose proof (step_Inv t o t1 H' Ha1 T1) as I1'.
      destruct (IH s1 t1 s' P1 I1 I1' Ha2 E) as (t' & T & P2 & Q). exists t'. split; [exact T|]. split; [exact P2|].
      intros w [Hw Hr] Hh. apply Q; [exact Hr|]. apply (hist_step w s t P H H' Hw o); auto. destruct r; cbn [wide_run] in Hr; lia.
Qed.
Lemma drop_keep ops : forall s t s', same_page s t -> Inv s -> Inv t -> Forall op_args ops -> run s ops = Ok s' ->
  exists t', run t (unkept ops) = Ok t' /\ same_page s' t'.
Proof.
  induction ops as [|o r IH]; intros s t s' P H H' Ha E; cbn [run unkept filter] in *.
  - apply ok_inj in E. subst s'. exists t. auto.
  - apply Forall_cons_iff in Ha as [Ha1 Ha2]. destruct (step s o) as [s1|] eqn:E1; [|discriminate]. cbn [bind] in E. pose proof (step_Inv s o s1 H Ha1 E1) as I1.
    destruct (keeping o) eqn:W; cbn [negb]; fold (unkept r).
    + pose proof (keep_step s o s1 W H Ha1 E1) as P1.
      exact (IH s1 t s' (page_trans _ _ _ (page_sym _ _ P1) P) I1 H' Ha2 E).
    + cbn [run]. destruct (page_runs s t o s1 P H H' Ha1 E1) as (t1 & T1 & P1). rewrite T1. cbn [bind].
      exact (IH s1 t1 s' P1 I1 (step_Inv t o t1 H' Ha1 T1) Ha2 E).
Qed.
