(* The editing sequences and the controls: proofs. *)
From Verif Require Import Base BaseProofs Screen ScreenInv ScreenSpec ScreenOps ScreenLaws ScreenHist ScreenCtl ScreenSafe ScreenThms FrameSpec ScreenFrame Vte VteSpec VteInv VteSafe VteView VteParse VteCsi VteEsc VteThms VteThms2 EditSpec.

Lemma last_n_all {A} (n : Z) (l : list A) : zlen l <= n -> last_n n l = l.
Proof. intros H. unfold last_n. replace (Z.to_nat (zlen l - n)) with 0%nat by lia. reflexivity. Qed.
Lemma sb_text_nil s : reachable s -> last_n (s_sbmax s) (sb_text s ++ []) = sb_text s.
Proof.
  intros R. rewrite app_nil_r. apply last_n_all. exact (sb_bound_r s R).
Qed.
(* No setting changes under these calls. *)
Definition plain (o : op) : bool :=
  negb (may_size o || may_flags o || may_margins o || may_def o || may_tabs o || may_limit o || may_select o || match o with OClearSb => true | _ => false end).
Lemma obey_one sg v bs o e : vreachable sg v -> acts sg v bs [o] -> op_args o -> plain o = true ->
  (exists s', step (v_con v) o = Ok s' /\ s_cx s' = e_column e /\ s_cy s' = e_row e /\
     forall y x, on_screen (v_con v) y x -> at_ s' y x = e_picture e y x) ->
  off (v_con v) o = e_off e -> obeys sg v bs e.
Proof.
  intros R A Ha Pl (s' & E & X & Y & P) O. pose proof (reach_con sg v R) as RC.
  unfold acts in A. cbn [run] in A. rewrite E in A. cbn [bind] in A. destruct A as (v' & I & C & M).
  exists v'. split; [exact I|]. assert (Con : v_con v' = s') by exact (con_core _ _ C).
  destruct (framed_r _ _ _ RC Ha E) as [F1 F2 F3 F4 F5 F6 F7 _ _ _].
  destruct (sb_step_r _ _ _ RC Ha E) as [B _].
  unfold plain in Pl. apply negb_true_iff in Pl. repeat apply orb_false_iff in Pl as [Pl ?].
  constructor; rewrite ?Con; auto. rewrite B. unfold sb_spec, sb_limit. rewrite O. clear - Pl H5 H4 H3 H2 H1 H0 H. destruct o; reflexivity || discriminate.
Qed.
Lemma obey_none sg v bs : vreachable sg v -> acts sg v bs [] -> obeys sg v bs (nothing (v_con v)).
Proof.
  intros R A. unfold acts in A. cbn [run] in A. destruct A as (v' & I & C & M). exists v'. split; [exact I|].
  assert (Con : v_con v' = v_con v) by exact (con_core _ _ C).
  constructor; rewrite ?Con; auto. cbn [nothing e_off]. symmetry. apply sb_text_nil, (reach_con sg v R).
Qed.
Lemma obey_same sg v bs o : vreachable sg v -> acts sg v bs [o] -> step (v_con v) o = Ok (v_con v) -> obeys sg v bs (nothing (v_con v)).
Proof.
  intros R A E. apply obey_none; [exact R|]. unfold acts in *. cbn [run] in *. rewrite E in A. exact A.
Qed.
Lemma erases_effect s o r p : erases s o r p -> exists s', step s o = Ok s' /\ s_cx s' = e_column (redraw s (erase_spec s r p)) /\
  s_cy s' = e_row (redraw s (erase_spec s r p)) /\ forall y x, on_screen s y x -> at_ s' y x = e_picture (redraw s (erase_spec s r p)) y x.
Proof. auto. Qed.
Lemma off_erase s o r p : erase_call s o r p -> off s o = [] /\ op_args o /\ plain o = true.
Proof. intros []; unfold off; destruct (fl s F_ALT); repeat split; exact I. Qed.
Lemma obey_erase sg v bs o r p : vreachable sg v -> acts sg v bs [o] -> erase_call (v_con v) o r p ->
  obeys sg v bs (redraw (v_con v) (erase_spec (v_con v) r p)).
Proof.
  intros R A C. destruct (off_erase _ _ _ _ C) as (O & Ha & Pl). apply (obey_one sg v bs o); auto.
  exact (erase_r _ _ _ _ (reach_con sg v R) C).
Qed.
Lemma scroll_effect s o f : reachable s -> scrolls s o f -> exists s', step s o = Ok s' /\ s_cx s' = fst (scroll_cursor s o) /\
  s_cy s' = snd (scroll_cursor s o) /\ forall y x, on_screen s y x -> at_ s' y x = f y x.
Proof.
  intros R C. destruct (scrolls_r s o f R C) as (s1 & E1 & P). destruct (scroll_cursor_r s o f R C) as (s2 & E2 & Q).
  rewrite E1 in E2. apply ok_inj in E2. subst s2. exists s1. rewrite <- Q. auto.
Qed.
Lemma u32_of n : 1 <= n <= 655359 -> u32_arg n.
Proof. unfold u32_arg. lia. Qed.

Lemma edit_r sg v pri fl0 P f e : vreachable sg v -> text_mode v -> marker pri = Some fl0 -> Forall pchar P ->
  edit (v_con v) pri P f = Some e -> obeys sg v (csi_bytes pri P f) e.
Proof.
  intros R T M HP E. pose proof (reach_con sg v R) as RC. pose proof (arg1_range P 0 HP) as N1. pose proof (u32_of _ N1) as N.
  assert (A : forall ops, 64 <= f <= 126 -> screen_calls (v_con v) pri P f = Some ops -> acts sg v (csi_bytes pri P f) ops).
  { intros ops Hf C. exact (seq_acts sg v pri fl0 P f ops (vreachable_inv sg v R) T M HP Hf C). }
  pose proof (screen_bounds _ RC) as (Bx & By & Bs & Bm). set (s := v_con v) in *. set (n := arg1 P 0) in *.
  unfold edit in E. fold n in E. cbv zeta in E. revert E.
  destruct (Z.eqb_spec f 74) as [->|]; [|destruct (Z.eqb_spec f 75) as [->|]; [|destruct (Z.eqb_spec f 88) as [->|];
    [|destruct (Z.eqb_spec f 76) as [->|]; [|destruct (Z.eqb_spec f 77) as [->|]; [|destruct (Z.eqb_spec f 64) as [->|];
    [|destruct (Z.eqb_spec f 80) as [->|]; [|destruct (Z.eqb_spec f 83) as [->|]; [|destruct (Z.eqb_spec f 84) as [->|]; [|discriminate]]]]]]]]];
    intros E; injection E as E; subst e; specialize (fun ops => A ops ltac:(lia)); cbn [screen_calls Z.eqb Pos.eqb] in A; unfold screen_calls in A;
    cbn [Z.eqb Pos.eqb] in A; fold n in A.
  - destruct (arg0 P 0) as [|[q|q|]|]; try (apply obey_none; [exact R|now apply A]);
      [|destruct q; try (apply obey_none; [exact R|now apply A])|].
    + eapply obey_erase; [exact R|now apply A|constructor].
    + eapply obey_erase; [exact R|now apply A|constructor].
    + eapply obey_erase; [exact R|now apply A|constructor].
  - destruct (arg0 P 0) as [|[q|q|]|]; try (apply obey_none; [exact R|now apply A]);
      [|destruct q; try (apply obey_none; [exact R|now apply A])|].
    + eapply obey_erase; [exact R|now apply A|constructor].
    + eapply obey_erase; [exact R|now apply A|constructor].
    + eapply obey_erase; [exact R|now apply A|constructor].
  - apply (obey_one sg v _ (OEraseChars n)); auto; [|unfold off; destruct (fl _ _); reflexivity].
    apply erase_chars_r; auto; [lia|]. fold s. unfold cursor_col. lia.
  - destruct ((s_mt s <=? s_cy s) && (s_cy s <=? s_mb s)) eqn:D.
    + apply (obey_one sg v _ (OInsLines n)); auto; [|unfold off; destruct (fl _ _); reflexivity].
      exact (ins_lines_r s n RC N ltac:(lia) ltac:(lia)).
    + apply (obey_same sg v _ (OInsLines n)); auto. apply lines_outside. fold s. lia.
  - destruct ((s_mt s <=? s_cy s) && (s_cy s <=? s_mb s)) eqn:D.
    + apply (obey_one sg v _ (ODelLines n)); auto; [|unfold off; destruct (fl _ _); reflexivity].
      exact (del_lines_r s n RC N ltac:(lia) ltac:(lia)).
    + apply (obey_same sg v _ (ODelLines n)); auto. apply lines_outside. fold s. lia.
  - apply (obey_one sg v _ (OInsChars n)); auto; [|unfold off; destruct (fl _ _); reflexivity].
    exact (ins_chars_r s n RC N ltac:(lia)).
  - apply (obey_one sg v _ (ODelChars n)); auto; [|unfold off; destruct (fl _ _); reflexivity].
    exact (del_chars_r s n RC N ltac:(lia)).
  - apply (obey_one sg v _ (OScrollUp n)); auto. exact (scroll_effect s _ _ RC (sc_up s n N)).
  - apply (obey_one sg v _ (OScrollDown n)); auto; [exact (scroll_effect s _ _ RC (sc_down s n N))|unfold off; destruct (fl _ _); reflexivity].
Qed.

Lemma motion_effect s o x y : reachable s -> motion s o x y ->
  exists s', step s o = Ok s' /\ s_cx s' = x /\ s_cy s' = y /\ forall j i, on_screen s j i -> at_ s' j i = at_ s j i.
Proof.
  intros R Mo. destruct (motion_r s o x y R Mo) as (s' & E & X & Y & T & _ & _ & _ & _ & _ & Fl).
  exists s'. repeat match goal with |- _ /\ _ => split end; auto. intros j i _. destruct (T j i) as [T1 T2].
  pose proof (reachable_Inv s R) as I. pose proof (i_act _ (proj1 I)) as A.
  assert (I' : s_act s' = s_act s).
  { assert (Ha : op_args o) by (destruct Mo; cbn [op_args]; auto).
    pose proof (step_Inv s o s' I Ha E) as I2. pose proof (i_act _ (proj1 I2)) as A2. rewrite A, A2. unfold fl. now rewrite Fl. }
  unfold at_, lines. unfold main_at in T1. unfold alt_at in T2. rewrite I'. destruct (s_act s); assumption.
Qed.
Lemma obey_motion sg v bs o x y : vreachable sg v -> acts sg v bs [o] -> motion (v_con v) o x y ->
  obeys sg v bs (mkEffect (at_ (v_con v)) x y []).
Proof.
  intros R A Mo. apply (obey_one sg v bs o); auto.
  - destruct Mo; cbn [op_args]; auto.
  - destruct Mo; reflexivity.
  - exact (motion_effect _ _ _ _ (reach_con sg v R) Mo).
  - unfold off. destruct (fl _ _), Mo; reflexivity.
Qed.
Lemma obey_down sg v bs : vreachable sg v -> acts sg v bs [OMoveDown 1 true] -> obeys sg v bs (down_one (v_con v) (s_cx (v_con v))).
Proof.
  intros R A. apply (obey_one sg v bs (OMoveDown 1 true)); auto; [now apply u32_of|].
  exact (scroll_effect _ _ _ (reach_con sg v R) (sc_mdown (v_con v) 1 (u32_of 1 ltac:(lia)))).
Qed.
Lemma obey_newline sg v bs : vreachable sg v -> acts sg v bs [ONewline] -> obeys sg v bs (down_one (v_con v) 0).
Proof.
  intros R A. apply (obey_one sg v bs ONewline); auto; [exact I|].
  exact (scroll_effect _ _ _ (reach_con sg v R) (sc_nl (v_con v))).
Qed.
Lemma obey_up sg v bs : vreachable sg v -> acts sg v bs [OMoveUp 1 true] -> obeys sg v bs (up_one (v_con v)).
Proof.
  intros R A. apply (obey_one sg v bs (OMoveUp 1 true)); auto; [now apply u32_of| |unfold off; destruct (fl _ _); reflexivity].
  exact (scroll_effect _ _ _ (reach_con sg v R) (sc_mup (v_con v) 1 (u32_of 1 ltac:(lia)))).
Qed.
Lemma control_r sg v l bs e : vreachable sg v -> text_mode v -> control (v_con v) (vfl v VF_LNM) l = Some e ->
  encodes sg (v_flags v) l bs -> obeys sg v bs e.
Proof.
  intros R T C He. destruct l as [|c [|d [|]]]; try discriminate.
  - assert (A : forall ops, control_calls (vfl v VF_LNM) c = Some ops -> acts sg v bs ops).
    { intros ops X. exact (control_acts sg v c ops bs (vreachable_inv sg v R) T X He). }
    unfold control in C. unfold control_calls in A. revert C A. generalize (vfl v VF_LNM). intros lnm C A.
    destruct (Z.eqb_spec c 8); [injection C as <-|].
    { apply (obey_motion sg v bs (OMoveLeft 1)); auto. apply mo_left; [now apply u32_of|lia]. }
    destruct (Z.eqb_spec c 9); [exfalso; subst; discriminate|].
    destruct ((10 <=? c) && (c <=? 12)) eqn:L; [injection C as <-|].
    { specialize (A _ eq_refl). destruct lnm; [now apply obey_newline|now apply obey_down]. }
    destruct (Z.eqb_spec c 13); [injection C as <-|].
    { apply (obey_motion sg v bs OLineHome); auto. apply mo_home. }
    destruct (Z.eqb_spec c 132); [injection C as <-; apply obey_down; auto|].
    destruct (Z.eqb_spec c 133); [injection C as <-; apply obey_newline; auto|].
    destruct (Z.eqb_spec c 136); [exfalso; subst; discriminate|].
    destruct (Z.eqb_spec c 141); [injection C as <-; apply obey_up; auto|].
    destruct (_ || _); [injection C as <-; apply obey_none; auto|discriminate].
  - unfold control in C. destruct (Z.eqb_spec c 27) as [->|]; [cbn [negb] in C|discriminate].
    assert (A : forall ops, esc_calls d = Some ops -> acts sg v bs ops).
    { intros ops X. exact (esc_acts sg v d ops bs (vreachable_inv sg v R) T X He). }
    unfold esc_calls in A.
    destruct (Z.eqb_spec d 68); [injection C as <-; apply obey_down; auto|].
    destruct (Z.eqb_spec d 69); [injection C as <-; apply obey_newline; auto|].
    destruct (Z.eqb_spec d 72); [exfalso; subst; discriminate|].
    destruct (Z.eqb_spec d 77); [injection C as <-; apply obey_up; auto|].
    destruct (Z.eqb_spec d 92); [injection C as <-; apply obey_none; auto|discriminate].
Qed.

(* Tabs and margins. *)
Lemma seq_r sg v pri fl0 P f ops : vreachable sg v -> text_mode v -> marker pri = Some fl0 -> Forall pchar P -> 64 <= f <= 126 ->
  screen_calls (v_con v) pri P f = Some ops -> acts sg v (csi_bytes pri P f) ops.
Proof. intros R. apply seq_acts, (vreachable_inv sg v R). Qed.
Lemma goes_moves sg v bs o x y : acts sg v bs [o] -> moves (v_con v) o x y -> goes sg v bs x y.
Proof.
  intros A (c & E & Ex & Ey & Tx & B & Sx & Sy & Mt & Mb & Fl). apply (acts_goes sg v _ [o] c x y A); auto. cbn [run]. rewrite E. reflexivity.
Qed.
Lemma ht_r sg v bs : vreachable sg v -> text_mode v -> encodes sg (v_flags v) [9] bs ->
  exists x, tabbed_right (v_con v) 1 x /\ goes sg v bs x (s_cy (v_con v)).
Proof.
  intros R T He. destruct (tab_right_r (v_con v) 1 (reach_con sg v R) (u32_of 1 ltac:(lia)) ltac:(lia)) as (x & Mo & Q).
  exists x. split; [exact Q|]. apply (goes_moves sg v bs (OTabRight 1)); auto.
  exact (control_acts sg v 9 _ bs (vreachable_inv sg v R) T eq_refl He).
Qed.
Lemma cht_r sg v pri fl0 P : vreachable sg v -> text_mode v -> marker pri = Some fl0 -> Forall pchar P ->
  exists x, tabbed_right (v_con v) (arg1 P 0) x /\ goes sg v (csi_bytes pri P 73) x (s_cy (v_con v)).
Proof.
  intros R T M HP. pose proof (arg1_range P 0 HP) as N.
  destruct (tab_right_r (v_con v) (arg1 P 0) (reach_con sg v R) (u32_of _ N) ltac:(lia)) as (x & Mo & Q).
  exists x. split; [exact Q|]. apply (goes_moves sg v _ (OTabRight (arg1 P 0))); auto.
  exact (seq_r sg v pri fl0 P 73 _ R T M HP ltac:(lia) eq_refl).
Qed.
Lemma cbt_r sg v pri fl0 P : vreachable sg v -> text_mode v -> marker pri = Some fl0 -> Forall pchar P -> s_cx (v_con v) <= s_sx (v_con v) ->
  exists x, tabbed_left (v_con v) (arg1 P 0) x /\ goes sg v (csi_bytes pri P 90) x (s_cy (v_con v)).
Proof.
  intros R T M HP B. pose proof (arg1_range P 0 HP) as N.
  destruct (tab_left_r (v_con v) (arg1 P 0) (reach_con sg v R) (u32_of _ N) ltac:(lia) B) as (x & Mo & Q).
  exists x. split; [exact Q|]. apply (goes_moves sg v _ (OTabLeft (arg1 P 0))); auto.
  exact (seq_r sg v pri fl0 P 90 _ R T M HP ltac:(lia) eq_refl).
Qed.
Lemma retab_one sg v bs o stop : acts sg v bs [o] ->
  (exists s', step (v_con v) o = Ok s' /\ (forall k, 0 <= k < s_sx (v_con v) -> is_stop s' k = stop k) /\ s' = set_tabs (v_con v) (s_tabs s')) ->
  retabs sg v bs stop.
Proof.
  intros A (s' & E & Q & W). unfold acts in A. cbn [run] in A. rewrite E in A. cbn [bind] in A. destruct A as (v' & I & C & M).
  assert (Con : v_con v' = s') by exact (con_core _ _ C). exists v'. rewrite Con. auto.
Qed.
Lemma set_stop_r sg v l bs : vreachable sg v -> text_mode v -> l = [0x88] \/ l = [27; 72] -> encodes sg (v_flags v) l bs ->
  retabs sg v bs (fun k => (k =? s_cx (v_con v)) || is_stop (v_con v) k).
Proof.
  intros R T L He. assert (A : acts sg v bs [OSetTabstop]).
  { destruct L as [-> | ->]; [exact (control_acts sg v 136 [OSetTabstop] bs (vreachable_inv sg v R) T eq_refl He)|exact (esc_acts sg v 72 [OSetTabstop] bs (vreachable_inv sg v R) T eq_refl He)]. }
  apply (retab_one sg v bs OSetTabstop); auto. destruct (tabstop_r (v_con v) true (reach_con sg v R)) as (s' & E & Q & W).
  exists s'. repeat match goal with |- _ /\ _ => split end; auto. intros k Hk. rewrite Q. destruct (Z.eqb_spec k (s_cx (v_con v))); cbn [andb orb]; [|reflexivity].
  subst k. now replace (s_cx (v_con v) <? s_sx (v_con v)) with true by lia.
Qed.
Lemma clear_stop_r sg v pri fl0 P : vreachable sg v -> text_mode v -> marker pri = Some fl0 -> Forall pchar P ->
  retabs sg v (csi_bytes pri P 103) (fun k => match arg0 P 0 with 0 => negb (k =? s_cx (v_con v)) && is_stop (v_con v) k | 3 => false | _ => is_stop (v_con v) k end).
Proof.
  intros R T M HP. assert (A : forall ops, screen_calls (v_con v) pri P 103 = Some ops -> acts sg v (csi_bytes pri P 103) ops).
  { intros ops. apply (seq_r sg v pri fl0 P 103 ops R T M HP). lia. }
  unfold screen_calls in A. cbn [Z.eqb Pos.eqb] in A.
  assert (NO : acts sg v (csi_bytes pri P 103) [] -> retabs sg v (csi_bytes pri P 103) (is_stop (v_con v))).
  { intros X. unfold acts in X. cbn [run] in X. destruct X as (v' & I & C & M'). exists v'.
    assert (Con : v_con v' = v_con v) by exact (con_core _ _ C). rewrite Con. repeat match goal with |- _ /\ _ => split end; auto.
    now destruct (v_con v). }
  destruct (arg0 P 0) as [|q|]; [|destruct q as [q|q|]; [destruct q| |]|]; try (apply NO; now apply A).
  - apply (retab_one sg v _ OResetTabstop); [now apply A|]. destruct (tabstop_r (v_con v) false (reach_con sg v R)) as (s' & E & Q & W).
    exists s'. repeat match goal with |- _ /\ _ => split end; auto. intros k Hk. rewrite Q. destruct (Z.eqb_spec k (s_cx (v_con v))); cbn [andb orb negb]; [|reflexivity].
    subst k. now replace (s_cx (v_con v) <? s_sx (v_con v)) with true by lia.
  - apply (retab_one sg v _ OResetAllTabstops); [now apply A|]. exact (clear_tabs_r (v_con v) (reach_con sg v R)).
Qed.
Lemma arg0_range P k : Forall pchar P -> u32_arg (arg0 P k).
Proof. intros H. pose proof (arg_range P k H). unfold arg0, u32_arg. lia. Qed.
Lemma stbm_r sg v pri fl0 P : vreachable sg v -> text_mode v -> marker pri = Some fl0 -> Forall pchar P ->
  regions sg v (csi_bytes pri P 114) (fst (margins_for (v_con v) (arg0 P 0) (arg0 P 1))) (snd (margins_for (v_con v) (arg0 P 0) (arg0 P 1))).
Proof.
  intros R T M HP. pose proof (seq_r sg v pri fl0 P 114 _ R T M HP ltac:(lia) eq_refl) as A. unfold acts in A. cbn [run step bind] in A.
  destruct A as (v' & I & C & M'). assert (Con := con_core _ _ C). change (v_con (w_con v _)) with (scr_set_margins (v_con v) (arg0 P 0) (arg0 P 1)) in Con.
  exists v'. rewrite Con. repeat match goal with |- _ /\ _ => split end; auto.
  destruct (set_margins_ok (v_con v) (arg0 P 0) (arg0 P 1) (reachable_Inv _ (reach_con sg v R)) (arg0_range P 0 HP) (arg0_range P 1 HP)) as [E _].
  cbv zeta in E. rewrite E. unfold margins_for. destruct (_ && _); reflexivity.
Qed.
