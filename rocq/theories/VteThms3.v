(* Laws of the terminal, third part: resets, chunks, C1 controls, 8-bit text and
   the remaining statements in terms of reachable terminals. *)
From Verif Require Import Base BaseProofs Utf8 Symbol Screen ScreenInv ScreenSafe VteData Vte VteKeys VteSpec VteView VteInv VteSafe VteFrame VteParse VteCsi VteFx VteText VteStr VteEsc VteReply VteReset VteSave VteDevSpec VteDev VteThms VteThms2.
From Verif Require Import ScreenSb ScreenSpec ScreenOps ScreenCtl ScreenMove ScreenLaws ScreenAlt ScreenHist ScreenRz ScreenThms Utf8Spec Utf8Proofs.

(* -- resets ------------------------------------------------------------------ *)
Lemma powered_core v v' c : core v' = core (reset_to_v v c) -> text_mode v' -> powered v v'.
Proof.
  intros C [T R]. set (r := reset_to_v v c) in *. pose proof (reset_to_powered v c : powered v r) as P. unfold powered in P.
  destruct P as (P1 & P2 & P3 & P4 & P5 & P6 & P7 & P8 & P9 & P10 & P11 & P12 & P13 & P14 & P15 & P16 & P17 & P18 & P19 & P20 & P21 & P22 & P23 & P24 & P25).
  assert (F : forall A (f : vte -> A), (forall x, f (core x) = f x) -> f v' = f r).
  { intros A f Hf. rewrite <- (Hf v'), <- (Hf r), C. reflexivity. }
  assert (G : forall k, vfl v' k = existsb (Z.eqb k) power_flags) by (intros k; rewrite (F _ (fun x => vfl x k)) by reflexivity; apply P1).
  unfold powered. repeat match goal with |- _ /\ _ => split end; auto.
  - destruct R as [R|[R|R]]; [rewrite G in R; discriminate|rewrite G in R; discriminate|exact R].
  - rewrite (F _ v_gl); auto.
  - rewrite (F _ v_gr); auto.
  - rewrite (F _ v_glt); auto.
  - rewrite (F _ v_grt); auto.
  - rewrite (F _ v_g0); auto.
  - rewrite (F _ v_g1); auto.
  - rewrite (F _ v_g2); auto.
  - rewrite (F _ v_g3); auto.
  - rewrite (F _ v_mmode); auto.
  - rewrite (F _ v_mev); auto.
  - rewrite (F _ v_mcol); auto.
  - rewrite (F _ v_mrow); auto.
  - rewrite (F _ v_cattr); auto.
  - rewrite (F _ v_saved); auto.
  - rewrite (F _ v_pal); auto.
  - rewrite (F _ v_def); auto.
  - rewrite (F _ v_pname); auto.
  - rewrite (F _ v_custom); auto.
  - rewrite (F _ v_bsd); auto.
  - rewrite (F _ v_oscb); auto.
  - rewrite (F _ v_mcb); auto.
  - rewrite (F _ v_out); auto.
Qed.
Lemma soft_r sg v : vreachable sg v -> exists v', vte_reset v = Ok v' /\ powered v v' /\ soft_screen (v_con v) (v_con v') (v_def v).
Proof.
  intros R. destruct (reset_full v (vreachable_inv sg v R)) as (c & E & _ & S). exists (reset_to_v v c).
  split; [exact E|]. split; [apply reset_to_powered|exact S].
Qed.
Lemma hard_r sg v : vreachable sg v -> exists v', vte_hard_reset v = Ok v' /\ powered v v' /\ blank_screen (v_con v) (v_con v') (v_def v).
Proof.
  intros R. destruct (hard_full v (vreachable_inv sg v R)) as (c & E & S). exists (reset_to_v v c).
  split; [exact E|]. split; [apply reset_to_powered|exact S].
Qed.
Lemma hard_bytes_r sg v : vreachable sg v -> ready v -> exists v', vte_input sg v [27; 99] = Ok v' /\
  powered (osc_event v) v' /\ blank_screen (v_con v) (v_con v') (v_def v).
Proof.
  intros R Hr. destruct (hard_bytes sg v (vreachable_inv sg v R) Hr) as (v' & c & E & T & C & B). exists v'.
  split; [exact E|]. split; [exact (powered_core _ _ _ C T)|].
  assert (X : v_con v' = c) by exact (f_equal v_con C). rewrite X. exact B.
Qed.
(* Two terminals of the same size and configuration cannot be told apart after a
   hard reset. *)
Definition same_config (v w : vte) : Prop :=
  s_sx (v_con v) = s_sx (v_con w) /\ s_sy (v_con v) = s_sy (v_con w) /\ s_sbmax (v_con v) = s_sbmax (v_con w) /\
  v_pal v = v_pal w /\ v_def v = v_def w.
Definition looks_same (v w : vte) : Prop :=
  (forall k, vfl v k = vfl w k) /\ v_state v = v_state w /\ v_gl v = v_gl w /\ v_gr v = v_gr w /\ v_glt v = v_glt w /\ v_grt v = v_grt w /\
  v_g0 v = v_g0 w /\ v_g1 v = v_g1 w /\ v_g2 v = v_g2 w /\ v_g3 v = v_g3 w /\ v_mmode v = v_mmode w /\ v_mev v = v_mev w /\
  v_cattr v = v_cattr w /\ v_saved v = v_saved w /\
  let s := v_con v in let t := v_con w in
  s_sb s = s_sb t /\ s_sbpos s = s_sbpos t /\ s_cx s = s_cx t /\ s_cy s = s_cy t /\ s_flags s = s_flags t /\ s_act s = s_act t /\
  s_mt s = s_mt t /\ s_mb s = s_mb t /\ s_def s = s_def t /\
  (forall k, 0 <= k < s_sx s -> is_stop s k = is_stop t k) /\ (forall y x, on_screen s y x -> at_ s y x = at_ t y x).
Lemma forgets sg v w : vreachable sg v -> vreachable sg w -> same_config v w ->
  exists v' w', vte_hard_reset v = Ok v' /\ vte_hard_reset w = Ok w' /\ looks_same v' w'.
Proof.
  intros R1 R2 (X & Y & SB & P & D).
  destruct (hard_r sg v R1) as (v' & E1 & P1 & B1). destruct (hard_r sg w R2) as (w' & E2 & P2 & B2).
  exists v', w'. split; [exact E1|]. split; [exact E2|].
  unfold powered in P1, P2. unfold blank_screen in B1, B2.
  destruct P1 as (a1 & a2 & _ & a4 & a5 & a6 & a7 & a8 & a9 & a10 & a11 & a12 & a13 & _ & _ & a16 & a17 & _).
  destruct P2 as (b1 & b2 & _ & b4 & b5 & b6 & b7 & b8 & b9 & b10 & b11 & b12 & b13 & _ & _ & b16 & b17 & _).
  destruct B1 as (c1 & c2 & c3 & c4 & c5 & c6 & c7 & c8 & c9 & c10 & c11 & c12 & c13 & c14).
  destruct B2 as (d1 & d2 & d3 & d4 & d5 & d6 & d7 & d8 & d9 & d10 & d11 & d12 & d13 & d14).
  unfold looks_same. cbv zeta. repeat match goal with |- _ /\ _ => split end; try congruence.
  - intros k Hk. rewrite c13, d13; [reflexivity|lia|lia].
  - intros y x O. unfold on_screen in *. rewrite c14, d14; [congruence| |]; unfold on_screen in *; lia.
Qed.

(* -- chunks ------------------------------------------------------------------ *)
Fixpoint feed_chunks (sg : bool) (v : vte) (chunks : list (list Z)) : res vte :=
  match chunks with [] => Ok v | c :: r => do v1 <- vte_input sg v c; feed_chunks sg v1 r end.
Lemma chunked sg chunks : forall v, feed_chunks sg v chunks = vte_input sg v (concat chunks).
Proof.
  induction chunks as [|c r IH]; intros v; cbn [feed_chunks concat]; [reflexivity|]. rewrite input_app.
  destruct (vte_input sg v c); cbn [bind]; auto.
Qed.

(* -- the 8-bit form of CSI ----------------------------------------------------- *)
Lemma csi8_eq v : VInv v -> parse_data v 0x9b = Ok (w_state (do_clear (osc_event v)) SCsiEntry).
Proof.
  intros H. unfold parse_data, do_trans. cbv zeta. replace (trans (v_state v) 0x9b) with (Some SCsiEntry, ANone) by (destruct (v_state v); reflexivity). cbn [fst snd].
  destruct (exit_eq v 0x9b H) as (l & ->). cbn [bind do_action entry_action].
  destruct (osc_event v); reflexivity.
Qed.
Lemma csi8_input v bs : VInv v -> vfl v VF_7BIT = false -> vfl v VF_8BIT = true ->
  vte_input false v (0x9b :: bs) = vte_input false v (27 :: 91 :: bs).
Proof.
  intros H S E. cbn [vte_input]. unfold input_byte. rewrite S, E. change (char_to_u32 false 0x9b) with 0x9b. change (char_to_u32 false 27) with 27.
  rewrite csi8_eq, esc_eq by exact H. cbn [bind]. set (w := w_state (do_clear (osc_event v)) SEsc).
  assert (F : vfl w VF_7BIT = false /\ vfl w VF_8BIT = true).
  { destruct (event_fields v) as (_ & _ & F). unfold vfl in *. change (v_flags w) with (v_flags (osc_event v)). rewrite F. auto. }
  destruct F as [-> ->]. change (char_to_u32 false 91) with 91. rewrite csi_intro by reflexivity. cbn [bind]. subst w. generalize (osc_event v). intros u. reflexivity.
Qed.
(* Text in 8-bit mode with unsigned char. *)
Lemma latin_id v b : gset v (v_gr v) = CsUpper -> v_grt v = None -> 160 <= b <= 255 -> mapped v b = b.
Proof.
  intros G T Hb. unfold mapped. replace ((33 <=? b) && (b <=? 126)) with false by lia. rewrite T. unfold set_at. rewrite G.
  destruct ((161 <=? b) && (b <=? 254)) eqn:B; [rewrite (table_id CsUpper 160) by (auto; lia); lia|reflexivity].
Qed.
Lemma latin_text v bs : gset v (v_gr v) = CsUpper -> v_grt v = None -> Forall (fun b => 160 <= b <= 255) bs -> shown_text v bs = bs /\ unshifts v bs = v.
Proof.
  intros G T H. unfold unshifts. induction H as [|b r Hb _ IH]; [auto|]. cbn [shown_text fold_left].
  assert (U : unshift v b = v).
  { unfold unshift. replace ((33 <=? b) && (b <=? 126)) with false by lia. destruct ((161 <=? b) && (b <=? 254)); [destruct v; cbn in T; subst|]; reflexivity. }
  rewrite U, (latin_id v b) by auto. destruct IH as [-> ->]. auto.
Qed.
Lemma latin_r v bs : vreachable false v -> text_mode v -> vfl v VF_7BIT = false -> vfl v VF_8BIT = true -> gset v (v_gr v) = CsUpper -> v_grt v = None ->
  bs <> [] -> Forall (fun b => 160 <= b <= 255) bs ->
  match run (v_con v) (map (fun c => OWrite c (resolve (v_pal v) (v_cattr v))) bs) with
  | Ok c => exists v', vte_input false v bs = Ok v' /\ text_mode v' /\ core v' = core (w_con (w_cattr v (resolve (v_pal v) (v_cattr v))) c)
  | Ub => vte_input false v bs = Ub
  end.
Proof.
  intros R T S E G Gt N Hb. destruct (latin_text v bs G Gt Hb) as [A B].
  pose proof (text_r false v bs bs R T N) as P. rewrite A, B in P. apply P.
  - eapply Forall_impl; [|exact Hb]. cbv beta. intros b. unfold graphic. lia.
  - unfold vfl in *. unfold encodes. rewrite S, E. rewrite <- (map_id bs) at 2. apply map_ext. intros b. reflexivity.
Qed.
(* The single bytes 0x80..0x9f in that mode. *)
Lemma c1_byte v c ops : vreachable false v -> text_mode v -> vfl v VF_7BIT = false -> vfl v VF_8BIT = true -> 0x80 <= c <= 0x9f ->
  control_calls (vfl v VF_LNM) c = Some ops -> acts false v [c] ops.
Proof.
  intros R T S E Hc C. apply control_acts with (c := c); auto; [exact (vreachable_inv false v R)|].
  unfold vfl in *. unfold encodes. rewrite S, E. reflexivity.
Qed.

(* -- reachable terminals -------------------------------------------------------- *)
Lemma restart_r sg v w bs : vreachable sg v -> vreachable sg w -> ready v -> ready w -> core (osc_event v) = core (osc_event w) ->
  match vte_input sg v (27 :: bs), vte_input sg w (27 :: bs) with Ok a, Ok b => core a = core b /\ v_state a = v_state b | Ub, Ub => True | _, _ => False end.
Proof.
  intros R1 R2 A B C. pose proof (restart sg v w bs (vreachable_inv sg v R1) (vreachable_inv sg w R2) A B C) as P.
  destruct (vte_input sg v (27 :: bs)) as [a|], (vte_input sg w (27 :: bs)) as [b|]; try contradiction; auto.
  split; [now apply twin_core|]. destruct P as [->|((m & ->) & _)]; reflexivity.
Qed.
Lemma can_r sg v : vreachable sg v -> ready v -> exists v', vte_input sg v [24] = Ok v' /\ core v' = core (osc_event v) /\ text_mode v'.
Proof.
  intros R Hr. destruct (can_seq sg v [24] (vreachable_inv sg v R) Hr) as (v' & E & C & T & _); [apply encodes_low; repeat constructor; unfold ascii; lia|].
  exists v'. auto.
Qed.
Lemma sub_r sg v : vreachable sg v -> ready v -> match step (v_con v) (OWrite 191 (resolve (v_pal v) (v_cattr v))) with
  | Ok c => exists v', vte_input sg v [26] = Ok v' /\ text_mode v' /\ core v' = core (w_con (w_cattr (osc_event v) (resolve (v_pal v) (v_cattr v))) c)
  | Ub => vte_input sg v [26] = Ub end.
Proof.
  intros R Hr. pose proof (sub_seq sg v [26] (vreachable_inv sg v R) Hr (encodes_low sg _ [26] ltac:(repeat constructor; unfold ascii; lia))) as P.
  unfold cur_attr in P. destruct (step (v_con v) _) as [c|]; [|exact P]. destruct P as (v' & E & C & T & _). exists v'. auto.
Qed.
Lemma skipped_r sg v intro body stop bs : vreachable sg v -> text_mode v -> skipped_intro intro -> Forall inert body -> string_end stop ->
  encodes sg (v_flags v) (intro ++ body ++ stop) bs -> exists v', vte_input sg v bs = Ok v' /\ core v' = core v /\ text_mode v'.
Proof.
  intros R T A B C D. destruct (skipped_string sg v intro body stop bs (vreachable_inv sg v R) T A B C D) as (v' & E & F & G & _). exists v'. auto.
Qed.
Lemma osc_r sg v intro body stop bs : vreachable sg v -> text_mode v -> osc_intro intro -> Forall osc_char body -> osc_stop stop ->
  encodes sg (v_flags v) (intro ++ body ++ stop) bs -> exists v' text, vte_input sg v bs = Ok v' /\ text_mode v' /\
    core v' = core (if v_oscb v then emit v (EOsc text) else v) /\ zlen text <= 127 /\
    (Forall (fun c => 32 <= c) body -> zlen (flat_map ucs4_to_utf8 body) <= 127 -> text = flat_map ucs4_to_utf8 body).
Proof.
  intros R T A B C D. destruct (osc_string sg v intro body stop bs (vreachable_inv sg v R) T A B C D) as (v' & E & F & G & _).
  exists v', (osc_keep [] body). split; [exact E|]. split; [exact G|]. split; [exact F|]. split; [apply osc_keep_len; cbn; lia|].
  intros L N. rewrite osc_keep_all; auto; cbn; lia.
Qed.
Lemma cursor_reads_r sg v : vreachable sg v -> exists r c, cursor_report (v_con v) = [27; 91] ++ r ++ [59] ++ c ++ [82] /\
  Forall digit r /\ Forall digit c /\ r <> [] /\ c <> [] /\ dval r = s_cy (v_con v) + 1 /\ dval c = s_cx (v_con v) + 1 /\
  0 <= s_cy (v_con v) < s_sy (v_con v) /\ 0 <= s_cx (v_con v) <= s_sx (v_con v) + 1.
Proof.
  intros R. pose proof (VInv_Inv v (vreachable_inv sg v R)) as (I0 & Ix & Iy).
  assert (G : 0 <= s_cy (v_con v) < s_sy (v_con v) /\ s_sy (v_con v) <= 1073741824 /\ 0 <= s_cx (v_con v) <= s_sx (v_con v) + 1 /\ s_sx (v_con v) <= 1073741824).
  { inv0 I0. unfold DIM in *. lia. }
  destruct (cursor_report_reads (v_con v)) as (r & c & H1 & H2 & H3 & H4 & H5 & H6 & H7); [lia|lia|].
  exists r, c. repeat match goal with |- _ /\ _ => split end; auto; lia.
Qed.
Lemma shift_r sg v l w bs : vreachable sg v -> text_mode v -> shifted v l = Some w -> encodes sg (v_flags v) l bs ->
  exists v', vte_input sg v bs = Ok v' /\ core v' = core w /\ text_mode v'.
Proof. intros R T S E. destruct (shift_acts sg v l w bs (vreachable_inv sg v R) T S E) as (v' & A & B & C & _). exists v'. auto. Qed.
Lemma desig_r sg v l w bs : vreachable sg v -> text_mode v -> designated v l = Some w -> encodes sg (v_flags v) l bs ->
  exists v', vte_input sg v bs = Ok v' /\ core v' = core w /\ text_mode v'.
Proof. intros R T S E. destruct (desig_acts sg v l w bs (vreachable_inv sg v R) T S E) as (v' & A & B & C & _). exists v'. auto. Qed.
Lemma plain_text_r sg v cps bs : vreachable sg v -> text_mode v -> default_sets v -> cps <> [] -> Forall graphic cps -> encodes sg (v_flags v) cps bs ->
  match run (v_con v) (map (fun c => OWrite c (resolve (v_pal v) (v_cattr v))) cps) with
  | Ok c => exists v', vte_input sg v bs = Ok v' /\ text_mode v' /\ core v' = core (w_con (w_cattr v (resolve (v_pal v) (v_cattr v))) c)
  | Ub => vte_input sg v bs = Ub
  end.
Proof.
  intros R T D N G E. destruct (shown_default v cps D) as [A B]. pose proof (text_r sg v cps bs R T N G E) as P. rewrite A, B in P. exact P.
Qed.
Lemma save_r sg v bs v1 v2 : vreachable sg v -> text_mode v -> vte_input sg v [27; 55] = Ok v1 ->
  (forall p b q w cp, bs = p ++ b :: q -> vte_input sg v1 p = Ok w -> delivers sg w b = Some cp -> ~ saves w cp) ->
  vte_input sg v1 bs = Ok v2 -> text_mode v2 -> s_sx (v_con v2) = s_sx (v_con v) -> s_sy (v_con v2) = s_sy (v_con v) ->
  fl (v_con v2) F_ORIGIN = false -> exists v3, vte_input sg v2 [27; 56] = Ok v3 /\ text_mode v3 /\ brought_back v v2 v3.
Proof. intros R. apply save_input_restore. exact (vreachable_inv sg v R). Qed.
Lemma resolved sg v a : vreachable sg v -> -1 <= a_fc a <= 17 -> -1 <= a_bc a <= 17 -> to_rgb (v_pal v) a = Ok (resolve (v_pal v) a).
Proof. intros R A B. apply to_rgb_eq; [apply (vi_pal v (vreachable_inv sg v R))|split; auto]. Qed.
Lemma sgr_ub_r sg v pri fl0 P : vreachable sg v -> text_mode v -> marker pri = Some fl0 -> Forall pchar P -> sgr_overrun P ->
  vte_input sg v (csi_bytes pri P 109) = Ub.
Proof. intros R. apply sgr_seq_ub. exact (vreachable_inv sg v R). Qed.
Lemma chunked_eq sg c1 c2 v : concat c1 = concat c2 -> feed_chunks sg v c1 = feed_chunks sg v c2.
Proof. intros E. now rewrite !chunked, E. Qed.
Lemma args_always sg v : vreachable sg v -> length (v_argv v) = 16%nat /\ 0 <= v_argc v <= 16 /\ Forall (fun x => -1 <= x <= 655359) (v_argv v).
Proof. intros R. pose proof (vreachable_inv sg v R) as H. destruct H. auto. Qed.
Lemma encodes_utf8 sg F cps bs : bit F VF_7BIT = false -> bit F VF_8BIT = false -> bs = utf8_text cps -> Forall (fun cp => 0 <= cp <= 0x10FFFF) cps ->
  encodes sg F cps bs.
Proof. intros A B C D. unfold encodes. rewrite A, B. auto. Qed.
Lemma csi8_r v bs : vreachable false v -> vfl v VF_7BIT = false -> vfl v VF_8BIT = true -> vte_input false v (0x9b :: bs) = vte_input false v (27 :: 91 :: bs).
Proof. intros R. apply csi8_input. exact (vreachable_inv false v R). Qed.
Lemma column_goes sg v pri fl0 P f : vreachable sg v -> text_mode v -> marker pri = Some fl0 -> Forall pchar P -> fl (v_con v) F_ORIGIN = false ->
  f = 71 -> goes sg v (csi_bytes pri P f) (Z.min (arg1 P 0 - 1) (s_sx (v_con v) - 1)) (s_cy (v_con v)).
Proof.
  intros R T M HP O ->. pose proof (screen_bounds (v_con v) (reach_con sg v R)) as (B1 & B2 & B3 & B4).
  apply (cursor_goes sg v pri fl0 P 71); auto. unfold cursor_target, origin_row. rewrite O. cbv zeta. cbn [Z.eqb Pos.eqb]. rewrite (Z.min_l (s_cy (v_con v))) by lia. reflexivity.
Qed.
Lemma row_goes sg v pri fl0 P f y : vreachable sg v -> text_mode v -> marker pri = Some fl0 -> Forall pchar P -> fl (v_con v) F_ORIGIN = false ->
  (f = 100 /\ y = arg1 P 0 - 1 \/ f = 101 /\ y = s_cy (v_con v) + arg1 P 0) ->
  goes sg v (csi_bytes pri P f) (Z.min (s_cx (v_con v)) (s_sx (v_con v) - 1)) (Z.min y (s_sy (v_con v) - 1)).
Proof.
  intros R T M HP O H. apply (cursor_goes sg v pri fl0 P f); auto. unfold cursor_target, origin_row, cursor_col. rewrite O. cbv zeta.
  destruct H as [[-> ->]|[-> ->]]; reflexivity.
Qed.
Lemma cup_goes sg v pri fl0 P f : vreachable sg v -> text_mode v -> marker pri = Some fl0 -> Forall pchar P -> f = 72 \/ f = 102 ->
  goes sg v (csi_bytes pri P f) (Z.min (arg1 P 1 - 1) (s_sx (v_con v) - 1))
    (if fl (v_con v) F_ORIGIN then Z.min (s_mt (v_con v) + (arg1 P 0 - 1)) (s_mb (v_con v)) else Z.min (arg1 P 0 - 1) (s_sy (v_con v) - 1)).
Proof. intros R T M HP H. apply (cursor_goes sg v pri fl0 P f); auto. unfold cursor_target, origin_row. destruct H as [-> | ->]; reflexivity. Qed.
