(* Theorems about the terminal emulator: C23, C27 to C33. Proofs are in the Vte
   files; the terminals of the examples are those of VteDemo (8 by 3 cells). *)
From Verif Require Import Base BaseProofs Utf8 Utf8Spec Symbol Screen ScreenResize ScreenInv ScreenSafe ScreenSpec ScreenThms.
From Verif Require Import VteData Vte VteKeys VteSpec VteView VteInv VteSafe VteFrame VteParse VteCsi VteFx VteText VteStr VteEsc VteReply VteReset VteSave VteDemo VteThms VteThms2 VteThms3.
Ltac conj := repeat match goal with |- _ /\ _ => split end.
Ltac each := cbn [repeat app]; repeat (apply Forall_cons; [unfold pchar, osc_char, inert, digit; lia|]); apply Forall_nil.
Ltac demos := apply demo_reachable; [repeat constructor; try (vm_compute; congruence); args|vm_compute; reflexivity].

(* C23 *)
Theorem C23_hard_reset : forall sg v, vreachable sg v ->
  exists v', vte_hard_reset v = Ok v' /\ powered v v' /\ blank_screen (v_con v) (v_con v') (v_def v).
Proof. exact hard_r. Qed.
Print Assumptions C23_hard_reset.
Theorem C23_history_forgotten : forall sg v w, vreachable sg v -> vreachable sg w -> same_config v w ->
  exists v' w', vte_hard_reset v = Ok v' /\ vte_hard_reset w = Ok w' /\ looks_same v' w'.
Proof. exact forgets. Qed.
Print Assumptions C23_history_forgotten.
Theorem C23_ris : forall sg v, vreachable sg v -> ready v ->
  exists v', vte_input sg v [27; 99] = Ok v' /\ powered (osc_event v) v' /\ blank_screen (v_con v) (v_con v') (v_def v).
Proof. exact hard_bytes_r. Qed.
Print Assumptions C23_ris.
(* Text, colour, modes, tab stops, region, alternate screen, half a sequence. *)
Notation busy := [VInput [97; 98; 27; 91; 51; 49; 109; 27; 91; 63; 54; 104; 27; 91; 50; 59; 51; 114; 27; 91; 51; 103; 14; 27; 91; 63; 49; 48; 52; 57; 104; 99; 27; 91; 49; 50]].
Example C23_ex : vreachable false (demo false busy) /\ vreachable false (demo false []) /\ same_config (demo false busy) (demo false []) /\
  ready (demo false busy) /\ v_state (demo false busy) = SCsiParam /\ s_act (v_con (demo false busy)) = true /\ s_mt (v_con (demo false busy)) = 1 /\
  a_fc (v_cattr (demo false busy)) = 1.
Proof.
  split; [demos|]. split; [demos|]. split; [unfold same_config; conj; vm_compute; reflexivity|]. split; [right; right; vm_compute; auto|].
  conj; vm_compute; reflexivity.
Qed.

(* C27: exactly the three hazards, in every reachable state. *)
Theorem C27_input_partial : forall sg v bs, vreachable sg v ->
  (vte_input sg v bs = Ub <-> exists pre b post w, bs = pre ++ b :: post /\ vte_input sg v pre = Ok w /\ hazard sg w b).
Proof. exact input_exact. Qed.
Print Assumptions C27_input_partial.
Example C27_ex : vreachable true (demo true busy) /\ okb (vte_input true (demo true busy) [255; 27; 91; 56; 56; 56; 59; 109; 7; 200; 65]) = true.
Proof. split; [demos|vm_compute; reflexivity]. Qed.
(* A wide character in insert mode on one column. *)
Theorem C27_wide_refuted : exists sg v bs, vreachable sg v /\ vte_input sg v bs = Ub.
Proof. exists false, (demo false [VScreen (OResize 1 1); VInput [27; 91; 52; 104]]), [0xe4; 0xb8; 0x80]. split; [demos|vm_compute; reflexivity]. Qed.
Print Assumptions C27_wide_refuted.
(* Back tab after a wide character in the last column: the tab ruler is read
   behind its end. Plain bytes on a terminal of fixed size suffice. *)
Theorem C27_tab_refuted : exists sg v bs, vreachable sg v /\ text_mode v /\ vte_input sg v bs = Ub.
Proof.
  exists true, (demo true [VScreen (OResize 90 3)]), ([27; 91; 57; 57; 67] ++ [0xe4; 0xb8; 0x80] ++ [27; 91; 90]).
  split; [demos|]. split; [split; [vm_compute; reflexivity|right; right; vm_compute; auto]|vm_compute; reflexivity].
Qed.
Print Assumptions C27_tab_refuted.
(* A colour introducer as sixteenth parameter: the argument array is read behind
   its end, whatever the state of the terminal. *)
Theorem C27_sgr_refuted : forall sg v pri fl P, vreachable sg v -> text_mode v -> marker pri = Some fl -> Forall pchar P -> sgr_overrun P ->
  vte_input sg v (csi_bytes pri P 109) = Ub.
Proof. exact sgr_ub_r. Qed.
Print Assumptions C27_sgr_refuted.
Example C27_sgr_ex : let P := repeat 59 15 ++ [51; 56] in Forall pchar P /\ sgr_overrun P /\ vreachable true (demo true []) /\ text_mode (demo true []).
Proof.
  cbv zeta. split; [each|]. split; [split; vm_compute; reflexivity|]. split; [demos|].
  split; [vm_compute; reflexivity|right; right; vm_compute; auto].
Qed.

(* C28 *)
Theorem C28_chunks : forall sg chunks v, feed_chunks sg v chunks = vte_input sg v (concat chunks).
Proof. exact chunked. Qed.
Print Assumptions C28_chunks.
Theorem C28_any_split : forall sg chunks1 chunks2 v, concat chunks1 = concat chunks2 -> feed_chunks sg v chunks1 = feed_chunks sg v chunks2.
Proof. exact chunked_eq. Qed.
Print Assumptions C28_any_split.
Example C28_ex : concat [[27]; [91; 54]; []; [110; 0xc3]; [0xa9]] = concat [[27; 91]; [54; 110]; [0xc3; 0xa9]] /\
  okb (feed_chunks false (demo false []) [[27]; [91; 54]; []; [110; 0xc3]; [0xa9]]) = true /\
  v_out (vget (feed_chunks false (demo false []) [[27]; [91; 54]; []; [110; 0xc3]; [0xa9]])) = [EWrite [27; 91; 49; 59; 49; 82]] /\
  row8 (vget (feed_chunks false (demo false []) [[27]; [91; 54]; []; [110; 0xc3]; [0xa9]])) 0 = [233; 0; 0; 0; 0; 0; 0; 0].
Proof. conj; vm_compute; reflexivity. Qed.

(* C29: with the decoder between characters (it always is in 7-bit and 8-bit
   mode). *)
Theorem C29_cancel_partial : forall sg v, vreachable sg v -> ready v -> exists v', vte_input sg v [24] = Ok v' /\ core v' = core (osc_event v) /\ text_mode v'.
Proof. exact can_r. Qed.
Print Assumptions C29_cancel_partial.
Theorem C29_substitute_partial : forall sg v, vreachable sg v -> ready v ->
  match step (v_con v) (OWrite 191 (resolve (v_pal v) (v_cattr v))) with
  | Ok c => exists v', vte_input sg v [26] = Ok v' /\ text_mode v' /\ core v' = core (w_con (w_cattr (osc_event v) (resolve (v_pal v) (v_cattr v))) c)
  | Ub => vte_input sg v [26] = Ub end.
Proof. exact sub_r. Qed.
Print Assumptions C29_substitute_partial.
Theorem C29_escape_restarts_partial : forall sg v w bs, vreachable sg v -> vreachable sg w -> ready v -> ready w -> core (osc_event v) = core (osc_event w) ->
  match vte_input sg v (27 :: bs), vte_input sg w (27 :: bs) with
  | Ok a, Ok b => core a = core b /\ v_state a = v_state b
  | Ub, Ub => True
  | _, _ => False
  end.
Proof. exact restart_r. Qed.
Print Assumptions C29_escape_restarts_partial.
Example C29_ex : let v := demo false [VInput [27; 91; 49; 50; 59; 51]] in let w := demo false [VInput [27; 80; 49; 36; 113]] in
  vreachable false v /\ vreachable false w /\ ready v /\ ready w /\ core (osc_event v) = core (osc_event w) /\ v_state v = SCsiParam /\ v_state w = SDcsPass /\
  s_cx (v_con (vget (vte_input false v [27; 91; 51; 67]))) = 3.
Proof.
  cbv zeta. split; [demos|]. split; [demos|]. split; [right; right; vm_compute; auto|]. split; [right; right; vm_compute; auto|].
  split; [vm_compute; reflexivity|]. split; [vm_compute; reflexivity|]. split; vm_compute; reflexivity.
Qed.
(* After an incomplete UTF-8 character the escape byte is lost: the rest of the
   sequence is shown as text. *)
Theorem C29_truncated_refuted : exists sg v, vreachable sg v /\ v_state v = SGround /\
  row8 (vget (vte_input sg v [27; 91; 51; 67])) 0 = [0xfffd; 91; 51; 67; 0; 0; 0; 0].
Proof. exists false, (demo false [VInput [0xc3]]). split; [demos|split; vm_compute; reflexivity]. Qed.
Print Assumptions C29_truncated_refuted.

(* C30 *)
Theorem C30_parameters : forall sg v pri fl P, vreachable sg v -> ready v -> marker pri = Some fl -> Forall pchar P ->
  exists w, vte_input sg v (27 :: 91 :: pri ++ P) = Ok w /\ in_csi_state w /\
    v_argv w = firstn 16 (map argval (split P) ++ repeat (-1) 16) /\ v_argc w = Z.min 16 (zlen (split P) - 1) /\ core w = core (osc_event v).
Proof. exact collected. Qed.
Print Assumptions C30_parameters.
Theorem C30_value_exact : forall ds, Forall digit ds -> ds <> [] -> dval ds <= 655359 -> argval ds = dval ds.
Proof. exact argval_exact. Qed.
Print Assumptions C30_value_exact.
Theorem C30_value_large : forall ds, Forall digit ds -> 65535 < dval ds -> 65535 < argval ds <= 655359.
Proof. exact argval_large. Qed.
Print Assumptions C30_value_large.
Theorem C30_always_in_range : forall sg v, vreachable sg v -> length (v_argv v) = 16%nat /\ 0 <= v_argc v <= 16 /\ Forall (fun x => -1 <= x <= 655359) (v_argv v).
Proof. exact args_always. Qed.
Print Assumptions C30_always_in_range.
Example C30_ex : let P := [49; 50; 59; 59; 57; 57; 57; 57; 57; 57; 57; 57; 57; 57; 57; 59] in
  Forall pchar P /\ map argval (split P) = [12; -1; 99999; -1] /\ vreachable true (demo true busy) /\ ready (demo true busy) /\
  dval [57; 57; 57; 57; 57; 57; 57; 57; 57; 57; 57] = 99999999999 /\ dval [54; 53; 53; 51; 53; 57] = 655359.
Proof.
  cbv zeta. split; [each|]. split; [vm_compute; reflexivity|]. split; [demos|].
  split; [right; right; vm_compute; auto|]. split; vm_compute; reflexivity.
Qed.

(* C31 *)
Theorem C31_ignored_strings : forall sg v intro body stop bs, vreachable sg v -> text_mode v -> skipped_intro intro -> Forall inert body -> string_end stop ->
  encodes sg (v_flags v) (intro ++ body ++ stop) bs -> exists v', vte_input sg v bs = Ok v' /\ core v' = core v /\ text_mode v'.
Proof. exact skipped_r. Qed.
Print Assumptions C31_ignored_strings.
Example C31_ex : let v := demo true [VInput [97]] in vreachable true v /\ text_mode v /\ skipped_intro [27; 80] /\ string_end [27; 92] /\
  Forall inert [36; 113; 233; 0x4e00; 10; 127] /\
  encodes true (v_flags v) ([27; 80] ++ [36; 113; 233; 0x4e00; 10; 127] ++ [27; 92]) [27; 80; 36; 113; 195; 169; 228; 184; 128; 10; 127; 27; 92].
Proof.
  cbv zeta. split; [demos|]. split; [split; [vm_compute; reflexivity|right; right; vm_compute; auto]|].
  split; [cbn; auto|]. split; [cbn; auto|]. split; [each|].
  apply encodes_utf8; [vm_compute; reflexivity|vm_compute; reflexivity|vm_compute; reflexivity|each].
Qed.

(* C32 *)
Theorem C32_osc : forall sg v intro body stop bs, vreachable sg v -> text_mode v -> osc_intro intro -> Forall osc_char body -> osc_stop stop ->
  encodes sg (v_flags v) (intro ++ body ++ stop) bs -> exists v' text, vte_input sg v bs = Ok v' /\ text_mode v' /\
    core v' = core (if v_oscb v then emit v (EOsc text) else v) /\ zlen text <= 127 /\
    (Forall (fun c => 32 <= c) body -> zlen (flat_map ucs4_to_utf8 body) <= 127 -> text = flat_map ucs4_to_utf8 body).
Proof. exact osc_r. Qed.
Print Assumptions C32_osc.
Example C32_ex : let v := demo false [VSetOscCb true] in vreachable false v /\ text_mode v /\ osc_intro [27; 93] /\ osc_stop [7] /\
  Forall osc_char [48; 59; 233] /\ encodes false (v_flags v) ([27; 93] ++ [48; 59; 233] ++ [7]) [27; 93; 48; 59; 195; 169; 7] /\
  v_out (vget (vte_input false v [27; 93; 48; 59; 195; 169; 7])) = [EOsc [48; 59; 195; 169]].
Proof.
  cbv zeta. split; [demos|]. split; [split; [vm_compute; reflexivity|right; right; vm_compute; auto]|].
  split; [cbn; auto|]. split; [cbn; auto|]. split; [each|].
  split; [apply encodes_utf8; [vm_compute; reflexivity|vm_compute; reflexivity|vm_compute; reflexivity|each]|vm_compute; reflexivity].
Qed.

(* C33 *)
Theorem C33_replies : forall sg v bs v', vreachable sg v -> vte_input sg v bs = Ok v' ->
  exists l, v_out v' = v_out v ++ l /\ forall r, In (EWrite r) l -> Forall seven r /\
    exists p b q w cp, bs = p ++ b :: q /\ vte_input sg v p = Ok w /\ delivers sg w b = Some cp /\ asked w cp r.
Proof. exact replies. Qed.
Print Assumptions C33_replies.
Theorem C33_answers : forall sg v pri fl P f, vreachable sg v -> text_mode v -> marker pri = Some fl -> Forall pchar P -> f = 110 \/ f = 99 ->
  exists v', vte_input sg v (csi_bytes pri P f) = Ok v' /\ text_mode v' /\ core v' = core (answered v (answer (v_con v) pri P f)).
Proof. exact answer_seq. Qed.
Print Assumptions C33_answers.
Theorem C33_cursor_report_partial : forall sg v, vreachable sg v -> exists r c, cursor_report (v_con v) = [27; 91] ++ r ++ [59] ++ c ++ [82] /\
  Forall digit r /\ Forall digit c /\ r <> [] /\ c <> [] /\ dval r = s_cy (v_con v) + 1 /\ dval c = s_cx (v_con v) + 1 /\
  0 <= s_cy (v_con v) < s_sy (v_con v) /\ 0 <= s_cx (v_con v) <= s_sx (v_con v) + 1.
Proof. exact cursor_reads_r. Qed.
Print Assumptions C33_cursor_report_partial.
Example C33_ex : let v := demo false [VInput [27; 91; 50; 59; 52; 72]] in vreachable false v /\ text_mode v /\
  answer (v_con v) [] [54] 110 = Some [27; 91; 50; 59; 52; 82] /\ v_out (vget (vte_input false v [27; 91; 54; 110])) = [EWrite [27; 91; 50; 59; 52; 82]].
Proof.
  cbv zeta. split; [demos|]. split; [split; [vm_compute; reflexivity|right; right; vm_compute; auto]|]. split; vm_compute; reflexivity.
Qed.
(* In pending wrap position the reported column is outside the screen: 9 or even
   10 of 8 columns. *)
Theorem C33_column_refuted : exists sg v, vreachable sg v /\ text_mode v /\ s_sx (v_con v) = 8 /\
  v_out (vget (vte_input sg v [27; 91; 54; 110])) = [EWrite [27; 91; 49; 59; 49; 48; 82]].
Proof.
  exists false, (demo false [VInput [27; 91; 49; 59; 56; 72; 0xe4; 0xb8; 0x80]]). split; [demos|].
  split; [split; [vm_compute; reflexivity|right; right; vm_compute; auto]|]. split; vm_compute; reflexivity.
Qed.
Print Assumptions C33_column_refuted.
