(* Theorems about the terminal emulator: C34 to C37 and C40 to C45. *)
From Verif Require Import Base BaseProofs Utf8 Utf8Spec Symbol Screen ScreenResize ScreenInv ScreenSafe ScreenSpec ScreenMove ScreenThms.
From Verif Require Import VteData Vte VteKeys VteSpec VteView VteInv VteSafe VteFrame VteParse VteCsi VteFx VteText VteStr VteEsc VteReply VteReset VteSave VteDemo VteThms VteThms2 VteThms3.
Ltac conj := repeat match goal with |- _ /\ _ => split end.
Ltac each := cbn [repeat app]; repeat (apply Forall_cons; [unfold pchar, osc_char, inert, digit, graphic; lia|]); apply Forall_nil.
Ltac demos := apply demo_reachable; [repeat constructor; try (vm_compute; congruence); args|vm_compute; reflexivity].
Ltac texts := split; [vm_compute; reflexivity|right; right; vm_compute; auto].

(* C34: unless the sixteenth parameter is a colour introducer. Parameters left
   out are 0 only if there is no other parameter (sgr_params). *)
Theorem C34_sgr_partial : forall sg v pri fl P, vreachable sg v -> text_mode v -> marker pri = Some fl -> Forall pchar P -> ~ sgr_overrun P ->
  exists v' c, vte_input sg v (csi_bytes pri P 109) = Ok v' /\ text_mode v' /\
    core v' = core (w_con (w_cattr v (resolve (v_pal v) (sgr_list (v_def v) (sgr_params (args P)) (v_cattr v)))) c) /\
    (if vfl v VF_BCE then step (v_con v) (OSetDefAttr (v_cattr v')) = Ok c else c = v_con v).
Proof. exact sgr_r. Qed.
Print Assumptions C34_sgr_partial.
Theorem C34_unmentioned : forall def l a, ~ In 0 l ->
  (~ In 1 l -> ~ In 22 l -> a_bold (sgr_list def l a) = a_bold a) /\
  (~ In 3 l -> ~ In 23 l -> a_italic (sgr_list def l a) = a_italic a) /\
  (~ In 4 l -> ~ In 24 l -> a_underline (sgr_list def l a) = a_underline a) /\
  (~ In 7 l -> ~ In 27 l -> a_inverse (sgr_list def l a) = a_inverse a) /\
  (~ In 5 l -> ~ In 25 l -> a_blink (sgr_list def l a) = a_blink a) /\
  a_protect (sgr_list def l a) = a_protect a /\
  ((forall p, In p l -> ~ (30 <= p <= 39) /\ ~ (90 <= p <= 97)) -> fg_of (sgr_list def l a) = fg_of a) /\
  ((forall p, In p l -> ~ (40 <= p <= 49) /\ ~ (100 <= p <= 107)) -> bg_of (sgr_list def l a) = bg_of a).
Proof. exact sgr_unmentioned. Qed.
Print Assumptions C34_unmentioned.
Theorem C34_colours_in_range : forall sg v, vreachable sg v ->
  zlen (v_pal v) = 18 /\ -1 <= a_fc (v_cattr v) <= 17 /\ -1 <= a_bc (v_cattr v) <= 17.
Proof. exact colours_r. Qed.
Print Assumptions C34_colours_in_range.
(* 1;38;5;200;44;999;38;5 *)
Example C34_ex : let P := [49; 59; 51; 56; 59; 53; 59; 50; 48; 48; 59; 52; 52; 59; 57; 57; 57; 59; 51; 56; 59; 53] in let v := demo false [] in
  vreachable false v /\ text_mode v /\ Forall pchar P /\ sgr_params (args P) = [1; 38; 5; 200; 44; 999; 38; 5] /\ zlen (args P) <> 16 /\
  (let a := sgr_list (v_def v) (sgr_params (args P)) (v_cattr v) in (a_bold a, a_fc a, a_fr a, a_fg a, a_fb a, a_bc a, a_blink a)) =
    (true, -1, 255, 0, 215, 4, true) /\ In 44 [1; 38; 5; 200; 44; 999; 38; 5] /\ ~ In 3 [1; 38; 5; 200; 44; 999; 38; 5].
Proof.
  cbv zeta. split; [demos|]. split; [texts|]. split; [each|]. split; [vm_compute; reflexivity|]. split; [vm_compute; congruence|].
  split; [vm_compute; reflexivity|]. cbn [In]. lia.
Qed.
Theorem C34_overrun_refuted : exists sg v P, vreachable sg v /\ text_mode v /\ Forall pchar P /\ vte_input sg v (csi_bytes [] P 109) = Ub.
Proof.
  exists false, (demo false []), (repeat 59 15 ++ [52; 56]). split; [demos|]. split; [texts|]. split; [each|vm_compute; reflexivity].
Qed.
Print Assumptions C34_overrun_refuted.
(* CSI ; 4 m is 0;4 by ECMA-48 but keeps the bold attribute here. *)
Theorem C34_missing_refuted : exists sg v, vreachable sg v /\ text_mode v /\ a_bold (v_cattr v) = true /\
  a_bold (v_cattr (vget (vte_input sg v (csi_bytes [] [59; 52] 109)))) = true /\ a_bold (v_cattr (vget (vte_input sg v (csi_bytes [] [48; 59; 52] 109)))) = false.
Proof. exists false, (demo false [VInput [27; 91; 49; 109]]). split; [demos|]. split; [texts|]. conj; vm_compute; reflexivity. Qed.
Print Assumptions C34_missing_refuted.

(* C35: nothing saved in between, size unchanged, origin mode off at the
   restore. A pending wrap is not kept, character sets G0..G3 are not either. *)
Theorem C35_save_restore_partial : forall sg v bs v1 v2, vreachable sg v -> text_mode v -> vte_input sg v [27; 55] = Ok v1 ->
  (forall p b q w cp, bs = p ++ b :: q -> vte_input sg v1 p = Ok w -> delivers sg w b = Some cp -> ~ saves w cp) ->
  vte_input sg v1 bs = Ok v2 -> text_mode v2 -> s_sx (v_con v2) = s_sx (v_con v) -> s_sy (v_con v2) = s_sy (v_con v) ->
  fl (v_con v2) F_ORIGIN = false -> exists v3, vte_input sg v2 [27; 56] = Ok v3 /\ text_mode v3 /\ brought_back v v2 v3.
Proof. exact save_r. Qed.
Print Assumptions C35_save_restore_partial.
(* Two letters, colour, wrap off; then elsewhere: other colour, wrap on. *)
Example C35_ex : let v := demo false [VInput [97; 98; 27; 91; 51; 49; 109; 27; 91; 63; 55; 108]] in
  let v1 := vget (vte_input false v [27; 55]) in let bs := [27; 91; 109; 10; 99; 27; 91; 63; 55; 104] in let v2 := vget (vte_input false v1 bs) in
  let v3 := vget (vte_input false v2 [27; 56]) in
  vreachable false v /\ text_mode v /\ text_mode v2 /\ s_sx (v_con v2) = 8 /\ fl (v_con v2) F_ORIGIN = false /\
  existsb (fun b => (b =? 55) || (b =? 99) || (b =? 112)) [27; 91; 109; 10; 27; 91; 63; 104] = false /\
  (s_cx (v_con v2), s_cy (v_con v2), a_fc (v_cattr v2), vfl v2 VF_WRAP) = (3, 1, 16, true) /\
  (s_cx (v_con v3), s_cy (v_con v3), a_fc (v_cattr v3), vfl v3 VF_WRAP) = (2, 0, 1, false).
Proof. cbv zeta. split; [demos|]. split; [texts|]. split; [texts|]. conj; vm_compute; reflexivity. Qed.
Theorem C35_origin_refuted : exists sg v, vreachable sg v /\ text_mode v /\ vfl v VF_ORIGIN = true /\ s_cy (v_con v) = 1 /\
  s_cy (v_con (vget (vte_input sg v [27; 55; 27; 56]))) = 2.
Proof.
  exists false, (demo false [VInput [27; 91; 50; 59; 51; 114; 27; 91; 63; 54; 104; 27; 91; 49; 59; 49; 72]]).
  split; [demos|]. split; [texts|]. conj; vm_compute; reflexivity.
Qed.
Print Assumptions C35_origin_refuted.
Theorem C35_sets_refuted : exists sg v, vreachable sg v /\ text_mode v /\ v_g0 v = CsLower /\
  v_g0 (vget (vte_input sg v ([27; 55] ++ [27; 40; 48] ++ [27; 56]))) = CsDecSpec.
Proof. exists false, (demo false []). split; [demos|]. split; [texts|]. conj; vm_compute; reflexivity. Qed.
Print Assumptions C35_sets_refuted.
Theorem C35_pending_wrap_refuted : exists sg v, vreachable sg v /\ text_mode v /\ s_cx (v_con v) = 8 /\
  s_cx (v_con (vget (vte_input sg v [27; 55; 27; 56]))) = 7.
Proof. exists false, (demo false [VInput (repeat 97 8)]). split; [demos|]. split; [texts|]. conj; vm_compute; reflexivity. Qed.
Print Assumptions C35_pending_wrap_refuted.

(* C36 *)
Theorem C36_mode_is_local : forall sg v pri fl P set b, vreachable sg v -> text_mode v -> marker pri = Some fl -> Forall digit P ->
  mode_flag (private pri) (argval P) = Some b ->
  exists v', vte_input sg v (mode_bytes pri P set) = Ok v' /\ text_mode v' /\ switched v v' b set (mode_screen (private pri) set (argval P)).
Proof. exact flag_mode. Qed.
Print Assumptions C36_mode_is_local.
Theorem C36_unknown_mode : forall sg v pri fl P set, vreachable sg v -> text_mode v -> marker pri = Some fl -> Forall digit P ->
  mode_flag (private pri) (argval P) = None -> (private pri = true -> ~ alt_mode (argval P) /\ ~ mouse_mode (argval P)) ->
  exists v', vte_input sg v (mode_bytes pri P set) = Ok v' /\ text_mode v' /\ core v' = core v.
Proof. exact ignored_mode. Qed.
Print Assumptions C36_unknown_mode.
Theorem C36_mouse_modes : forall sg v P set, vreachable sg v -> text_mode v -> Forall digit P -> mouse_mode (argval P) ->
  exists v', vte_input sg v (mode_bytes [63] P set) = Ok v' /\ text_mode v' /\ core v' = core (mouse_after v set (argval P)).
Proof. exact mouse_modes. Qed.
Print Assumptions C36_mouse_modes.
Theorem C36_screen_modes : forall sg v P set, vreachable sg v -> text_mode v -> Forall digit P -> alt_mode (argval P) ->
  exists v' c, vte_input sg v (mode_bytes [63] P set) = Ok v' /\ text_mode v' /\ run (v_con v) (alt_calls v set (argval P)) = Ok c /\
    core v' = core (w_con (if alt_saves v set (argval P) then w_alty (w_altx v (s_cx (v_con v))) (s_cy (v_con v)) else v) c).
Proof. exact alt_modes. Qed.
Print Assumptions C36_screen_modes.
Theorem C36_twice : forall v v1 v2 b dec n set, switched v v1 b set (mode_screen dec set n) -> switched v1 v2 b set (mode_screen dec set n) ->
  v_flags v2 = v_flags v1 /\ core v2 = core (w_con v1 (v_con v2)) /\ only_flags (v_con v1) (v_con v2) (s_flags (v_con v1)).
Proof. exact mode_twice. Qed.
Print Assumptions C36_twice.
Theorem C36_last_wins : forall v v1 v2 w b dec n set set', switched v v1 b set (mode_screen dec set n) ->
  switched v1 v2 b set' (mode_screen dec set' n) -> switched v w b set' (mode_screen dec set' n) ->
  v_flags v2 = v_flags w /\ core v2 = core (w_con w (v_con v2)) /\
  only_flags (v_con v) (v_con v2) (s_flags (v_con w)) /\ only_flags (v_con v) (v_con w) (s_flags (v_con w)).
Proof. exact mode_last. Qed.
Print Assumptions C36_last_wins.
Theorem C36_several : forall sg v pri fl P Q set, vreachable sg v -> text_mode v -> marker pri = Some fl -> Forall pchar P -> Forall pchar Q ->
  zlen (split P) + zlen (split Q) <= 16 ->
  exists v' v1 v2, vte_input sg v (mode_bytes pri (P ++ 59 :: Q) set) = Ok v' /\
    vte_input sg v (mode_bytes pri P set) = Ok v1 /\ vte_input sg v1 (mode_bytes pri Q set) = Ok v2 /\ core v' = core v2.
Proof. exact several_modes. Qed.
Print Assumptions C36_several.
Example C36_ex : let v := demo true [VInput [97]] in vreachable true v /\ text_mode v /\ marker [63] = Some 4 /\ mode_flag true (argval [55]) = Some VF_WRAP /\
  mode_screen true false (argval [55]) = [OResetFlags SF_WRAP] /\ mode_flag true (argval [50; 48; 48; 52]) = None /\ mouse_mode (argval [49; 48; 48; 54]) /\
  alt_mode (argval [49; 48; 52; 57]) /\ vfl v VF_WRAP = true /\ vfl (vget (vte_input true v (mode_bytes [63] [55] false))) VF_WRAP = false /\
  zlen (split [55]) + zlen (split [50; 53]) <= 16.
Proof.
  cbv zeta. split; [demos|]. split; [texts|]. split; [vm_compute; reflexivity|]. split; [vm_compute; reflexivity|]. split; [vm_compute; reflexivity|].
  split; [vm_compute; reflexivity|]. split; [unfold mouse_mode; vm_compute; auto|]. split; [unfold alt_mode; vm_compute; auto|].
  split; [vm_compute; reflexivity|]. split; [vm_compute; reflexivity|]. vm_compute. congruence.
Qed.

(* C37 *)
Theorem C37_soft_reset : forall sg v, vreachable sg v ->
  exists v', vte_reset v = Ok v' /\ powered v v' /\ soft_screen (v_con v) (v_con v') (v_def v).
Proof. exact soft_r. Qed.
Print Assumptions C37_soft_reset.
Example C37_ex : let v := demo true [VInput [97; 27; 91; 63; 55; 108; 14; 27; 91; 63; 49; 48; 48; 51; 104; 27; 91; 49]] in vreachable true v /\
  v_state v = SCsiParam /\ vfl v VF_WRAP = false /\ v_gl v = G1 /\ v_mev v = 1003 /\ row8 v 0 = [97; 0; 0; 0; 0; 0; 0; 0].
Proof. cbv zeta. split; [demos|]. conj; vm_compute; reflexivity. Qed.

(* C40 *)
Theorem C40_text_through_sets : forall sg v cps bs, vreachable sg v -> text_mode v -> cps <> [] -> Forall graphic cps -> encodes sg (v_flags v) cps bs ->
  match run (v_con v) (map (fun c => OWrite c (resolve (v_pal v) (v_cattr v))) (shown_text v cps)) with
  | Ok c => exists v', vte_input sg v bs = Ok v' /\ text_mode v' /\
      core v' = core (w_con (w_cattr (unshifts v cps) (resolve (v_pal v) (v_cattr v))) c)
  | Ub => vte_input sg v bs = Ub
  end.
Proof. exact text_r. Qed.
Print Assumptions C40_text_through_sets.
Theorem C40_locked : forall v cps, v_glt v = None -> Forall (fun c => 33 <= c <= 126) cps ->
  shown_text v cps = map (fun c => set_at v (v_gl v) (c - 32)) cps.
Proof. exact locked_text. Qed.
Print Assumptions C40_locked.
Theorem C40_single_shift : forall v g c d r, 33 <= c <= 126 -> 33 <= d <= 126 ->
  shown_text (w_glt v (Some g)) (c :: d :: r) = set_at v g (c - 32) :: set_at v (v_gl v) (d - 32) :: shown_text (w_glt v None) r.
Proof. exact single_shift. Qed.
Print Assumptions C40_single_shift.
Theorem C40_default_is_ascii : forall v cps, default_sets v -> shown_text v cps = cps /\ unshifts v cps = v.
Proof. exact shown_default. Qed.
Print Assumptions C40_default_is_ascii.
Theorem C40_shift : forall sg v l w bs, vreachable sg v -> text_mode v -> shifted v l = Some w -> encodes sg (v_flags v) l bs ->
  exists v', vte_input sg v bs = Ok v' /\ core v' = core w /\ text_mode v'.
Proof. exact shift_r. Qed.
Print Assumptions C40_shift.
Theorem C40_designate : forall sg v l w bs, vreachable sg v -> text_mode v -> designated v l = Some w -> encodes sg (v_flags v) l bs ->
  exists v', vte_input sg v bs = Ok v' /\ core v' = core w /\ text_mode v'.
Proof. exact desig_r. Qed.
Print Assumptions C40_designate.
(* G2 holds the line drawing set; x through G0, a single shift to G2, then G0. *)
Example C40_ex : let v := demo false [VInput [27; 42; 48]] in vreachable false v /\ text_mode v /\ default_sets v /\
  designated v [27; 42; 48] <> None /\ shifted v [27; 78] = Some (w_glt v (Some G2)) /\ encodes false (v_flags v) [120; 27; 78; 120; 120] [120; 27; 78; 120; 120] /\
  row8 (vget (vte_input false v [120; 27; 78; 120; 120])) 0 = [120; 0x2502; 120; 0; 0; 0; 0; 0] /\
  row8 (vget (vte_input false v [120; 27; 110; 120; 120])) 0 = [120; 0x2502; 0x2502; 0; 0; 0; 0; 0].
Proof.
  cbv zeta. split; [demos|]. split; [texts|]. split; [unfold default_sets; conj; vm_compute; reflexivity|]. split; [discriminate|]. split; [reflexivity|].
  split; [apply encodes_utf8; [vm_compute; reflexivity|vm_compute; reflexivity|vm_compute; reflexivity|each]|]. split; vm_compute; reflexivity.
Qed.

(* C41 *)
Theorem C41_reads_palette : forall sg v a, vreachable sg v -> -1 <= a_fc a <= 17 -> -1 <= a_bc a <= 17 -> to_rgb (v_pal v) a = Ok (resolve (v_pal v) a).
Proof. exact resolved. Qed.
Print Assumptions C41_reads_palette.
Theorem C41_entry_selected : forall p a, let r := resolve p a in
  a_fc r = a_fc a /\ a_bc r = a_bc a /\ a_bold r = a_bold a /\ a_italic r = a_italic a /\ a_underline r = a_underline a /\
  a_inverse r = a_inverse a /\ a_protect r = a_protect a /\ a_blink r = a_blink a /\
  (a_fr r, a_fg r, a_fb r) = (if 0 <=? a_fc a then rgb_at p (if a_bold a && (a_fc a <? 8) then a_fc a + 8 else a_fc a) else (a_fr a, a_fg a, a_fb a)) /\
  (a_br r, a_bg r, a_bb r) = (if 0 <=? a_bc a then rgb_at p (a_bc a) else (a_br a, a_bg a, a_bb a)).
Proof. exact resolve_says. Qed.
Print Assumptions C41_entry_selected.
Theorem C41_codes_in_force : forall sg v, vreachable sg v ->
  zlen (v_pal v) = 18 /\ -1 <= a_fc (v_cattr v) <= 17 /\ -1 <= a_bc (v_cattr v) <= 17.
Proof. exact colours_r. Qed.
Print Assumptions C41_codes_in_force.
Example C41_ex : let v := demo false [VSetCustom (Some (map (fun i => (i, i + 100, i + 200)) [0;1;2;3;4;5;6;7;8;9;10;11;12;13;14;15;16;17]));
    VSetPalette PnCustom; VInput [27; 91; 49; 59; 51; 52; 109]] in
  vreachable false v /\ (a_fc (v_cattr v), a_fr (v_cattr v), a_fg (v_cattr v), a_fb (v_cattr v)) = (4, 12, 112, 212) /\
  (a_bc (v_cattr v), a_br (v_cattr v), a_bg (v_cattr v), a_bb (v_cattr v)) = (17, 17, 117, 217).
Proof. cbv zeta. split; [demos|]. conj; vm_compute; reflexivity. Qed.

(* C42: unsigned char, Latin-1 in GR. *)
Theorem C42_latin1_partial : forall v bs, vreachable false v -> text_mode v -> vfl v VF_7BIT = false -> vfl v VF_8BIT = true -> gset v (v_gr v) = CsUpper ->
  v_grt v = None -> bs <> [] -> Forall (fun b => 160 <= b <= 255) bs ->
  match run (v_con v) (map (fun c => OWrite c (resolve (v_pal v) (v_cattr v))) bs) with
  | Ok c => exists v', vte_input false v bs = Ok v' /\ text_mode v' /\ core v' = core (w_con (w_cattr v (resolve (v_pal v) (v_cattr v))) c)
  | Ub => vte_input false v bs = Ub
  end.
Proof. exact latin_r. Qed.
Print Assumptions C42_latin1_partial.
Theorem C42_controls_partial : forall v c ops, vreachable false v -> text_mode v -> vfl v VF_7BIT = false -> vfl v VF_8BIT = true -> 0x80 <= c <= 0x9f ->
  control_calls (vfl v VF_LNM) c = Some ops -> acts false v [c] ops.
Proof. exact c1_byte. Qed.
Print Assumptions C42_controls_partial.
Theorem C42_csi_partial : forall v bs, vreachable false v -> vfl v VF_7BIT = false -> vfl v VF_8BIT = true ->
  vte_input false v (0x9b :: bs) = vte_input false v (27 :: 91 :: bs).
Proof. exact csi8_r. Qed.
Print Assumptions C42_csi_partial.
Example C42_ex : let v := demo false [VInput [27; 91; 54; 50; 59; 48; 34; 112; 27; 124]] in vreachable false v /\ text_mode v /\
  vfl v VF_8BIT = true /\ vfl v VF_7BIT = false /\ gset v (v_gr v) = CsUpper /\ v_grt v = None /\
  row8 (vget (vte_input false v [0xe9; 0xa4; 0x9b; 50; 67; 0xff])) 0 = [0xe9; 0xa4; 0; 0; 0xff; 0; 0; 0].
Proof. cbv zeta. split; [demos|]. split; [split; [vm_compute; reflexivity|right; left; vm_compute; reflexivity]|]. conj; vm_compute; reflexivity. Qed.
(* Where char is signed, 0xe9 becomes 0xffffffe9 and shows nothing. *)
Theorem C42_signed_refuted : exists v, vreachable true v /\ text_mode v /\ vfl v VF_8BIT = true /\ row8 (vget (vte_input true v [0xe9])) 0 = [0; 0; 0; 0; 0; 0; 0; 0].
Proof.
  exists (demo true [VInput [27; 91; 54; 50; 59; 48; 34; 112]]). split; [demos|]. split; [split; [vm_compute; reflexivity|right; left; vm_compute; reflexivity]|].
  conj; vm_compute; reflexivity.
Qed.
Print Assumptions C42_signed_refuted.
(* The sequence entering the mode puts the DEC set into GR: 0xd7 is not the
   multiplication sign. *)
Theorem C42_set_refuted : exists v, vreachable false v /\ text_mode v /\ vfl v VF_8BIT = true /\
  row8 (vget (vte_input false v [0xd7])) 0 = [0x152; 0; 0; 0; 0; 0; 0; 0].
Proof.
  exists (demo false [VInput [27; 91; 54; 50; 59; 48; 34; 112]]). split; [demos|]. split; [split; [vm_compute; reflexivity|right; left; vm_compute; reflexivity]|].
  conj; vm_compute; reflexivity.
Qed.
Print Assumptions C42_set_refuted.

(* C43: with origin mode off; a pending wrap counts as the last column. *)
Theorem C43_column_partial : forall sg v pri fl0 P f, vreachable sg v -> text_mode v -> marker pri = Some fl0 -> Forall pchar P -> fl (v_con v) F_ORIGIN = false ->
  f = 71 -> goes sg v (csi_bytes pri P f) (Z.min (arg1 P 0 - 1) (s_sx (v_con v) - 1)) (s_cy (v_con v)).
Proof. exact column_goes. Qed.
Print Assumptions C43_column_partial.
Theorem C43_row_partial : forall sg v pri fl0 P f y, vreachable sg v -> text_mode v -> marker pri = Some fl0 -> Forall pchar P -> fl (v_con v) F_ORIGIN = false ->
  (f = 100 /\ y = arg1 P 0 - 1 \/ f = 101 /\ y = s_cy (v_con v) + arg1 P 0) ->
  goes sg v (csi_bytes pri P f) (Z.min (s_cx (v_con v)) (s_sx (v_con v) - 1)) (Z.min y (s_sy (v_con v) - 1)).
Proof. exact row_goes. Qed.
Print Assumptions C43_row_partial.
Example C43_ex : let v := demo true [VInput [27; 91; 50; 59; 51; 72]] in vreachable true v /\ text_mode v /\ fl (v_con v) F_ORIGIN = false /\
  (s_cx (v_con v), s_cy (v_con v)) = (2, 1) /\ s_cx (v_con (vget (vte_input true v (csi_bytes [] [55] 71)))) = 6.
Proof. cbv zeta. split; [demos|]. split; [texts|]. conj; vm_compute; reflexivity. Qed.
(* In origin mode the row is taken relative to the region once more. *)
Theorem C43_origin_refuted : exists sg v, vreachable sg v /\ text_mode v /\ fl (v_con v) F_ORIGIN = true /\ s_cy (v_con v) = 1 /\
  s_cy (v_con (vget (vte_input sg v (csi_bytes [] [51] 71)))) = 2.
Proof.
  exists false, (demo false [VInput [27; 91; 50; 59; 51; 114; 27; 91; 63; 54; 104; 27; 91; 49; 59; 49; 72]]).
  split; [demos|]. split; [texts|]. conj; vm_compute; reflexivity.
Qed.
Print Assumptions C43_origin_refuted.

(* C44 *)
Theorem C44_position : forall sg v pri fl0 P f x y, vreachable sg v -> text_mode v -> marker pri = Some fl0 -> Forall pchar P ->
  cursor_target (v_con v) P f = Some (x, y) -> goes sg v (csi_bytes pri P f) x y.
Proof. exact cursor_goes. Qed.
Print Assumptions C44_position.
Theorem C44_cup : forall sg v pri fl0 P f, vreachable sg v -> text_mode v -> marker pri = Some fl0 -> Forall pchar P -> f = 72 \/ f = 102 ->
  goes sg v (csi_bytes pri P f) (Z.min (arg1 P 1 - 1) (s_sx (v_con v) - 1))
    (if fl (v_con v) F_ORIGIN then Z.min (s_mt (v_con v) + (arg1 P 0 - 1)) (s_mb (v_con v)) else Z.min (arg1 P 0 - 1) (s_sy (v_con v) - 1)).
Proof. exact cup_goes. Qed.
Print Assumptions C44_cup.
Example C44_ex : let v := demo true [VInput [27; 91; 50; 59; 51; 114; 27; 91; 63; 54; 104]] in vreachable true v /\ text_mode v /\ fl (v_con v) F_ORIGIN = true /\
  arg1 [59; 57; 57] 0 = 1 /\ arg1 [59; 57; 57] 1 = 99 /\ cursor_target (v_con v) [59; 57; 57] 72 = Some (7, 1) /\ cursor_target (v_con v) [] 66 = Some (0, 1).
Proof. cbv zeta. split; [demos|]. split; [texts|]. conj; vm_compute; reflexivity. Qed.

(* C45 *)
Theorem C45_plain_text : forall sg v cps bs, vreachable sg v -> text_mode v -> default_sets v -> cps <> [] -> Forall graphic cps -> encodes sg (v_flags v) cps bs ->
  match run (v_con v) (map (fun c => OWrite c (resolve (v_pal v) (v_cattr v))) cps) with
  | Ok c => exists v', vte_input sg v bs = Ok v' /\ text_mode v' /\ core v' = core (w_con (w_cattr v (resolve (v_pal v) (v_cattr v))) c)
  | Ub => vte_input sg v bs = Ub
  end.
Proof. exact plain_text_r. Qed.
Print Assumptions C45_plain_text.
Example C45_ex : let v := demo true [] in vreachable true v /\ text_mode v /\ default_sets v /\ Forall graphic [72; 233; 0x4e00; 0x1f600; 127] /\
  encodes true (v_flags v) [72; 233; 0x4e00; 0x1f600] [72; 195; 169; 228; 184; 128; 240; 159; 152; 128].
Proof.
  cbv zeta. split; [demos|]. split; [texts|]. split; [unfold default_sets; conj; vm_compute; reflexivity|]. split; [each|].
  apply encodes_utf8; [vm_compute; reflexivity|vm_compute; reflexivity|vm_compute; reflexivity|each].
Qed.
