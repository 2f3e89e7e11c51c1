(* Theorems about keyboard and mouse: C38, C39. *)
From Verif Require Import Base BaseProofs Utf8 Utf8Spec Symbol Screen ScreenResize ScreenInv ScreenSafe ScreenSpec ScreenThms.
From Verif Require Import VteData Vte VteKeys VteSpec VteView VteInv VteSafe VteFrame VteParse VteReply VteDevSpec VteDev VteDemo.
Ltac conj := repeat match goal with |- _ /\ _ => split end.
Ltac demos := apply demo_reachable; [repeat constructor; try (vm_compute; congruence); args|vm_compute; reflexivity].

(* C38: local echo off; without the three keypad keys below, and characters that
   are typable. *)
Theorem C38_key_partial : forall sg v keysym ascii mods unicode, vreachable sg v -> vfl v VF_SRM = true -> typable v unicode ->
  odd_pad (vfl v VF_KEYPAD_APP) keysym = false ->
  vte_key sg v keysym ascii mods unicode =
    Ok match key_sends v keysym ascii mods unicode with
       | Some bs => (wrote v (alt_prefix mods ++ [bs]), true)
       | None => (v, false)
       end.
Proof. exact key_plain. Qed.
Print Assumptions C38_key_partial.
(* With local echo the bytes also go through the terminal first. *)
Theorem C38_echo_partial : forall sg v keysym ascii mods unicode bs, vreachable sg v -> vfl v VF_SRM = false -> Z.testbit mods 3 = false -> typable v unicode ->
  odd_pad (vfl v VF_KEYPAD_APP) keysym = false -> key_sends v keysym ascii mods unicode = Some bs ->
  vte_key sg v keysym ascii mods unicode = do w <- vte_input sg v bs; Ok (wrote w [bs], true).
Proof. exact key_echo. Qed.
Print Assumptions C38_echo_partial.
(* Alt with an accented letter; Control-C; cursor up in both cursor key modes;
   shifted F5; a key the terminal does not know. *)
Example C38_ex : let v := demo false [] in let w := demo false [VInput [27; 91; 63; 49; 104]] in let e := demo false [VInput [27; 91; 49; 50; 108]] in
  vreachable false v /\ vreachable false w /\ vreachable false e /\ vfl v VF_SRM = true /\ vfl e VF_SRM = false /\ typable v 233 /\
  key_sends v 233 0 8 233 = Some [195; 169] /\ alt_prefix 8 = [[27]] /\ key_sends v 0x63 0x63 4 0x63 = Some [3] /\
  key_sends v 0xff52 0 0 0xffffffff = Some [27; 91; 65] /\ key_sends w 0xff52 0 0 0xffffffff = Some [27; 79; 65] /\
  key_sends v 0xffc2 0 1 0xffffffff = Some [27; 91; 50; 56; 126] /\ key_sends v 0xffe1 0 0 0xffffffff = None /\
  key_sends e 0x61 0x61 0 0x61 = Some [97].
Proof.
  cbv zeta. split; [demos|]. split; [demos|]. split; [demos|]. split; [vm_compute; reflexivity|]. split; [vm_compute; reflexivity|].
  split; [apply typable_utf8; [vm_compute; reflexivity|vm_compute; reflexivity|unfold scalar; lia|unfold nonchar; lia]|].
  conj; vm_compute; reflexivity.
Qed.
(* KP_Equal sends a slash. *)
Theorem C38_equal_refuted : exists sg v, vreachable sg v /\ vfl v VF_SRM = true /\
  vte_key sg v 0xffbd 0 0 0xffffffff = Ok (wrote v [[47]], true) /\ key_sends v 0xffbd 0 0 0xffffffff = Some [61].
Proof. exists false, (demo false []). split; [demos|]. conj; vm_compute; reflexivity. Qed.
Print Assumptions C38_equal_refuted.
(* In keypad application mode KP_Multiply and KP_Divide send each other's code. *)
Theorem C38_keypad_refuted : exists sg v, vreachable sg v /\ vfl v VF_SRM = true /\ vfl v VF_KEYPAD_APP = true /\
  vte_key sg v 0xffaa 0 0 0xffffffff = Ok (wrote v [[27; 79; 111]], true) /\ vte_key sg v 0xffaf 0 0 0xffffffff = Ok (wrote v [[27; 79; 106]], true).
Proof. exists false, (demo false [VInput [27; 61]]). split; [demos|]. conj; vm_compute; reflexivity. Qed.
Print Assumptions C38_keypad_refuted.
(* In 7-bit mode a character whose code is a multiple of 256 sends NUL, not '?'. *)
Theorem C38_seven_bit_refuted : exists sg v, vreachable sg v /\ vfl v VF_7BIT = true /\ vte_key sg v 0x1000100 0 0 0x100 = Ok (wrote v [[0]], true).
Proof. exists false, (demo false [VInput [27; 91; 54; 49; 34; 112]]). split; [demos|]. conj; vm_compute; reflexivity. Qed.
Print Assumptions C38_seven_bit_refuted.
(* With local echo Alt and c loses the ESC prefix: the echo of ESC c resets the
   terminal including the note to send it. *)
Theorem C38_alt_echo_refuted : exists sg v, vreachable sg v /\ vfl v VF_SRM = false /\ match vte_key sg v 0x63 0x63 8 0x63 with
  | Ok (w, true) => v_out w = v_out v ++ [EWrite [99]] | _ => False end.
Proof. exists false, (demo false [VInput [27; 91; 49; 50; 108]]). split; [demos|]. conj; vm_compute; reflexivity. Qed.
Print Assumptions C38_alt_echo_refuted.

(* C39 *)
Theorem C39_x10 : forall sg v cx cy px py b e m, vreachable sg v -> vfl v VF_SRM = true -> v_mmode v = 9 -> 0 <= cx < 2 ^ 31 -> 0 <= cy < 2 ^ 31 ->
  button_ok b -> modifiers_ok m ->
  vte_mouse sg v cx cy px py b e m =
  Ok (if Z.testbit e 2 then (v, false)
      else (wrote v [[27; 91; 77; 32 + Z.lor (if Z.testbit e 1 then 3 else b) m; Z.min 255 (33 + cx); Z.min 255 (33 + cy)]], true)).
Proof. exact mouse_x10. Qed.
Print Assumptions C39_x10.
Theorem C39_sgr_partial : forall sg v cx cy px py b e m, vreachable sg v -> vfl v VF_SRM = true -> v_mmode v = 1006 -> v_mev v <> 0 ->
  0 <= cx < 10 ^ 7 - 1 -> 0 <= cy < 10 ^ 7 - 1 -> button_ok b -> modifiers_ok m ->
  exists r, vte_mouse sg v cx cy px py b e m =
    Ok (if Z.testbit e 2
        then if negb (v_mev v =? 1003) || (1 + cx =? v_mcol v) && (1 + cy =? v_mrow v) then (v, false)
             else (wrote (w_mrow (w_mcol v (1 + cx)) (1 + cy)) [r], true)
        else (wrote v [r], true)) /\
    read_report r = Some (if Z.testbit e 2 then (35, 1 + cx, 1 + cy, true) else (Z.lor (wire_button b) m, 1 + cx, 1 + cy, Z.testbit e 0)).
Proof. exact mouse_sgr. Qed.
Print Assumptions C39_sgr_partial.
Theorem C39_pixel_partial : forall sg v cx cy px py b e m, vreachable sg v -> vfl v VF_SRM = true -> v_mmode v = 1016 -> v_mev v <> 0 ->
  0 <= px < 10 ^ 7 -> 0 <= py < 10 ^ 7 -> button_ok b -> modifiers_ok m -> In e [1; 2; 4] ->
  exists r, vte_mouse sg v cx cy px py b e m = Ok (if (e =? 4) && negb (v_mev v =? 1003) then (v, false) else (wrote v [r], true)) /\
    read_report r = Some (if e =? 4 then (35, px, py, true) else (Z.lor (wire_button b) m, px, py, e =? 1)).
Proof. exact mouse_pixel. Qed.
Print Assumptions C39_pixel_partial.
Theorem C39_not_asked : forall sg v cx cy px py b e m, ~ mouse_asked v (Z.testbit e 2) -> vte_mouse sg v cx cy px py b e m = Ok (v, false).
Proof. exact mouse_quiet. Qed.
Print Assumptions C39_not_asked.
(* Button and modifiers can be read back from the code. *)
Theorem C39_code_readable : forall b m, button_ok b -> modifiers_ok m -> let c := Z.lor (wire_button b) m in
  0 <= c < 128 /\ Z.land c 28 = m /\ Z.land c 67 = wire_button b /\ 0 <= Z.lor b m < 32.
Proof. exact wire_reads. Qed.
Print Assumptions C39_code_readable.
Theorem C39_buttons_distinct : forall b b', button_ok b -> button_ok b' -> wire_button b = wire_button b' -> b = b'.
Proof. exact wire_inj. Qed.
Print Assumptions C39_buttons_distinct.
Notation tracking := [27; 91; 63; 49; 48; 48; 51; 104; 27; 91; 63; 49; 48; 48; 54; 104].
Example C39_ex : let v := demo false [VInput tracking] in let x := demo false [VInput [27; 91; 63; 57; 104]] in
  let p := demo false [VInput (tracking ++ [27; 91; 63; 49; 48; 49; 54; 104])] in
  vreachable false v /\ vreachable false x /\ vreachable false p /\ vfl v VF_SRM = true /\ (v_mmode v, v_mev v) = (1006, 1003) /\ v_mmode x = 9 /\
  (v_mmode p, v_mev p) = (1016, 1003) /\
  vte_mouse false v 299 1 0 0 2 1 16 = Ok (wrote v [[27; 91; 60; 49; 56; 59; 51; 48; 48; 59; 50; 77]], true) /\
  read_report [27; 91; 60; 49; 56; 59; 51; 48; 48; 59; 50; 77] = Some (18, 300, 2, true) /\
  vte_mouse false x 299 1 0 0 2 1 16 = Ok (wrote x [[27; 91; 77; 50; 255; 34]], true).
Proof. cbv zeta. split; [demos|]. split; [demos|]. split; [demos|]. conj; vm_compute; reflexivity. Qed.
(* Motion with a button and a modifier held is reported as motion without. *)
Theorem C39_motion_refuted : exists sg v, vreachable sg v /\ vfl v VF_SRM = true /\ v_mmode v = 1006 /\ v_mev v = 1003 /\
  match vte_mouse sg v 2 1 0 0 0 4 4 with Ok (w, true) => exists r, v_out w = [EWrite r] /\ read_report r = Some (35, 3, 2, true) | _ => False end.
Proof.
  exists false, (demo false [VInput tracking]). split; [demos|]. split; [vm_compute; reflexivity|]. split; [vm_compute; reflexivity|]. split; [vm_compute; reflexivity|].
  vm_compute. eexists. split; reflexivity.
Qed.
Print Assumptions C39_motion_refuted.
(* Coordinates of more than seven digits: the report is cut off. *)
Theorem C39_cut_refuted : exists sg v, vreachable sg v /\ vfl v VF_SRM = true /\ v_mmode v = 1006 /\ v_mev v = 1003 /\
  match vte_mouse sg v 999999999 999999999 0 0 0 1 4 with Ok (w, true) => exists r, v_out w = [EWrite r] /\ read_report r = None | _ => False end.
Proof.
  exists false, (demo false [VInput tracking]). split; [demos|]. split; [vm_compute; reflexivity|]. split; [vm_compute; reflexivity|]. split; [vm_compute; reflexivity|].
  vm_compute. eexists. split; reflexivity.
Qed.
Print Assumptions C39_cut_refuted.
