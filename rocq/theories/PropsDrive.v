(* C64: what the output of a program can do to the screen. Vocabulary in
   DriveSpec.v; proofs in DriveProofs.v and DriveThms.v. *)
From Verif Require Import Base BaseProofs Utf8 Symbol Screen ScreenInv ScreenSafe ScreenSpec ScreenThms RenderSpec SeenSpec Selection.
From Verif Require Import VteData Vte VteKeys VteSpec VteInv VteSafe VteDemo DriveSpec DriveProofs DriveThms.
Ltac demos := apply demo_reachable; [repeat constructor; try (vm_compute; congruence); args|vm_compute; reflexivity].

(* Input, keys, mouse events, resets and palettes act on the screen only by
   calls, legal ones, that neither size it, set the scrollback limit, look back
   nor select. *)
Theorem C64_call : forall sg v o v', vreachable sg v -> vop_args o -> terminal_call o = true -> vstep sg v o = Ok v' -> driven v v'.
Proof. exact drive_call. Qed.
Print Assumptions C64_call.
(* In a session such calls on the screen are the user's, all of them, in order. *)
Theorem C64_session : forall sg os v v', vreachable sg v -> Forall vop_args os -> vrun sg v os = Ok v' ->
  exists ops, Forall op_args ops /\ run (v_con v) ops = Ok (v_con v') /\ not_program ops = not_program (user_calls os).
Proof. intros sg os v v' R. exact (drive_session sg os v v' (vreachable_inv sg v R)). Qed.
Print Assumptions C64_session.
(* The size, the scrollback limit and whether there is a selection are the
   user's to change. *)
Theorem C64_untouched : forall sg v os v', vreachable sg v -> Forall vop_args os -> Forall (fun o => program_call o = true) (user_calls os) ->
  vrun sg v os = Ok v' -> let s := v_con v in let s' := v_con v' in
  (s_sx s' = s_sx s /\ s_sy s' = s_sy s) /\ s_sbmax s' = s_sbmax s /\ s_sela s' = s_sela s.
Proof. exact drive_untouched. Qed.
Print Assumptions C64_untouched.
(* No cell of the screen or the scrollback holds a control character, and none
   but line feeds are copied from it. *)
Theorem C64_stored : forall s g, reachable s -> stored s g -> ~ control_char (fst (fst g)).
Proof. exact stored_clean. Qed.
Print Assumptions C64_stored.
Theorem C64_copied : forall s t, reachable s -> selection_copy s = Ok (CText t) ->
  exists cs, copied_chars t cs /\ Forall (fun c => c = 10 \/ ~ control_char c) cs.
Proof. exact copied_clean. Qed.
Print Assumptions C64_copied.
(* In bytes, where the characters written were in the range of their type. *)
Theorem C64_bytes : forall s t, reachable s -> (forall g, stored s g -> 0 <= fst (fst g) < 2 ^ 32) -> selection_copy s = Ok (CText t) -> Forall plain_byte t.
Proof. exact copied_bytes. Qed.
Print Assumptions C64_bytes.

(* "ab", a CSI sequence with an ESC in it, NUL, BEL and DEL, a private sequence
   asking for the alternate screen and back, a reset; the user looks back and
   selects in between. *)
Definition driven_os : list vop :=
  [VInput [97; 98; 27; 91; 27; 91; 50; 59; 51; 72; 0; 7; 127; 99]; VScreen (OSelStart 0 0); VScreen (OSbUp 1); VInput [27; 91; 63; 49; 48; 52; 57; 104];
   VScreen (OSelTarget 3 1); VInput [27; 91; 63; 49; 48; 52; 57; 108]].
Definition driven0 : vte := demo true [VScreen (OSetMaxSb 2)].
Definition driven1 : vte := match vrun true driven0 driven_os with Ok v => v | Ub => driven0 end.
Example C64_ex : vreachable true driven0 /\ Forall vop_args driven_os /\ vrun true driven0 driven_os = Ok driven1 /\
  not_program (user_calls driven_os) = [OSelStart 0 0; OSbUp 1; OSelTarget 3 1] /\
  selection_copy (v_con driven1) = Ok (CText [97; 98; 10; 0; 0; 99]).
Proof.
  split; [unfold driven0; demos|]. split; [repeat constructor; try (vm_compute; congruence); args|].
  split; [vm_compute; reflexivity|]. split; vm_compute; reflexivity.
Qed.
(* Input alone, with a hard reset: the size, limit and selection are as before. *)
Example C64_untouched_ex : Forall (fun o => program_call o = true) (user_calls [VInput [27; 99; 120]; VHardReset]) /\
  exists v', vrun true driven1 [VInput [27; 99; 120]; VHardReset] = Ok v' /\ s_sela (v_con v') = true /\ s_sx (v_con v') = 8 /\ s_sbmax (v_con v') = 2.
Proof. split; [constructor|]. eexists. split; [vm_compute; reflexivity|]. repeat split; vm_compute; reflexivity. Qed.
Example C64_bytes_ex : forall g, stored (v_con driven1) g -> 0 <= fst (fst g) < 2 ^ 32.
Proof. apply in_range_ok. vm_compute. reflexivity. Qed.
