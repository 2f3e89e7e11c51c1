(* What the output of a program can do to the screen of its terminal. *)
From Verif Require Import Base Utf8 Screen ScreenSafe ScreenSpec Vte VteKeys.

(* The calls a terminal makes on its screen: not those by which the user sizes
   the screen, sets the scrollback limit, looks back and selects. *)
Definition program_call (o : op) : bool :=
  match o with
  | OResize _ _ | OSetMaxSb _ | OSbUp _ | OSbDown _ | OSbPageUp _ | OSbPageDown _ | OSbReset
  | OSelReset | OSelStart _ _ | OSelTarget _ _ => false
  | _ => true
  end.
(* From v to v' the screen was only acted on by such calls, with legal
   arguments. *)
Definition driven (v v' : vte) : Prop :=
  exists ops, Forall (fun o => program_call o = true) ops /\ Forall op_args ops /\ run (v_con v) ops = Ok (v_con v').
(* Calls of the terminal other than the user's calls on the screen. *)
Definition terminal_call (o : vop) : bool := match o with VScreen _ => false | _ => true end.
(* The user's calls on the screen in a session, and those of all. *)
Definition user_calls (os : list vop) : list op := flat_map (fun o => match o with VScreen c => [c] | _ => [] end) os.
(* Those of the calls that are not among the terminal's own. *)
Definition not_program (ops : list op) : list op := filter (fun o => negb (program_call o)) ops.
(* C0 and C1 control characters and DEL. *)
Definition control_char (c : Z) : Prop := 0 < c < 32 \/ 127 <= c < 160.
(* The text in the clipboard: the encodings of characters. *)
Definition copied_chars (t cs : list Z) : Prop := t = flat_map ucs4_to_utf8 cs.
(* Bytes without effect on a terminal they are sent to other than text, except
   line feeds and NUL. *)
Definition plain_byte (b : Z) : Prop := b = 0 \/ b = 10 \/ 32 <= b < 127 \/ 128 <= b < 256.
