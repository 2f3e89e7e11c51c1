(* Property C51: what a screen call may not change, it does not change. The
   classes of calls are in FrameSpec.v. *)
From Verif Require Import Base BaseProofs Screen ScreenInv ScreenSpec ScreenResize ScreenSafe ScreenThms FrameSpec ScreenFrame.

(* C51: for every call in every reachable state; and for every sequence of calls
   none of which may change the thing in question. *)
Theorem C51_call : forall s o s', reachable s -> op_args o -> step s o = Ok s' -> framed o s s'.
Proof. exact framed_r. Qed.
Print Assumptions C51_call.
Theorem C51_run : forall ops s s', reachable s -> Forall op_args ops -> run s ops = Ok s' ->
  let none f := Forall (fun o => f o = false) ops in
  (none may_size -> s_sx s' = s_sx s /\ s_sy s' = s_sy s) /\
  (none may_flags -> s_flags s' = s_flags s) /\
  (none may_margins -> s_mt s' = s_mt s /\ s_mb s' = s_mb s) /\
  (none may_def -> s_def s' = s_def s) /\
  (none may_tabs -> s_tabs s' = s_tabs s) /\
  (none may_limit -> s_sbmax s' = s_sbmax s) /\
  (none may_select -> s_sela s' = s_sela s) /\
  (none may_cursor -> s_cx s' = s_cx s /\ s_cy s' = s_cy s) /\
  (none may_text -> same_text s s') /\
  (none may_history -> sb_text s' = sb_text s).
Proof. exact framed_run. Qed.
Print Assumptions C51_run.

(* Four columns, three rows, wrapping, a region, a selection. *)
Definition frame_ops : list op :=
  [OResize 4 3; OSetMaxSb 2; OSetFlags 2; OSetMargins 1 3; OWrite 97 at0; OWrite 98 at0; ONewline; OWrite 99 at0; OSelStart 1 1].
Definition frame0 : screen := get (run scr_init frame_ops).
Example C51_call_ex : reachable frame0 /\ op_args (OInsChars 1) /\
  exists s', step frame0 (OInsChars 1) = Ok s' /\ s_sela frame0 = true /\ s_cx frame0 = 1 /\ s_cy frame0 = 1 /\ s_mb frame0 = 2.
Proof.
  split; [exists frame_ops; split; [args|vm_compute; reflexivity]|]. split; [args|].
  exists (get (step frame0 (OInsChars 1))). vm_compute. repeat split.
Qed.
(* Looking at the scrollback, moving and setting tabs changes no text. *)
Definition frame_more : list op := [OSbUp 1; OMoveTo 3 2; OSetTabstop; OMoveUp 5 false; OSelTarget 0 0; OSbReset].
Example C51_run_ex : exists s', run frame0 frame_more = Ok s' /\ Forall op_args frame_more /\
  Forall (fun o => may_text o = false /\ may_history o = false) frame_more /\ s_cx s' <> s_cx frame0.
Proof.
  exists (get (run frame0 frame_more)). split; [vm_compute; reflexivity|]. split; [args|].
  split; [repeat constructor|vm_compute; discriminate].
Qed.
(* The classes are no larger than needed: every call in may_cursor moves the
   cursor of some reachable screen, every call in may_text changes some text. *)
Definition moves_cursor (o : op) : bool :=
  match run frame0 [OMoveTo 1 0; OTabRight 0; OMoveTo 2 1] with
  | Ok s => match step s o with Ok s' => negb ((s_cx s' =? s_cx s) && (s_cy s' =? s_cy s)) | Ub => false end
  | Ub => false end.
Example C51_cursor_needed : forallb moves_cursor
  [OWrite 97 at0; ONewline; OMoveTo 0 0; OMoveUp 1 false; OMoveDown 1 false; OMoveLeft 1; OMoveRight 1; OLineEnd; OLineHome;
   OTabRight 1; OTabLeft 1; OInsLines 1; ODelLines 1; OResize 2 2] = true.
Proof. vm_compute. reflexivity. Qed.
(* Insertion and deletion of characters move a cursor that waits past the last column. *)
Example C51_cursor_needed_chars :
  let s := get (run frame0 [OWrite 100 at0; OWrite 101 at0; OWrite 102 at0]) in
  s_cx s = 4 /\ s_cx (get (step s (OInsChars 1))) = 3 /\ s_cx (get (step s (ODelChars 1))) = 3.
Proof. vm_compute. auto. Qed.
Definition changes_text (o : op) : bool :=
  match step frame0 o with
  | Ok s' => negb (forallb (fun y => forallb (fun x => match main_at frame0 y x, main_at s' y x with
       | Some (a, _, _), Some (b, _, _) => a =? b | _, _ => false end) [0; 1; 2; 3]) [0; 1; 2])
  | Ub => false end.
Example C51_text_needed : forallb changes_text
  [OResize 1 1; OWrite 100 at0; OScrollUp 1; OScrollDown 1; OInsLines 1; ODelLines 1; OEraseHome false; OEraseLine false;
   OEraseScreenToCursor false; OEraseScreen false] = true.
Proof. vm_compute. reflexivity. Qed.
