(* Property C56: memory that runs out damages nothing but the scrollback. The
   notions are in AllocSpec.v, the calls with refusable memory in Alloc.v. *)
From Verif Require Import Base BaseProofs Screen ScreenInv ScreenSpec ScreenResize ScreenSafe ScreenThms TwinSpec Alloc AllocSpec AllocThms PropsTwin.

(* C56: whichever allocations fail, a call is defined unless it is one of the two
   hazards that are not defined with memory either, and the next call is as well. *)
Theorem C56_safe : forall s o al, faulty_reachable s -> op_args o ->
  (op_hazard s o -> fstep s o al = Ub) /\
  (~ op_hazard s o -> exists s1 c al1, fstep s o al = Ok (s1, c, al1) /\ faulty_reachable s1).
Proof. exact alloc_safe. Qed.
Print Assumptions C56_safe.
(* A call that does not report -ENOMEM returns what it always returns and has
   the effect on the page it has with memory. *)
Theorem C56_page : forall s o al s1 c al1, faulty_reachable s -> op_args o -> fstep s o al = Ok (s1, c, al1) -> c <> ENOMEM_RET ->
  c = ok_ret o /\ exists s2, step s o = Ok s2 /\ same_page s2 s1.
Proof. exact alloc_page. Qed.
Print Assumptions C56_page.
(* Of the rows it scrolls off some may be missing in the scrollback; those that
   are there are unaltered and in order, older rows are not affected. *)
Theorem C56_history : forall s o al s1 c al1, faulty_reachable s -> op_args o -> fstep s o al = Ok (s1, c, al1) ->
  scrolling o = true -> c <> ENOMEM_RET ->
  s_sbmax s1 = s_sbmax s /\ exists kept, subseq kept (off s o) /\ sb_text s1 = last_n (s_sbmax s) (sb_text s ++ kept).
Proof. exact alloc_history. Qed.
Print Assumptions C56_history.
(* Only resizing reports -ENOMEM, and then nothing has changed. *)
Theorem C56_resize_fails : forall s o al s1 c al1, faulty_reachable s -> op_args o -> fstep s o al = Ok (s1, c, al1) -> c = ENOMEM_RET ->
  (exists x y, o = OResize x y) /\ unchanged s s1.
Proof. exact alloc_fails. Qed.
Print Assumptions C56_resize_fails.
(* A whole run leaves the page the calls leave that did not report -ENOMEM. *)
Theorem C56_run : forall s ops al s1 cs al1, faulty_reachable s -> Forall op_args ops -> frun s ops al = Ok (s1, cs, al1) ->
  exists s2, run s (granted ops cs) = Ok s2 /\ same_page s2 s1.
Proof. exact alloc_run. Qed.
Print Assumptions C56_run.
(* If every allocation succeeds the calls are those of Screen.v. *)
Theorem C56_no_failure : forall s o, faulty_reachable s -> op_args o -> fstep s o [] = (do s' <- step s o; Ok (s', ok_ret o, [])).
Proof. exact alloc_granted. Qed.
Print Assumptions C56_no_failure.

(* The screen of PropsTwin.v with one row in the scrollback. The struct of the
   new line is refused: the row "b" is not kept, the page is the same. *)
Definition fget (r : res (screen * Z * verdicts)) : screen := match r with Ok p => fst (fst p) | Ub => scr_init end.
Definition fret (r : res (screen * Z * verdicts)) : Z := match r with Ok p => snd (fst p) | Ub => 99 end.
Example C56_scroll_ex : faulty_reachable twin_b /\ op_args ONewline /\ ~ op_hazard twin_b ONewline /\ scrolling ONewline = true /\
  fret (fstep twin_b ONewline [true]) = 0 /\ fret (fstep twin_b ONewline [false; true]) = 0 /\
  length (off twin_b ONewline) = 1%nat /\ length (sb_text twin_b) = 1%nat /\
  length (sb_text (fget (fstep twin_b ONewline [true]))) = 1%nat /\
  length (sb_text (fget (fstep twin_b ONewline [false; true]))) = 1%nat /\
  length (sb_text (fget (fstep twin_b ONewline []))) = 2%nat /\
  at_ (fget (fstep twin_b ONewline [true])) 0 0 = Some (99, 1, at0).
Proof.
  split; [apply reachable_faulty; exists twin_ops; split; [args|vm_compute; reflexivity]|].
  split; [exact I|]. split; [intros []|]. repeat match goal with |- _ /\ _ => split end; vm_compute; reflexivity.
Qed.
(* Growing to 90 times 30: refused at the second array, at a line in the middle,
   at the ruler, at the cells of a line; the call makes 75 allocations. *)
Definition refuse (n : nat) : verdicts := repeat false n ++ [true].
Example C56_resize_ex : faulty_reachable twin_b /\ op_args (OResize 90 30) /\
  map (fun n => fret (fstep twin_b (OResize 90 30) (refuse n))) [1%nat; 9%nat; 26%nat; 28%nat; 75%nat] = [-12; -12; -12; -12; 0] /\
  s_ln (fget (fstep twin_b (OResize 90 30) (refuse 9))) = 25 /\
  s_sx (fget (fstep twin_b (OResize 90 30) (refuse 28))) = 3 /\
  s_sx (fget (fstep twin_b (OResize 90 30) [])) = 90.
Proof.
  split; [apply reachable_faulty; exists twin_ops; split; [args|vm_compute; reflexivity]|].
  split; [args|]. repeat match goal with |- _ /\ _ => split end; vm_compute; reflexivity.
Qed.
(* A run in which a resize is refused and a row is lost. *)
Definition fault_ops : list op := [OResize 90 30; ONewline; OWrite 100 at0; OResize 2 2].
Definition fault_cs (r : res (screen * list Z * verdicts)) : list Z := match r with Ok p => snd (fst p) | Ub => [] end.
Example C56_run_ex : faulty_reachable twin_b /\ Forall op_args fault_ops /\
  fault_cs (frun twin_b fault_ops [true; true]) = [-12; 0; 0; 0] /\
  granted fault_ops [-12; 0; 0; 0] = [ONewline; OWrite 100 at0; OResize 2 2].
Proof.
  split; [apply reachable_faulty; exists twin_ops; split; [args|vm_compute; reflexivity]|].
  split; [unfold fault_ops; args|]. repeat match goal with |- _ /\ _ => split end; vm_compute; reflexivity.
Qed.
