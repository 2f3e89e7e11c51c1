(* Theorems about drawing: C20, C21. *)
From Verif Require Import Base BaseProofs Symbol Screen ScreenInv ScreenSpec ScreenResize ScreenSafe ScreenThms.
From Verif Require Import Render RenderSpec RenderProofs RenderAge RenderThms.
Notation plain := (mkA 7 0 0 0 0 0 0 0 false false false false false false).
Notation other := (mkA 7 0 9 0 0 0 0 0 false false false false false false).
Notation say c := (OWrite c plain).

(* C20: for every session in which the client starts with an empty window after
   a change of size, and default attributes are not changed while lines shorter
   than the screen may be shown: after a further draw the client that skips has
   the picture of the client that does not. *)
Theorem C20_redraw_partial : forall acts k, Forall act_args acts -> play_aged (client0 scr_init) acts ->
  play (client0 scr_init) acts = Ok k -> exists k', act_step k ADraw = Ok k' /\
  forall y x, on_screen (k_scr k) y x -> k_inc k' y x = k_full k' y x /\ k_full k' y x <> None.
Proof. exact redraw_sound. Qed.
Print Assumptions C20_redraw_partial.
(* A session with text, a draw, a wrap, a scroll, a change of size, mode changes. *)
Notation busy := [AResize 3 2; ACall (OSetFlags 2); ACall (say 97); ADraw; ACall (say 98); ACall (say 99); ACall (say 100); ADraw;
  ACall (OSetMaxSb 4); ACall ONewline; ACall (OSbUp 1); ADraw; ACall (OSelStart 1 0);
  ACall OSbReset; ACall (OSetDefAttr other); ADraw; ACall (OSetFlags 8); AResize 4 2; ADraw; ACall (OMoveLeft 1)].
Example C20_example : Forall act_args busy /\ play_aged (client0 scr_init) busy /\
  match play (client0 scr_init) busy with Ok k => k_last k =? 0 | Ub => true end = false.
Proof.
  split; [args|]. split; [|vm_compute; reflexivity]. vm_compute. repeat match goal with |- _ /\ _ => split end; try exact I. left. reflexivity.
Qed.
(* The counter overflows in some of these sessions. *)
Example C20_overflow_example : exists acts k, Forall act_args acts /\ play_aged (client0 scr_init) acts /\
  play (client0 scr_init) acts = Ok k /\ 0 < k_last k /\ s_cnt (k_scr k) = 1 /\ s_rst (k_scr k) = true.
Proof. exact overflow_happens. Qed.

(* Without these conditions the claim is false. A change of size alone does not
   make the old cursor position newer: *)
Theorem C20_resize_refuted : ~ (forall acts k, Forall act_args acts -> play (client0 scr_init) (acts ++ [ADraw]) = Ok k ->
  forall y x, on_screen (k_scr k) y x -> k_inc k y x = k_full k y x).
Proof.
  intros H. destruct (play_wrong_refutes [AResize 2 1; ACall (say 97); ACall (say 98); ADraw; ACall (OResize 3 1)] 0 1) as (k & E & O & N);
    [vm_compute; reflexivity|]. apply N. refine (H _ k _ E 0 1 O). args.
Qed.
Print Assumptions C20_resize_refuted.
(* Nor do new default attributes make the blanks newer that fill up short lines
   of the scrollback buffer: *)
Theorem C20_def_attr_refuted : ~ (forall acts k, Forall act_args acts ->
  Forall (fun a => match a with ACall (OResize _ _) => False | _ => True end) acts ->
  play (client0 scr_init) (acts ++ [ADraw]) = Ok k -> forall y x, on_screen (k_scr k) y x -> k_inc k y x = k_full k y x).
Proof.
  intros H. destruct (play_wrong_refutes [ACall (OSetMaxSb 5); ACall (OScrollUp 1); AResize 82 24; ACall (OSbUp 1); ADraw; ACall (OSetDefAttr other)] 0 81)
    as (k & E & O & N); [vm_compute; reflexivity|]. apply N. refine (H _ k _ _ E 0 81 O); [args|repeat constructor].
Qed.
Print Assumptions C20_def_attr_refuted.

(* C21: every position once, in row-major order, with the cell of the line shown
   there; only the overflow mark of the screen changes. Without selection q is
   false. *)
Theorem C21_cover : forall s, drawn_reachable s -> exists ds age,
  draw s = Ok (ds, set_rst s false, age) /\ zlen ds = s_sy s * s_sx s /\
  forall y x, on_screen s y x ->
    exists q, (s_sela s = false -> q = false) /\ znth ds (y * s_sx s + x) = Some (expected s q y x).
Proof. exact draw_covers. Qed.
Print Assumptions C21_cover.
(* The selected cells, when both ends are within the width of the screen, and
   lost ends occur only while the view is at the bottom. *)
Theorem C21_selection_partial : forall s, drawn_reachable s -> (s_sela s = true -> end_shown s (s_sel1 s) /\ end_shown s (s_sel2 s)) ->
  exists ds age, draw s = Ok (ds, set_rst s false, age) /\ zlen ds = s_sy s * s_sx s /\
  forall y x, on_screen s y x -> znth ds (y * s_sx s + x) = Some (expected s (selected s y x) y x).
Proof. exact draw_selection. Qed.
Print Assumptions C21_selection_partial.
Notation view := [OResize 3 2; OSetFlags 2; OSetMaxSb 4; say 97; say 98; ONewline; say 99; ONewline; say 100; OSbUp 1; OSelStart 1 0; OSelTarget 0 1].
Example C21_example : exists s, run scr_init view = Ok s /\ drawn_reachable s /\ s_sela s = true /\
  end_shown s (s_sel1 s) /\ end_shown s (s_sel2 s) /\
  map (fun x => selected s 0 x) [0; 1; 2] = [false; true; true] /\ map (fun x => selected s 1 x) [0; 1; 2] = [true; false; false] /\
  map (fun x => fst (fst (shown_cell s 0 x))) [0; 1; 2] = [97; 98; 0].
Proof.
  destruct (run scr_init view) as [s|] eqn:E; [|vm_compute in E; discriminate]. exists s. split; [reflexivity|].
  split; [eapply drawn_run; [|exact E]; args|].
  assert (Es : s = match run scr_init view with Ok s => s | Ub => scr_init end) by (rewrite E; reflexivity).
  clear E. subst s. repeat match goal with |- _ /\ _ => split end; vm_compute; intuition (try discriminate; try reflexivity).
Qed.

(* An end that was dropped from the scrollback buffer, with the view scrolled back. *)
Theorem C21_lost_end_refuted : ~ (forall s, drawn_reachable s -> draws_selection s).
Proof.
  intros H. destruct (ops_wrong_refutes [OResize 4 2; OSetMaxSb 2; OScrollUp 2; OSbUp 2; OSelStart 1 0; OSbReset; OSelTarget 2 1; OScrollUp 1; OSbUp 2] 0 2)
    as (s & _ & R & N); [args|vm_compute; reflexivity|]. exact (N (H s R)).
Qed.
Print Assumptions C21_lost_end_refuted.
(* An end right of the screen after the width was reduced. *)
Theorem C21_narrow_refuted : ~ (forall s, drawn_reachable s -> p_line (s_sel1 s) = None -> p_line (s_sel2 s) = None ->
  0 <= p_y (s_sel1 s) -> 0 <= p_y (s_sel2 s) -> draws_selection s).
Proof.
  intros H. destruct (ops_wrong_refutes [OResize 8 2; OSelStart 1 0; OSelTarget 6 0; OResize 4 2] 1 0)
    as (s & E & R & N); [args|vm_compute; reflexivity|].
  assert (Es : s = match run scr_init [OResize 8 2; OSelStart 1 0; OSelTarget 6 0; OResize 4 2] with Ok s => s | Ub => scr_init end) by (rewrite E; reflexivity).
  apply N, (H s R); rewrite Es; vm_compute; (reflexivity || discriminate).
Qed.
Print Assumptions C21_narrow_refuted.
