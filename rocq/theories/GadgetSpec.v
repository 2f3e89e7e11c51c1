(* Vocabulary for what the widget does with keys and the mouse. *)
From Verif Require Import Base Screen ScreenSpec ScreenResize ScreenSafe Render RenderSpec VteData Vte VteKeys Gadget.

(* The screen without what only tells when it changed. *)
Definition unaged (s : screen) : screen := set_age (set_rst (set_cnt s 0) false) 0.
Definition same_but_age (s s' : screen) : Prop := unaged s = unaged s'.
(* What a frame paints. *)
Definition looks (s : screen) : option (list (Z * Z * drawn)) :=
  match draw s with Ok (ds, _, _) => Some (map (fun d => (d_y d, d_x d, what d)) ds) | Ub => None end.

(* A position (in 1/1024 pixel) is in the cell c, cells being size pixels long. *)
Definition in_cell (pos size c : Z) : Prop := c * size * 1024 <= pos < (c + 1) * size * 1024.
(* The positions for which there is a cell number; those less than a cell outside
   count as in the first. *)
Definition has_cell (size pos : Z) : Prop := 0 < size /\ - (size * 1024) < pos < 4294967296 * size * 1024.
(* All of them over cells of w by hh pixels. *)
Definition aimed (w hh : Z) (ps : list (Z * Z)) : Prop := Forall (fun p => has_cell w (fst p) /\ has_cell hh (snd p)) ps.
(* Farther than three pixels. *)
Definition far (x0 y0 x y : Z) : Prop := 3072 < Z.abs (x - x0) \/ 3072 < Z.abs (y - y0).
(* The mouse being dragged along. *)
Definition moves (ps : list (Z * Z)) : list gev := map (fun p => EvMotion (fst p) (snd p)) ps.

(* Of the modifiers looked at, Shift is down and, except for those that choose the
   symbol, no other. *)
Definition shift_alone (state cmod : Z) : Prop :=
  forall n, In n [0; 1; 2; 3; 6] -> Z.testbit state n && negb (Z.testbit cmod n) = (n =? 0).
(* Keys that scroll: cursor up and down, page up and down. *)
Definition scroll_keys : list (Z * op) := [(0xff52, OSbUp 1); (0xff54, OSbDown 1); (0xff55, OSbPageUp 1); (0xff56, OSbPageDown 1)].
Definition scrolls (state : Z) (tr : option (Z * Z)) (o : op) : Prop :=
  exists key cmod, tr = Some (key, cmod) /\ shift_alone state cmod /\ In (key, o) scroll_keys.
(* The child is sent bs, if there is one. *)
Definition sent (h h' : gadget) (bs : list Z) : Prop :=
  h_pty h' = match h_pty h with Some q => Some (q ++ bs) | None => None end.
(* The mouse with its first button, pressed in the window and moved up to four
   pixels out of it, and nothing else. *)
Definition mild (e : gev) : Prop :=
  match e with
  | EvButton Down 1 t x y => 0 <= t < 4294967296 /\ 0 <= x < 16384 /\ 0 <= y < 16384
  | EvMotion x y => -4096 <= x < 20480 /\ -4096 <= y < 20480
  | _ => False
  end.
