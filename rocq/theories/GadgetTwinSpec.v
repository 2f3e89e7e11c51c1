(* Vocabulary for sessions of the widget with and without looking around. *)
From Verif Require Import Base Screen ScreenSpec ScreenResize ScreenSafe VteData Vte VteKeys TwinSpec TwinVteSpec Gadget GadgetSpec.

(* Events by which the user only looks: mouse, frames, scrolling, the size of the
   scrollback. *)
Definition onlooking (e : gev) : Prop :=
  match e with
  | EvButton _ _ _ _ _ | EvMotion _ _ | EvFrame | EvSbSize _ => True
  | EvKey pressed state _ tr _ => pressed = true /\ exists o, scrolls state tr o
  | _ => False
  end.
(* The second list is the first with some of these left out. *)
Inductive thinned : list gev -> list gev -> Prop :=
| thin_nil : thinned [] []
| thin_out e es es' : onlooking e -> thinned es es' -> thinned (e :: es) es'
| thin_keep e es es' : thinned es es' -> thinned (e :: es) (e :: es').
(* Arguments as GTK has them, with the mouse not left of or above the window. *)
Definition gev_ok (e : gev) : Prop :=
  match e with
  | EvButton _ _ _ x y | EvMotion x y => 0 <= x < 4294967296 * 1024 /\ 0 <= y < 4294967296 * 1024
  | EvFork w hh => 0 < w /\ 0 < hh
  | EvSbSize n => u32_arg n
  | EvConfigure width height => 0 <= width <= 1073741824 /\ 0 <= height <= 1073741824
  | _ => True
  end.
(* What a child can tell of the widget and what becomes of it: the terminal apart
   from scrollback, view and selection; all that was written to the child and is
   not read yet; the titles. *)
Record same_session (a b : gadget) : Prop := mkSS {
  ss_term : same_term (h_vte a) (h_vte b); ss_face : h_face b = h_face a; ss_pty : h_pty b = h_pty a;
  ss_pipe : h_pipe b = h_pipe a; ss_titles : h_titles b = h_titles a }.
(* Both sessions go on alike or both are undefined. *)
Definition alike (a b : res gadget) : Prop :=
  match a, b with Ok a, Ok b => same_session a b | Ub, Ub => True | _, _ => False end.
(* All that the child writes. *)
Definition says_all (es : list gev) : list Z := flat_map (fun e => match e with EvSays bs => bs | _ => [] end) es.
(* The child writes, or some of it is read. *)
Definition piecemeal (e : gev) : Prop := match e with EvSays _ | EvRead _ => True | _ => False end.
(* No button of the mouse. *)
Definition unpressed (e : gev) : Prop := match e with EvButton _ _ _ _ _ => False | _ => True end.
(* n cells of this size are as many as fit, at least one. *)
Definition filled (len size n : Z) : Prop := 1 <= n /\ (n * size <= len \/ n = 1) /\ len < (n + 1) * size.
