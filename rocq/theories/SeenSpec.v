(* Where the contents of cells come from. *)
From Verif Require Import Base Screen ScreenSpec RenderSpec.

(* The colours a new screen has (tsm-screen.c:485-498), or one it was given. *)
Definition colours (ops : list op) (a : attr) : Prop := a = attr0 \/ a = attr_white \/ In (OSetDefAttr a) ops.
(* A blank, or a character written that is not of width 0. w is 0 in the cells a
   wide character extends over, which keep what they had. *)
Definition given (ops : list op) (g : glyph) : Prop :=
  let '(c, w, a) := g in
  c = 0 /\ (w = 0 \/ w = 1) /\ colours ops a \/
  In (OWrite c a) ops /\ exists n, scr_width c = Ok n /\ 0 < n /\ (w = 0 \/ w = n).
(* All that is stored: both buffers, also right of and below what is shown, and
   the scrollback. *)
Definition stored (s : screen) (g : glyph) : Prop :=
  exists l c, (In l (s_main s) \/ In l (s_alt s) \/ In l (s_sb s)) /\ In c (l_cells l) /\ look c = g.
(* The part of the attributes that ids account for (colours are not). *)
Definition style (a : attr) := (a_bold a, a_italic a, a_underline a, a_inverse a, a_blink a).
(* Characters are of type tsm_symbol_t, unsigned (libtsm.h:126). *)
Definition act_chars (a : act) : Prop := match a with ACall (OWrite ch _) => u32_arg ch | _ => True end.
