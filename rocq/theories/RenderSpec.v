(* What drawing a screen should show, stated over the text in reading order:
   the scrollback from its oldest line, followed by the rows of the screen. *)
From Verif Require Import Base Symbol Screen ScreenSpec ScreenResize ScreenSafe Render.

(* The line drawn in row i: the text scrolled to the view position. *)
Definition shown_line (s : screen) (i : Z) : option line := znth (s_sb s ++ lines s) (view_index s + i).
(* The cell drawn at row i, column x; lines shorter than the screen is wide are
   continued with blanks in the default attributes. *)
Definition shown_cell (s : screen) (i x : Z) : glyph :=
  match shown_line s i with
  | Some l => match row_at l x with Some g => g | None => blank_glyph (s_def s) end
  | None => blank_glyph (s_def s)
  end.
(* Its age: the newest of cell, line and screen age; blanks made up on the fly
   are as old as the counter. 0 stands for "unknown" after an overflow. *)
Definition shown_age (s : screen) (i x : Z) : Z :=
  match shown_line s i with
  | Some l => Z.max (match znth (l_cells l) x with Some c => c_age c | None => s_cnt s end)
                    (Z.max (l_age l) (s_age s))
  | None => 0
  end.
Definition reported_age (s : screen) (i x : Z) : Z := if s_rst s then 0 else shown_age s i x.

(* Is the cursor shown in row i, column x? *)
Definition cursor_at (s : screen) (i x : Z) : bool :=
  negb (fl s F_HIDE) && (view_index s + i =? zlen (s_sb s) + s_cy s) && (x =? cursor_col s).

(* Where an end of the selection is in the text; a line that is gone counts as
   just before the oldest line. *)
Definition text_row (s : screen) (p : selpos) : Z :=
  match p_line p with
  | Some a => a - (s_sbid s - zlen (s_sb s) + 1)
  | None => if p_y p =? SELECTION_TOP then -1 else zlen (s_sb s) + p_y p
  end.
(* Reading order. *)
Definition upto (r c r' c' : Z) : bool := (r <? r') || (r =? r') && (c <=? c').
(* Positions from one end to the other, both included. *)
Definition between (s : screen) (p q : selpos) (r c : Z) : bool :=
  upto (text_row s p) (p_x p) r c && upto r c (text_row s q) (p_x q).
Definition selected (s : screen) (i x : Z) : bool :=
  let r := view_index s + i in
  s_sela s && (between s (s_sel1 s) (s_sel2 s) r x || between s (s_sel2 s) (s_sel1 s) r x).

(* The call for row i, column x, when the cell is drawn as selected or not. *)
Definition dcall_of (g : glyph) (inv : bool) (age i x : Z) : dcall :=
  let '(ch, w, a) := g in
  let a' := flip inv a in
  mkD (draw_id ch a') (symbol_get symtab_new ch)
      (if (ch =? 0) || (ch =? 32) && negb (a_underline a) then 0 else zlen (symbol_get symtab_new ch))
      w x i a' age.
Definition expected (s : screen) (sel : bool) (i x : Z) : dcall :=
  dcall_of (shown_cell s i x) (xorb (cursor_at s i x) (xorb (fl s F_INVERSE) sel)) (reported_age s i x) i x.

(* Ends of the selection the renderer handles: within the width of the screen,
   and a lost end only while the view is not scrolled back. *)
Definition end_shown (s : screen) (p : selpos) : Prop :=
  match p_line p with
  | Some _ => 0 <= p_x p < s_sx s
  | None => p_y p = SELECTION_TOP /\ s_sbpos s = None \/
            0 <= p_y p < 2147483648 /\ 0 <= p_x p < s_sx s
  end.

(* Clients. The picture a client has of the screen: the last call it acted upon
   for every position, without the age. *)
Definition drawn : Type := (Z * list Z * Z * Z * attr)%type.
Definition what (d : dcall) : drawn := (d_id d, d_ch d, d_len d, d_width d, d_attr d).
Definition picture : Type := Z -> Z -> option drawn.
Definition put (f : picture) (d : dcall) : picture :=
  fun i x => if (i =? d_y d) && (x =? d_x d) then Some (what d) else f i x.
(* Redrawing everything. *)
Definition redraw (ds : list dcall) (f : picture) : picture := fold_left put ds f.
(* Skipping cells whose age is known and not newer than last. *)
Definition fresh (last : Z) (d : dcall) : bool := negb (negb (d_age d =? 0) && (d_age d <=? last)).
Definition update (last : Z) (ds : list dcall) (f : picture) : picture :=
  fold_left put (filter (fresh last) ds) f.

(* A session: calls of the screen API, draws, and changes of the size after
   which the client starts with an empty window. *)
Inductive act := ACall (o : op) | ADraw | AResize (x y : Z).
Record client := mkCl {
  k_scr : screen;     (* the screen *)
  k_last : Z;         (* value returned by the last draw, 0 before *)
  k_inc : picture;    (* picture of the client that skips *)
  k_full : picture    (* picture of the client that does not *)
}.
Definition act_step (k : client) (a : act) : res client :=
  match a with
  | ACall o => do s <- step (k_scr k) o; Ok (mkCl s (k_last k) (k_inc k) (k_full k))
  | ADraw =>
    do r <- draw (k_scr k);
    let '(ds, s, age) := r in
    Ok (mkCl s age (update (k_last k) ds (k_inc k)) (redraw ds (k_full k)))
  | AResize x y =>
    do s <- step (k_scr k) (OResize x y);
    Ok (mkCl s 0 (fun _ _ => None) (fun _ _ => None))
  end.
Fixpoint play (k : client) (acts : list act) : res client :=
  match acts with
  | [] => Ok k
  | a :: r => do k' <- act_step k a; play k' r
  end.
Definition client0 (s : screen) : client := mkCl s 0 (fun _ _ => None) (fun _ _ => None).

(* Argument types. *)
Definition act_args (a : act) : Prop :=
  match a with ACall o => op_args o | ADraw => True | AResize x y => op_args (OResize x y) end.
(* What the ages do not account for: a change of size the client ignores, and
   new default attributes while lines shorter than the screen may be shown. *)
Definition act_aged (s : screen) (a : act) : Prop :=
  match a with
  | ACall (OResize _ _) => False
  | ACall (OSetDefAttr _) => s_sbpos s = None \/ Forall (fun l => s_sx s <= zlen (l_cells l)) (s_sb s)
  | _ => True
  end.
Fixpoint play_aged (k : client) (acts : list act) : Prop :=
  match acts with
  | [] => True
  | a :: r => act_aged (k_scr k) a /\ match act_step k a with Ok k' => play_aged k' r | Ub => True end
  end.
(* Screens a client can have. *)
Definition drawn_reachable (s : screen) : Prop :=
  exists acts k, Forall act_args acts /\ play (client0 scr_init) acts = Ok k /\ k_scr k = s.
