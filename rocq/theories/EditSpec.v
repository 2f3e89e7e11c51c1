(* What the editing control sequences and the control characters do to the
   picture, the cursor and the scrollback, independent of the model of the
   parser. *)
From Verif Require Import Base Screen ScreenSpec Vte VteSpec VteView VteParse.

Record effect : Type := mkEffect {
  e_picture : Z -> Z -> option glyph;   (* row, column *)
  e_column : Z; e_row : Z;
  e_off : list (list glyph)             (* rows scrolled off, handed to the scrollback *)
}.
Definition nothing (s : screen) : effect := mkEffect (at_ s) (s_cx s) (s_cy s) [].
Definition redraw (s : screen) (pic : Z -> Z -> option glyph) : effect := mkEffect pic (s_cx s) (s_cy s) [].
(* The rows n scrolls of the region hand over: none on the alternate screen. *)
Definition handed (s : screen) (n : Z) : list (list glyph) := if fl s F_ALT then [] else top_rows s n.

(* CSI pri P f for the sequences that change text. *)
Definition edit (s : screen) (pri P : list Z) (f : Z) : option effect :=
  let n := arg1 P 0 in
  let keep := match pri with [63] => true | _ => false end in
  let inside := (s_mt s <=? s_cy s) && (s_cy s <=? s_mb s) in
  let c := cursor_col s in
  if f =? 74 (* ED, DECSED *) then
    Some (match arg0 P 0 with
          | 0 => redraw s (erase_spec s (reg_below s) keep)
          | 1 => redraw s (erase_spec s (reg_above s) keep)
          | 2 => redraw s (erase_spec s reg_all keep)
          | _ => nothing s end)
  else if f =? 75 (* EL, DECSEL *) then
    Some (match arg0 P 0 with
          | 0 => redraw s (erase_spec s (reg_right s) keep)
          | 1 => redraw s (erase_spec s (reg_left s) keep)
          | 2 => redraw s (erase_spec s (reg_row s) keep)
          | _ => nothing s end)
  else if f =? 88 (* ECH *) then Some (redraw s (erase_spec s (reg_chars s n) false))
  else if f =? 76 (* IL *) then
    Some (if inside then mkEffect (shift_down s (s_cy s) (s_mb s) (Z.min n (s_mb s + 1 - s_cy s))) 0 (s_cy s) [] else nothing s)
  else if f =? 77 (* DL *) then
    Some (if inside then mkEffect (shift_up s (s_cy s) (s_mb s) (Z.min n (s_mb s + 1 - s_cy s))) 0 (s_cy s) [] else nothing s)
  else if f =? 64 (* ICH *) then Some (mkEffect (chars_in s c (Z.min n (s_sx s - c))) c (s_cy s) [])
  else if f =? 80 (* DCH *) then Some (mkEffect (chars_out s c (Z.min n (s_sx s - c))) c (s_cy s) [])
  else if f =? 83 (* SU *) then
    Some (mkEffect (shift_up s (s_mt s) (s_mb s) (Z.min n (region s))) (s_cx s) (s_cy s) (handed s (Z.min n (region s))))
  else if f =? 84 (* SD *) then Some (redraw s (shift_down s (s_mt s) (s_mb s) (Z.min n (region s))))
  else None.

(* Down and up one row, scrolling at the edge of the region. *)
Definition down_one (s : screen) (x : Z) : effect :=
  mkEffect (shift_up s (s_mt s) (s_mb s) (over_down s 1)) x (Z.min (s_cy s + 1) (floor_row s)) (handed s (over_down s 1)).
Definition up_one (s : screen) : effect :=
  mkEffect (shift_down s (s_mt s) (s_mb s) (over_up s 1)) (s_cx s) (Z.max (s_cy s - 1) (ceil_row s)) [].
(* The controls as code points: C0, C1, and ESC with the byte of the C1 control;
   lnm is the new line mode. *)
Definition control (s : screen) (lnm : bool) (l : list Z) : option effect :=
  match l with
  | [c] =>
    if c =? 0x08 (* BS *) then Some (mkEffect (at_ s) (Z.max 0 (cursor_col s - 1)) (s_cy s) [])
    else if (0x0a <=? c) && (c <=? 0x0c) (* LF, VT, FF *) then Some (down_one s (if lnm then 0 else s_cx s))
    else if c =? 0x0d (* CR *) then Some (mkEffect (at_ s) 0 (s_cy s) [])
    else if c =? 0x84 (* IND *) then Some (down_one s (s_cx s))
    else if c =? 0x85 (* NEL *) then Some (down_one s 0)
    else if c =? 0x8d (* RI *) then Some (up_one s)
    else if (c =? 0) || (c =? 7) || (c =? 0x11) || (c =? 0x13) || (c =? 0x9c) (* NUL, BEL, XON, XOFF, ST *) then Some (nothing s)
    else None
  | [e; d] =>
    if negb (e =? 27) then None
    else if d =? 68 (* IND *) then Some (down_one s (s_cx s))
    else if d =? 69 (* NEL *) then Some (down_one s 0)
    else if d =? 77 (* RI *) then Some (up_one s)
    else if d =? 92 (* ST *) then Some (nothing s)
    else None
  | _ => None
  end.

(* The bytes bs make the terminal do exactly this, and nothing else: no other
   part of the terminal changes, nor any setting of the screen. *)
Record obeyed (v v' : vte) (e : effect) : Prop := mkObeyed {
  ob_rest : core v' = core (w_con v (v_con v'));
  ob_mode : text_mode v';
  ob_picture : forall y x, on_screen (v_con v) y x -> at_ (v_con v') y x = e_picture e y x;
  ob_cursor : s_cx (v_con v') = e_column e /\ s_cy (v_con v') = e_row e;
  ob_history : sb_text (v_con v') = last_n (s_sbmax (v_con v)) (sb_text (v_con v) ++ e_off e);
  ob_size : s_sx (v_con v') = s_sx (v_con v) /\ s_sy (v_con v') = s_sy (v_con v);
  ob_region : s_mt (v_con v') = s_mt (v_con v) /\ s_mb (v_con v') = s_mb (v_con v);
  ob_flags : s_flags (v_con v') = s_flags (v_con v);
  ob_def : s_def (v_con v') = s_def (v_con v);
  ob_tabs : s_tabs (v_con v') = s_tabs (v_con v);
  ob_limit : s_sbmax (v_con v') = s_sbmax (v_con v);
  ob_select : s_sela (v_con v') = s_sela (v_con v)
}.
Definition obeys (sg : bool) (v : vte) (bs : list Z) (e : effect) : Prop := exists v', vte_input sg v bs = Ok v' /\ obeyed v v' e.

(* Tabs: the column n stops to the right or left of the cursor. *)
Definition tabbed_right (s : screen) (n x : Z) : Prop :=
  (n <= stops s (s_cx s + 1) (s_sx s) -> s_cx s < x < s_sx s /\ is_stop s x = true /\ stops s (s_cx s + 1) (x + 1) = n) /\
  (stops s (s_cx s + 1) (s_sx s) < n -> x = s_sx s - 1).
Definition tabbed_left (s : screen) (n x : Z) : Prop :=
  (n <= stops s 1 (s_cx s) -> 1 <= x < s_cx s /\ is_stop s x = true /\ stops s x (s_cx s) = n) /\
  (stops s 1 (s_cx s) < n -> x = 0).
(* Only the tab stops change, to those of the predicate. *)
Definition retabs (sg : bool) (v : vte) (bs : list Z) (stop : Z -> bool) : Prop :=
  exists v', vte_input sg v bs = Ok v' /\ core v' = core (w_con v (v_con v')) /\ text_mode v' /\
    v_con v' = set_tabs (v_con v) (s_tabs (v_con v')) /\ forall k, 0 <= k < s_sx (v_con v) -> is_stop (v_con v') k = stop k.
(* Only the scroll region changes. *)
Definition regions (sg : bool) (v : vte) (bs : list Z) (t b : Z) : Prop :=
  exists v', vte_input sg v bs = Ok v' /\ core v' = core (w_con v (v_con v')) /\ text_mode v' /\
    v_con v' = set_mb (set_mt (v_con v) t) b.
