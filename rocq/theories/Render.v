(* Model of /repo/src/tsm/tsm-render.c: tsm_screen_draw. The result is the
   sequence of calls of the client's callback (whose return value only decides
   about log messages), the screen afterwards and the returned age. *)
From Verif Require Import Base Symbol Screen.

(* The arguments of one call draw_cb(con, id, ch, len, width, posx, posy, attr,
   age, data), libtsm.h:tsm_screen_draw_cb, tsm-render.c:178-182. ch is the
   string tsm_symbol_get points to. *)
Record dcall := mkD {
  d_id : Z; d_ch : list Z; d_len : Z; d_width : Z; d_x : Z; d_y : Z; d_attr : attr; d_age : Z
}.

(* attr.inverse = !attr.inverse if b (tsm-render.c:141, 148, 152). *)
Definition flip (b : bool) (a : attr) : attr :=
  mkA (a_fc a) (a_bc a) (a_fr a) (a_fg a) (a_fb a) (a_br a) (a_bg a) (a_bb a)
      (a_bold a) (a_italic a) (a_underline a) (xorb b (a_inverse a)) (a_protect a) (a_blink a).

(* tsm-render.c:165-176 the id; TSM_UCS4_MAX_BITS is 31 (libtsm.h:113). *)
Definition draw_id (ch : Z) (a : attr) : Z :=
  let f (b : bool) n w := if b then Z.lor w (Z.shiftl 1 n) else w in
  f (a_blink a) 35 (f (a_inverse a) 34 (f (a_underline a) 33 (f (a_italic a) 32 (f (a_bold a) 31 ch)))).

(* tsm-render.c:66-71 the cursor position, clamped. *)
Definition draw_cur_x (s : screen) : Z := clamp_x s (s_cx s).
Definition draw_cur_y (s : screen) : Z := clamp_y s (s_cy s).

(* tsm-render.c:78-90: is an end of the selection above the first row shown?
   p is the end, v the view position; comparison of sb_id. *)
Definition sel_above (v : option Z) (p : selpos) : bool :=
  match p_line p with
  | None => p_y p =? SELECTION_TOP
  | Some a => match v with None => true | Some b => a <? b end
  end.
(* tsm-render.c:101-114: is the end in this line? k is unsigned, so k - 1 wraps
   for the rows of the scrollback, where k is 0. *)
Definition sel_here (p : selpos) (l : line) (k : Z) : bool :=
  ptr_is (p_line p) l ||
  match p_line p with None => u32 (p_y p) =? u32 (k - 1) | Some _ => false end.

(* tsm-render.c:155-163. *)
Definition draw_age (s : screen) (l : line) (c : cell) : Z :=
  if s_rst s then 0
  else
    let a1 := if c_age c <? l_age l then l_age l else c_age c in
    if a1 <? s_age s then s_age s else a1.

(* tsm-render.c:118-191, the loop over the columns j of row i; l is the line,
   k the number of screen lines shown so far (including l), ss and se whether
   the selection starts or ends in l. was_sel (set at lines 129 and 134, cleared
   at 151) never survives an iteration. *)
Fixpoint draw_cols (s : screen) (l : line) (i k : Z) (ss se : bool) (n : nat) (j : Z) (in_sel : bool)
  : list dcall * bool :=
  match n with
  | O => ([], in_sel)
  | S n' =>
    let c := match znth (l_cells l) j with Some c => c | None => blank s end in
    let '(in1, was1) :=
      if s_sela s && ss && (j =? p_x (s_sel1 s)) then (negb in_sel, in_sel) else (in_sel, false) in
    let '(in2, was2) :=
      if s_sela s && se && (j =? p_x (s_sel2 s)) then (negb in1, in1) else (in1, was1) in
    let cur := (k =? u32 (draw_cur_y s + 1)) && (j =? draw_cur_x s) && negb (fl s F_HIDE) in
    let a := flip (in2 || was2) (flip (fl s F_INVERSE) (flip cur (c_attr c))) in
    let ch := symbol_get symtab_new (c_ch c) in
    let len := if (c_ch c =? 0) || (c_ch c =? 32) && negb (a_underline a) then 0 else zlen ch in
    let d := mkD (draw_id (c_ch c) a) ch len (c_width c) j i a (draw_age s l c) in
    let '(r, e) := draw_cols s l i k ss se n' (j + 1) in2 in
    (d :: r, e)
  end.

(* tsm-render.c:92-192, the loop over the rows; iter is what is left of the
   scrollback from the view position. *)
Fixpoint draw_rows (s : screen) (n : nat) (i : Z) (iter : list line) (k : Z) (in_sel : bool)
  : res (list dcall) :=
  match n with
  | O => Ok []
  | S n' =>
    do t <- match iter with
            | l :: r => Ok (l, r, k)
            | [] => do l <- zget (lines s) k; Ok (l, [], u32 (k + 1))
            end;
    let '(l, iter', k') := t in
    let '(ds, in') := draw_cols s l i k' (s_sela s && sel_here (s_sel1 s) l k')
                        (s_sela s && sel_here (s_sel2 s) l k') (Z.to_nat (s_sx s)) 0 in_sel in
    do r <- draw_rows s n' (i + 1) iter' k' in';
    Ok (ds ++ r)
  end.

(* tsm-render.c:44-200 tsm_screen_draw for a non-NULL screen and callback. *)
Definition draw (s : screen) : res (list dcall * screen * Z) :=
  do iter <- match s_sbpos s with
             | None => Ok []
             | Some p => match sb_from p (s_sb s) with None => Ub | Some l => Ok l end
             end;
  let in_sel := s_sela s && xorb (sel_above (s_sbpos s) (s_sel1 s)) (sel_above (s_sbpos s) (s_sel2 s)) in
  do ds <- draw_rows s (Z.to_nat (s_sy s)) 0 iter 0 in_sel;
  Ok (ds, set_rst s false, if s_rst s then 0 else s_cnt s).
