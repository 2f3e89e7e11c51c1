(* Model of /repo/src/tsm/tsm-screen.c (state: /repo/src/tsm/libtsm-int.h).
   Conventions: unsigned int values are Z with explicit u32 wraps where the C
   expression can wrap; every array access and memmove/memcpy is bounds checked
   and yields Ub when the C access would be out of bounds; a pointer to a line
   is only ever taken to a scrollback line and is modelled by that line's
   scrollback id. Allocations succeed. NULL arguments, reference counting,
   logging and the (never used) opts word are not modelled. *)
From Verif Require Import Base Wcwidth Symbol.

(* libtsm.h:158-173 struct tsm_screen_attr. *)
Record attr := mkA {
  a_fc : Z; a_bc : Z;
  a_fr : Z; a_fg : Z; a_fb : Z;
  a_br : Z; a_bg : Z; a_bb : Z;
  a_bold : bool; a_italic : bool; a_underline : bool;
  a_inverse : bool; a_protect : bool; a_blink : bool
}.

(* libtsm-int.h:82-87 struct cell. *)
Record cell := mkC { c_ch : Z; c_width : Z; c_attr : attr; c_age : Z }.

(* libtsm-int.h:89-97 struct line; size is the length of l_cells; sb_id is None
   for a line that is not in the scrollback and doubles as the identity of the
   line object for pointers into the scrollback. *)
Record line := mkL { l_cells : list cell; l_age : Z; l_sbid : option Z }.

(* libtsm-int.h:99-104 struct selection_pos, SELECTION_TOP. *)
Record selpos := mkP { p_line : option Z; p_x : Z; p_y : Z }.
Definition SELECTION_TOP : Z := -1.

(* libtsm-int.h:106-158 struct tsm_screen. The pointer lines is main_lines or
   alt_lines, represented by s_act. sb_id counters are unbounded integers (the
   C counter has 64 bits). *)
Record screen := mkS {
  s_flags : Z  (* flags *);
  s_def : attr  (* def_attr *);
  s_defm : attr  (* def_attr_main *);
  s_cnt : Z  (* age_cnt *);
  s_rst : bool  (* age_reset *);
  s_sx : Z  (* size_x *);
  s_sy : Z  (* size_y *);
  s_mt : Z  (* margin_top *);
  s_mb : Z  (* margin_bottom *);
  s_ln : Z  (* line_num *);
  s_main : list line  (* main_lines *);
  s_alt : list line  (* alt_lines *);
  s_act : bool  (* lines == alt_lines *);
  s_age : Z  (* age *);
  s_sbn : Z  (* sb_count *);
  s_sb : list line  (* sb_first..sb_last, oldest first *);
  s_sbmax : Z  (* sb_max *);
  s_sbpos : option Z  (* sb_pos *);
  s_sbposn : Z  (* sb_pos_num *);
  s_sbid : Z  (* sb_last_id *);
  s_cx : Z  (* cursor_x *);
  s_cy : Z  (* cursor_y *);
  s_tabs : list bool  (* tab_ruler *);
  s_sela : bool  (* sel_active *);
  s_sel1 : selpos  (* sel_start *);
  s_sel2 : selpos  (* sel_end *)
}.

(* libtsm-int.h:106-158, assignment to flags. *)
Definition set_flags (s : screen) (v : Z) : screen :=
  mkS v (s_def s) (s_defm s) (s_cnt s) (s_rst s) (s_sx s) (s_sy s) (s_mt s) (s_mb s) (s_ln s) (s_main s) (s_alt s) (s_act s) (s_age s) (s_sbn s) (s_sb s) (s_sbmax s) (s_sbpos s) (s_sbposn s) (s_sbid s) (s_cx s) (s_cy s) (s_tabs s) (s_sela s) (s_sel1 s) (s_sel2 s).
(* libtsm-int.h:106-158, assignment to def_attr. *)
Definition set_def (s : screen) (v : attr) : screen :=
  mkS (s_flags s) v (s_defm s) (s_cnt s) (s_rst s) (s_sx s) (s_sy s) (s_mt s) (s_mb s) (s_ln s) (s_main s) (s_alt s) (s_act s) (s_age s) (s_sbn s) (s_sb s) (s_sbmax s) (s_sbpos s) (s_sbposn s) (s_sbid s) (s_cx s) (s_cy s) (s_tabs s) (s_sela s) (s_sel1 s) (s_sel2 s).
(* libtsm-int.h:106-158, assignment to def_attr_main. *)
Definition set_defm (s : screen) (v : attr) : screen :=
  mkS (s_flags s) (s_def s) v (s_cnt s) (s_rst s) (s_sx s) (s_sy s) (s_mt s) (s_mb s) (s_ln s) (s_main s) (s_alt s) (s_act s) (s_age s) (s_sbn s) (s_sb s) (s_sbmax s) (s_sbpos s) (s_sbposn s) (s_sbid s) (s_cx s) (s_cy s) (s_tabs s) (s_sela s) (s_sel1 s) (s_sel2 s).
(* libtsm-int.h:106-158, assignment to age_cnt. *)
Definition set_cnt (s : screen) (v : Z) : screen :=
  mkS (s_flags s) (s_def s) (s_defm s) v (s_rst s) (s_sx s) (s_sy s) (s_mt s) (s_mb s) (s_ln s) (s_main s) (s_alt s) (s_act s) (s_age s) (s_sbn s) (s_sb s) (s_sbmax s) (s_sbpos s) (s_sbposn s) (s_sbid s) (s_cx s) (s_cy s) (s_tabs s) (s_sela s) (s_sel1 s) (s_sel2 s).
(* libtsm-int.h:106-158, assignment to age_reset. *)
Definition set_rst (s : screen) (v : bool) : screen :=
  mkS (s_flags s) (s_def s) (s_defm s) (s_cnt s) v (s_sx s) (s_sy s) (s_mt s) (s_mb s) (s_ln s) (s_main s) (s_alt s) (s_act s) (s_age s) (s_sbn s) (s_sb s) (s_sbmax s) (s_sbpos s) (s_sbposn s) (s_sbid s) (s_cx s) (s_cy s) (s_tabs s) (s_sela s) (s_sel1 s) (s_sel2 s).
(* libtsm-int.h:106-158, assignment to size_x. *)
Definition set_sx (s : screen) (v : Z) : screen :=
  mkS (s_flags s) (s_def s) (s_defm s) (s_cnt s) (s_rst s) v (s_sy s) (s_mt s) (s_mb s) (s_ln s) (s_main s) (s_alt s) (s_act s) (s_age s) (s_sbn s) (s_sb s) (s_sbmax s) (s_sbpos s) (s_sbposn s) (s_sbid s) (s_cx s) (s_cy s) (s_tabs s) (s_sela s) (s_sel1 s) (s_sel2 s).
(* libtsm-int.h:106-158, assignment to size_y. *)
Definition set_sy (s : screen) (v : Z) : screen :=
  mkS (s_flags s) (s_def s) (s_defm s) (s_cnt s) (s_rst s) (s_sx s) v (s_mt s) (s_mb s) (s_ln s) (s_main s) (s_alt s) (s_act s) (s_age s) (s_sbn s) (s_sb s) (s_sbmax s) (s_sbpos s) (s_sbposn s) (s_sbid s) (s_cx s) (s_cy s) (s_tabs s) (s_sela s) (s_sel1 s) (s_sel2 s).
(* libtsm-int.h:106-158, assignment to margin_top. *)
Definition set_mt (s : screen) (v : Z) : screen :=
  mkS (s_flags s) (s_def s) (s_defm s) (s_cnt s) (s_rst s) (s_sx s) (s_sy s) v (s_mb s) (s_ln s) (s_main s) (s_alt s) (s_act s) (s_age s) (s_sbn s) (s_sb s) (s_sbmax s) (s_sbpos s) (s_sbposn s) (s_sbid s) (s_cx s) (s_cy s) (s_tabs s) (s_sela s) (s_sel1 s) (s_sel2 s).
(* libtsm-int.h:106-158, assignment to margin_bottom. *)
Definition set_mb (s : screen) (v : Z) : screen :=
  mkS (s_flags s) (s_def s) (s_defm s) (s_cnt s) (s_rst s) (s_sx s) (s_sy s) (s_mt s) v (s_ln s) (s_main s) (s_alt s) (s_act s) (s_age s) (s_sbn s) (s_sb s) (s_sbmax s) (s_sbpos s) (s_sbposn s) (s_sbid s) (s_cx s) (s_cy s) (s_tabs s) (s_sela s) (s_sel1 s) (s_sel2 s).
(* libtsm-int.h:106-158, assignment to line_num. *)
Definition set_ln (s : screen) (v : Z) : screen :=
  mkS (s_flags s) (s_def s) (s_defm s) (s_cnt s) (s_rst s) (s_sx s) (s_sy s) (s_mt s) (s_mb s) v (s_main s) (s_alt s) (s_act s) (s_age s) (s_sbn s) (s_sb s) (s_sbmax s) (s_sbpos s) (s_sbposn s) (s_sbid s) (s_cx s) (s_cy s) (s_tabs s) (s_sela s) (s_sel1 s) (s_sel2 s).
(* libtsm-int.h:106-158, assignment to main_lines. *)
Definition set_main (s : screen) (v : list line) : screen :=
  mkS (s_flags s) (s_def s) (s_defm s) (s_cnt s) (s_rst s) (s_sx s) (s_sy s) (s_mt s) (s_mb s) (s_ln s) v (s_alt s) (s_act s) (s_age s) (s_sbn s) (s_sb s) (s_sbmax s) (s_sbpos s) (s_sbposn s) (s_sbid s) (s_cx s) (s_cy s) (s_tabs s) (s_sela s) (s_sel1 s) (s_sel2 s).
(* libtsm-int.h:106-158, assignment to alt_lines. *)
Definition set_alt (s : screen) (v : list line) : screen :=
  mkS (s_flags s) (s_def s) (s_defm s) (s_cnt s) (s_rst s) (s_sx s) (s_sy s) (s_mt s) (s_mb s) (s_ln s) (s_main s) v (s_act s) (s_age s) (s_sbn s) (s_sb s) (s_sbmax s) (s_sbpos s) (s_sbposn s) (s_sbid s) (s_cx s) (s_cy s) (s_tabs s) (s_sela s) (s_sel1 s) (s_sel2 s).
(* libtsm-int.h:106-158, assignment to lines == alt_lines. *)
Definition set_act (s : screen) (v : bool) : screen :=
  mkS (s_flags s) (s_def s) (s_defm s) (s_cnt s) (s_rst s) (s_sx s) (s_sy s) (s_mt s) (s_mb s) (s_ln s) (s_main s) (s_alt s) v (s_age s) (s_sbn s) (s_sb s) (s_sbmax s) (s_sbpos s) (s_sbposn s) (s_sbid s) (s_cx s) (s_cy s) (s_tabs s) (s_sela s) (s_sel1 s) (s_sel2 s).
(* libtsm-int.h:106-158, assignment to age. *)
Definition set_age (s : screen) (v : Z) : screen :=
  mkS (s_flags s) (s_def s) (s_defm s) (s_cnt s) (s_rst s) (s_sx s) (s_sy s) (s_mt s) (s_mb s) (s_ln s) (s_main s) (s_alt s) (s_act s) v (s_sbn s) (s_sb s) (s_sbmax s) (s_sbpos s) (s_sbposn s) (s_sbid s) (s_cx s) (s_cy s) (s_tabs s) (s_sela s) (s_sel1 s) (s_sel2 s).
(* libtsm-int.h:106-158, assignment to sb_count. *)
Definition set_sbn (s : screen) (v : Z) : screen :=
  mkS (s_flags s) (s_def s) (s_defm s) (s_cnt s) (s_rst s) (s_sx s) (s_sy s) (s_mt s) (s_mb s) (s_ln s) (s_main s) (s_alt s) (s_act s) (s_age s) v (s_sb s) (s_sbmax s) (s_sbpos s) (s_sbposn s) (s_sbid s) (s_cx s) (s_cy s) (s_tabs s) (s_sela s) (s_sel1 s) (s_sel2 s).
(* libtsm-int.h:106-158, assignment to sb_first..sb_last, oldest first. *)
Definition set_sb (s : screen) (v : list line) : screen :=
  mkS (s_flags s) (s_def s) (s_defm s) (s_cnt s) (s_rst s) (s_sx s) (s_sy s) (s_mt s) (s_mb s) (s_ln s) (s_main s) (s_alt s) (s_act s) (s_age s) (s_sbn s) v (s_sbmax s) (s_sbpos s) (s_sbposn s) (s_sbid s) (s_cx s) (s_cy s) (s_tabs s) (s_sela s) (s_sel1 s) (s_sel2 s).
(* libtsm-int.h:106-158, assignment to sb_max. *)
Definition set_sbmax (s : screen) (v : Z) : screen :=
  mkS (s_flags s) (s_def s) (s_defm s) (s_cnt s) (s_rst s) (s_sx s) (s_sy s) (s_mt s) (s_mb s) (s_ln s) (s_main s) (s_alt s) (s_act s) (s_age s) (s_sbn s) (s_sb s) v (s_sbpos s) (s_sbposn s) (s_sbid s) (s_cx s) (s_cy s) (s_tabs s) (s_sela s) (s_sel1 s) (s_sel2 s).
(* libtsm-int.h:106-158, assignment to sb_pos. *)
Definition set_sbpos (s : screen) (v : option Z) : screen :=
  mkS (s_flags s) (s_def s) (s_defm s) (s_cnt s) (s_rst s) (s_sx s) (s_sy s) (s_mt s) (s_mb s) (s_ln s) (s_main s) (s_alt s) (s_act s) (s_age s) (s_sbn s) (s_sb s) (s_sbmax s) v (s_sbposn s) (s_sbid s) (s_cx s) (s_cy s) (s_tabs s) (s_sela s) (s_sel1 s) (s_sel2 s).
(* libtsm-int.h:106-158, assignment to sb_pos_num. *)
Definition set_sbposn (s : screen) (v : Z) : screen :=
  mkS (s_flags s) (s_def s) (s_defm s) (s_cnt s) (s_rst s) (s_sx s) (s_sy s) (s_mt s) (s_mb s) (s_ln s) (s_main s) (s_alt s) (s_act s) (s_age s) (s_sbn s) (s_sb s) (s_sbmax s) (s_sbpos s) v (s_sbid s) (s_cx s) (s_cy s) (s_tabs s) (s_sela s) (s_sel1 s) (s_sel2 s).
(* libtsm-int.h:106-158, assignment to sb_last_id. *)
Definition set_sbid (s : screen) (v : Z) : screen :=
  mkS (s_flags s) (s_def s) (s_defm s) (s_cnt s) (s_rst s) (s_sx s) (s_sy s) (s_mt s) (s_mb s) (s_ln s) (s_main s) (s_alt s) (s_act s) (s_age s) (s_sbn s) (s_sb s) (s_sbmax s) (s_sbpos s) (s_sbposn s) v (s_cx s) (s_cy s) (s_tabs s) (s_sela s) (s_sel1 s) (s_sel2 s).
(* libtsm-int.h:106-158, assignment to cursor_x. *)
Definition set_cx (s : screen) (v : Z) : screen :=
  mkS (s_flags s) (s_def s) (s_defm s) (s_cnt s) (s_rst s) (s_sx s) (s_sy s) (s_mt s) (s_mb s) (s_ln s) (s_main s) (s_alt s) (s_act s) (s_age s) (s_sbn s) (s_sb s) (s_sbmax s) (s_sbpos s) (s_sbposn s) (s_sbid s) v (s_cy s) (s_tabs s) (s_sela s) (s_sel1 s) (s_sel2 s).
(* libtsm-int.h:106-158, assignment to cursor_y. *)
Definition set_cy (s : screen) (v : Z) : screen :=
  mkS (s_flags s) (s_def s) (s_defm s) (s_cnt s) (s_rst s) (s_sx s) (s_sy s) (s_mt s) (s_mb s) (s_ln s) (s_main s) (s_alt s) (s_act s) (s_age s) (s_sbn s) (s_sb s) (s_sbmax s) (s_sbpos s) (s_sbposn s) (s_sbid s) (s_cx s) v (s_tabs s) (s_sela s) (s_sel1 s) (s_sel2 s).
(* libtsm-int.h:106-158, assignment to tab_ruler. *)
Definition set_tabs (s : screen) (v : list bool) : screen :=
  mkS (s_flags s) (s_def s) (s_defm s) (s_cnt s) (s_rst s) (s_sx s) (s_sy s) (s_mt s) (s_mb s) (s_ln s) (s_main s) (s_alt s) (s_act s) (s_age s) (s_sbn s) (s_sb s) (s_sbmax s) (s_sbpos s) (s_sbposn s) (s_sbid s) (s_cx s) (s_cy s) v (s_sela s) (s_sel1 s) (s_sel2 s).
(* libtsm-int.h:106-158, assignment to sel_active. *)
Definition set_sela (s : screen) (v : bool) : screen :=
  mkS (s_flags s) (s_def s) (s_defm s) (s_cnt s) (s_rst s) (s_sx s) (s_sy s) (s_mt s) (s_mb s) (s_ln s) (s_main s) (s_alt s) (s_act s) (s_age s) (s_sbn s) (s_sb s) (s_sbmax s) (s_sbpos s) (s_sbposn s) (s_sbid s) (s_cx s) (s_cy s) (s_tabs s) v (s_sel1 s) (s_sel2 s).
(* libtsm-int.h:106-158, assignment to sel_start. *)
Definition set_sel1 (s : screen) (v : selpos) : screen :=
  mkS (s_flags s) (s_def s) (s_defm s) (s_cnt s) (s_rst s) (s_sx s) (s_sy s) (s_mt s) (s_mb s) (s_ln s) (s_main s) (s_alt s) (s_act s) (s_age s) (s_sbn s) (s_sb s) (s_sbmax s) (s_sbpos s) (s_sbposn s) (s_sbid s) (s_cx s) (s_cy s) (s_tabs s) (s_sela s) v (s_sel2 s).
(* libtsm-int.h:106-158, assignment to sel_end. *)
Definition set_sel2 (s : screen) (v : selpos) : screen :=
  mkS (s_flags s) (s_def s) (s_defm s) (s_cnt s) (s_rst s) (s_sx s) (s_sy s) (s_mt s) (s_mb s) (s_ln s) (s_main s) (s_alt s) (s_act s) (s_age s) (s_sbn s) (s_sb s) (s_sbmax s) (s_sbpos s) (s_sbposn s) (s_sbid s) (s_cx s) (s_cy s) (s_tabs s) (s_sela s) (s_sel1 s) v.

(* libtsm.h:150-156 screen flags as bit numbers. *)
Definition F_INSERT : Z := 0.
Definition F_WRAP : Z := 1.
Definition F_ORIGIN : Z := 2.
Definition F_INVERSE : Z := 3.
Definition F_HIDE : Z := 4.
Definition F_FIXED : Z := 5.
Definition F_ALT : Z := 6.
(* Test of a flag, e.g. tsm-screen.c:90. *)
Definition fl (s : screen) (n : Z) : bool := bit (s_flags s) n.

(* libtsm-int.h:132 con->lines. *)
Definition lines (s : screen) : list line := if s_act s then s_alt s else s_main s.
Definition set_lines (s : screen) (ls : list line) : screen :=
  set_alt (set_main s (if s_act s then s_main s else ls)) (if s_act s then ls else s_alt s).

(* libtsm-int.h:166-172 screen_inc_age. *)
Definition inc_age (s : screen) : screen :=
  let c := u64 (s_cnt s + 1) in
  if c =? 0 then set_cnt (set_rst s true) 1 else set_cnt s c.

(* tsm-screen.c:193 and others: con->age = con->age_cnt. *)
Definition age_all (s : screen) : screen := set_age s (s_cnt s).

(* tsm-screen.c:113-120 screen_cell_init_generic. *)
Definition blank_of (s : screen) (a : attr) : cell := mkC 0 1 a (s_cnt s).
(* tsm-screen.c:122-125 screen_cell_init. *)
Definition blank (s : screen) : cell := blank_of s (s_def s).

(* for (i = a; i < b; ++i) cells[i] = c, e.g. tsm-screen.c:309-310. *)
Definition fill (c : cell) (a b : Z) (cells : list cell) : res (list cell) :=
  forz a b (fun i cs => zmod cs i (fun _ => c)) cells.

(* Replace the cells of a line object (tsm-screen.c:404-421 and others). *)
Definition set_cells (l : line) (cs : list cell) : line := mkL cs (l_age l) (l_sbid l).
Definition on_cells (f : list cell -> res (list cell)) (l : line) : res line :=
  do cs <- f (l_cells l); Ok (set_cells l cs).

(* Apply f to the line object behind con->lines[y]. *)
Definition upd_line (s : screen) (y : Z) (f : line -> res line) : res screen :=
  do ls <- zmodm (lines s) y f; Ok (set_lines s ls).

(* tsm-screen.c:70-83 get_cursor_cell followed by c->age = con->age_cnt
   (tsm-screen.c:103-104). *)
Definition set_cage (c : cell) (a : Z) : cell := mkC (c_ch c) (c_width c) (c_attr c) a.
Definition clamp_x (s : screen) (x : Z) : Z := if s_sx s <=? x then u32 (s_sx s - 1) else x.
Definition clamp_y (s : screen) (y : Z) : Z := if s_sy s <=? y then u32 (s_sy s - 1) else y.
Definition touch_cursor (s : screen) : res screen :=
  upd_line s (clamp_y s (s_cy s))
    (on_cells (fun cs => zmod cs (clamp_x s (s_cx s)) (fun c => set_cage c (s_cnt s)))).

(* tsm-screen.c:85-111 move_cursor. *)
Definition move_cursor (s : screen) (x y : Z) : res screen :=
  if fl s F_HIDE then Ok (set_cy (set_cx s x) y)
  else if (s_cx s =? x) && (s_cy s =? y) then Ok s
  else
    do s1 <- touch_cursor s;
    touch_cursor (set_cy (set_cx s1 x) y).

(* tsm-screen.c:127-155 line_new for a non-zero width; sb_id is not initialised
   there, None stands for "not linked". *)
Definition line_new (s : screen) (width : Z) : line :=
  mkL (repeat (blank s) (Z.to_nat width)) (s_cnt s) None.

(* tsm-screen.c:163-185 line_resize. *)
Definition line_resize (s : screen) (width : Z) (l : line) : line :=
  if zlen (l_cells l) <? width
  then set_cells l (l_cells l ++ repeat (blank s) (Z.to_nat (width - zlen (l_cells l))))
  else l.

(* Pointer comparison sel.line == line (e.g. tsm-screen.c:197). *)
Definition ptr_is (p : option Z) (l : line) : bool :=
  match p, l_sbid l with Some a, Some b => a =? b | _, _ => false end.

(* The part of the scrollback list starting at the line p points to; None if
   that line is not (any more) in the scrollback, i.e. the pointer dangles. *)
Fixpoint sb_from (p : Z) (l : list line) : option (list line) :=
  match l with
  | [] => None
  | x :: r => if ptr_is (Some p) x then Some l else sb_from p r
  end.

(* p->next (e.g. tsm-screen.c:233), undefined for a dangling p. *)
Definition sb_next (p : Z) (l : list line) : res (option Z) :=
  match sb_from p l with
  | None => Ub
  | Some (_ :: y :: _) => Ok (l_sbid y)
  | Some _ => Ok None
  end.

(* p->prev (e.g. tsm-screen.c:869), undefined for a dangling p. *)
Definition sb_prev (p : Z) (l : list line) : res (option Z) := sb_next p (rev l).

(* con->sb_last, con->sb_first as pointers (None = NULL). *)
Definition sb_lastp (l : list line) : option Z :=
  match rev l with [] => None | x :: _ => l_sbid x end.
Definition sb_firstp (l : list line) : option Z :=
  match l with [] => None | x :: _ => l_sbid x end.

(* tsm-screen.c:196-205, 243-252, 804-813: selection ends pointing to a line
   about to be freed become SELECTION_TOP. *)
Definition sel_drop1 (l : line) (p : selpos) : selpos :=
  if ptr_is (p_line p) l then mkP None (p_x p) SELECTION_TOP else p.
Definition sel_drop (s : screen) (l : line) : screen :=
  if s_sela s
  then set_sel2 (set_sel1 s (sel_drop1 l (s_sel1 s))) (sel_drop1 l (s_sel2 s))
  else s.

(* tsm-screen.c:215-254: evict the oldest line. The id the new line is going to
   get (line 256) is sb_last_id + 1. *)
Definition sb_evict (s : screen) : res screen :=
  match s_sb s with
  | [] => Ub
  | tmp :: rest =>
    let s1 := set_sbn (set_sb s rest) (u32 (s_sbn s - 1)) in
    do s2 <-
      match s_sbpos s with
      | None => Ok s1
      | Some p =>
        if ptr_is (Some p) tmp || negb (fl s F_FIXED) then
          do nx <- sb_next p (tmp :: rest);
          match nx with
          | Some q => Ok (set_sbposn (set_sbpos s1 (Some q)) (u32 (s_sbposn s + 1)))
          | None => Ok (set_sbposn (set_sbpos s1 (Some (s_sbid s + 1))) 0)
          end
        else Ok s1
      end;
    Ok (sel_drop s2 tmp)
  end.

(* tsm-screen.c:187-270 link_to_scrollback. *)
Definition link_to_scrollback (s0 : screen) (l : line) : res screen :=
  let s := age_all s0 in
  if s_sbmax s =? 0 then Ok (sel_drop s l)
  else
    do s1 <- (if s_sbmax s <=? s_sbn s then sb_evict s else Ok s);
    let id := s_sbid s1 + 1 in
    let s2 := set_sbn (set_sb (set_sbid s1 id)
                 (s_sb s1 ++ [mkL (l_cells l) (l_age l) (Some id)]))
                 (u32 (s_sbn s1 + 1)) in
    Ok (match s_sbpos s2 with None => set_sbposn s2 (s_sbn s2) | Some _ => s2 end).

(* for (j = 0; j < size_x; ++j) screen_cell_init(con, &line->cells[j]),
   tsm-screen.c:309-310, 368-369, 1401-1402, 1441-1442. *)
Definition line_blank (s : screen) : line -> res line :=
  on_cells (fill (blank s) 0 (s_sx s)).

(* tsm-screen.c:366-370, 1399-1403, 1439-1443: collect and blank num line
   objects, in place. *)
Definition cache_blank (s : screen) (idx : Z -> Z) (num : Z) : res (screen * list line) :=
  forz 0 num (fun i st =>
    let '(s, cache) := st in
    do l <- zget (lines s) (idx i);
    do l' <- line_blank s l;
    do ls <- zmod (lines s) (idx i) (fun _ => l');
    Ok (set_lines s ls, cache ++ [l'])) (s, []).

(* memmove(&con->lines[dst], &con->lines[src], n * sizeof(ptr)). *)
Definition lines_move (s : screen) (dst src n : Z) : res screen :=
  do ls <- zmove (lines s) dst src n; Ok (set_lines s ls).
(* memcpy(&con->lines[dst], cache, ...). *)
Definition lines_copy (s : screen) (dst : Z) (cache : list line) : res screen :=
  do ls <- zcopy (lines s) dst cache; Ok (set_lines s ls).

(* tsm-screen.c:327-329: walk back from the youngest scrollback line. *)
Fixpoint walk_back (l : list line) (y : Z) : option Z :=
  match l with
  | [] => None
  | x :: r => if y + 1 <? 0 then walk_back r (y + 1) else l_sbid x
  end.

(* tsm-screen.c:324-332 (and 333-341 for the end). *)
Definition sel_scroll_up (sb : list line) (num : Z) (p : selpos) : selpos :=
  match p_line p with
  | Some _ => p
  | None =>
    if 0 <=? p_y p then
      let y := i32 (p_y p - num) in
      if y <? 0 then mkP (walk_back (rev sb) y) (p_x p) SELECTION_TOP
      else mkP None (p_x p) y
    else p
  end.

(* Both selection ends at once, if a selection is active (tsm-screen.c:323). *)
Definition sel_map (s : screen) (f : selpos -> selpos) : screen :=
  if s_sela s then set_sel2 (set_sel1 s (f (s_sel1 s))) (f (s_sel2 s)) else s.

(* tsm-screen.c:298-342, the part of screen_scroll_up after the recursion
   check; num is at most 128 there. The fallback for a failing line_new is only
   taken on the alternate screen (or width 0). *)
Definition scroll_up_chunk (s : screen) (max num : Z) : res screen :=
  do r <- forz 0 num (fun i st =>
      let '(s, cache) := st in
      let pos := u32 (s_mt s + i) in
      if negb (fl s F_ALT) && negb (s_sx s =? 0) then
        let nl := line_new s (s_sx s) in
        do l <- zget (lines s) pos;
        do s' <- link_to_scrollback s l;
        Ok (s', cache ++ [nl])
      else
        do l <- zget (lines s) pos;
        do l' <- line_blank s l;
        do ls <- zmod (lines s) pos (fun _ => l');
        Ok (set_lines s ls, cache ++ [l'])) (s, []);
  let '(s1, cache) := r in
  do s2 <- (if num <? max then lines_move s1 (s_mt s1) (u32 (s_mt s1 + num)) (max - num)
            else Ok s1);
  do s3 <- lines_copy s2 (u32 (s_mt s2 + (max - num))) cache;
  Ok (sel_map s3 (sel_scroll_up (s_sb s3) num)).

(* tsm-screen.c:272-343 screen_scroll_up; fuel bounds the recursion depth,
   running out of it is reported as Ub (shown unreachable). *)
Fixpoint scroll_up_rec (fuel : nat) (s0 : screen) (num0 : Z) : res screen :=
  if num0 =? 0 then Ok s0
  else
    let s := age_all s0 in
    let max := u32 (s_mb s + 1 - s_mt s) in
    let num := if max <? num0 then max else num0 in
    if 128 <? num then
      match fuel with
      | O => Ub
      | S fuel' =>
        (* the inner call with 128 does not recurse *)
        do s1 <- scroll_up_chunk s max 128;
        scroll_up_rec fuel' s1 (num - 128)
      end
    else scroll_up_chunk s max num.
Definition scroll_up (s : screen) (num : Z) : res screen :=
  scroll_up_rec (Z.to_nat (Z.min num (u32 (s_mb s + 1 - s_mt s)) / 128)) s num.

(* tsm-screen.c:381-386. *)
Definition sel_scroll_down (num : Z) (p : selpos) : selpos :=
  match p_line p with
  | Some _ => p
  | None => if 0 <=? p_y p then mkP None (p_x p) (i32 (p_y p + num)) else p
  end.

(* tsm-screen.c:366-386, body of screen_scroll_down. *)
Definition scroll_down_chunk (s : screen) (max num : Z) : res screen :=
  do r <- cache_blank s (fun i => u32 (s_mb s - i)) num;
  let '(s1, cache) := r in
  do s2 <- (if num <? max then lines_move s1 (u32 (s_mt s1 + num)) (s_mt s1) (max - num)
            else Ok s1);
  do s3 <- lines_copy s2 (s_mt s2) cache;
  Ok (sel_map s3 (sel_scroll_down num)).

(* tsm-screen.c:345-387 screen_scroll_down. *)
Fixpoint scroll_down_rec (fuel : nat) (s0 : screen) (num0 : Z) : res screen :=
  if num0 =? 0 then Ok s0
  else
    let s := age_all s0 in
    let max := u32 (s_mb s + 1 - s_mt s) in
    let num := if max <? num0 then max else num0 in
    if 128 <? num then
      match fuel with
      | O => Ub
      | S fuel' =>
        do s1 <- scroll_down_chunk s max 128;
        scroll_down_rec fuel' s1 (num - 128)
      end
    else scroll_down_chunk s max num.
Definition scroll_down (s : screen) (num : Z) : res screen :=
  scroll_down_rec (Z.to_nat (Z.min num (u32 (s_mb s + 1 - s_mt s)) / 128)) s num.

(* tsm-screen.c:413-416 and 419-420, the two ways a cell is written. *)
Definition put_cell (s : screen) (ch len : Z) (a : attr) : cell := mkC ch len a (s_cnt s).
Definition cont_cell (s : screen) (c : cell) : cell := mkC (c_ch c) 0 (c_attr c) (s_cnt s).

(* tsm-screen.c:389-422 screen_write. The comparison on line 407 is between
   unsigned operands: (int)size_x - len is unsigned. *)
Definition screen_write (s : screen) (x y ch len : Z) (a : attr) : res screen :=
  if len =? 0 then Ok s
  else if (s_sx s <=? x) || (s_sy s <=? y) then Ok s
  else
    upd_line s y (fun l =>
      do l1 <-
        (if fl s F_INSERT && (u32 x <? u32 (s_sx s - len)) then
           do cs <- zmove (l_cells l) (u32 (x + len)) x (u32 (s_sx s - len - x));
           Ok (mkL cs (s_cnt s) (l_sbid l))
         else Ok l);
      on_cells (fun cs =>
        do cs1 <- zmod cs x (fun _ => put_cell s ch len a);
        forz 1 (Z.min len (s_sx s - x))
          (fun i cs => zmod cs (x + i) (cont_cell s)) cs1) l1).

(* tsm-screen.c:453-458, erasing part of one row. *)
Definition erase_cells (s : screen) (x_from to : Z) (protect : bool) (cells : list cell)
  : res (list cell) :=
  forz x_from (to + 1) (fun x cs =>
    do c <- zget cs x;
    if protect && a_protect (c_attr c) then Ok cs
    else zmod cs x (fun _ => blank s)) cells.

(* tsm-screen.c:424-461 screen_erase_region (line pointers are never NULL). *)
Definition erase_region (s0 : screen) (x_from y_from x_to0 y_to0 : Z) (protect : bool)
  : res screen :=
  let s := age_all s0 in
  let y_to := clamp_y s y_to0 in
  let x_to := clamp_x s x_to0 in
  forz y_from (y_to + 1) (fun y s =>
    upd_line s y (on_cells
      (erase_cells s (if y =? y_from then x_from else 0)
         (if y =? y_to then x_to else u32 (s_sx s - 1)) protect))) s.

(* tsm-screen.c:468-474 to_abs_y. *)
Definition to_abs_y (s : screen) (y : Z) : Z :=
  if fl s F_ORIGIN then u32 (s_mt s + y) else y.

(* tsm-screen.c:713-718 and 980-985: default tab stops. *)
Definition reset_tabs (n : Z) (tabs : list bool) : res (list bool) :=
  forz 0 n (fun i t => zmod t i (fun _ => i mod 8 =? 0)) tabs.

(* tsm-screen.c:490-498, the zeroed screen before its first resize. *)
Definition attr0 : attr := mkA 0 0 0 0 0 0 0 0 false false false false false false.
Definition attr_white : attr := mkA 0 0 255 255 255 0 0 0 false false false false false false.
Definition pos0 : selpos := mkP None 0 0.
Definition screen0 : screen :=
  mkS 0 attr_white attr0 1 false 0 0 0 0 0 [] [] false 1 0 [] 0 None 0 0 0 0 [] false pos0 pos0.

(* tsm-screen.c:622-662: more line objects. *)
Definition resize_grow_y (s : screen) (x y : Z) : screen :=
  if s_ln s <? y then
    let width := if s_sx s <? x then x else s_sx s in
    let nl := repeat (line_new s width) (Z.to_nat (y - s_ln s)) in
    set_ln (set_alt (set_main s (s_main s ++ nl)) (s_alt s ++ nl)) y
  else s.

(* tsm-screen.c:667-681: longer lines and tab ruler; realloc of the ruler to
   exactly x entries (fresh entries, overwritten below, shown as false). *)
Definition resize_grow_x (s : screen) (x : Z) : res screen :=
  if s_sx s <? x then
    let tabs := firstn (Z.to_nat x) (s_tabs s)
                ++ repeat false (Z.to_nat (x - zlen (s_tabs s))) in
    do m <- forz 0 (s_ln s) (fun i l => zmod l i (line_resize s x)) (s_main s);
    do a <- forz 0 (s_ln s) (fun i l => zmod l i (line_resize s x)) (s_alt s);
    Ok (set_alt (set_main (set_tabs s tabs) m) a)
  else Ok s.

(* tsm-screen.c:685-706: clear the expansion/padding area. The C loop treats
   main and alternate line j in one iteration; they are disjoint objects. *)
Definition resize_clear (s : screen) (x : Z) : res screen :=
  let start := if s_sx s <? x then s_sx s else x in
  do m <- forz 0 (s_ln s) (fun j ls =>
      zmodm ls j (fun l =>
        on_cells (fill (blank_of s (s_defm s)) (if j <? s_sy s then start else 0)
                       (zlen (l_cells l))) l)) (s_main s);
  do a <- forz 0 (s_ln s) (fun j ls =>
      zmodm ls j (on_cells (fill (blank s) (if j <? s_sy s then s_sx s else 0) x))) (s_alt s);
  Ok (set_alt (set_main s m) a).

(* tsm-screen.c:600-746 tsm_screen_resize; -22 is -EINVAL. *)
Definition scr_resize (s : screen) (x y : Z) : res (screen * Z) :=
  if (x =? 0) || (y =? 0) then Ok (s, -22)
  else if (s_sx s =? x) && (s_sy s =? y) then Ok (s, 0)
  else
    let s1 := resize_grow_y s x y in
    do s2 <- resize_grow_x s1 x;
    let s3 := inc_age s2 in
    do s4 <- resize_clear s3 x;
    let s5 := set_mb (set_mt s4 0) (u32 (s_sy s4 - 1)) in
    do tabs <- reset_tabs x (s_tabs s5);
    let s6 := set_sx (set_tabs s5 tabs) x in
    do s7 <- (if s_sx s6 <=? s_cx s6 then move_cursor s6 (u32 (s_sx s6 - 1)) (s_cy s6) else Ok s6);
    do s8 <- (if y <? s_sy s7 then
                let diff := s_sy s7 - y in
                do s' <- scroll_up s7 diff;
                if diff <? s_cy s' then move_cursor s' (s_cx s') (s_cy s' - diff)
                else move_cursor s' (s_cx s') 0
              else Ok s7);
    let s9 := set_mb (set_sy s8 y) (u32 (y - 1)) in
    do s10 <- (if s_sy s9 <=? s_cy s9 then move_cursor s9 (s_cx s9) (u32 (s_sy s9 - 1)) else Ok s9);
    Ok (s10, 0).

(* tsm-screen.c:476-524 tsm_screen_new. *)
Definition scr_new : res screen :=
  do r <- scr_resize screen0 80 24; Ok (fst r).

(* tsm-screen.c:748-774 tsm_screen_set_margins. *)
Definition scr_set_margins (s : screen) (top0 bottom : Z) : screen :=
  let top := if top0 =? 0 then 1 else top0 in
  let '(upper, lower) :=
    if bottom <=? top then (0, u32 (s_sy s - 1))
    else if s_sy s <? bottom then (0, u32 (s_sy s - 1))
    else (u32 (top - 1), u32 (bottom - 1)) in
  set_mb (set_mt s upper) lower.

(* tsm-screen.c:790-815: one iteration of the trimming loop. *)
Definition sb_trim1 (s : screen) : res screen :=
  match s_sb s with
  | [] => Ub
  | l :: rest =>
    let s1 := set_sbn (set_sb s rest) (u32 (s_sbn s - 1)) in
    let s2 := if match s_sbpos s with Some p => ptr_is (Some p) l | None => false end
              then set_sbpos s1 (sb_firstp rest) else s1 in
    Ok (sel_drop s2 l)
  end.
Fixpoint sb_trim (n : nat) (s : screen) : res screen :=
  match n with
  | O => Ok s
  | S n' => do s' <- sb_trim1 s; sb_trim n' s'
  end.

(* tsm-screen.c:777-818 tsm_screen_set_max_sb. *)
Definition scr_set_max_sb (s0 : screen) (max : Z) : res screen :=
  let s := age_all (inc_age s0) in
  do s' <- sb_trim (Z.to_nat (s_sbn s - max)) s;
  Ok (set_sbmax s' max).

(* tsm-screen.c:845-854. *)
Definition sel_unline (p : selpos) : selpos :=
  match p_line p with Some _ => mkP None (p_x p) SELECTION_TOP | None => p end.

(* tsm-screen.c:821-855 tsm_screen_clear_sb. *)
Definition scr_clear_sb (s0 : screen) : screen :=
  let s := age_all (inc_age s0) in
  let s1 := set_sbposn (set_sbpos (set_sbn (set_sb s []) 0) None) 0 in
  sel_map s1 sel_unline.

(* tsm-screen.c:867-880, one iteration of the loop in tsm_screen_sb_up. *)
Definition sb_up1 (s : screen) : res (screen * bool) :=
  match s_sbpos s with
  | Some p =>
    do pv <- sb_prev p (s_sb s);
    match pv with
    | None => Ok (s, false)
    | Some q => Ok (set_sbposn (set_sbpos s (Some q)) (u32 (s_sbposn s - 1)), true)
    end
  | None =>
    match sb_lastp (s_sb s) with
    | None => Ok (s, false)
    | Some q => Ok (set_sbposn (set_sbpos s (Some q)) (u32 (s_sbn s - 1)), true)
    end
  end.
(* tsm-screen.c:857-881 tsm_screen_sb_up. *)
Definition scr_sb_up (s : screen) (num : Z) : res screen :=
  if num =? 0 then Ok s
  else loop_n (Z.to_nat num) sb_up1 (age_all (inc_age s)).

(* tsm-screen.c:893-900, one iteration of the loop in tsm_screen_sb_down. *)
Definition sb_down1 (s : screen) : res (screen * bool) :=
  match s_sbpos s with
  | Some p =>
    do nx <- sb_next p (s_sb s);
    Ok (set_sbposn (set_sbpos s nx) (u32 (s_sbposn s + 1)), true)
  | None => Ok (s, false)
  end.
(* tsm-screen.c:883-901 tsm_screen_sb_down. *)
Definition scr_sb_down (s : screen) (num : Z) : res screen :=
  if num =? 0 then Ok s
  else loop_n (Z.to_nat num) sb_down1 (age_all (inc_age s)).

(* tsm-screen.c:903-911 tsm_screen_sb_page_up. *)
Definition scr_sb_page_up (s : screen) (num : Z) : res screen :=
  if num =? 0 then Ok s else let s' := inc_age s in scr_sb_up s' (u32 (num * s_sy s')).
(* tsm-screen.c:913-921 tsm_screen_sb_page_down. *)
Definition scr_sb_page_down (s : screen) (num : Z) : res screen :=
  if num =? 0 then Ok s else let s' := inc_age s in scr_sb_down s' (u32 (num * s_sy s')).

(* tsm-screen.c:923-935 tsm_screen_sb_reset. *)
Definition scr_sb_reset (s : screen) : screen :=
  match s_sbpos s with
  | None => s
  | Some _ => set_sbposn (set_sbpos (age_all (inc_age s)) None) 0
  end.

(* tsm-screen.c:937-953 tsm_screen_sb_get_line_count / _pos. *)
Definition scr_sb_line_count (s : screen) : Z := s_sbn s.
Definition scr_sb_line_pos (s : screen) : Z := s_sbposn s.

(* tsm-screen.c:955-962 tsm_screen_set_def_attr. *)
Definition scr_set_def_attr (s : screen) (a : attr) : screen := set_def s a.

(* tsm-screen.c:964-986 tsm_screen_reset. *)
Definition scr_reset (s0 : screen) : res screen :=
  let s := age_all (inc_age s0) in
  let s1 := set_act (set_mb (set_mt (set_flags s 0) 0) (u32 (s_sy s - 1))) false in
  do tabs <- reset_tabs (s_sx s1) (s_tabs s1);
  Ok (set_tabs s1 tabs).

(* tsm-screen.c:988-1018 tsm_screen_set_flags. *)
Definition scr_set_flags (s : screen) (f : Z) : res screen :=
  if f =? 0 then Ok s
  else
    let s1 := inc_age s in
    let old := s_flags s1 in
    let s2 := set_flags s1 (Z.lor old f) in
    let s3 := if negb (bit old F_ALT) && bit f F_ALT
              then set_defm (set_act (age_all s2) true) (s_def s2) else s2 in
    do s4 <- (if negb (bit old F_HIDE) && bit f F_HIDE then touch_cursor s3 else Ok s3);
    Ok (if negb (bit old F_INVERSE) && bit f F_INVERSE then age_all s4 else s4).

(* tsm-screen.c:1020-1047 tsm_screen_reset_flags. *)
Definition scr_reset_flags (s : screen) (f : Z) : res screen :=
  if f =? 0 then Ok s
  else
    let s1 := inc_age s in
    let old := s_flags s1 in
    let s2 := set_flags s1 (Z.ldiff old f) in
    let s3 := if bit old F_ALT && bit f F_ALT then set_act (age_all s2) false else s2 in
    do s4 <- (if bit old F_HIDE && bit f F_HIDE then touch_cursor s3 else Ok s3);
    Ok (if bit old F_INVERSE && bit f F_INVERSE then age_all s4 else s4).

(* tsm-screen.c:1076-1092 tsm_screen_set_tabstop / reset_tabstop. *)
Definition scr_tabstop (v : bool) (s : screen) : res screen :=
  if s_sx s <=? s_cx s then Ok s
  else do t <- zmod (s_tabs s) (s_cx s) (fun _ => v); Ok (set_tabs s t).

(* tsm-screen.c:1094-1104 tsm_screen_reset_all_tabstops. *)
Definition scr_reset_all_tabstops (s : screen) : res screen :=
  do t <- forz 0 (s_sx s) (fun i t => zmod t i (fun _ => false)) (s_tabs s);
  Ok (set_tabs s t).

(* tsm-screen.c:1115, tsm-unicode.c:314-328: the screen's own symbol table is
   never appended to by the library, so it is the initial one. *)
Definition scr_width (ch : Z) : res Z := symbol_width symtab_new ch.

(* tsm-screen.c:1106-1141 tsm_screen_write. *)
Definition scr_write (s0 : screen) (ch : Z) (a : attr) : res screen :=
  do len <- scr_width ch;
  if len =? 0 then Ok s0
  else
    let s := inc_age s0 in
    let last := if (s_cy s <=? s_mb s) || (s_sy s <=? s_cy s) then s_mb s
                else u32 (s_sy s - 1) in
    do s1 <- (if s_sx s <=? s_cx s then
                if fl s F_WRAP then move_cursor s 0 (u32 (s_cy s + 1))
                else move_cursor s (u32 (s_sx s - 1)) (s_cy s)
              else Ok s);
    do s2 <- (if last <? s_cy s1 then
                do s' <- move_cursor s1 (s_cx s1) last; scroll_up s' 1
              else Ok s1);
    do s3 <- screen_write s2 (s_cx s2) (s_cy s2) ch len a;
    move_cursor s3 (u32 (s_cx s3 + len)) (s_cy s3).

(* tsm-screen.c:1177-1202 tsm_screen_move_to. *)
Definition scr_move_to (s0 : screen) (x0 y0 : Z) : res screen :=
  let s := inc_age s0 in
  let last := if fl s F_ORIGIN then s_mb s else u32 (s_sy s - 1) in
  let x := clamp_x s x0 in
  let y1 := to_abs_y s y0 in
  let y := if last <? y1 then last else y1 in
  move_cursor s x y.

(* tsm-screen.c:1204-1229 tsm_screen_move_up. *)
Definition scr_move_up (s0 : screen) (num : Z) (scroll : bool) : res screen :=
  if num =? 0 then Ok s0
  else
    let s := inc_age s0 in
    let size := if s_mt s <=? s_cy s then s_mt s else 0 in
    let diff := u32 (s_cy s - size) in
    if diff <? num then
      do s1 <- (if scroll then scroll_down s (num - diff) else Ok s);
      move_cursor s1 (s_cx s1) size
    else move_cursor s (s_cx s) (u32 (s_cy s - num)).

(* tsm-screen.c:1231-1256 tsm_screen_move_down. *)
Definition scr_move_down (s0 : screen) (num : Z) (scroll : bool) : res screen :=
  if num =? 0 then Ok s0
  else
    let s := inc_age s0 in
    let size := if s_cy s <=? s_mb s then u32 (s_mb s + 1) else s_sy s in
    let diff := u32 (size - s_cy s - 1) in
    if diff <? num then
      do s1 <- (if scroll then scroll_up s (num - diff) else Ok s);
      move_cursor s1 (s_cx s1) (u32 (size - 1))
    else move_cursor s (s_cx s) (u32 (s_cy s + num)).

(* tsm-screen.c:1258-1279 tsm_screen_move_left. *)
Definition scr_move_left (s0 : screen) (num0 : Z) : res screen :=
  if num0 =? 0 then Ok s0
  else
    let s := inc_age s0 in
    let num := if s_sx s <? num0 then s_sx s else num0 in
    let x := clamp_x s (s_cx s) in
    if x <? num then move_cursor s 0 (s_cy s) else move_cursor s (x - num) (s_cy s).

(* tsm-screen.c:1281-1296 tsm_screen_move_right. *)
Definition scr_move_right (s0 : screen) (num0 : Z) : res screen :=
  if num0 =? 0 then Ok s0
  else
    let s := inc_age s0 in
    let num := if s_sx s <? num0 then s_sx s else num0 in
    if s_sx s <=? u32 (num + s_cx s) then move_cursor s (u32 (s_sx s - 1)) (s_cy s)
    else move_cursor s (u32 (s_cx s + num)) (s_cy s).

(* tsm-screen.c:1298-1318 tsm_screen_move_line_end / _home. *)
Definition scr_line_end (s0 : screen) : res screen :=
  let s := inc_age s0 in move_cursor s (u32 (s_sx s - 1)) (s_cy s).
Definition scr_line_home (s0 : screen) : res screen :=
  let s := inc_age s0 in move_cursor s 0 (s_cy s).

(* tsm-screen.c:1143-1153 tsm_screen_newline. *)
Definition scr_newline (s : screen) : res screen :=
  do s1 <- scr_move_down (inc_age s) 1 true; scr_line_home s1.

(* tsm-screen.c:1155-1175 tsm_screen_scroll_up / _down. *)
Definition scr_scroll_up (s : screen) (num : Z) : res screen :=
  if num =? 0 then Ok s else scroll_up (inc_age s) num.
Definition scr_scroll_down (s : screen) (num : Z) : res screen :=
  if num =? 0 then Ok s else scroll_down (inc_age s) num.

(* tsm-screen.c:1332-1335: first tab stop at or after j, or size_x. *)
Fixpoint tab_find_right (fuel : nat) (tabs : list bool) (j : Z) : res Z :=
  match fuel with
  | O => Ok j
  | S f => do t <- zget tabs j; if t : bool then Ok j else tab_find_right f tabs (j + 1)
  end.
(* tsm-screen.c:1331-1340, one iteration. *)
Definition tab_right1 (sx : Z) (tabs : list bool) (x : Z) : res (Z * bool) :=
  let j0 := u32 (x + 1) in
  do j <- tab_find_right (Z.to_nat (sx - j0)) tabs j0;
  Ok (j, negb (sx <=? u32 (j + 1))).
(* tsm-screen.c:1320-1347 tsm_screen_tab_right. *)
Definition scr_tab_right (s0 : screen) (num : Z) : res screen :=
  if num =? 0 then Ok s0
  else
    let s := inc_age s0 in
    do x <- loop_n (Z.to_nat num) (tab_right1 (s_sx s) (s_tabs s)) (s_cx s);
    move_cursor s (clamp_x s x) (s_cy s).

(* tsm-screen.c:1362-1365: last tab stop at or before j, or 0; the fuel j is
   what is left of the loop j > 0. *)
Fixpoint tab_find_left (fuel : nat) (tabs : list bool) (j : Z) : res Z :=
  match fuel with
  | O => Ok j
  | S f => do t <- zget tabs j; if t : bool then Ok j else tab_find_left f tabs (j - 1)
  end.
(* tsm-screen.c:1361-1372, one iteration (j is int). *)
Definition tab_left1 (tabs : list bool) (x : Z) : res (Z * bool) :=
  let j0 := i32 (x - 1) in
  do j <- tab_find_left (Z.to_nat j0) tabs j0;
  Ok (if j <=? 0 then (0, false) else (j, true)).
(* tsm-screen.c:1349-1375 tsm_screen_tab_left. *)
Definition scr_tab_left (s0 : screen) (num : Z) : res screen :=
  if num =? 0 then Ok s0
  else
    let s := inc_age s0 in
    do x <- loop_n (Z.to_nat num) (tab_left1 (s_tabs s)) (s_cx s);
    move_cursor s x (s_cy s).

(* tsm-screen.c:1377-1415 tsm_screen_insert_lines. *)
Definition scr_insert_lines (s0 : screen) (num0 : Z) : res screen :=
  if num0 =? 0 then Ok s0
  else if (s_cy s0 <? s_mt s0) || (s_mb s0 <? s_cy s0) then Ok s0
  else
    let s := age_all (inc_age s0) in
    let max := u32 (s_mb s - s_cy s + 1) in
    let num := if max <? num0 then max else num0 in
    do r <- cache_blank s (fun i => u32 (s_mb s - i)) num;
    let '(s1, cache) := r in
    do s2 <- (if num <? max then
                do s' <- lines_move s1 (u32 (s_cy s1 + num)) (s_cy s1) (max - num);
                lines_copy s' (s_cy s') cache
              else Ok s1);
    Ok (set_cx s2 0).

(* tsm-screen.c:1417-1455 tsm_screen_delete_lines. *)
Definition scr_delete_lines (s0 : screen) (num0 : Z) : res screen :=
  if num0 =? 0 then Ok s0
  else if (s_cy s0 <? s_mt s0) || (s_mb s0 <? s_cy s0) then Ok s0
  else
    let s := age_all (inc_age s0) in
    let max := u32 (s_mb s - s_cy s + 1) in
    let num := if max <? num0 then max else num0 in
    do r <- cache_blank s (fun i => u32 (s_cy s + i)) num;
    let '(s1, cache) := r in
    do s2 <- (if num <? max then
                do s' <- lines_move s1 (s_cy s1) (u32 (s_cy s1 + num)) (max - num);
                lines_copy s' (u32 (s_cy s' + (max - num))) cache
              else Ok s1);
    Ok (set_cx s2 0).

(* tsm-screen.c:1470-1473 and 1503-1506: pull the cursor inside. *)
Definition cursor_in (s : screen) : screen :=
  let s1 := set_cx s (clamp_x s (s_cx s)) in set_cy s1 (clamp_y s1 (s_cy s1)).

(* tsm-screen.c:1457-1488 tsm_screen_insert_chars. *)
Definition scr_insert_chars (s0 : screen) (num0 : Z) : res screen :=
  if (num0 =? 0) || (s_sy s0 =? 0) || (s_sx s0 =? 0) then Ok s0
  else
    let s := cursor_in (age_all (inc_age s0)) in
    let max := u32 (s_sx s - s_cx s) in
    let num := if max <? num0 then max else num0 in
    let mv := max - num in
    upd_line s (s_cy s) (on_cells (fun cs =>
      do cs1 <- (if mv =? 0 then Ok cs else zmove cs (u32 (s_cx s + num)) (s_cx s) mv);
      fill (blank s) (s_cx s) (s_cx s + num) cs1)).

(* tsm-screen.c:1490-1521 tsm_screen_delete_chars. *)
Definition scr_delete_chars (s0 : screen) (num0 : Z) : res screen :=
  if (num0 =? 0) || (s_sy s0 =? 0) || (s_sx s0 =? 0) then Ok s0
  else
    let s := cursor_in (age_all (inc_age s0)) in
    let max := u32 (s_sx s - s_cx s) in
    let num := if max <? num0 then max else num0 in
    let mv := max - num in
    upd_line s (s_cy s) (on_cells (fun cs =>
      do cs1 <- (if mv =? 0 then Ok cs else zmove cs (s_cx s) (u32 (s_cx s + num)) mv);
      fill (blank s) (s_cx s + mv) (s_cx s + mv + num) cs1)).

(* tsm-screen.c:1523-1539 tsm_screen_erase_cursor. *)
Definition scr_erase_cursor (s0 : screen) : res screen :=
  let s := inc_age s0 in
  let x := clamp_x s (s_cx s) in erase_region s x (s_cy s) x (s_cy s) false.
(* tsm-screen.c:1541-1558 tsm_screen_erase_chars. *)
Definition scr_erase_chars (s0 : screen) (num : Z) : res screen :=
  if num =? 0 then Ok s0
  else
    let s := inc_age s0 in
    let x := clamp_x s (s_cx s) in
    erase_region s x (s_cy s) (u32 (x + num - 1)) (s_cy s) false.
(* tsm-screen.c:1560-1578 tsm_screen_erase_cursor_to_end. *)
Definition scr_erase_cursor_to_end (s0 : screen) (p : bool) : res screen :=
  let s := inc_age s0 in
  erase_region s (clamp_x s (s_cx s)) (s_cy s) (u32 (s_sx s - 1)) (s_cy s) p.
(* tsm-screen.c:1580-1591 tsm_screen_erase_home_to_cursor. *)
Definition scr_erase_home_to_cursor (s0 : screen) (p : bool) : res screen :=
  let s := inc_age s0 in erase_region s 0 (s_cy s) (s_cx s) (s_cy s) p.
(* tsm-screen.c:1593-1604 tsm_screen_erase_current_line. *)
Definition scr_erase_current_line (s0 : screen) (p : bool) : res screen :=
  let s := inc_age s0 in erase_region s 0 (s_cy s) (u32 (s_sx s - 1)) (s_cy s) p.
(* tsm-screen.c:1606-1616 tsm_screen_erase_screen_to_cursor. *)
Definition scr_erase_screen_to_cursor (s0 : screen) (p : bool) : res screen :=
  let s := inc_age s0 in erase_region s 0 0 (s_cx s) (s_cy s) p.
(* tsm-screen.c:1618-1636 tsm_screen_erase_cursor_to_screen. *)
Definition scr_erase_cursor_to_screen (s0 : screen) (p : bool) : res screen :=
  let s := inc_age s0 in
  erase_region s (clamp_x s (s_cx s)) (s_cy s) (u32 (s_sx s - 1)) (u32 (s_sy s - 1)) p.
(* tsm-screen.c:1638-1648 tsm_screen_erase_screen. *)
Definition scr_erase_screen (s0 : screen) (p : bool) : res screen :=
  let s := inc_age s0 in
  erase_region s 0 0 (u32 (s_sx s - 1)) (u32 (s_sy s - 1)) p.

(* tsm-selection.c:72-75: the walk down the scrollback from the view position. *)
Fixpoint sel_walk (l : list line) (y : Z) : option Z * Z :=
  match l with
  | [] => (None, y)
  | x :: r => if y =? 0 then (l_sbid x, 0) else sel_walk r (y - 1)
  end.
(* tsm-selection.c:64-82 selection_set. *)
Definition selection_set (s : screen) (x y : Z) : res selpos :=
  match s_sbpos s with
  | None => Ok (mkP None x (i32 y))
  | Some p =>
    match sb_from p (s_sb s) with
    | None => Ub
    | Some l => let '(ln, y') := sel_walk l y in Ok (mkP ln x (i32 y'))
    end
  end.
(* tsm-selection.c:84-95 tsm_screen_selection_reset. *)
Definition scr_sel_reset (s : screen) : screen := set_sela (age_all (inc_age s)) false.
(* tsm-selection.c:97-112 tsm_screen_selection_start. *)
Definition scr_sel_start (s0 : screen) (x y : Z) : res screen :=
  let s := set_sela (age_all (inc_age s0)) true in
  do p <- selection_set s x y; Ok (set_sel2 (set_sel1 s p) p).
(* tsm-selection.c:114-127 tsm_screen_selection_target. *)
Definition scr_sel_target (s0 : screen) (x y : Z) : res screen :=
  if s_sela s0 then
    let s := age_all (inc_age s0) in
    do p <- selection_set s x y; Ok (set_sel2 s p)
  else Ok s0.

(* The calls of the screen API (libtsm.h:190-300, tsm-screen.c, tsm-selection.c)
   that can change a screen, other than draw (Render.v). *)
Inductive op :=
| OResize (x y : Z) | OSetMargins (t b : Z) | OSetMaxSb (n : Z) | OClearSb
| OSbUp (n : Z) | OSbDown (n : Z) | OSbPageUp (n : Z) | OSbPageDown (n : Z) | OSbReset
| OSetDefAttr (a : attr) | OReset | OSetFlags (f : Z) | OResetFlags (f : Z)
| OSetTabstop | OResetTabstop | OResetAllTabstops
| OWrite (ch : Z) (a : attr) | ONewline | OScrollUp (n : Z) | OScrollDown (n : Z)
| OMoveTo (x y : Z) | OMoveUp (n : Z) (b : bool) | OMoveDown (n : Z) (b : bool)
| OMoveLeft (n : Z) | OMoveRight (n : Z) | OLineEnd | OLineHome
| OTabRight (n : Z) | OTabLeft (n : Z)
| OInsLines (n : Z) | ODelLines (n : Z) | OInsChars (n : Z) | ODelChars (n : Z)
| OEraseCursor | OEraseChars (n : Z) | OEraseToEnd (p : bool) | OEraseHome (p : bool)
| OEraseLine (p : bool) | OEraseScreenToCursor (p : bool) | OEraseCursorToScreen (p : bool)
| OEraseScreen (p : bool)
| OSelReset | OSelStart (x y : Z) | OSelTarget (x y : Z).

(* Dispatch of one API call (tsm-screen.c, tsm-selection.c). *)
Definition step (s : screen) (o : op) : res screen :=
  match o with
  | OResize x y => do r <- scr_resize s x y; Ok (fst r)
  | OSetMargins t b => Ok (scr_set_margins s t b)
  | OSetMaxSb n => scr_set_max_sb s n
  | OClearSb => Ok (scr_clear_sb s)
  | OSbUp n => scr_sb_up s n
  | OSbDown n => scr_sb_down s n
  | OSbPageUp n => scr_sb_page_up s n
  | OSbPageDown n => scr_sb_page_down s n
  | OSbReset => Ok (scr_sb_reset s)
  | OSetDefAttr a => Ok (scr_set_def_attr s a)
  | OReset => scr_reset s
  | OSetFlags f => scr_set_flags s f
  | OResetFlags f => scr_reset_flags s f
  | OSetTabstop => scr_tabstop true s
  | OResetTabstop => scr_tabstop false s
  | OResetAllTabstops => scr_reset_all_tabstops s
  | OWrite ch a => scr_write s ch a
  | ONewline => scr_newline s
  | OScrollUp n => scr_scroll_up s n
  | OScrollDown n => scr_scroll_down s n
  | OMoveTo x y => scr_move_to s x y
  | OMoveUp n b => scr_move_up s n b
  | OMoveDown n b => scr_move_down s n b
  | OMoveLeft n => scr_move_left s n
  | OMoveRight n => scr_move_right s n
  | OLineEnd => scr_line_end s
  | OLineHome => scr_line_home s
  | OTabRight n => scr_tab_right s n
  | OTabLeft n => scr_tab_left s n
  | OInsLines n => scr_insert_lines s n
  | ODelLines n => scr_delete_lines s n
  | OInsChars n => scr_insert_chars s n
  | ODelChars n => scr_delete_chars s n
  | OEraseCursor => scr_erase_cursor s
  | OEraseChars n => scr_erase_chars s n
  | OEraseToEnd p => scr_erase_cursor_to_end s p
  | OEraseHome p => scr_erase_home_to_cursor s p
  | OEraseLine p => scr_erase_current_line s p
  | OEraseScreenToCursor p => scr_erase_screen_to_cursor s p
  | OEraseCursorToScreen p => scr_erase_cursor_to_screen s p
  | OEraseScreen p => scr_erase_screen s p
  | OSelReset => Ok (scr_sel_reset s)
  | OSelStart x y => scr_sel_start s x y
  | OSelTarget x y => scr_sel_target s x y
  end.

(* A sequence of API calls. *)
Fixpoint run (s : screen) (ops : list op) : res screen :=
  match ops with
  | [] => Ok s
  | o :: r => do s' <- step s o; run s' r
  end.
