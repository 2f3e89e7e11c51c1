(* Observation vocabulary for the screen properties: what the API's draw call
   shows of a screen, without ages and internal bookkeeping. *)
From Verif Require Import Base Screen.

(* What a cell shows: symbol, width, attributes. *)
Definition glyph : Type := (Z * Z * attr)%type.
Definition look (c : cell) : glyph := (c_ch c, c_width c, c_attr c).
(* A blank cell with attributes a: no symbol, one column wide. *)
Definition blank_glyph (a : attr) : glyph := (0, 1, a).

(* Column x of a row; row y, column x of an array of rows. *)
Definition row_at (l : line) (x : Z) : option glyph := option_map look (znth (l_cells l) x).
Definition rows_at (ls : list line) (y x : Z) : option glyph :=
  match znth ls y with Some l => row_at l x | None => None end.
(* Cell (x, y) of the active buffer / the main buffer. *)
Definition at_ (s : screen) (y x : Z) : option glyph := rows_at (lines s) y x.
Definition main_at (s : screen) (y x : Z) : option glyph := rows_at (s_main s) y x.
Definition alt_at (s : screen) (y x : Z) : option glyph := rows_at (s_alt s) y x.

(* Positions on the screen. *)
Definition on_screen (s : screen) (y x : Z) : Prop := 0 <= y < s_sy s /\ 0 <= x < s_sx s.
(* Arguments of type unsigned int. *)
Definition u32_arg (n : Z) : Prop := 0 <= n < 4294967296.

(* No cell content differs, in either buffer. *)
Definition same_text (s s' : screen) : Prop :=
  forall y x, main_at s' y x = main_at s y x /\ alt_at s' y x = alt_at s y x.

(* Text of a scrolled off row: its cells without ages. *)
Definition row_text (l : line) : list glyph := map look (l_cells l).

(* Tab stops in columns a..b-1. *)
Definition is_stop (s : screen) (k : Z) : bool :=
  match znth (s_tabs s) k with Some b => b | None => false end.
Fixpoint count_stops (s : screen) (a : Z) (n : nat) : Z :=
  match n with
  | O => 0
  | S n' => (if is_stop s a then 1 else 0) + count_stops s (a + 1) n'
  end.
Definition stops (s : screen) (a b : Z) : Z := count_stops s a (Z.to_nat (b - a)).

(* Scrollback view: number of scrollback lines above the first line shown
   (all of them when the view is live). *)
Definition view_index (s : screen) : Z :=
  match s_sbpos s with
  | None => zlen (s_sb s)
  | Some p => p - (s_sbid s - zlen (s_sb s) + 1)
  end.

(* The picture after moving rows t..b of the active buffer up or down by n,
   vacated rows blank in the current default attributes. *)
Definition shift_up (s : screen) (t b n y x : Z) : option glyph :=
  if (t <=? y) && (y <=? b)
  then if y + n <=? b then at_ s (y + n) x else Some (blank_glyph (s_def s))
  else at_ s y x.
Definition shift_down (s : screen) (t b n y x : Z) : option glyph :=
  if (t <=? y) && (y <=? b)
  then if t + n <=? y then at_ s (y - n) x else Some (blank_glyph (s_def s))
  else at_ s y x.
(* Height of the scroll region; first and last row a cursor in row y can reach
   without leaving the part of the screen it is in. *)
Definition region (s : screen) : Z := s_mb s + 1 - s_mt s.
Definition floor_row (s : screen) : Z := if s_cy s <=? s_mb s then s_mb s else s_sy s - 1.
Definition ceil_row (s : screen) : Z := if s_mt s <=? s_cy s then s_mt s else 0.
(* The column on screen the cursor is displayed in. *)
Definition cursor_col (s : screen) : Z := Z.min (s_cx s) (s_sx s - 1).

(* Row y, from column x on, after inserting or deleting n blanks. *)
Definition chars_in (s : screen) (c n y x : Z) : option glyph :=
  if (y =? s_cy s) && (c <=? x)
  then if x <? c + n then Some (blank_glyph (s_def s)) else at_ s y (x - n)
  else at_ s y x.
Definition chars_out (s : screen) (c n y x : Z) : option glyph :=
  if (y =? s_cy s) && (c <=? x)
  then if x + n <? s_sx s then at_ s y (x + n) else Some (blank_glyph (s_def s))
  else at_ s y x.

(* The picture after erasing the positions r; p keeps protected cells. *)
Definition protected (g : option glyph) : bool :=
  match g with Some (_, _, a) => a_protect a | None => false end.
Definition erase_spec (s : screen) (r : Z -> Z -> bool) (p : bool) (y x : Z) : option glyph :=
  if r y x && negb (p && protected (at_ s y x)) then Some (blank_glyph (s_def s)) else at_ s y x.

(* Writing: the column and row the symbol goes to, whether the region scrolls,
   and the picture. *)
Definition write_col (s : screen) : Z :=
  if s_cx s <? s_sx s then s_cx s else if fl s F_WRAP then 0 else s_sx s - 1.
Definition wraps (s : screen) : bool := negb (s_cx s <? s_sx s) && fl s F_WRAP.
Definition write_scrolls (s : screen) : bool := wraps s && (s_cy s =? floor_row s).
Definition write_row (s : screen) : Z :=
  if wraps s && negb (write_scrolls s) then s_cy s + 1 else s_cy s.
Definition before_write (s : screen) (y x : Z) : option glyph :=
  if write_scrolls s then shift_up s (s_mt s) (s_mb s) 1 y x else at_ s y x.
Definition continued (g : option glyph) : option glyph :=
  match g with Some (c, _, a) => Some (c, 0, a) | None => None end.
Definition write_spec (s : screen) (ch w : Z) (a : attr) (y x : Z) : option glyph :=
  let b := before_write s in
  let c := write_col s in
  if y =? write_row s then
    if x <? c then b y x
    else if x =? c then Some (ch, w, a)
    else if x <? c + w then continued (b y x)
    else if fl s F_INSERT then b y (x - w)
    else b y x
  else b y x.

(* The regions of the erase calls. *)
Definition reg_row (s : screen) (y _ : Z) : bool := y =? s_cy s.
Definition reg_right (s : screen) (y x : Z) : bool := (y =? s_cy s) && (cursor_col s <=? x).
Definition reg_left (s : screen) (y x : Z) : bool := (y =? s_cy s) && (x <=? s_cx s).
Definition reg_chars (s : screen) (n y x : Z) : bool := reg_right s y x && (x <? cursor_col s + n).
Definition reg_above (s : screen) (y x : Z) : bool := (y <? s_cy s) || reg_left s y x.
Definition reg_below (s : screen) (y x : Z) : bool := (s_cy s <? y) || reg_right s y x.
Definition reg_all (y x : Z) : bool := true.

(* Rows as they are handed to the scrollback: the text of the first n rows of
   the scroll region of the main screen; a row cut or padded to width x. *)
Definition top_rows (s : screen) (n : Z) : list (list glyph) := map row_text (zslice (s_main s) (s_mt s) n).
Definition fit_row (s : screen) (x : Z) (r : list glyph) : list glyph :=
  mapi (fun k g => if k <? Z.min (s_sx s) x then g else blank_glyph (s_defm s))
       (r ++ repeat (blank_glyph (s_defm s)) (Z.to_nat (x - zlen r))).
(* How far the region scrolls when the cursor moves n rows down or up. *)
Definition over_down (s : screen) (n : Z) : Z := Z.min (Z.max 0 (n - (floor_row s - s_cy s))) (region s).
Definition over_up (s : screen) (n : Z) : Z := Z.min (Z.max 0 (n - (s_cy s - ceil_row s))) (region s).
(* The rows of the main screen a call scrolls off. *)
Definition off (s : screen) (o : op) : list (list glyph) :=
  if fl s F_ALT then [] else
  match o with
  | OScrollUp n => top_rows s (Z.min n (region s))
  | OMoveDown n true => top_rows s (over_down s n)
  | ONewline => top_rows s (over_down s 1)
  | OWrite ch _ => match scr_width ch with
                   | Ok w => if (0 <? w) && write_scrolls s then top_rows s 1 else []
                   | Ub => [] end
  | OResize x y => if (0 <? x) && (0 <? y) && (y <? s_sy s)
                   then map (fun l => fit_row s x (row_text l)) (zslice (s_main s) 0 (s_sy s - y)) else []
  | _ => []
  end.
(* All rows scrolled off in the course of a sequence of calls. *)
Fixpoint offs (s : screen) (ops : list op) : list (list glyph) :=
  match ops with
  | [] => []
  | o :: r => off s o ++ match step s o with Ok s1 => offs s1 r | Ub => [] end
  end.
Definition sb_text (s : screen) : list (list glyph) := map row_text (s_sb s).
(* The last n elements. *)
Definition last_n {A} (n : Z) (l : list A) : list A := skipn (Z.to_nat (zlen l - n)) l.

(* A call that erases exactly the region r and moves nothing. *)
Definition erases (s : screen) (o : op) (r : Z -> Z -> bool) (p : bool) : Prop :=
  exists s', step s o = Ok s' /\ s_cx s' = s_cx s /\ s_cy s' = s_cy s /\
    forall y x, on_screen s y x -> at_ s' y x = erase_spec s r p y x.
(* A cursor motion: only the cursor changes. *)
Definition moves (s : screen) (o : op) (x y : Z) : Prop :=
  exists s', step s o = Ok s' /\ s_cx s' = x /\ s_cy s' = y /\ same_text s s' /\
    s_sb s' = s_sb s /\ s_sx s' = s_sx s /\ s_sy s' = s_sy s /\ s_mt s' = s_mt s /\ s_mb s' = s_mb s /\ s_flags s' = s_flags s.
(* Calls under which the alternate screen stays active and which may not touch
   the main screen. *)
Definition stays_alt (o : op) : bool :=
  match o with
  | OResize _ _ | OReset | OSetMaxSb _ | OClearSb => false
  | OResetFlags f => negb (bit f F_ALT)
  | _ => true
  end.
(* A call that moves the scrollback view so that v lines are above it. *)
Definition view_moves (s : screen) (o : op) (v : Z) : Prop :=
  exists s', step s o = Ok s' /\ view_index s' = v /\ s_sb s' = s_sb s /\ same_text s s'.
(* Rows scrolled off by the resize; what a cell shows afterwards. *)
Definition rz_off (s : screen) (y : Z) : Z := Z.max 0 (s_sy s - y).
Definition rz_cell (s : screen) (a : attr) (old : option glyph) (j i : Z) : option glyph :=
  if (j <? s_sy s) && (i <? s_sx s) then old else Some (blank_glyph a).
(* What one call does to the scrollback. *)
Definition sb_limit (s : screen) (o : op) : Z := match o with OSetMaxSb n => n | _ => s_sbmax s end.
Definition sb_spec (s : screen) (o : op) : list (list glyph) :=
  match o with OClearSb => [] | _ => last_n (sb_limit s o) (sb_text s ++ off s o) end.
(* Calls that do not configure the scrollback. *)
Definition keeps_limit (o : op) : Prop := match o with OSetMaxSb _ | OClearSb => False | _ => True end.
(* Attributes resize gives to newly exposed cells of the active buffer. *)
Definition exposed_attr (s : screen) : attr := if fl s F_ALT then s_def s else s_defm s.
(* The calls that scroll, and by how much. *)
Inductive scrolls (s : screen) : op -> (Z -> Z -> option glyph) -> Prop :=
| sc_up n : u32_arg n -> scrolls s (OScrollUp n) (shift_up s (s_mt s) (s_mb s) (Z.min n (region s)))
| sc_down n : u32_arg n -> scrolls s (OScrollDown n) (shift_down s (s_mt s) (s_mb s) (Z.min n (region s)))
| sc_mdown n : u32_arg n -> scrolls s (OMoveDown n true) (shift_up s (s_mt s) (s_mb s) (over_down s n))
| sc_mup n : u32_arg n -> scrolls s (OMoveUp n true) (shift_down s (s_mt s) (s_mb s) (over_up s n))
| sc_nl : scrolls s ONewline (shift_up s (s_mt s) (s_mb s) (over_down s 1))
| sc_ins n : u32_arg n -> 0 < n -> s_mt s <= s_cy s <= s_mb s ->
   scrolls s (OInsLines n) (shift_down s (s_cy s) (s_mb s) (Z.min n (s_mb s + 1 - s_cy s)))
| sc_del n : u32_arg n -> 0 < n -> s_mt s <= s_cy s <= s_mb s ->
   scrolls s (ODelLines n) (shift_up s (s_cy s) (s_mb s) (Z.min n (s_mb s + 1 - s_cy s))).
(* Where the cursor ends up after a call that scrolls. *)
Definition scroll_cursor (s : screen) (o : op) : Z * Z :=
  match o with
  | OMoveDown n _ => (s_cx s, Z.min (s_cy s + n) (floor_row s))
  | OMoveUp n _ => (s_cx s, Z.max (s_cy s - n) (ceil_row s))
  | ONewline => (0, Z.min (s_cy s + 1) (floor_row s))
  | OInsLines _ | ODelLines _ => (0, s_cy s)
  | _ => (s_cx s, s_cy s)
  end.
(* The scroll region a request for rows t..b (1-based, 0 = 1) leads to. *)
Definition margins_for (s : screen) (t b : Z) : Z * Z :=
  if (Z.max t 1 <? b) && (b <=? s_sy s) then (Z.max t 1 - 1, b - 1) else (0, s_sy s - 1).
(* The erase calls, their region and protection. *)
Inductive erase_call (s : screen) : op -> (Z -> Z -> bool) -> bool -> Prop :=
| ec_cursor : erase_call s OEraseCursor (fun y x => (y =? s_cy s) && (x =? cursor_col s)) false
| ec_end p : erase_call s (OEraseToEnd p) (reg_right s) p
| ec_home p : erase_call s (OEraseHome p) (reg_left s) p
| ec_line p : erase_call s (OEraseLine p) (reg_row s) p
| ec_above p : erase_call s (OEraseScreenToCursor p) (reg_above s) p
| ec_below p : erase_call s (OEraseCursorToScreen p) (reg_below s) p
| ec_all p : erase_call s (OEraseScreen p) reg_all p.
(* Cursor motions and their targets. *)
Inductive motion (s : screen) : op -> Z -> Z -> Prop :=
| mo_to x y : u32_arg x -> u32_arg y -> s_mt s + y < 4294967296 ->
    motion s (OMoveTo x y) (Z.min x (s_sx s - 1)) (if fl s F_ORIGIN then Z.min (s_mt s + y) (s_mb s) else Z.min y (s_sy s - 1))
| mo_up n : u32_arg n -> motion s (OMoveUp n false) (s_cx s) (Z.max (s_cy s - n) (ceil_row s))
| mo_down n : u32_arg n -> motion s (OMoveDown n false) (s_cx s) (Z.min (s_cy s + n) (floor_row s))
| mo_left n : u32_arg n -> 0 < n -> motion s (OMoveLeft n) (Z.max 0 (cursor_col s - n)) (s_cy s)
| mo_right n : u32_arg n -> 0 < n -> motion s (OMoveRight n) (Z.min (s_cx s + n) (s_sx s - 1)) (s_cy s)
| mo_home : motion s OLineHome 0 (s_cy s)
| mo_end : motion s OLineEnd (s_sx s - 1) (s_cy s).
