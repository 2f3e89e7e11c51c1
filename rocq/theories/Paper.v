(* Specification for C50: a typewriter on a page that is w columns wide and has
   no end. It knows nothing of screens of finite height, margins, scrollback
   rings or ages. *)
From Verif Require Import Base Screen ScreenSpec.

(* The page, the row and column the next symbol goes to, and the row that is at
   the top edge of a window of fixed height following the carriage down. *)
Record paper := mkPaper { p_rows : Z -> Z -> option glyph; p_r : Z; p_c : Z; p_top : Z }.

(* What is typed. *)
Inductive item :=
| IChar (ch : Z) (a : attr)   (* a symbol *)
| INewline                    (* to the start of the next row *)
| ILineFeed                   (* one row down *)
| IReturn                     (* to the start of the row *)
| IBack                       (* one column left *)
| IPaint (a : attr).          (* paper not yet in the window gets the colours of a *)

(* Put a symbol of width wd at row r, column c of a page w columns wide. *)
Definition put_at (f : Z -> Z -> option glyph) (r c ch wd : Z) (a : attr) (y x : Z) : option glyph :=
  if y =? r then
    if x =? c then Some (ch, wd, a)
    else if (c <? x) && (x <? c + wd) then continued (f y x)
    else f y x
  else f y x.
(* The carriage goes to row r, column c; the window of h rows follows it. *)
Definition go (h : Z) (p : paper) (r c : Z) : paper :=
  mkPaper (p_rows p) r c (Z.max (p_top p) (r - (h - 1))).
Definition typed (w h : Z) (p : paper) (i : item) : paper :=
  match i with
  | IChar ch a =>
      match scr_width ch with
      | Ok wd =>
          if wd <=? 0 then p
          else let p1 := if p_c p <? w then p else go h p (p_r p + 1) 0 in
               go h (mkPaper (put_at (p_rows p1) (p_r p1) (p_c p1) ch wd a) (p_r p1) (p_c p1) (p_top p1))
                    (p_r p1) (p_c p1 + wd)
      | Ub => p
      end
  | INewline => go h p (p_r p + 1) 0
  | ILineFeed => go h p (p_r p + 1) (p_c p)
  | IReturn => go h p (p_r p) 0
  | IBack => go h p (p_r p) (Z.max 0 (Z.min (p_c p) (w - 1) - 1))
  | IPaint a => mkPaper (fun y x => if y <? p_top p + h then p_rows p y x else Some (blank_glyph a)) (p_r p) (p_c p) (p_top p)
  end.
Definition typed_all (w h : Z) (p : paper) (is : list item) : paper := fold_left (typed w h) is p.

(* The calls a program makes for the items. *)
Definition item_op (i : item) : op :=
  match i with
  | IChar ch a => OWrite ch a
  | INewline => ONewline
  | ILineFeed => OMoveDown 1 true
  | IReturn => OLineHome
  | IBack => OMoveLeft 1
  | IPaint a => OSetDefAttr a
  end.

(* Column x of the scrollback row d rows above the screen. *)
Definition above (s : screen) (d x : Z) : option glyph :=
  match znth (sb_text s) (zlen (sb_text s) - d) with Some r => znth r x | None => None end.
(* The page a screen shows: the screen, the scrollback above it, and nothing
   below it. *)
Definition paper_of (s : screen) : paper :=
  mkPaper (fun y x => if y <? 0 then above s (- y) x
                      else if y <? s_sy s then at_ s y x else Some (blank_glyph (s_def s)))
          (s_cy s) (s_cx s) 0.
(* The screen is the window, the scrollback the rows directly above it. *)
Record shows (s : screen) (p : paper) : Prop := mkShows {
  sh_col : s_cx s = p_c p;
  sh_row : p_top p + s_cy s = p_r p;
  sh_at : forall y x, on_screen s y x -> at_ s y x = p_rows p (p_top p + y) x;
  sh_above : forall d x, 1 <= d <= zlen (sb_text s) -> 0 <= x < s_sx s -> above s d x = p_rows p (p_top p - d) x
}.
(* Main screen, symbols wrap at the right edge and overwrite, no scroll region. *)
Record typing (s : screen) : Prop := mkTyping {
  ty_main : fl s F_ALT = false; ty_wrap : fl s F_WRAP = true; ty_over : fl s F_INSERT = false;
  ty_top : s_mt s = 0; ty_bot : s_mb s = s_sy s - 1
}.
