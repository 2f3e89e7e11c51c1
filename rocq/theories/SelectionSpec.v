(* What copying a selection should give: the text of the cells between two
   places, in reading order. *)
From Verif Require Import Base Utf8Spec Screen.

(* The rows of text, oldest first: the scrollback and the rows of the screen. *)
Definition text_rows (s : screen) : list (list Z) :=
  map (fun l => map c_ch (l_cells l)) (s_sb s ++ firstn (Z.to_nat (s_sy s)) (lines s)).
Definition row (s : screen) (r : Z) : list Z :=
  match znth (text_rows s) r with Some l => l | None => [] end.

(* An end of the selection is at column c of row r; "top" is the place before
   everything. *)
Definition on_top (p : selpos) : Prop := p_line p = None /\ p_y p = SELECTION_TOP.
Definition end_row (s : screen) (p : selpos) (r : Z) : Prop :=
  match p_line p with
  | Some k => exists l, znth (s_sb s) r = Some l /\ l_sbid l = Some k
  | None => 0 <= p_y p < s_sy s /\ r = zlen (s_sb s) + p_y p
  end.
Definition at_place (s : screen) (p : selpos) (r c : Z) : Prop := end_row s p r /\ c = p_x p /\ 0 <= c < s_sx s.
Definition at_place_or_top (s : screen) (p : selpos) (r c : Z) : Prop :=
  on_top p /\ r = 0 /\ c = 0 \/ at_place s p r c.
Definition before (r1 c1 r2 c2 : Z) : Prop := r1 < r2 \/ r1 = r2 /\ c1 <= c2.

(* A row without the blanks (cells without character) at its end. *)
Fixpoint drop_blanks (l : list Z) : list Z :=
  match l with
  | [] => []
  | x :: r => if x =? 0 then drop_blanks r else l
  end.
Definition trim (l : list Z) : list Z := rev (drop_blanks (rev l)).

(* The bytes of a character; pad stands for a blank. Characters that have no
   encoding (C04) are left out. *)
Definition encodable (ch : Z) : bool :=
  (ch <=? 0x10FFFF) && negb ((0xD800 <=? ch) && (ch <=? 0xDFFF)) &&
  negb ((0xFDD0 <=? ch) && (ch <=? 0xFDEF)) && (ch mod 65536 <? 0xFFFE).
Definition char_bytes (pad : list Z) (ch : Z) : list Z :=
  if ch =? 0 then pad else if encodable ch then utf8 ch else [].

(* Columns a up to b (exclusive) of a row. *)
Definition part (s : screen) (r a b : Z) : list Z := zslice (trim (row s r)) a (b - a).

Fixpoint join (ls : list (list Z)) : list Z :=
  match ls with
  | [] => []
  | [x] => x
  | x :: r => x ++ 10 :: join r
  end.
Definition zseq (a n : Z) : list Z := map (fun i => a + Z.of_nat i) (seq 0 (Z.to_nat n)).

(* The text from (r1, c1) to (r2, c2), both included. *)
Definition first_col (r1 c1 r : Z) : Z := if r =? r1 then c1 else 0.
Definition end_col (s : screen) (r2 c2 r : Z) : Z := if r =? r2 then c2 + 1 else s_sx s.
Definition sel_part (s : screen) (r1 c1 r2 c2 r : Z) : list Z := part s r (first_col r1 c1 r) (end_col s r2 c2 r).
Definition sel_text (pad : list Z) (s : screen) (r1 c1 r2 c2 : Z) : list Z :=
  join (map (fun r => flat_map (char_bytes pad) (sel_part s r1 c1 r2 c2 r)) (zseq r1 (r2 - r1 + 1))).
(* No blanks within it. *)
Definition solid (s : screen) (r1 c1 r2 c2 : Z) : Prop :=
  forall r, r1 <= r <= r2 -> ~ In 0 (sel_part s r1 c1 r2 c2 r).

(* All characters of the text below some limit. *)
Definition chars_below (lim : Z) (s : screen) : Prop := Forall (Forall (fun ch => 0 <= ch < lim)) (text_rows s).

(* The whole text, at 4 bytes per cell, does not exceed the range of int. *)
Definition roomy (s : screen) : Prop := 4 * s_sx s * (zlen (s_sb s) + s_sy s) + 1 < 2147483648.

(* Selections made with coordinates of the screen. *)
Fixpoint selects_on_screen (s : screen) (ops : list op) : Prop :=
  match ops with
  | [] => True
  | o :: r =>
    match o with
    | OSelStart x y | OSelTarget x y => x < s_sx s /\ y < s_sy s
    | _ => True
    end /\ match step s o with Ok s' => selects_on_screen s' r | Ub => True end
  end.

(* The end points p (set by selection_start) and q (set by selection_target) for
   which copying keeps within bounds, when both are on the screen, in the
   scrollback, or "top": one on the screen and the other in the scrollback only
   if the latter has been set there (and did not get there by scrolling); one
   "top" and the other on the screen only without scrollback; p "top" and q in
   the scrollback only if q has been set there. *)
Definition safe_ends (s : screen) (p q : selpos) : Prop :=
  match p_line p, p_line q with
  | Some _, Some _ => True
  | Some _, None => on_top q \/ p_y p = 0
  | None, Some _ => p_y q = 0
  | None, None => on_top p \/ on_top q -> s_sb s = [] \/ on_top p /\ on_top q
  end.
(* The end points for which the text is right: in addition, p is not on the
   youngest line of the scrollback and q on an older one, p is not in the
   scrollback and q further left in the first row of the screen, p is not "top"
   while q is in the scrollback, and not both are "top". *)
Definition text_ends (s : screen) (p q : selpos) : Prop :=
  match p_line p, p_line q with
  | Some a, Some b => a = s_sbid s -> a <= b
  | Some _, None => on_top q \/ p_y p = 0 /\ (p_y q = 0 -> p_x p <= p_x q)
  | None, Some _ => ~ on_top p /\ p_y q = 0
  | None, None => on_top p \/ on_top q -> s_sb s = [] /\ ~ (on_top p /\ on_top q)
  end.

(* p and p' are the same end of the selection before and after some call. *)
Definition same_end (s s' : screen) (p p' : selpos) : Prop :=
  p = s_sel1 s /\ p' = s_sel1 s' \/ p = s_sel2 s /\ p' = s_sel2 s'.
(* The end at row r stays attached to its line: d lines have been evicted, all
   others are still there, moved by k. *)
Definition stays (s s' : screen) (p' : selpos) (r d k : Z) : Prop :=
  if r <? d then on_top p' else end_row s' p' (r - d + k) /\ row s' (r - d + k) = row s r.
(* It is now at the same text or lost. *)
Definition attached (s s' : screen) (p' : selpos) (r : Z) : Prop :=
  on_top p' \/ exists r', end_row s' p' r' /\ row s' r' = row s r.
(* Calls that scroll the text, drop old lines or move the view. *)
Definition scrolls (o : op) : Prop :=
  match o with OScrollUp _ | ONewline | OSetMaxSb _ | OClearSb | OSbUp _ | OSbDown _ | OSbReset => True | _ => False end.
