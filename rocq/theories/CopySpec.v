(* What a user gets who copies all the text there is. *)
From Verif Require Import Base Utf8Spec Screen ScreenSpec SelectionSpec VteData Vte VteSpec VteView Paper Document.

(* Scroll to the top, press at the first cell, scroll to the bottom, drag to the
   last cell. *)
Definition select_all (s : screen) (n : Z) : list op :=
  [OSbUp n; OSelStart 0 0; OSbReset; OSelTarget (s_sx s - 1) (s_sy s - 1)].

(* Lines of text, with renditions in between, as a program sends them. *)
Definition line_token (t : token) : Prop :=
  match t with
  | TChar cp => graphic cp /\ scr_width cp = Ok 1 /\ cp < 65536 /\ encodable cp = true
  | TStyle P => token_ok (TStyle P)
  end.
Fixpoint sent (ls : list (list token)) : list token :=
  match ls with
  | [] => []
  | [l] => l
  | l :: r => l ++ [TChar 13; TChar 10] ++ sent r
  end.
Definition line_text (l : list token) : list Z := flat_map (fun t => match t with TChar c => [c] | TStyle _ => [] end) l.
(* The rows of width w that a text takes after what is already in the row. *)
Fixpoint folded (w : Z) (cur l : list Z) : list (list Z) :=
  match l with
  | [] => [cur]
  | ch :: r => if zlen cur <? w then folded w (cur ++ [ch]) r else cur :: folded w [ch] r
  end.
Definition rows_of (w : Z) (ls : list (list token)) : list (list Z) := flat_map (fun l => folded w [] (line_text l)) ls.

(* Nothing has been written, or all has been erased. *)
Definition clear_page (s : screen) : Prop :=
  s_sb s = [] /\ Forall (fun l => Forall (fun c => c_ch c = 0) (l_cells l)) (s_main s) /\ s_cx s = 0 /\ s_cy s = 0.

(* The bytes of the rows, and of the empty rows below if they do not fill the h
   rows of the screen. *)
Definition copy_of (h : Z) (rows : list (list Z)) : list Z := join (map (flat_map utf8) (rows ++ repeat [] (Z.to_nat (h - zlen rows)))).
