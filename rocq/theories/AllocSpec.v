(* Specification: calls whose allocations may fail. *)
From Verif Require Import Base Screen ScreenSpec ScreenResize ScreenSafe TwinSpec Alloc.

(* a is b with elements left out. *)
Inductive subseq {A} : list A -> list A -> Prop :=
| sub_nil : subseq [] []
| sub_keep x a b : subseq a b -> subseq (x :: a) (x :: b)
| sub_drop x a b : subseq a b -> subseq a (x :: b).

(* The return value of a call that ran out of memory: -ENOMEM. *)
Definition ENOMEM_RET : Z := -12.
(* The return value of a call that had the memory it needs: -EINVAL for an empty
   size, 0 otherwise. *)
Definition ok_ret (o : op) : Z :=
  match o with OResize x y => if (x =? 0) || (y =? 0) then -22 else 0 | _ => 0 end.
(* The calls of a sequence that did not run out of memory, by the values that
   were returned. *)
Fixpoint granted (ops : list op) (cs : list Z) : list op :=
  match ops, cs with
  | o :: r, c :: cr => if c =? ENOMEM_RET then granted r cr else o :: granted r cr
  | _, _ => []
  end.

(* Screens that can come about when allocations may fail at any time: every call
   meets verdicts of its own. *)
Inductive faulty_reachable : screen -> Prop :=
| fr_init : faulty_reachable scr_init
| fr_call s o al s1 c al1 : faulty_reachable s -> op_args o -> fstep s o al = Ok (s1, c, al1) -> faulty_reachable s1.

(* The calls that take rows into the scrollback. *)
Definition scrolling (o : op) : bool :=
  match o with OResize _ _ | OWrite _ _ | ONewline | OScrollUp _ | OMoveDown _ _ => true | _ => false end.

(* Nothing a user of the screen can see has changed: the page, every cell of
   both buffers with its age, the scrollback, the view into it, the selection
   and the age counters. *)
Definition cell_at (ls : list line) (y x : Z) : option cell :=
  match znth ls y with Some l => znth (l_cells l) x | None => None end.
Definition age_at (ls : list line) (y : Z) : option Z := option_map l_age (znth ls y).
Record unchanged (s t : screen) : Prop := mkUnchanged {
  un_page : same_page s t;
  un_main : forall y x, on_screen s y x -> cell_at (s_main t) y x = cell_at (s_main s) y x /\ age_at (s_main t) y = age_at (s_main s) y;
  un_alt : forall y x, on_screen s y x -> cell_at (s_alt t) y x = cell_at (s_alt s) y x /\ age_at (s_alt t) y = age_at (s_alt s) y;
  un_sb : s_sb t = s_sb s; un_sbmax : s_sbmax t = s_sbmax s; un_sbn : s_sbn t = s_sbn s;
  un_pos : s_sbpos t = s_sbpos s; un_posn : s_sbposn t = s_sbposn s;
  un_sela : s_sela t = s_sela s; un_sel1 : s_sel1 t = s_sel1 s; un_sel2 : s_sel2 t = s_sel2 s;
  un_age : s_age t = s_age s; un_cnt : s_cnt t = s_cnt s; un_rst : s_rst t = s_rst s
}.
