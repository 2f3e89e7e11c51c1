(* Specification: two terminals that a program and a user cannot tell apart by
   anything but the scrollback, the view and the selection. *)
From Verif Require Import Base Screen ScreenSpec Vte VteKeys TwinSpec.

(* Everything the terminal holds besides its screen is equal, among it the parser
   and every event given to the client so far; the screens hold the same page. *)
Definition same_term (v u : vte) : Prop :=
  u = w_con v (v_con u) /\ same_page (v_con v) (v_con u).

(* Sessions without the calls by which the client looks around. *)
Definition vwatching (o : vop) : bool := match o with VScreen o => watching o | _ => false end.
Definition vkeeping (o : vop) : bool := match o with VScreen o => keeping o | _ => false end.
Definition vunwatched (ops : list vop) : list vop := filter (fun o => negb (vwatching o)) ops.
Definition vunkept (ops : list vop) : list vop := filter (fun o => negb (vkeeping o)) ops.

(* The width never falls below w in the course of the session. *)
Fixpoint wide_session (sg : bool) (w : Z) (v : vte) (ops : list vop) : Prop :=
  w <= s_sx (v_con v) /\
  match ops with
  | [] => True
  | o :: r => match vstep sg v o with Ok v1 => wide_session sg w v1 r | Ub => True end
  end.
