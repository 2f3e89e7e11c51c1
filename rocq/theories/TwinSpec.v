(* Specification: two screens that hold the same page, and the calls that only
   look at a screen. *)
From Verif Require Import Base Screen ScreenSpec.

(* Same settings, same cursor, same picture in both buffers. Nothing is said
   about the scrollback, the view into it, the selection or ages. The tab ruler
   may be longer than the screen is wide; its entry s_sx is the last one a call
   can get at, when the cursor is behind a wide symbol in the last column. *)
Record same_page (s t : screen) : Prop := mkPage {
  pg_sx : s_sx t = s_sx s; pg_sy : s_sy t = s_sy s;
  pg_flags : s_flags t = s_flags s;
  pg_mt : s_mt t = s_mt s; pg_mb : s_mb t = s_mb s;
  pg_def : s_def t = s_def s; pg_defm : s_defm t = s_defm s;
  pg_tabs : forall k, k <= s_sx s -> znth (s_tabs t) k = znth (s_tabs s) k;
  pg_cx : s_cx t = s_cx s; pg_cy : s_cy t = s_cy s;
  pg_main : forall y x, on_screen s y x -> main_at t y x = main_at s y x;
  pg_alt : forall y x, on_screen s y x -> alt_at t y x = alt_at s y x
}.
(* Scrollbacks with the same limit and equally many lines, which agree in the
   first w columns. *)
Definition same_hist (w : Z) (s t : screen) : Prop :=
  s_sbmax t = s_sbmax s /\
  Forall2 (fun r r' => forall x, 0 <= x < w -> znth r' x = znth r x) (sb_text s) (sb_text t).

(* Calls that move the view into the scrollback or work on the selection. *)
Definition watching (o : op) : bool :=
  match o with
  | OSbUp _ | OSbDown _ | OSbPageUp _ | OSbPageDown _ | OSbReset | OSelReset | OSelStart _ _ | OSelTarget _ _ => true
  | _ => false
  end.
(* Calls that trim the scrollback besides. *)
Definition keeping (o : op) : bool :=
  match o with OSetMaxSb _ | OClearSb => true | _ => watching o end.
Definition unwatched (ops : list op) : list op := filter (fun o => negb (watching o)) ops.
Definition unkept (ops : list op) : list op := filter (fun o => negb (keeping o)) ops.

(* The width never falls below w in the course of the calls. *)
Fixpoint wide_run (w : Z) (s : screen) (ops : list op) : Prop :=
  w <= s_sx s /\
  match ops with
  | [] => True
  | o :: r => match step s o with Ok s1 => wide_run w s1 r | Ub => True end
  end.
