(* How the pointers of the view and of the selection correspond to a screen of
   Screen.v. *)
From Verif Require Import Base Screen Own.

(* p points to the line marked k in the scrollback of s, whose objects are sb;
   NULL for no line. *)
Definition is_line (s : screen) (sb : list Z) (k : option Z) (p : Z) : Prop :=
  match k with
  | None => p = 0
  | Some i => exists j l, znth (s_sb s) j = Some l /\ l_sbid l = Some i /\ znth sb j = Some p
  end.
Definition is_end (s : screen) (sb : list Z) (a : selpos) (e : Z * Z) : Prop := is_line s sb (p_line a) (fst e) /\ snd e = p_y a.
(* The view and an active selection are where those of s are. *)
Definition looks (s : screen) (w : own) (sb : list Z) : Prop :=
  is_line s sb (s_sbpos s) (w_pos w) /\ w_sela w = s_sela s /\
  (s_sela s = true -> is_end s sb (s_sel1 s) (w_sel1 w) /\ is_end s sb (s_sel2 s) (w_sel2 w)).
