(* Vocabulary for drawing with debug set. *)
From Verif Require Import Base Screen Render Pixel.

(* The cell has not changed since the last frame. *)
Definition seen (e : easel) (d : dcall) : Prop := d_age d <> 0 /\ r_age (e_rend e) <> 0 /\ d_age d <= r_age (e_rend e).
(* The same cell of unknown age. *)
Definition unseen (d : dcall) : dcall := mkD (d_id d) (d_ch d) (d_len d) (d_width d) (d_x d) (d_y d) (d_attr d) 0.
(* The same with debug not set. *)
Definition quiet (c : ctx) : ctx := mkX (x_w c) (x_h c) false (x_fmt c) (x_ink c).
