(* Specification vocabulary for the terminal, independent of the model's parser
   and dispatch functions: graphic rendition, parameter strings, decimal
   numbers. Uses only data types of the model. *)
From Verif Require Import Base Screen VteData.

(* -- select graphic rendition --------------------------------------------- *)
(* xterm's 256 colour palette, entries 16..255: a 6x6x6 cube, then greys. *)
Definition cube_level (k : Z) : Z := if k =? 0 then 0 else 55 + 40 * k.
Definition xterm_rgb (n : Z) : Z * Z * Z :=
  if n <? 232 then (cube_level ((n - 16) / 36), cube_level ((n - 16) / 6 mod 6), cube_level ((n - 16) mod 6))
  else let g := (8 + 10 * (n - 232)) mod 256 in (g, g, g).

(* The effect of one simple parameter, attribute by attribute. *)
Definition on_off (on off p : Z) (x : bool) : bool :=
  if p =? on then true else if (p =? off) || (p =? 0) then false else x.
Definition sgr_simple (def : attr) (p : Z) (a : attr) : attr :=
  let dflt n := (p =? n) || (p =? 0) in
  mkA (if (30 <=? p) && (p <=? 37) then p - 30 else if (90 <=? p) && (p <=? 97) then p - 82
       else if dflt 39 then a_fc def else a_fc a)
      (if (40 <=? p) && (p <=? 47) then p - 40 else if (100 <=? p) && (p <=? 107) then p - 92
       else if dflt 49 then a_bc def else a_bc a)
      (if dflt 39 then a_fr def else a_fr a)
      (if dflt 39 then a_fg def else a_fg a)
      (if dflt 39 then a_fb def else a_fb a)
      (if dflt 49 then a_br def else a_br a)
      (if dflt 49 then a_bg def else a_bg a)
      (if dflt 49 then a_bb def else a_bb a)
      (on_off 1 22 p (a_bold a)) (on_off 3 23 p (a_italic a)) (on_off 4 24 p (a_underline a))
      (on_off 7 27 p (a_inverse a)) (a_protect a) (on_off 5 25 p (a_blink a)).

(* An explicit colour: a code 0..15, or -1 with red, green, blue. *)
Definition indexed (n : Z) : Z * (Z * Z * Z) := if n <? 16 then (n, (0, 0, 0)) else (-1, xterm_rgb n).
Definition put_colour (fg : bool) (c : Z * (Z * Z * Z)) (a : attr) : attr :=
  let '(code, (r, g, b)) := c in
  if fg then mkA code (a_bc a) r g b (a_br a) (a_bg a) (a_bb a) (a_bold a) (a_italic a) (a_underline a) (a_inverse a) (a_protect a) (a_blink a)
  else mkA (a_fc a) code (a_fr a) (a_fg a) (a_fb a) r g b (a_bold a) (a_italic a) (a_underline a) (a_inverse a) (a_protect a) (a_blink a).

(* 38;5;n 48;5;n 38;2;r;g;b 48;2;r;g;b; an incomplete one is skipped and what
   follows it counts by itself. A missing parameter is -1. *)
Fixpoint sgr_list (def : attr) (l : list Z) (a : attr) : attr :=
  match l with
  | [] => a
  | p :: r =>
    if (p =? 38) || (p =? 48) then
      match r with
      | 5 :: n :: r' => if 0 <=? n then sgr_list def r' (put_colour (p =? 38) (indexed n) a) else sgr_list def r a
      | 2 :: cr :: cg :: cb :: r' =>
        if (0 <=? cr) && (0 <=? cg) && (0 <=? cb)
        then sgr_list def r' (put_colour (p =? 38) (-1, (cr mod 256, cg mod 256, cb mod 256)) a)
        else sgr_list def r a
      | _ => sgr_list def r a
      end
    else sgr_list def r (sgr_simple def p a)
  end.
(* Does the list end with a lone colour introducer? *)
Fixpoint sgr_dangling (l : list Z) : bool :=
  match l with
  | [] => false
  | p :: r =>
    if (p =? 38) || (p =? 48) then
      match r with
      | [] => true
      | 5 :: n :: r' => if 0 <=? n then sgr_dangling r' else sgr_dangling r
      | 2 :: cr :: cg :: cb :: r' =>
        if (0 <=? cr) && (0 <=? cg) && (0 <=? cb) then sgr_dangling r' else sgr_dangling r
      | _ => sgr_dangling r
      end
    else sgr_dangling r
  end.

(* -- parameter strings ---------------------------------------------------- *)
(* The string cut at its semicolons. *)
Fixpoint split (l : list Z) : list (list Z) :=
  match l with
  | [] => [[]]
  | c :: r => if c =? 59 then [] :: split r
              else match split r with h :: t => (c :: h) :: t | [] => [[c]] end
  end.
(* Value of a string of decimal digits. *)
Definition dval (ds : list Z) : Z := fold_left (fun n d => 10 * n + (d - 48)) ds 0.
Definition digit (d : Z) : Prop := 48 <= d <= 57.
