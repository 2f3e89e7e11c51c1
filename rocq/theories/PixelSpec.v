(* Vocabulary for what the cell renderer paints. *)
From Verif Require Import Base Screen Render Pixel.

(* A buffer as made for a width and height. *)
Record sound (r : rend) : Prop := mkSound {
  so_w : 1 <= r_w r <= 32767; so_h : 1 <= r_h r <= 32767; so_stride : r_stride r = 4 * r_w r;
  so_size : r_w r * r_h r < 536870912; so_data : zlen (r_data r) = r_w r * r_h r }.
(* The pixel in column X and row Y. *)
Definition pixel (r : rend) (X Y : Z) : option Z :=
  if (0 <=? X) && (X <? r_w r) && (0 <=? Y) && (Y <? r_h r) then znth (r_data r) (Y * r_w r + X) else None.
(* r' is r with the rectangle painted with what f says for its columns and rows,
   as far as it is inside, and nothing else. *)
Definition repainted (r r' : rend) (x y w h : Z) (f : Z -> Z -> Z) : Prop :=
  sound r' /\ r_w r' = r_w r /\ r_h r' = r_h r /\ r_age r' = r_age r /\
  forall X Y, 0 <= X < r_w r -> 0 <= Y < r_h r ->
    pixel r' X Y = if (x <=? X) && (X <? x + w) && (y <=? Y) && (Y <? y + h) then Some (f (X - x) (Y - y)) else pixel r X Y.

(* The rectangle has pixels as P says, the others are as they were. *)
Definition cellwise (r r' : rend) (x y w h : Z) (P : Z -> Z -> Z -> Prop) : Prop :=
  sound r' /\ r_w r' = r_w r /\ r_h r' = r_h r /\ r_age r' = r_age r /\
  forall X Y, 0 <= X < r_w r -> 0 <= Y < r_h r ->
    if (x <=? X) && (X <? x + w) && (y <=? Y) && (Y <? y + h) then exists p, pixel r' X Y = Some p /\ P (X - x) (Y - y) p else pixel r' X Y = pixel r X Y.

(* The nearest integer to the mean of b and f with weights 255 - m and m. *)
Definition nearest (f b m v : Z) : Prop := 2 * Z.abs (255 * v - (f * m + b * (255 - m))) < 255.
Definition byte (z : Z) : Prop := 0 <= z <= 255.
(* A colour, opaque. *)
Definition colour := (Z * Z * Z)%type.
Definition is_colour (c : colour) : Prop := let '(r, g, b) := c in byte r /\ byte g /\ byte b.
Definition word (c : colour) : Z := let '(r, g, b) := c in 255 * 2 ^ 24 + r * 2 ^ 16 + g * 2 ^ 8 + b.
(* A glyph's buffer has all its rows, of bytes. *)
Record inked (g : glyph) : Prop := mkInked {
  in_w : 1 <= g_w g; in_h : 1 <= g_h g; in_stride : g_stride g = stride_of (g_fmt g) (g_w g);
  in_size : zlen (g_buf g) = g_stride g * g_h g; in_bytes : Forall byte (g_buf g) }.
(* How much of each channel a glyph has in column i of a row, out of 255. *)
Definition cover (g : glyph) (i row : Z) : Z * Z * Z :=
  let at_ o := match znth (g_buf g) (row * g_stride g + o) with Some m => m | None => 0 end in
  match g_fmt g with
  | A1 => let m := if Z.testbit (at_ (i / 8)) (i mod 8) then 255 else 0 in (m, m, m)
  | A8 => let m := at_ i in (m, m, m)
  | XRGB32 => (at_ (4 * i + 2), at_ (4 * i + 1), at_ (4 * i))
  end.
(* The word v shows f on b, as far as m covers. *)
Definition shows (f b : colour) (m : Z * Z * Z) (v : Z) : Prop :=
  exists c, is_colour c /\ v = word c /\
    let '(fr, fg, fb) := f in let '(br, bg, bb) := b in let '(mr, mg, mb) := m in let '(r, g, b) := c in
    nearest fr br mr r /\ nearest fg bg mg g /\ nearest fb bb mb b.

(* -- cells --------------------------------------------------------------------------- *)
(* The colours of foreground and background, exchanged in inverse video. *)
Definition inks (a : attr) : colour * colour :=
  let f := (a_fr a, a_fg a, a_fb a) in let b := (a_br a, a_bg a, a_bb a) in if a_inverse a then (b, f) else (f, b).
Definition attr_bytes (a : attr) : Prop := is_colour (a_fr a, a_fg a, a_fb a) /\ is_colour (a_br a, a_bg a, a_bb a).
(* The face for an attribute: the bold one, the italic one, the regular one. *)
Definition face_for (e : easel) (a : attr) : Z * face :=
  match a_bold a, e_bold e, a_italic a, e_italic e with
  | true, Some f, _, _ => (1, f)
  | _, _, true, Some f => (2, f)
  | _, _, _, _ => (0, e_regular e)
  end.
(* The glyph of characters in a face, filling one cell. *)
Definition glyph_for (c : ctx) (k : Z) (f : face) (ch : list Z) : option glyph :=
  option_map (mkG (x_fmt c) (f_w f) (stride_of (x_fmt c) (f_w f)) (f_h f)) (x_ink c k ch 1).
(* p is right for the pixel in column u and row v of a cell drawn as told. *)
Definition right_pixel (c : ctx) (e : easel) (d : dcall) (u v p : Z) : Prop :=
  let '(fore, back) := inks (d_attr d) in
  let '(k, f) := face_for e (d_attr d) in
  if a_underline (d_attr d) && (f_upos f <=? v) && (v <? f_upos f + f_thick f) then p = word fore
  else
    match (if d_len d =? 0 then None else glyph_for c k f (d_ch d)) with
    | None => p = word back
    | Some g => shows fore back (cover g u v) p
    end.
(* The pixels of the cell, as far as it is inside, are right. *)
Definition right_cell (c : ctx) (e : easel) (d : dcall) : Prop :=
  forall u v p, 0 <= u < x_w c -> 0 <= v < x_h c -> pixel (e_rend e) (d_x d * x_w c + u) (d_y d * x_h c + v) = Some p -> right_pixel c e d u v p.
(* The faces have the size of the cells, and lines drawn inside. *)
Record fits (c : ctx) (f : face) : Prop := mkFits {
  ft_w : f_w f = x_w c; ft_h : f_h f = x_h c; ft_u : 0 <= f_upos f; ft_t : 0 <= f_thick f; ft_in : f_upos f + f_thick f <= x_h c }.
Definition of_easel (P : face -> Prop) (e : easel) : Prop :=
  P (e_regular e) /\ (forall f, e_bold e = Some f -> P f) /\ (forall f, e_italic e = Some f -> P f).
(* A canvas to draw on: the cells have a size, glyphs come with all their rows. *)
Record ready (c : ctx) (e : easel) : Prop := mkReady {
  rd_w : 1 <= x_w c <= 32767; rd_h : 1 <= x_h c <= 32767; rd_debug : x_debug c = false;
  rd_faces : of_easel (fits c) e; rd_sound : sound (e_rend e);
  rd_ink : forall a ch g, glyph_for c (fst (face_for e a)) (snd (face_for e a)) ch = Some g -> inked g }.
