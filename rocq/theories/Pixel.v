(* Model of the cell renderer of /repo/src/gtktsm/gtktsm-terminal.c:510-1083: the
   shadow buffer the cells of the screen are painted into. pango and cairo are
   not modelled: what they paint into a glyph's buffer is a parameter, and of
   cairo's surfaces only the strides and the largest size are used. 0xff << 24
   is taken to be 0xff000000 (lines 662, 701, 742). *)
From Verif Require Import Base Screen Render.

(* gtktsm-terminal.c:519-526 struct gtktsm_renderer; r_data is the block as 32-bit
   words, which is how it is written. *)
Record rend := mkRend { r_w : Z; r_h : Z; r_stride : Z; r_data : list Z; r_age : Z }.
(* The buffer with other contents (gtktsm-terminal.c:667, 705, 743). *)
Definition set_data (r : rend) (d : list Z) : rend := mkRend (r_w r) (r_h r) (r_stride r) d (r_age r).

(* cairo_image_surface_create_for_data refuses other sizes (gtktsm-terminal.c:562). *)
Definition CAIRO_MAX : Z := 32767.
(* gtktsm-terminal.c:544-586 renderer_realloc; mem is whether malloc works, the
   contents of a new block are not specified (here 0). None is -ENOMEM. *)
Definition renderer_realloc (width height : Z) (mem : bool) : option rend :=
  let width := if width =? 0 then 1 else width in
  let height := if height =? 0 then 1 else height in
  if (CAIRO_MAX <? width) || (CAIRO_MAX <? height) || negb mem then None
  else
    let stride := 4 * width in
    let bytes := Z.abs (i32 (u32 (stride * height))) in
    Some (mkRend width height stride (repeat 0 (Z.to_nat (bytes / 4))) 0).

(* A word written at a byte offset of the block (gtktsm-terminal.c:667, 705, 743). *)
Definition store (d : list Z) (off v : Z) : res (list Z) :=
  if off mod 4 =? 0 then zcopy d (off / 4) [v] else Ub.
(* The loops of gtktsm-terminal.c:665-670, 704-714, 730-748, 764-799, 816-865: n
   words from offset o on; f tells what is written for each column, if anything. *)
Fixpoint px_row (d : list Z) (o : Z) (n : nat) (i : Z) (f : Z -> res (option Z)) : res (list Z) :=
  match n with
  | O => Ok d
  | S m =>
    do c <- f i;
    do d' <- match c with Some v => store d (o + 4 * i) v | None => Ok d end;
    px_row d' o m (i + 1) f
  end.
(* As above, over n rows. *)
Fixpoint px_rect (d : list Z) (o stride : Z) (n : nat) (row width : Z) (f : Z -> Z -> res (option Z)) : res (list Z) :=
  match n with
  | O => Ok d
  | S m => do d' <- px_row d o (Z.to_nat width) 0 (f row); px_rect d' (o + stride) stride m (row + 1) width f
  end.
(* The clipping of gtktsm-terminal.c:645-657, 684-696, 879-896, the same three
   times: None to return, or the size left. *)
Definition clip (p len size : Z) : option Z :=
  let tmp := u32 (p + len) in
  if (tmp <=? p) || (size <=? p) then None else Some (if size <? tmp then size - p else len).
(* A clipped rectangle painted (gtktsm-terminal.c:645-670, 684-714, 879-936); f is
   given the size left. *)
Definition painted (r : rend) (x y width height : Z) (f : Z -> Z -> Z -> Z -> res (option Z)) : res rend :=
  match clip x width (r_w r) with
  | None => Ok r
  | Some w =>
    match clip y height (r_h r) with
    | None => Ok r
    | Some h =>
      let o := u32 (u32 (y * r_stride r) + u32 (x * 4)) in
      do d <- px_rect (r_data r) o (r_stride r) (Z.to_nat h) 0 w (f w h);
      Ok (set_data r d)
    end
  end.
(* gtktsm-terminal.c:662, 701, 742. *)
Definition argb (r g b : Z) : Z := 4278190080 + r * 65536 + g * 256 + b.
(* gtktsm-terminal.c:634-671 renderer_fill. *)
Definition renderer_fill (r : rend) (x y width height br bg bb : Z) : res rend :=
  painted r x y width height (fun _ _ _ _ => Ok (Some (argb br bg bb))).
(* gtktsm-terminal.c:674-715 renderer_highlight. *)
Definition renderer_highlight (r : rend) (x y width height : Z) : res rend :=
  painted r x y width height (fun w h row i =>
    Ok (if (i =? 0) || (i =? w - 1) || (row =? 0) || (row + 1 =? h) then Some (argb 208 16 16) else None)).

(* gtktsm-terminal.c:81-86 enum gtktsm_glyph_format. *)
Inductive gformat := A1 | A8 | XRGB32.
(* gtktsm-terminal.c:88-98 struct gtktsm_glyph. *)
Record glyph := mkG { g_fmt : gformat; g_w : Z; g_stride : Z; g_h : Z; g_buf : list Z }.
(* The division by 255 of gtktsm-terminal.c:774-790 and 822-857. *)
Definition div255 (t : Z) : Z := let t := t + 128 in Z.shiftr (t + Z.shiftr t 8) 8.
(* gtktsm-terminal.c:766-791 and 829-857, one channel. *)
Definition mixed (f b m : Z) : Z :=
  if m =? 0 then b else if m =? 255 then f else div255 (f * m + b * (255 - m)).
(* gtktsm-terminal.c:717-749 renderer_blend_a1, one pixel. *)
Definition blend_a1 (g : glyph) (fr fg fb br bg bb row i : Z) : res (option Z) :=
  do m <- zget (g_buf g) (row * g_stride g + i / 8);
  Ok (Some (if negb (Z.land m (Z.shiftl 1 (i mod 8)) =? 0) then argb fr fg fb else argb br bg bb)).
(* gtktsm-terminal.c:751-800 renderer_blend_a8, one pixel. *)
Definition blend_a8 (g : glyph) (fr fg fb br bg bb row i : Z) : res (option Z) :=
  do m <- zget (g_buf g) (row * g_stride g + i);
  Ok (Some (argb (mixed fr br m) (mixed fg bg m) (mixed fb bb m))).
(* gtktsm-terminal.c:802-866 renderer_blend_xrgb32, one pixel; the mask is read as
   a little-endian word. *)
Definition blend_xrgb32 (g : glyph) (fr fg fb br bg bb row i : Z) : res (option Z) :=
  let o := row * g_stride g + i * 4 in
  do m0 <- zget (g_buf g) o; do m1 <- zget (g_buf g) (o + 1); do m2 <- zget (g_buf g) (o + 2); do _ <- zget (g_buf g) (o + 3);
  Ok (Some (argb (mixed fr br m2) (mixed fg bg m1) (mixed fb bb m0))).
(* gtktsm-terminal.c:868-937 renderer_blend. *)
Definition renderer_blend (r : rend) (g : glyph) (x y fr fg fb br bg bb : Z) : res rend :=
  painted r x y (g_w g) (g_h g) (fun _ _ row i =>
    (match g_fmt g with A1 => blend_a1 | A8 => blend_a8 | XRGB32 => blend_xrgb32 end) g fr fg fb br bg bb row i).

(* -- faces ---------------------------------------------------------------------- *)
(* gtktsm-terminal.c:65-79 struct gtktsm_face: cell size, line thickness, underline
   position; the table of glyphs by id. *)
Record face := mkFace { f_w : Z; f_h : Z; f_thick : Z; f_upos : Z; f_glyphs : list (Z * glyph) }.
(* cairo_format_stride_for_width (gtktsm-terminal.c:386): whole words. *)
Definition stride_of (f : gformat) (w : Z) : Z :=
  match f with A1 => (w + 31) / 32 * 4 | A8 => (w + 3) / 4 * 4 | XRGB32 => 4 * w end.
(* gtktsm-terminal.c:354-454 create_glyph once the buffer is painted. *)
Definition create_glyph (fc : face) (fmt : gformat) (cwidth : Z) (buf : list Z) : glyph :=
  let w := u32 (f_w fc * cwidth) in mkG fmt w (stride_of fmt w) (f_h fc) buf.
(* Looking up in the table (gtktsm-terminal.c:471; C48 is about the table itself). *)
Fixpoint glyph_of (id : Z) (l : list (Z * glyph)) : option glyph :=
  match l with [] => None | (k, g) :: r => if k =? id then Some g else glyph_of id r end.
(* gtktsm-terminal.c:456-502 gtktsm_face_render; ink is the buffer pango and cairo
   paint for these characters, None if this or an allocation fails. *)
Definition face_render (fc : face) (fmt : gformat) (id : Z) (ch : list Z) (len cwidth : Z) (ink : option (list Z)) : option glyph * face :=
  match glyph_of id (f_glyphs fc) with
  | Some g => (Some g, fc)
  | None =>
    if (len =? 0) || (cwidth =? 0) then (None, fc)
    else
      match ink with
      | None => (None, fc)
      | Some buf =>
        let g := create_glyph fc fmt cwidth buf in
        (Some g, mkFace (f_w fc) (f_h fc) (f_thick fc) (f_upos fc) ((id, g) :: f_glyphs fc))
      end
  end.

(* -- cells ------------------------------------------------------------------------ *)
(* gtktsm-terminal.c:528-542 struct gtktsm_renderer_ctx: cell size, debug; the
   format of new glyphs; what is painted for a face (0 regular, 1 bold, 2 italic),
   characters and width. *)
Record ctx := mkX { x_w : Z; x_h : Z; x_debug : bool; x_fmt : gformat; x_ink : Z -> list Z -> Z -> option (list Z) }.
(* The renderer and the faces (the bold and the italic one may be missing),
   gtktsm-terminal.c:528-542. *)
Record easel := mkEasel { e_rend : rend; e_regular : face; e_bold : option face; e_italic : option face }.
(* The face chosen (gtktsm-terminal.c:986-992), with its number. *)
Definition pick (e : easel) (bold italic : bool) : Z * face :=
  match (if bold then e_bold e else None) with
  | Some f => (1, f)
  | None => match (if italic then e_italic e else None) with Some f => (2, f) | None => (0, e_regular e) end
  end.
(* The face with this number replaced, as its table is by gtktsm-terminal.c:491. *)
Definition put_face (e : easel) (k : Z) (f : face) : easel :=
  if k =? 1 then mkEasel (e_rend e) (e_regular e) (Some f) (e_italic e)
  else if k =? 2 then mkEasel (e_rend e) (e_regular e) (e_bold e) (Some f)
  else mkEasel (e_rend e) f (e_bold e) (e_italic e).
(* The easel with another buffer (gtktsm-terminal.c:994-1038). *)
Definition set_rend (e : easel) (r : rend) : easel := mkEasel r (e_regular e) (e_bold e) (e_italic e).
(* gtktsm-terminal.c:939-1041 renderer_draw_cell. *)
Definition draw_cell (c : ctx) (e : easel) (d : dcall) : res easel :=
  let skip := negb (d_age d =? 0) && negb (r_age (e_rend e) =? 0) && (d_age d <=? r_age (e_rend e)) in
  if skip && negb (x_debug c) then Ok e
  else
    let a := d_attr d in
    let x := u32 (d_x d * x_w c) in
    let y := u32 (d_y d * x_h c) in
    let '(fr, fg, fb, br, bg, bb) :=
      if a_inverse a then (a_br a, a_bg a, a_bb a, a_fr a, a_fg a, a_fb a) else (a_fr a, a_fg a, a_fb a, a_br a, a_bg a, a_bb a) in
    let '(k, fc) := pick e (a_bold a) (a_italic a) in
    let w := u32 (x_w c * d_width d) in
    do t <-
      (if d_len d =? 0 then do r <- renderer_fill (e_rend e) x y w (x_h c) br bg bb; Ok (r, fc)
       else
         match face_render fc (x_fmt c) (d_id d) (d_ch d) (d_len d) (d_width d) (x_ink c k (d_ch d) (d_width d)) with
         | (None, fc') => do r <- renderer_fill (e_rend e) x y w (x_h c) br bg bb; Ok (r, fc')
         | (Some g, fc') => do r <- renderer_blend (e_rend e) g x y fr fg fb br bg bb; Ok (r, fc')
         end);
    let '(r, fc') := t in
    do r <- (if a_underline a then renderer_fill r x (u32 (y + f_upos fc')) w (f_thick fc') fr fg fb else Ok r);
    do r <- (if negb skip && x_debug c then renderer_highlight r x y w (x_h c) else Ok r);
    Ok (set_rend (put_face e k fc') r).
(* The cells of one frame in order (gtktsm-terminal.c:1055-1057). *)
Fixpoint draw_cells (c : ctx) (e : easel) (ds : list dcall) : res easel :=
  match ds with [] => Ok e | d :: r => do e <- draw_cell c e d; draw_cells c e r end.
(* gtktsm-terminal.c:1043-1083 gtktsm_renderer_draw, without what is painted by
   cairo afterwards. *)
Definition renderer_draw (c : ctx) (e : easel) (s : screen) : res (easel * screen) :=
  do t <- draw s;
  let '(ds, s', age) := t in
  do e <- draw_cells c e ds;
  let r := e_rend e in
  Ok (set_rend e (mkRend (r_w r) (r_h r) (r_stride r) (r_data r) age), s').

(* -- the widget -------------------------------------------------------------------- *)
(* The bytes of the string measured, sizeof(str) - 1 (gtktsm-terminal.c:191-194): 86
   characters, two of them of two bytes. *)
Definition STR_LEN : Z := 88.
(* gtktsm-terminal.c:189-237 measure_pango and 265-266; width, height and
   baseline are what pango says of the string. Unsigned arithmetic. None is
   -EINVAL. *)
Definition measure_pango (width height baseline : Z) : option face :=
  let w := u32 ((width + (STR_LEN - 1)) / STR_LEN) in
  let thick := Z.max (Z.min (u32 (height - baseline) / 2) (height / 14)) 1 in
  let upos := Z.min (u32 (baseline + thick)) (u32 (height - thick)) in
  if (w =? 0) || (height =? 0) then None else Some (mkFace w height thick upos []).
(* gtktsm-terminal.c:1163-1181 terminal_recalculate_cells, one direction. *)
Definition cells_of (len size : Z) : Z := if size =? 0 then 1 else if len / size =? 0 then 1 else len / size.
(* The parts of the widget concerned (gtktsm-terminal.c:1101-1134). *)
Record widget := mkWg { g_ctx : ctx; g_easel : easel; g_scr : screen }.
(* What happens to it: a call of the screen, a frame, a new size, a new font (the
   faces, the format of glyphs and what is painted for them). *)
Inductive event := GCall (o : op) | GDraw | GConfigure (width height : Z) (mem : bool)
  | GFont (fmt : gformat) (ink : Z -> list Z -> Z -> option (list Z)) (regular : face) (bold italic : option face).
(* gtktsm-terminal.c:1183-1245 terminal_set_font, 1247-1294 terminal_configure_fn,
   1296-1338 terminal_draw_fn. None: g_error, which ends the program. *)
Definition on_event (w : widget) (ev : event) : res (option widget) :=
  let e := g_easel w in
  match ev with
  | GCall o => do s <- step (g_scr w) o; Ok (Some (mkWg (g_ctx w) e s))
  | GDraw => do t <- renderer_draw (g_ctx w) e (g_scr w); Ok (Some (mkWg (g_ctx w) (fst t) (snd t)))
  | GConfigure width height mem =>
    match renderer_realloc width height mem with
    | None => Ok None
    | Some r =>
      do s <- step (g_scr w) (OResize (cells_of width (f_w (e_regular e))) (cells_of height (f_h (e_regular e))));
      Ok (Some (mkWg (g_ctx w) (set_rend e r) s))
    end
  | GFont fmt ink regular bold italic =>
    Ok (Some (mkWg (mkX (f_w regular) (f_h regular) (x_debug (g_ctx w)) fmt ink) (mkEasel (e_rend e) regular bold italic) (g_scr w)))
  end.
(* Events one after the other (gtktsm-terminal.c:1247-1338). *)
Fixpoint on_events (w : widget) (evs : list event) : res (option widget) :=
  match evs with
  | [] => Ok (Some w)
  | ev :: r => do o <- on_event w ev; match o with None => Ok None | Some w' => on_events w' r end
  end.
