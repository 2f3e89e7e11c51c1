(* Vocabulary for what the widget shows. *)
From Verif Require Import Base Screen ScreenSpec ScreenResize ScreenSafe Render RenderSpec Pixel PixelSpec.

(* As many cells as fit, at least one. *)
Definition fit (len size : Z) : Z := Z.max 1 (len / size).
(* What happens to the screen, with faces as big as f. *)
Definition acts_of (f : face) (ev : event) : list act :=
  match ev with
  | GCall o => [ACall o]
  | GConfigure width height _ => [AResize (fit width (f_w f)) (fit height (f_h f))]
  | GDraw => [ADraw]
  | GFont _ _ _ _ _ => []
  end.
(* Events of the widget with one font: arguments have the values their types
   allow, windows less than 2^29 pixels; wide: may characters be two cells wide? *)
Definition event_args (wide : bool) (ev : event) : Prop :=
  match ev with
  | GCall o =>
    op_args o /\
    match o with
    | OWrite ch a => u32_arg ch /\ (scr_width ch = Ok 0 \/ scr_width ch = Ok 1 \/ wide = true) /\ attr_bytes a
    | OSetDefAttr a => attr_bytes a
    | OResize _ _ => False
    | _ => True
    end
  | GDraw => True
  | GConfigure width height _ => 0 <= width /\ 0 <= height /\ Z.max 1 width * Z.max 1 height < 536870912
  | GFont _ _ _ _ _ => False
  end.
Definition event_ok : event -> Prop := event_args false.
(* The program goes on. *)
Definition goes_on (ev : event) : Prop :=
  match ev with GConfigure width height mem => width <= 32767 /\ height <= 32767 /\ mem = true | _ => True end.
(* The widget before anything was drawn. *)
Record new_widget (w : widget) : Prop := mkNew {
  nw_ready : ready (g_ctx w) (g_easel w); nw_scr : g_scr w = scr_init; nw_age : r_age (e_rend (g_easel w)) = 0;
  nw_empty : of_easel (fun f => f_glyphs f = []) (g_easel w) }.

(* After a frame of any session of such widgets and events, the cells of width 1
   are right. *)
Definition frames_right (new : widget -> Prop) (ok : event -> Prop) : Prop :=
  forall w evs k, new w -> Forall ok evs -> let acts := flat_map (acts_of (e_regular (g_easel w))) evs in
  play_aged (client0 scr_init) acts -> play (client0 scr_init) acts = Ok k ->
  exists o ds s age, on_events w (evs ++ [GDraw]) = Ok o /\ draw (k_scr k) = Ok (ds, s, age) /\
  forall w' d, o = Some w' -> In d ds -> d_width d = 1 -> right_cell (g_ctx w') (g_easel w') d.
(* A new widget whose bold and italic face may be of any size. *)
Record new_any (w : widget) : Prop := mkAny {
  ny_w : 1 <= x_w (g_ctx w) <= 32767; ny_h : 1 <= x_h (g_ctx w) <= 32767; ny_debug : x_debug (g_ctx w) = false;
  ny_reg : fits (g_ctx w) (e_regular (g_easel w)); ny_all : of_easel (fun f => exists a b c, measure_pango a b c = Some f) (g_easel w);
  ny_sound : sound (e_rend (g_easel w)); ny_scr : g_scr w = scr_init; ny_age : r_age (e_rend (g_easel w)) = 0;
  ny_ink : forall a ch g, glyph_for (g_ctx w) (fst (face_for (g_easel w) a)) (snd (face_for (g_easel w) a)) ch = Some g -> inked g }.
(* Events with a font of the same size now and then. *)
Definition event_font (w h : Z) (ev : event) : Prop :=
  match ev with
  | GFont fmt ink f None None => f_w f = w /\ f_h f = h /\ f_glyphs f = [] /\ (exists a b c, measure_pango a b c = Some f) /\
      forall ch g, glyph_for (mkX w h false fmt ink) 0 f ch = Some g -> inked g
  | _ => event_ok ev
  end.
(* The pixels of a cell two cells wide, in the regular face. *)
Definition right_wide (c : ctx) (e : easel) (d : dcall) : Prop :=
  forall buf u v p, x_ink c 0 (d_ch d) 2 = Some buf -> 0 <= u < 2 * x_w c -> 0 <= v < x_h c ->
  pixel (e_rend e) (d_x d * x_w c + u) (d_y d * x_h c + v) = Some p ->
  shows (fst (inks (d_attr d))) (snd (inks (d_attr d))) (cover (mkG (x_fmt c) (2 * x_w c) (stride_of (x_fmt c) (2 * x_w c)) (x_h c) buf) u v) p.
(* After a frame, characters two cells wide in the regular face, not underlined,
   are right. *)
Definition wides_right (new : widget -> Prop) (ok : event -> Prop) : Prop :=
  forall w evs k w' ds s age d, new w -> Forall ok evs -> let acts := flat_map (acts_of (e_regular (g_easel w))) evs in
  play_aged (client0 scr_init) acts -> play (client0 scr_init) acts = Ok k -> on_events w (evs ++ [GDraw]) = Ok (Some w') -> draw (k_scr k) = Ok (ds, s, age) ->
  In d ds -> d_width d = 2 -> a_bold (d_attr d) = false -> a_italic (d_attr d) = false -> a_underline (d_attr d) = false -> right_wide (g_ctx w') (g_easel w') d.
