(* C67: what the cell renderer of gtktsm paints. Vocabulary in PixelSpec.v and
   PixelFrameSpec.v; proofs in PixelProofs.v, PixelCell.v and PixelFrame.v. *)
From Verif Require Import Base BaseProofs Screen ScreenSpec ScreenResize ScreenSafe Render RenderSpec Pixel PixelSpec PixelProofs PixelCell PixelFrameSpec PixelFrame PixelDemo PixelDebugSpec PixelDebug.

(* A window of less than 2^29 pixels gets a buffer of its size or none. *)
Theorem C67_buffer : forall width height mem, 0 <= width -> 0 <= height -> Z.max 1 width * Z.max 1 height < 536870912 ->
  match renderer_realloc width height mem with
  | Some r => sound r /\ r_w r = Z.max 1 width /\ r_h r = Z.max 1 height /\ r_age r = 0
  | None => ~ (width <= 32767 /\ height <= 32767 /\ mem = true)
  end.
Proof. exact realloc_spec. Qed.
Print Assumptions C67_buffer.
Example C67_buffer_ex : exists r, renderer_realloc 640 0 true = Some r /\ sound r.
Proof.
  assert (K := C67_buffer 640 0 true ltac:(lia) ltac:(lia) ltac:(lia)). destruct (renderer_realloc 640 0 true) as [r|]; [exists r; split; [reflexivity|apply K]|exfalso; apply K; lia].
Qed.
(* A larger one gets a buffer that is too small. *)
Theorem C67_size_refuted : ~ (forall width height r x y, renderer_realloc width height true = Some r -> 0 <= x < width -> 0 <= y < height -> renderer_fill r x y 1 1 0 0 0 <> Ub).
Proof.
  intros H. assert (B : match renderer_realloc 32767 32767 true with Some r => match renderer_fill r 0 3 1 1 0 0 0 with Ub => true | Ok _ => false end | None => false end = true) by (vm_compute; reflexivity).
  specialize (H 32767 32767). destruct (renderer_realloc 32767 32767 true) as [r|]; [|discriminate B].
  specialize (H r 0 3 eq_refl ltac:(lia) ltac:(lia)). destruct (renderer_fill r 0 3 1 1 0 0 0); [discriminate B|now apply H].
Qed.
Print Assumptions C67_size_refuted.

(* Filling paints the rectangle as far as it is inside, and nothing else. *)
Theorem C67_fill : forall r x y w h c, sound r -> 0 <= x -> 0 <= y -> 0 <= w -> 0 <= h -> x + w < 4294967296 -> y + h < 4294967296 ->
  let '(br, bg, bb) := c in exists r', renderer_fill r x y w h br bg bb = Ok r' /\ cellwise r r' x y w h (fun _ _ p => p = word c).
Proof. exact fill_cellwise. Qed.
Print Assumptions C67_fill.
(* Blending shows the glyph in the foreground colour on the background, every
   channel rounded to the nearest. *)
Theorem C67_blend : forall r g x y f b, sound r -> inked g -> is_colour f -> is_colour b -> 0 <= x -> 0 <= y -> x + g_w g < 4294967296 -> y + g_h g < 4294967296 ->
  let '(fr, fg, fb) := f in let '(br, bg, bb) := b in
  exists r', renderer_blend r g x y fr fg fb br bg bb = Ok r' /\ cellwise r r' x y (g_w g) (g_h g) (fun u v p => shows f b (cover g u v) p).
Proof. exact blend_cellwise. Qed.
Print Assumptions C67_blend.
(* Highlighting paints the border of what is inside, and nothing else. *)
Theorem C67_highlight : forall r x y w h, sound r -> 0 <= x -> 0 <= y -> 0 <= w -> 0 <= h -> x + w < 4294967296 -> y + h < 4294967296 ->
  exists r', renderer_highlight r x y w h = Ok r' /\ forall X Y, 0 <= X < r_w r -> 0 <= Y < r_h r ->
  let x' := Z.min (x + w) (r_w r) in let y' := Z.min (y + h) (r_h r) in
  pixel r' X Y = if (x <=? X) && (X <? x') && (y <=? Y) && (Y <? y') && ((X =? x) || (X =? x' - 1) || (Y =? y) || (Y =? y' - 1)) then Some (word (208, 16, 16)) else pixel r X Y.
Proof. exact highlight_frame. Qed.
Print Assumptions C67_highlight.
Example C67_blend_ex : sound canvas /\ inked blob /\ exists r, renderer_blend canvas blob 6 1 255 0 0 0 0 255 = Ok r /\
  map (fun X => pixel r X 1) [5; 6; 7] = [Some 0; Some (word (255, 0, 0)); Some (word (0, 0, 255))] /\ pixel r 7 2 = Some (word (255, 0, 0)) /\
  exists r', renderer_highlight r 6 1 3 4 = Ok r' /\ map (fun X => pixel r' X 2) [5; 6; 7] = [Some 0; Some (word (208, 16, 16)); Some (word (208, 16, 16))].
Proof.
  split; [exact canvas_sound|]. split; [constructor; cbn; try lia; repeat constructor; unfold byte; lia|]. eexists. split; [vm_compute; reflexivity|]. split; [vm_compute; reflexivity|]. split; [vm_compute; reflexivity|].
  eexists. split; vm_compute; reflexivity.
Qed.

(* Underlines are inside the cells, whatever the font. *)
Theorem C67_line : forall width height baseline f, 0 <= height < 2147483648 -> 0 <= baseline < 4294967296 -> measure_pango width height baseline = Some f ->
  f_h f = height /\ 0 <= f_upos f /\ 1 <= f_thick f /\ f_upos f + f_thick f <= f_h f.
Proof. exact measured_line. Qed.
Print Assumptions C67_line.
(* They are as thick as half the descent and a fourteenth of the height allow, at
   least 1, and begin as far below the baseline if there is room. *)
Theorem C67_thick : forall width height baseline f, 0 <= baseline <= height -> height < 2147483648 -> measure_pango width height baseline = Some f ->
  (forall t, t <= f_thick f <-> t <= 1 \/ 2 * t <= height - baseline /\ 14 * t <= height) /\
  (baseline + 2 * f_thick f <= height -> f_upos f = baseline + f_thick f) /\ (height < baseline + 2 * f_thick f -> f_upos f + f_thick f = height).
Proof. exact measured_thick. Qed.
Print Assumptions C67_thick.
Example C67_thick_ex : measure_pango 860 60 48 = Some (mkFace 10 60 4 52 []) /\ measure_pango 860 60 58 = Some (mkFace 10 60 1 59 []).
Proof. split; vm_compute; reflexivity. Qed.
(* If all characters are n wide, so are the cells; up to 43 pixels, as the bytes
   are counted that were to be measured and not the characters. *)
Theorem C67_measure_partial : forall n height baseline f, 1 <= n <= 43 -> measure_pango (86 * n) height baseline = Some f -> f_w f = n.
Proof. exact measured_mono. Qed.
Print Assumptions C67_measure_partial.
Example C67_measure_ex : measure_pango (86 * 9) 18 14 = Some (mkFace 9 18 1 15 []).
Proof. vm_compute. reflexivity. Qed.
Theorem C67_measure_refuted : ~ (forall n height baseline f, 1 <= n -> measure_pango (86 * n) height baseline = Some f -> f_w f = n).
Proof. intros H. specialize (H 44 80 60 (mkFace 43 80 5 65 []) ltac:(lia) ltac:(vm_compute; reflexivity)). discriminate H. Qed.
Print Assumptions C67_measure_refuted.

(* A cell that has not changed since the last frame is left as it is; with debug
   set all cells are painted, and those that have changed get a border. *)
Theorem C67_skip : forall c e d, x_debug c = false -> seen e d -> draw_cell c e d = Ok e.
Proof. exact seen_skip. Qed.
Print Assumptions C67_skip.
Theorem C67_debug : forall c e d, x_debug c = true ->
  (seen e d -> draw_cell c e d = draw_cell (quiet c) e (unseen d)) /\
  (~ seen e d -> draw_cell c e d = (do e1 <- draw_cell (quiet c) e (unseen d); do r <- renderer_highlight (e_rend e1) (u32 (d_x d * x_w c)) (u32 (d_y d * x_h c)) (u32 (x_w c * d_width d)) (x_h c); Ok (set_rend e1 r))).
Proof. exact debug_cell. Qed.
Print Assumptions C67_debug.
Example C67_debug_ex : let c := mkX 4 3 true A8 (fun _ _ _ => None) in
  let d age := mkD 65 [65] 1 1 1 0 (mkA 0 0 1 2 3 4 5 6 false false false false false false) age in
  let show e := match e with Ok e => map (fun X => pixel (e_rend e) X 1) [3; 4; 5; 7] | Ub => [] end in
  let e := mkEasel (mkRend 8 3 32 (repeat 0 24) 5) (mkFace 4 3 1 2 []) None None in
  seen e (d 4) /\ ~ seen e (d 6) /\ show (draw_cell (quiet c) e (d 4)) = map Some [0; 0; 0; 0] /\ show (draw_cell c e (d 4)) = map Some [0; word (4, 5, 6); word (4, 5, 6); word (4, 5, 6)] /\
  show (draw_cell c e (d 6)) = map Some [0; word (208, 16, 16); word (4, 5, 6); word (208, 16, 16)].
Proof. cbv zeta. unfold seen. cbn [d_age r_age e_rend]. do 2 (split; [lia|]). do 2 (split; [vm_compute; reflexivity|]). vm_compute. reflexivity. Qed.

(* Frames: after any calls, frames and changes of size, with characters of width
   1 and one font whose faces have the same size, a further frame leaves all cells
   in the buffer as the screen is drawn, though most are skipped. *)
Theorem C67_frame_partial : forall w evs k, new_widget w -> Forall event_ok evs -> let acts := flat_map (acts_of (e_regular (g_easel w))) evs in
  play_aged (client0 scr_init) acts -> play (client0 scr_init) acts = Ok k ->
  exists o ds s age, on_events w (evs ++ [GDraw]) = Ok o /\ (Forall goes_on evs -> o <> None) /\ draw (k_scr k) = Ok (ds, s, age) /\
  forall w', o = Some w' -> g_scr w' = s /\ r_age (e_rend (g_easel w')) = age /\ forall d, In d ds -> right_cell (g_ctx w') (g_easel w') d.
Proof. exact frame_right. Qed.
Print Assumptions C67_frame_partial.
Example C67_frame_ex : new_widget demo /\ Forall event_ok evs_plain /\ Forall goes_on evs_plain /\ play_aged (client0 scr_init) (flat_map (acts_of tiny) evs_plain) /\
  exists w, on_events demo (evs_plain ++ [GDraw]) = Ok (Some w) /\ r_age (e_rend (g_easel w)) <> 0 /\
  map (fun X => pixel (e_rend (g_easel w)) X 2) [0; 2; 4; 6; 8] = [Some (word (76, 44, 31)); Some (word (77, 45, 32)); Some (word (200, 100, 50)); Some (word (0, 0, 0)); Some 0].
Proof.
  split; [exact demo_new|]. split; [exact evs_plain_ok|]. split; [repeat constructor; lia|]. split; [vm_compute; intuition|]. eexists. split; [vm_compute; reflexivity|]. split; [vm_compute; discriminate|vm_compute; reflexivity].
Qed.
(* With wide characters cells of width 1 are painted over, *)
Theorem C67_wide_refuted : ~ frames_right new_widget (event_args true).
Proof. exact wide_refuted. Qed.
Print Assumptions C67_wide_refuted.
(* and the second half of a wide character by what was there before. *)
Theorem C67_half_refuted : ~ wides_right new_widget (event_args true).
Proof. exact half_refuted. Qed.
Print Assumptions C67_half_refuted.
(* A bold face wider than the regular one paints over other cells. *)
Theorem C67_faces_refuted : ~ frames_right new_any event_ok.
Proof. exact faces_refuted. Qed.
Print Assumptions C67_faces_refuted.
(* After a change of font the old glyphs stay. *)
Theorem C67_font_refuted : ~ frames_right new_widget (event_font 2 3).
Proof. exact font_refuted. Qed.
Print Assumptions C67_font_refuted.
