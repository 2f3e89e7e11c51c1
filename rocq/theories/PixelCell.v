(* What drawing cells leaves in the buffer. *)
From Verif Require Import Base BaseProofs Symbol Screen ScreenSpec Render RenderSpec SeenSpec SeenThms Pixel PixelSpec PixelProofs.

Lemma repainted_cellwise r r' x y w h f : repainted r r' x y w h f -> cellwise r r' x y w h (fun u v p => p = f u v).
Proof.
  intros (S & W & H & A & P). split; [exact S|]. do 3 (split; [assumption|]). intros X Y HX HY. rewrite (P X Y HX HY). destruct (_ && _ && _ && _); [|reflexivity]. eauto.
Qed.
Lemma blend_cellwise r g x y f b : sound r -> inked g -> is_colour f -> is_colour b -> 0 <= x -> 0 <= y -> x + g_w g < 4294967296 -> y + g_h g < 4294967296 ->
  let '(fr, fg, fb) := f in let '(br, bg, bb) := b in
  exists r', renderer_blend r g x y fr fg fb br bg bb = Ok r' /\ cellwise r r' x y (g_w g) (g_h g) (fun u v p => shows f b (cover g u v) p).
Proof.
  destruct f as [[fr fg] fb], b as [[br bg] bb]. intros S I F B X0 Y0 XW YH. pose proof I as [Iw Ih _ _ _].
  set (px := fun u v => match blend_px g g fr fg fb br bg bb v u with Ok o => o | Ub => None end).
  assert (K : forall u v, 0 <= u < g_w g -> 0 <= v < g_h g -> exists p, px u v = Some p /\ blend_px g g fr fg fb br bg bb v u = Ok (Some p) /\ shows (fr, fg, fb) (br, bg, bb) (cover g u v) p).
  { intros u v U V. destruct (blend_spec g (fr, fg, fb) (br, bg, bb) u v I F B U V) as (p & E & Sh). exists p. unfold px. rewrite E. auto. }
  destruct (painted_spec r x y (g_w g) (g_h g) (fun _ _ row i => blend_px g g fr fg fb br bg bb row i) px) as (r' & E & (S' & W & H & A & P)); auto; try lia.
  - intros u v U V. destruct (K u v) as (p & -> & -> & _); [lia|lia|reflexivity].
  - exists r'. split; [exact E|]. split; [exact S'|]. do 3 (split; [assumption|]). intros X Y HX HY. rewrite (P X Y HX HY).
    destruct (_ && _ && _ && _) eqn:Eb; [|reflexivity]. destruct (K (X - x) (Y - y)) as (p & -> & _ & Sh); [lia|lia|]. cbn [over]. eauto.
Qed.
Lemma cellwise_over r r1 r2 x y w h y1 h1 (P Q : Z -> Z -> Z -> Prop) : cellwise r r1 x y w h P -> cellwise r1 r2 x y1 w h1 Q -> y <= y1 -> y1 + h1 <= y + h ->
  cellwise r r2 x y w h (fun u v p => if (y1 - y <=? v) && (v <? y1 - y + h1) then Q u (v - (y1 - y)) p else P u v p).
Proof.
  intros (S1 & W1 & H1 & A1 & P1) (S2 & W2 & H2 & A2 & P2) L1 L2. split; [exact S2|]. do 3 (split; [congruence|]). intros X Y HX HY.
  specialize (P1 X Y HX HY). rewrite W1 in P2. rewrite H1 in P2. specialize (P2 X Y HX HY).
  destruct ((x <=? X) && (X <? x + w) && (y <=? Y) && (Y <? y + h)) eqn:E1.
  - destruct ((x <=? X) && (X <? x + w) && (y1 <=? Y) && (Y <? y1 + h1)) eqn:E2.
    + replace ((y1 - y <=? Y - y) && (Y - y <? y1 - y + h1)) with true by lia. replace (Y - y - (y1 - y)) with (Y - y1) by lia. exact P2.
    + replace ((y1 - y <=? Y - y) && (Y - y <? y1 - y + h1)) with false by lia. rewrite P2. exact P1.
  - replace ((x <=? X) && (X <? x + w) && (y1 <=? Y) && (Y <? y1 + h1)) with false in P2 by lia. now rewrite P2.
Qed.
Lemma cellwise_weaken r r' x y w h (P Q : Z -> Z -> Z -> Prop) : (forall u v p, 0 <= u < w -> 0 <= v < h -> P u v p -> Q u v p) -> cellwise r r' x y w h P -> cellwise r r' x y w h Q.
Proof.
  intros PQ (S & W & H & A & K). split; [exact S|]. do 3 (split; [assumption|]). intros X Y HX HY. specialize (K X Y HX HY). destruct (_ && _ && _ && _) eqn:E; [|exact K].
  destruct K as (p & Ep & Kp). exists p. split; [exact Ep|]. apply PQ; [lia|lia|exact Kp].
Qed.

(* -- faces ----------------------------------------------------------------------------- *)
Definition bare (f : face) : face := mkFace (f_w f) (f_h f) (f_thick f) (f_upos f) [].
Definition bare_faces (e : easel) := (bare (e_regular e), option_map bare (e_bold e), option_map bare (e_italic e)).
Definition kin (e e' : easel) : Prop := bare_faces e = bare_faces e'.
Lemma pick_for e a : pick e (a_bold a) (a_italic a) = face_for e a.
Proof. unfold pick, face_for. destruct (a_bold a), (e_bold e), (a_italic a), (e_italic e); reflexivity. Qed.
Lemma bare_eq f f' : bare f = bare f' -> f_w f = f_w f' /\ f_h f = f_h f' /\ f_thick f = f_thick f' /\ f_upos f = f_upos f'.
Proof. unfold bare. intros E. injection E. auto. Qed.
Lemma kin_parts e e' : kin e e' -> bare (e_regular e) = bare (e_regular e') /\ option_map bare (e_bold e) = option_map bare (e_bold e') /\ option_map bare (e_italic e) = option_map bare (e_italic e').
Proof. intros E. split; [|split]; [exact (f_equal (fun t => fst (fst t)) E)|exact (f_equal (fun t => snd (fst t)) E)|exact (f_equal snd E)]. Qed.
Lemma kin_for e e' a : kin e e' -> fst (face_for e a) = fst (face_for e' a) /\ bare (snd (face_for e a)) = bare (snd (face_for e' a)).
Proof.
  intros E. apply kin_parts in E. destruct E as (R & E2 & E3). unfold face_for.
  destruct (a_bold a), (e_bold e), (e_bold e'), (a_italic a), (e_italic e), (e_italic e'); cbn [option_map fst snd] in E2, E3 |- *; try discriminate; split; try reflexivity; try exact R; congruence.
Qed.
Lemma kin_pixel c e e' d u v p : kin e e' -> right_pixel c e d u v p -> right_pixel c e' d u v p.
Proof.
  intros K. unfold right_pixel. destruct (kin_for e e' (d_attr d) K) as [K1 K2]. destruct (face_for e (d_attr d)) as [k f], (face_for e' (d_attr d)) as [k' f']. cbn [fst snd] in *. subst k'.
  apply bare_eq in K2. destruct K2 as (A & B & C & D). unfold glyph_for. now rewrite A, B, C, D.
Qed.
Lemma kin_refl e : kin e e. Proof. reflexivity. Qed.
Lemma kin_trans a b c : kin a b -> kin b c -> kin a c. Proof. unfold kin. congruence. Qed.
Lemma kin_fits c e e' : kin e e' -> of_easel (fits c) e -> of_easel (fits c) e'.
Proof.
  intros E (R & B & I). apply kin_parts in E. destruct E as (E1 & E2 & E3). assert (G : forall f f', bare f = bare f' -> fits c f -> fits c f').
  { intros f f' K [F1 F2 F3 F4 F5]. apply bare_eq in K. destruct K as (K1 & K2 & K3 & K4). constructor; congruence. }
  split; [exact (G _ _ E1 R)|]. split.
  - intros f' H. rewrite H in *. destruct (e_bold e) as [f|] eqn:Ef; [|discriminate]. apply (G f); [cbn [option_map] in *; congruence|auto].
  - intros f' H. rewrite H in *. destruct (e_italic e) as [f|] eqn:Ef; [|discriminate]. apply (G f); [cbn [option_map] in *; congruence|auto].
Qed.
Lemma kin_ready c e e' : kin e e' -> sound (e_rend e') -> ready c e -> ready c e'.
Proof.
  intros K So [R1 R2 R3 R4 R5 R6]. constructor; auto; [exact (kin_fits c e e' K R4)|]. intros a ch g E. apply (R6 a ch g). destruct (kin_for e e' a K) as [K1 K2]. rewrite K1. apply bare_eq in K2. destruct K2 as (A & B & _).
  revert E. unfold glyph_for. now rewrite A, B.
Qed.
(* The glyphs of a face are those of the characters of their ids. *)
Definition stock (c : ctx) (k : Z) (f : face) : Prop :=
  forall id g, In (id, g) (f_glyphs f) -> exists ch a, 0 <= ch < 2 ^ 31 /\ id = draw_id ch a /\ glyph_for c k f [ch] = Some g.
Definition stocked (c : ctx) (e : easel) : Prop :=
  stock c 0 (e_regular e) /\ (forall f, e_bold e = Some f -> stock c 1 f) /\ (forall f, e_italic e = Some f -> stock c 2 f).
Lemma face_for_in c e a : of_easel (fits c) e -> stocked c e -> fits c (snd (face_for e a)) /\ stock c (fst (face_for e a)) (snd (face_for e a)).
Proof.
  intros (F1 & F2 & F3) (S1 & S2 & S3). unfold face_for. destruct (a_bold a), (e_bold e) eqn:Eb, (a_italic a), (e_italic e) eqn:Ei; cbn [fst snd]; auto.
Qed.
Lemma put_for c e a k f f' : face_for e a = (k, f) -> bare f' = bare f -> stocked c e -> stock c k f' -> kin e (put_face e k f') /\ stocked c (put_face e k f') /\ e_rend (put_face e k f') = e_rend e.
Proof.
  intros F B (S1 & S2 & S3) S. unfold kin, bare_faces, stocked.
  assert (H : k = 1 /\ e_bold e = Some f \/ k = 2 /\ e_italic e = Some f \/ k = 0 /\ e_regular e = f).
  { unfold face_for in F. destruct (a_bold a), (e_bold e), (a_italic a), (e_italic e); injection F as <- <-; auto. }
  destruct H as [[-> H]|[[-> H]|[-> H]]]; unfold put_face; repeat match goal with |- context [?a =? ?b] => let t := eval vm_compute in (a =? b) in change (a =? b) with t; cbv iota end; cbn [e_regular e_bold e_italic e_rend]; rewrite ?H; cbn [option_map]; rewrite ?B; (split; [reflexivity|]); (split; [|reflexivity]).
  - split; [exact S1|]. split; [|exact S3]. intros f0 E. now injection E as <-.
  - split; [exact S1|]. split; [exact S2|]. intros f0 E. now injection E as <-.
  - split; [exact S|]. auto.
Qed.
Lemma glyph_of_in id l g : glyph_of id l = Some g -> In (id, g) l.
Proof. induction l as [|[k x] r IH]; cbn [glyph_of]; [discriminate|]. destruct (Z.eqb_spec k id) as [->|]; [intros E; injection E as ->; now left|intros E; right; auto]. Qed.
Lemma render_spec c k f ch a : fits c f -> 1 <= x_w c <= 32767 -> stock c k f -> 0 <= ch < 2 ^ 31 ->
  exists f', face_render f (x_fmt c) (draw_id ch a) [ch] 1 1 (x_ink c k [ch] 1) = (glyph_for c k f [ch], f') /\ bare f' = bare f /\ stock c k f'.
Proof.
  intros F W S C. unfold face_render. destruct (glyph_of (draw_id ch a) (f_glyphs f)) as [g|] eqn:G.
  - exists f. split; [|auto]. destruct (S _ _ (glyph_of_in _ _ _ G)) as (ch' & a' & C' & E & L). assert (X : ch = ch') by (apply (id_inj ch a ch' a' C C'); exact E). subst ch'. now rewrite L.
  - change ((1 =? 0) || (1 =? 0)) with false. cbv iota. unfold glyph_for. destruct (x_ink c k [ch] 1) as [buf|] eqn:I; cbn [option_map].
    + unfold create_glyph. rewrite Z.mul_1_r, u32_small by (rewrite (ft_w _ _ F); lia). eexists. split; [reflexivity|]. split; [reflexivity|].
      intros id g [H|H].
      * injection H as <- <-. exists ch, a. split; [exact C|]. split; [reflexivity|]. unfold glyph_for. cbn [f_w f_h]. now rewrite I.
      * destruct (S id g H) as (ch' & a' & C' & E & L). exists ch', a'. split; [exact C'|]. split; [exact E|exact L].
    + exists f. auto.
Qed.

(* -- one cell ---------------------------------------------------------------------------- *)
Definition skipped (age : Z) (d : dcall) : bool := negb (d_age d =? 0) && negb (age =? 0) && (d_age d <=? age).
(* What a call has to be: a cell of width 1 in reach. *)
Record narrow (c : ctx) (d : dcall) (ch : Z) : Prop := mkNarrow {
  nw_width : d_width d = 1; nw_ch : d_ch d = [ch]; nw_code : 0 <= ch < 2 ^ 31; nw_id : d_id d = draw_id ch (d_attr d); nw_len : d_len d = 0 \/ d_len d = 1;
  nw_attr : attr_bytes (d_attr d); nw_x : 0 <= d_x d < 65536; nw_y : 0 <= d_y d < 65536 }.
Lemma inks_bytes a : attr_bytes a -> is_colour (fst (inks a)) /\ is_colour (snd (inks a)).
Proof. intros [A B]. unfold inks. destruct (a_inverse a); cbn [fst snd]; auto. Qed.
Lemma fill_cellwise r x y w h k : sound r -> 0 <= x -> 0 <= y -> 0 <= w -> 0 <= h -> x + w < 4294967296 -> y + h < 4294967296 ->
  let '(br, bg, bb) := k in exists r', renderer_fill r x y w h br bg bb = Ok r' /\ cellwise r r' x y w h (fun _ _ p => p = word k).
Proof.
  destruct k as [[br bg] bb]. intros. destruct (fill_spec r x y w h br bg bb) as (r' & E & R); auto. exists r'. split; [exact E|]. now apply repainted_cellwise in R.
Qed.
Lemma cell_spec c e d ch : ready c e -> stocked c e -> narrow c d ch -> skipped (r_age (e_rend e)) d = false ->
  exists e', draw_cell c e d = Ok e' /\ kin e e' /\ stocked c e' /\
  cellwise (e_rend e) (e_rend e') (d_x d * x_w c) (d_y d * x_h c) (x_w c) (x_h c) (right_pixel c e d).
Proof.
  intros [Rw Rh Rd Rf Rs Ri] St N Sk. pose proof N as [N1 N2 N3 N4 N5 N6 N7 N8]. unfold draw_cell. fold (skipped (r_age (e_rend e)) d). rewrite Sk, Rd. cbn [andb negb].
  rewrite pick_for. destruct (face_for_in c e (d_attr d) Rf St) as [Ff Sf]. destruct (face_for e (d_attr d)) as [k f] eqn:Ek. cbn [fst snd] in Ff, Sf.
  assert (Bx : d_x d * x_w c <= 65535 * 32767) by nia. assert (By : d_y d * x_h c <= 65535 * 32767) by nia. assert (Bx0 : 0 <= d_x d * x_w c) by nia. assert (By0 : 0 <= d_y d * x_h c) by nia.
  rewrite (u32_small (d_x d * x_w c)) by lia. rewrite (u32_small (d_y d * x_h c)) by lia. rewrite N1, Z.mul_1_r, (u32_small (x_w c)) by lia.
  set (x := d_x d * x_w c) in *. set (y := d_y d * x_h c) in *.
  destruct (inks_bytes _ N6) as [Cf Cb].
  assert (EI : (if a_inverse (d_attr d) then (a_br (d_attr d), a_bg (d_attr d), a_bb (d_attr d), a_fr (d_attr d), a_fg (d_attr d), a_fb (d_attr d))
     else (a_fr (d_attr d), a_fg (d_attr d), a_fb (d_attr d), a_br (d_attr d), a_bg (d_attr d), a_bb (d_attr d)))
     = (let '(fr, fg, fb) := fst (inks (d_attr d)) in let '(br, bg, bb) := snd (inks (d_attr d)) in (fr, fg, fb, br, bg, bb))) by (unfold inks; destruct (a_inverse (d_attr d)); reflexivity).
  rewrite EI. destruct (inks (d_attr d)) as [fore back] eqn:Ein. cbn [fst snd] in *. destruct fore as [[fr fg] fb], back as [[br bg] bb].
  destruct Ff as [F1 F2 F3 F4 F5] eqn:EF. clear EF.
  destruct (fill_cellwise (e_rend e) x y (x_w c) (x_h c) (br, bg, bb) Rs) as (rb & Eb & Pb); try lia.
  (* the cell *)
  assert (One : exists r1 f1, (if d_len d =? 0 then do r <- renderer_fill (e_rend e) x y (x_w c) (x_h c) br bg bb; Ok (r, f)
       else match face_render f (x_fmt c) (d_id d) (d_ch d) (d_len d) 1 (x_ink c k (d_ch d) 1) with
         | (None, fc') => do r <- renderer_fill (e_rend e) x y (x_w c) (x_h c) br bg bb; Ok (r, fc')
         | (Some g, fc') => do r <- renderer_blend (e_rend e) g x y fr fg fb br bg bb; Ok (r, fc')
         end) = Ok (r1, f1) /\ bare f1 = bare f /\ stock c k f1 /\
      cellwise (e_rend e) r1 x y (x_w c) (x_h c) (fun u v p => match (if d_len d =? 0 then None else glyph_for c k f (d_ch d)) with None => p = word (br, bg, bb) | Some g => shows (fr, fg, fb) (br, bg, bb) (cover g u v) p end)).
  { destruct (Z.eqb_spec (d_len d) 0) as [L0|L0].
    - rewrite Eb. cbn [bind]. exists rb, f. auto.
    - destruct N5 as [|N5]; [congruence|]. rewrite N5, N4, N2. destruct (render_spec c k f ch (d_attr d)) as (f1 & E1 & B1 & S1); auto. rewrite E1.
      destruct (glyph_for c k f [ch]) as [g|] eqn:Eg.
      + assert (Ig : inked g) by (apply (Ri (d_attr d) [ch]); rewrite Ek; exact Eg). assert (Gw : g_w g = x_w c /\ g_h g = x_h c).
        { unfold glyph_for in Eg. destruct (x_ink c k [ch] 1); [|discriminate]. cbn in Eg. injection Eg as <-. cbn. auto. }
        destruct Gw as [Gw Gh]. pose proof (blend_cellwise (e_rend e) g x y (fr, fg, fb) (br, bg, bb) Rs Ig Cf Cb ltac:(lia) ltac:(lia) ltac:(lia) ltac:(lia)) as (r1 & E2 & P2).
        rewrite E2. cbn [bind]. exists r1, f1. rewrite Gw, Gh in P2. auto.
      + rewrite Eb. cbn [bind]. exists rb, f1. auto. }
  destruct One as (r1 & f1 & -> & B1 & S1 & P1). cbn [bind]. destruct (bare_eq _ _ B1) as (W1 & H1 & T1 & U1).
  destruct (put_for c e (d_attr d) k f f1 Ek B1 St S1) as (K1 & K2 & K3).
  assert (Fin : forall r, kin e (set_rend (put_face e k f1) r) /\ stocked c (set_rend (put_face e k f1) r) /\ e_rend (set_rend (put_face e k f1) r) = r) by (intros r; split; [exact K1|split; [exact K2|reflexivity]]).
  destruct (a_underline (d_attr d)) eqn:Un.
  - destruct (fill_cellwise r1 x (y + f_upos f1) (x_w c) (f_thick f1) (fr, fg, fb) (proj1 P1)) as (r2 & E2 & P2); try lia.
    rewrite (u32_small (y + f_upos f1)) by lia. rewrite E2. cbn [bind]. eexists. split; [reflexivity|]. destruct (Fin r2) as (A & B & C). split; [exact A|]. split; [exact B|]. rewrite C.
    pose proof (cellwise_over _ _ _ _ _ _ _ _ _ _ _ P1 P2 ltac:(lia) ltac:(lia)) as P3. revert P3. apply cellwise_weaken. intros u v p Hu Hv. unfold right_pixel. rewrite Ein, Ek, Un.
    replace (y + f_upos f1 - y) with (f_upos f) by lia. rewrite T1. cbn [andb]. auto.
  - cbn [bind]. eexists. split; [reflexivity|]. destruct (Fin r1) as (A & B & C). split; [exact A|]. split; [exact B|]. rewrite C.
    revert P1. apply cellwise_weaken. intros u v p Hu Hv. unfold right_pixel. rewrite Ein, Ek, Un. cbn [andb]. auto.
Qed.
Lemma highlight_frame r x y w h : sound r -> 0 <= x -> 0 <= y -> 0 <= w -> 0 <= h -> x + w < 4294967296 -> y + h < 4294967296 ->
  exists r', renderer_highlight r x y w h = Ok r' /\ forall X Y, 0 <= X < r_w r -> 0 <= Y < r_h r ->
  let x' := Z.min (x + w) (r_w r) in let y' := Z.min (y + h) (r_h r) in
  pixel r' X Y = if (x <=? X) && (X <? x') && (y <=? Y) && (Y <? y') && ((X =? x) || (X =? x' - 1) || (Y =? y) || (Y =? y' - 1)) then Some (word (208, 16, 16)) else pixel r X Y.
Proof.
  intros S X0 Y0 W0 H0 XW YH. destruct (highlight_spec r x y w h S X0 Y0 W0 H0 XW YH) as (r' & E & (_ & _ & _ & _ & P)). exists r'. split; [exact E|]. intros X Y HX HY x' y'. rewrite (P X Y HX HY). unfold x', y'.
  destruct ((x <=? X) && (X <? x + w) && (y <=? Y) && (Y <? y + h)) eqn:Ei.
  - replace ((x <=? X) && (X <? Z.min (x + w) (r_w r)) && (y <=? Y) && (Y <? Z.min (y + h) (r_h r))) with true by lia. cbn [andb].
    replace (X - x =? 0) with (X =? x) by lia. replace (X - x =? Z.min w (r_w r - x) - 1) with (X =? Z.min (x + w) (r_w r) - 1) by lia.
    replace (Y - y =? 0) with (Y =? y) by lia. replace (Y - y + 1 =? Z.min h (r_h r - y)) with (Y =? Z.min (y + h) (r_h r) - 1) by lia.
    destruct (_ || _ || _ || _); reflexivity.
  - replace ((x <=? X) && (X <? Z.min (x + w) (r_w r)) && (y <=? Y) && (Y <? Z.min (y + h) (r_h r))) with false by lia. reflexivity.
Qed.
