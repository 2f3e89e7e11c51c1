(* What the widget shows after a frame. *)
From Verif Require Import Base BaseProofs Symbol Wcwidth Screen ScreenInv ScreenSb ScreenSpec ScreenOps ScreenResize ScreenRz ScreenSafe ScreenHist FrameSpec ScreenFrame ScreenThms
  Render RenderSpec RenderProofs RenderAge RenderThms SeenSpec SeenProofs SeenThms Pixel PixelSpec PixelProofs PixelCell PixelFrameSpec.

Definition shown (c : ctx) (e : easel) (f : picture) : Prop :=
  forall y x id ch len w a, 0 <= y -> 0 <= x -> f y x = Some (id, ch, len, w, a) -> right_cell c e (mkD id ch len w x y a 0).
Lemma pixel_in r X Y p : pixel r X Y = Some p -> 0 <= X < r_w r /\ 0 <= Y < r_h r.
Proof. unfold pixel. destruct (_ && _ && _ && _) eqn:E; [lia|discriminate]. Qed.
Lemma other_cell w x u x' : 1 <= w -> 0 <= u < w -> x <> x' -> (x' * w <=? x * w + u) && (x * w + u <? x' * w + w) = false.
Proof. intros. assert (x < x' \/ x' < x) as [L|L] by lia; nia. Qed.
Lemma shown_put c e e' d ch f : ready c e -> narrow c d ch -> kin e e' ->
  cellwise (e_rend e) (e_rend e') (d_x d * x_w c) (d_y d * x_h c) (x_w c) (x_h c) (right_pixel c e d) -> shown c e f -> shown c e' (put f d).
Proof.
  intros R N K (S & W & H & A & P) Sh y x id ch' len w a Y0 X0 E u v p Hu Hv Ep. cbn [d_x d_y] in Ep. apply (kin_pixel c e e' _ _ _ _ K).
  pose proof (pixel_in _ _ _ _ Ep) as [HX HY]. rewrite W in HX. rewrite H in HY. specialize (P _ _ HX HY). unfold put in E. pose proof (rd_w _ _ R). pose proof (rd_h _ _ R).
  destruct ((y =? d_y d) && (x =? d_x d)) eqn:Eq.
  - assert (y = d_y d) by lia. assert (x = d_x d) by lia. subst y x.
    replace ((d_x d * x_w c <=? d_x d * x_w c + u) && (d_x d * x_w c + u <? d_x d * x_w c + x_w c) && (d_y d * x_h c <=? d_y d * x_h c + v) && (d_y d * x_h c + v <? d_y d * x_h c + x_h c)) with true in P by lia.
    destruct P as (p' & Ep' & Rp). assert (p' = p) by congruence. subst p'. replace (d_x d * x_w c + u - d_x d * x_w c) with u in Rp by lia. replace (d_y d * x_h c + v - d_y d * x_h c) with v in Rp by lia.
    unfold what in E. injection E as <- <- <- <- <-. exact Rp.
  - assert (Z0 : (d_x d * x_w c <=? x * x_w c + u) && (x * x_w c + u <? d_x d * x_w c + x_w c) && (d_y d * x_h c <=? y * x_h c + v) && (y * x_h c + v <? d_y d * x_h c + x_h c) = false).
    { destruct (Z.eq_dec x (d_x d)) as [Ex|Ex].
      - assert (Ey : y <> d_y d) by lia. rewrite <- andb_assoc. rewrite (other_cell (x_h c) y v (d_y d)) by lia. apply andb_false_r.
      - rewrite (other_cell (x_w c) x u (d_x d)) by lia. reflexivity. }
    rewrite Z0 in P. rewrite P in Ep. exact (Sh y x id ch' len w a Y0 X0 E u v p Hu Hv Ep).
Qed.
Lemma cells_spec c : forall ds e f, ready c e -> stocked c e -> shown c e f -> (forall d, In d ds -> 0 <= d_age d /\ exists ch, narrow c d ch) ->
  exists e', draw_cells c e ds = Ok e' /\ kin e e' /\ stocked c e' /\ ready c e' /\ shown c e' (update (r_age (e_rend e)) ds f).
Proof.
  induction ds as [|d r IH]; intros e f R S Sh D; cbn [draw_cells].
  - exists e. split; [reflexivity|]. split; [apply kin_refl|]. auto.
  - destruct (D d (or_introl eq_refl)) as [Ag (ch & N)].
    assert (Fr : fresh (r_age (e_rend e)) d = negb (skipped (r_age (e_rend e)) d)).
    { unfold fresh, skipped. f_equal. destruct (Z.eqb_spec (r_age (e_rend e)) 0) as [->|]; [|now rewrite andb_true_r]. cbn [negb]. destruct (Z.eqb_spec (d_age d) 0); cbn [negb andb]; [reflexivity|]. lia. }
    assert (Go : exists e1, draw_cell c e d = Ok e1 /\ kin e e1 /\ stocked c e1 /\ ready c e1 /\ r_age (e_rend e1) = r_age (e_rend e) /\ shown c e1 (if skipped (r_age (e_rend e)) d then f else put f d)).
    { destruct (skipped (r_age (e_rend e)) d) eqn:Sk.
      - exists e. split; [|split; [apply kin_refl|]; auto]. unfold draw_cell. fold (skipped (r_age (e_rend e)) d). rewrite Sk, (rd_debug _ _ R). reflexivity.
      - destruct (cell_spec c e d ch R S N Sk) as (e1 & E1 & K1 & S1 & C1). exists e1. split; [exact E1|]. split; [exact K1|]. split; [exact S1|].
        pose proof C1 as (So & _ & _ & A1 & _). split; [|split; [exact A1|exact (shown_put c e e1 d ch f R N K1 C1 Sh)]].
        exact (kin_ready c e e1 K1 So R). }
    destruct Go as (e1 & E1 & K1 & S1 & R1 & A1 & Sh1). rewrite E1. cbn [bind]. destruct (IH e1 _ R1 S1 Sh1) as (e2 & E2 & K2 & S2 & R2 & Sh2); [intros d' I; apply D; now right|].
    exists e2. split; [exact E2|]. split; [exact (kin_trans _ _ _ K1 K2)|]. split; [exact S2|]. split; [exact R2|]. rewrite A1 in Sh2. unfold update in *. cbn [filter]. rewrite Fr. destruct (skipped (r_age (e_rend e)) d); exact Sh2.
Qed.

(* -- the cells of the screen ------------------------------------------------------------ *)
Definition small (g : ScreenSpec.glyph) : Prop := let '(c, w, a) := g in 0 <= c < 2 ^ 31 /\ w = 1 /\ attr_bytes a.
Lemma small0 : forall ch n b, 1 < n -> small (ch, n, b) -> forall c w a, small (c, w, a) -> small (c, 0, a).
Proof. intros ch n b L (_ & E & _). lia. Qed.
Lemma small_brings o : event_ok (GCall o) -> brings small o.
Proof.
  intros [_ H]. destruct o; cbn [brings]; auto.
  - split; [lia|]. split; [reflexivity|exact H].
  - intros n W N. destruct H as (U & Wd & B). unfold u32_arg in U. split; [split; [lia|]; apply (wide_code ch n); auto; lia|]. split; [|exact B]. destruct Wd as [Wd|[Wd|Wd]]; congruence.
Qed.
Lemma small_shown s i x : clean small s -> small (shown_cell s i x).
Proof.
  intros C. unfold shown_cell. assert (B : small (blank_glyph (s_def s))) by apply C. destruct (shown_line s i) as [l|] eqn:L; [|exact B]. unfold row_at. destruct (znth (l_cells l) x) as [c|] eqn:E; cbn [option_map]; [|exact B].
  unfold shown_line in L. apply znth_In in L. apply znth_In in E. apply (clean_stored small s); [exact C|]. exists l, c. split; [|auto]. apply in_app_or in L. unfold lines in L. destruct (s_act s); tauto.
Qed.
Lemma flip_bytes b a : attr_bytes a -> attr_bytes (flip b a).
Proof. intros H. exact H. Qed.
Lemma expected_narrow c s q y x : clean small s -> 0 <= x < 65536 -> 0 <= y < 65536 -> exists ch, narrow c (expected s q y x) ch.
Proof.
  intros C X Y. unfold expected, dcall_of. pose proof (small_shown s y x C) as K. destruct (shown_cell s y x) as [[ch w] a]. destruct K as (K1 & K2 & K3). exists ch.
  assert (G : symbol_get symtab_new ch = [ch]) by (unfold symbol_get; change (2 ^ 31) with 2147483648 in K1; replace (ch <=? UCS4_MAX) with true by (unfold UCS4_MAX; lia); reflexivity).
  constructor; cbn [d_width d_ch d_id d_attr d_len d_x d_y]; auto. rewrite G. destruct (_ || _); auto.
Qed.

Definition act_of (f : face) (ev : event) : act :=
  match ev with GCall o => ACall o | GConfigure width height _ => AResize (fit width (f_w f)) (fit height (f_h f)) | _ => ADraw end.
Lemma acts_map f evs : Forall event_ok evs -> flat_map (acts_of f) evs = map (act_of f) evs.
Proof. induction 1 as [|ev r O _ IH]; [reflexivity|]. cbn [flat_map map]. rewrite IH. destruct ev; try reflexivity. destruct O. Qed.

(* -- sessions ------------------------------------------------------------------------------ *)
Record lock (f : face) (w : widget) (k : client) : Prop := mkLock {
  lk_scr : g_scr w = k_scr k; lk_age : r_age (e_rend (g_easel w)) = k_last k; lk_ready : ready (g_ctx w) (g_easel w); lk_stock : stocked (g_ctx w) (g_easel w);
  lk_shown : shown (g_ctx w) (g_easel w) (k_inc k); lk_in : in_step k; lk_clean : clean small (k_scr k);
  lk_sx : s_sx (k_scr k) <= 32767; lk_sy : s_sy (k_scr k) <= 32767; lk_face : bare (e_regular (g_easel w)) = bare f }.
Lemma lock_draw f w k : lock f w k -> exists w' k' ds, on_event w GDraw = Ok (Some w') /\ act_step k ADraw = Ok k' /\ lock f w' k' /\
  draw (k_scr k) = Ok (ds, k_scr k', k_last k') /\ forall d, In d ds -> right_cell (g_ctx w') (g_easel w') d.
Proof.
  intros [L1 L2 L3 L4 L5 L6 L7 L8 L9 L10]. pose proof L6 as (Iv & Ag & _). set (s := k_scr k) in *. destruct (draw_lit s Iv) as (ds & Ed & G). fold (grid s ds) in G. pose proof (i_sx _ (proj1 Iv)) as Isx.
  destruct (draw_step k L6) as (k' & Ek & In' & Sc & Pc). fold s in Sc, Pc.
  assert (Ek' : k' = mkCl (set_rst s false) (if s_rst s then 0 else s_cnt s) (update (k_last k) ds (k_inc k)) (redraw ds (k_full k))).
  { cbn [act_step] in Ek. fold s in Ek. rewrite Ed in Ek. cbn [bind] in Ek. congruence. }
  destruct (cells_spec (g_ctx w) ds (g_easel w) (k_inc k) L3 L4 L5) as (e1 & E1 & K1 & S1 & R1 & Sh1).
  { intros d D. destruct (grid_in s ds d ltac:(lia) G D) as (y & x & O & ->). split.
    - rewrite expected_age. unfold reported_age. destruct (s_rst s); [lia|]. unfold shown_age. destruct (shown_line s y); lia.
    - apply expected_narrow; [exact L7| |]; unfold on_screen in O; lia. }
  set (e2 := set_rend e1 (mkRend (r_w (e_rend e1)) (r_h (e_rend e1)) (r_stride (e_rend e1)) (r_data (e_rend e1)) (if s_rst s then 0 else s_cnt s))).
  exists (mkWg (g_ctx w) e2 (set_rst s false)), k', ds. split; [|split; [exact Ek|]].
  - cbn [on_event]. unfold renderer_draw. rewrite L1, Ed. cbn [bind]. rewrite E1. reflexivity.
  - assert (Sh2 : shown (g_ctx w) e2 (k_inc k')) by (rewrite Ek'; cbn [k_inc]; rewrite L2 in Sh1; exact Sh1).
    assert (Cl : clean small (set_rst s false)) by (revert L7; now apply clean_same).
    split; [|split].
    + constructor; rewrite ?Sc; cbn [g_ctx g_easel g_scr]; auto.
      * rewrite Ek'. reflexivity.
      * apply (kin_ready _ e1 e2); [reflexivity| |exact R1]. destruct (rd_sound _ _ R1). now constructor.
      * apply kin_parts in K1. destruct K1 as (K1 & _). change (e_regular e2) with (e_regular e1). congruence.
    + rewrite Ek'. exact Ed.
    + intros d D. destruct (grid_in s ds d ltac:(lia) G D) as (y & x & O & Ex). destruct (Pc y x O) as (Pi & _). unfold drawn_at in Pi. rewrite <- Ex in Pi.
      destruct (expected_sits s (lit s y x) y x) as [Ey Exx]. rewrite <- Ex in Ey, Exx. unfold on_screen in O. unfold what in Pi.
      pose proof (Sh2 y x _ _ _ _ _ ltac:(lia) ltac:(lia) Pi) as Rc. intros u v p Hu Hv Ep. cbn [g_ctx g_easel] in *. rewrite Ey, Exx in Ep. exact (Rc u v p Hu Hv Ep).
Qed.
Lemma realloc_spec width height mem : 0 <= width -> 0 <= height -> Z.max 1 width * Z.max 1 height < 536870912 ->
  match renderer_realloc width height mem with
  | Some r => sound r /\ r_w r = Z.max 1 width /\ r_h r = Z.max 1 height /\ r_age r = 0
  | None => ~ (width <= 32767 /\ height <= 32767 /\ mem = true)
  end.
Proof.
  intros W H A. unfold renderer_realloc. cbv zeta. replace (if width =? 0 then 1 else width) with (Z.max 1 width) by (destruct (Z.eqb_spec width 0); lia).
  replace (if height =? 0 then 1 else height) with (Z.max 1 height) by (destruct (Z.eqb_spec height 0); lia).
  set (w := Z.max 1 width) in *. set (h := Z.max 1 height) in *. unfold CAIRO_MAX. destruct ((32767 <? w) || (32767 <? h) || negb mem) eqn:E; [destruct mem; cbn [negb] in E; [lia|intros (_ & _ & X); discriminate]|].
  assert (P : 0 <= w * h) by nia. rewrite (u32_small (4 * w * h)) by lia. replace (i32 (4 * w * h)) with (4 * (w * h)) by (rewrite i32_small; lia).
  rewrite Z.abs_eq by lia. replace (4 * (w * h) / 4) with (w * h) by (rewrite (Z.mul_comm 4 (w * h)), Z.div_mul; lia).
  split; [constructor; cbn [r_w r_h r_stride r_data]; try lia; rewrite repeat_length; lia|]. auto.
Qed.
Lemma fit_cells len size : 0 <= len -> 1 <= size -> cells_of len size = fit len size.
Proof.
  intros L S. unfold cells_of, fit. replace (size =? 0) with false by lia. pose proof (Z.div_pos len size L ltac:(lia)). destruct (Z.eqb_spec (len / size) 0); lia.
Qed.
Lemma resize_size s x y s' : Inv s -> 0 < x <= DIM -> 0 < y <= DIM -> step s (OResize x y) = Ok s' -> s_sx s' = x /\ s_sy s' = y.
Proof.
  intros H X Y E. cbn [step] in E. assert (D : s_sx s = x /\ s_sy s = y \/ (s_sx s <> x \/ s_sy s <> y)) by lia. destruct D as [[<- <-]|D].
  - assert (Es : scr_resize s (s_sx s) (s_sy s) = Ok (s, 0)) by (unfold scr_resize; replace ((s_sx s =? 0) || (s_sy s =? 0)) with false by lia; now rewrite !Z.eqb_refl). rewrite Es in E. cbn [bind fst] in E. assert (s' = s) by congruence. now subst.
  - destruct (resize_law s x y H X Y D) as (s1 & E1 & R). rewrite E1 in E. cbn [bind fst] in E. assert (s' = s1) by congruence. subst. split; apply R.
Qed.
Lemma lock_step f w k ev k' : lock f w k -> event_ok ev -> act_args (act_of f ev) -> act_aged (k_scr k) (act_of f ev) -> act_step k (act_of f ev) = Ok k' ->
  exists o, on_event w ev = Ok o /\ (goes_on ev -> o <> None) /\ forall w', o = Some w' -> lock f w' k'.
Proof.
  intros L Ok0 Aa Ag E. destruct ev as [o| |width height mem|]; [| | |destruct Ok0].
  - pose proof L as [L1 L2 L3 L4 L5 L6 L7 L8 L9 L10]. pose proof (call_step k _ k' L6 Aa Ag E) as I'. cbn [act_of act_step] in *. cbn [on_event]. rewrite L1. destruct (step (k_scr k) o) as [s'|] eqn:Es; [|discriminate]. cbn [bind] in *.
    assert (Ek : k' = mkCl s' (k_last k) (k_inc k) (k_full k)) by congruence. subst k'. eexists. split; [reflexivity|]. split; [discriminate|]. intros w' Ew. injection Ew as <-.
    pose proof (fr_size _ _ _ (framed_step (k_scr k) o s' (proj1 L6) (proj1 Ok0) Es)) as Fs.
    assert (Ms : may_size o = false) by (destruct o; try reflexivity; destruct Ok0 as [_ []]). destruct (Fs Ms) as [F1 F2].
    constructor; cbn [g_scr g_easel g_ctx k_scr k_last k_inc]; auto; try lia. exact (q_step small small0 (k_scr k) o L7 (small_brings o Ok0) s' Es).
  - destruct (lock_draw f w k L) as (w' & k1 & ds & E1 & E2 & L' & _). cbn [act_of] in E. assert (k1 = k') by congruence. subst k1. eexists. split; [exact E1|]. split; [discriminate|]. intros w1 Ew. injection Ew as <-. exact L'.
  - pose proof L as [L1 L2 L3 L4 L5 L6 L7 L8 L9 L10]. pose proof (call_step k _ k' L6 Aa Ag E) as I'. destruct Ok0 as (W0 & H0 & WH). cbn [act_of act_step] in *. cbn [on_event].
    pose proof (realloc_spec width height mem W0 H0 WH) as Rs. destruct (bare_eq _ _ L10) as (B1 & B2 & _ & _). rewrite B1, B2. pose proof L3 as [R1 R2 R3 R4 R5 R6]. destruct R4 as ([F1 F2 F3 F4 F5] & Fb & Fi).
    rewrite !fit_cells by lia. destruct (renderer_realloc width height mem) as [r|] eqn:Er.
    + destruct Rs as (So & Rw & Rh & Ra). rewrite L1. destruct (step (k_scr k) (OResize (fit width (f_w f)) (fit height (f_h f)))) as [s'|] eqn:Es; [|discriminate]. cbn [bind] in *.
      assert (Ek : k' = mkCl s' 0 (fun _ _ => None) (fun _ _ => None)) by congruence. subst k'. eexists. split; [reflexivity|]. split; [discriminate|]. intros w' Ew. injection Ew as <-.
      pose proof (so_w _ So) as Sw. pose proof (so_h _ So) as Sh'.
      assert (Fw : 1 <= fit width (f_w f) <= 32767) by (unfold fit; pose proof (Z.div_le_upper_bound width (f_w f) width ltac:(lia) ltac:(nia)); lia).
      assert (Fh : 1 <= fit height (f_h f) <= 32767) by (unfold fit; pose proof (Z.div_le_upper_bound height (f_h f) height ltac:(lia) ltac:(nia)); lia).
      destruct (resize_size (k_scr k) (fit width (f_w f)) (fit height (f_h f)) s' (proj1 L6) ltac:(unfold DIM; lia) ltac:(unfold DIM; lia) Es) as [Z1 Z2].
      constructor; cbn [g_scr g_easel g_ctx k_scr k_last k_inc set_rend e_rend]; auto; try lia.
      * exact (kin_ready _ (g_easel w) (set_rend (g_easel w) r) eq_refl So L3).
      * intros y x id ch len w1 a _ _ X. discriminate X.
      * exact (q_step small small0 (k_scr k) (OResize (fit width (f_w f)) (fit height (f_h f))) L7 I s' Es).
    + eexists. split; [reflexivity|]. split; [intros G; exfalso; exact (Rs G)|]. discriminate.
Qed.
Lemma play_lock f evs : forall w k k', lock f w k -> Forall event_ok evs -> Forall act_args (map (act_of f) evs) -> play_aged k (map (act_of f) evs) -> play k (map (act_of f) evs) = Ok k' ->
  exists o, on_events w evs = Ok o /\ (Forall goes_on evs -> o <> None) /\ forall w', o = Some w' -> lock f w' k'.
Proof.
  induction evs as [|ev r IH]; intros w k k' L Ok0 Aa Ag E; cbn [map play play_aged on_events] in *.
  - eexists. split; [reflexivity|]. split; [discriminate|]. intros w' Ew. injection Ew as <-. assert (k = k') by congruence. now subst.
  - inversion Ok0 as [|? ? O1 O2]; subst. inversion Aa as [|? ? A1 A2]; subst. destruct Ag as [G1 G2]. destruct (act_step k (act_of f ev)) as [k1|] eqn:E1; [|discriminate]. cbn [bind] in E.
    destruct (lock_step f w k ev k1 L O1 A1 G1 E1) as (o & Eo & Go & Lo). rewrite Eo. cbn [bind]. destruct o as [w1|].
    + destruct (IH w1 k1 k' (Lo w1 eq_refl) O2 A2 G2 E) as (o2 & E2 & Go2 & Lo2). exists o2. split; [exact E2|]. split; [|exact Lo2]. intros F. inversion F; subst. auto.
    + exists None. split; [reflexivity|]. split; [intros F; inversion F; subst; exfalso; apply Go; auto|]. discriminate.
Qed.
Lemma events_app a b w : on_events w (a ++ b) = do o <- on_events w a; match o with None => Ok None | Some w' => on_events w' b end.
Proof. revert w. induction a as [|x r IH]; intros w; cbn [app on_events bind]; [reflexivity|]. destruct (on_event w x) as [[w'|]|]; cbn [bind]; auto. Qed.
Lemma new_lock w : new_widget w -> lock (e_regular (g_easel w)) w (client0 scr_init).
Proof.
  intros [R S A (E1 & E2 & E3)]. constructor; auto.
  - split; [|split]; [intros id g I; rewrite E1 in I; destruct I|intros f F id g I; rewrite (E2 f F) in I; destruct I|intros f F id g I; rewrite (E3 f F) in I; destruct I].
  - intros y x id ch len w1 a _ _ X. discriminate X.
  - exact init_in_step.
  - apply q_init; (split; [lia|]; split; [reflexivity|]; unfold attr_bytes, is_colour, byte; cbn; lia).
  - vm_compute. discriminate.
  - vm_compute. discriminate.
Qed.
Theorem frame_right w evs k : new_widget w -> Forall event_ok evs -> let acts := flat_map (acts_of (e_regular (g_easel w))) evs in
  play_aged (client0 scr_init) acts -> play (client0 scr_init) acts = Ok k ->
  exists o ds s age, on_events w (evs ++ [GDraw]) = Ok o /\ (Forall goes_on evs -> o <> None) /\ draw (k_scr k) = Ok (ds, s, age) /\
  forall w', o = Some w' -> g_scr w' = s /\ r_age (e_rend (g_easel w')) = age /\ forall d, In d ds -> right_cell (g_ctx w') (g_easel w') d.
Proof.
  intros N Ok0 acts. unfold acts. rewrite acts_map by exact Ok0. clear acts. set (acts := map (act_of (e_regular (g_easel w))) evs). intros Ag E. assert (Aa : Forall act_args acts).
  { unfold acts. apply Forall_map. apply Forall_forall. intros ev I. rewrite Forall_forall in Ok0. specialize (Ok0 ev I). destruct ev as [o| |width height mem|]; cbn [act_of act_args]; auto; [apply Ok0| ].
    destruct Ok0 as (W0 & H0 & WH). destruct N as [[R1 R2 _ (F & _) _ _] _ _ _]. destruct F as [F1 F2 _ _ _]. cbn [op_args]. unfold fit, DIM.
    pose proof (Z.div_le_upper_bound width (f_w (e_regular (g_easel w))) width ltac:(lia) ltac:(nia)). pose proof (Z.div_le_upper_bound height (f_h (e_regular (g_easel w))) height ltac:(lia) ltac:(nia)). nia. }
  destruct (play_lock _ evs w _ k (new_lock w N) Ok0 Aa Ag E) as (o & Eo & Go & Lo). rewrite events_app, Eo. cbn [bind].
  destruct o as [w1|].
  - destruct (lock_draw _ w1 k (Lo w1 eq_refl)) as (w' & k' & ds & E1 & E2 & L' & Ed & P). exists (Some w'), ds, (k_scr k'), (k_last k'). split; [cbn [on_events]; rewrite E1; reflexivity|]. split; [discriminate|]. split; [exact Ed|].
    intros w2 Ew. injection Ew as <-. split; [apply (lk_scr _ _ _ L')|]. split; [apply (lk_age _ _ _ L')|exact P].
  - assert (Iv : Inv (k_scr k)) by exact (play_Inv acts (client0 scr_init) k scr_init_Inv Aa E). destruct (draw_lit _ Iv) as (ds & Ed & _). exists None. eexists ds, _, _. split; [reflexivity|]. split; [intros F; now destruct (Go F)|]. split; [exact Ed|]. discriminate.
Qed.

Lemma frames_narrow : frames_right new_widget event_ok.
Proof.
  intros w evs k N O acts A E. destruct (frame_right w evs k N O A E) as (o & ds & s & age & E1 & _ & E2 & P). exists o, ds, s, age. split; [exact E1|]. split; [exact E2|]. intros w' d Eo I _. now apply (P w' Eo).
Qed.
(* -- measuring --------------------------------------------------------------------------------- *)
Lemma measured_line width height baseline f : 0 <= height < 2147483648 -> 0 <= baseline < 4294967296 -> measure_pango width height baseline = Some f ->
  f_h f = height /\ 0 <= f_upos f /\ 1 <= f_thick f /\ f_upos f + f_thick f <= f_h f.
Proof.
  intros H B. unfold measure_pango. cbv zeta. set (w := u32 _). destruct ((w =? 0) || (height =? 0)) eqn:E; [discriminate|]. intros X. injection X as <-. cbn [f_h f_upos f_thick].
  pose proof (u32_range (height - baseline)). pose proof (Z.div_pos height 14 ltac:(lia) ltac:(lia)). pose proof (Z.div_le_upper_bound height 14 height ltac:(lia) ltac:(lia)).
  set (t := Z.max _ 1). assert (T : 1 <= t <= height) by (unfold t; lia). clearbody t. rewrite (u32_small (height - t)) by lia. pose proof (u32_range (baseline + t)). lia.
Qed.
Lemma measured_mono n height baseline f : 1 <= n <= 43 -> measure_pango (86 * n) height baseline = Some f -> f_w f = n.
Proof.
  intros N. unfold measure_pango. cbv zeta. assert (W : (86 * n + (STR_LEN - 1)) / STR_LEN = n) by (unfold STR_LEN; symmetry; apply (Z.div_unique _ _ _ (87 - 2 * n)); lia).
  rewrite W, (u32_small n) by lia. destruct (_ || _); [discriminate|]. intros X. now injection X as <-.
Qed.
