(* Concrete widgets and sessions. *)
From Verif Require Import Base BaseProofs Symbol Screen ScreenSpec ScreenResize ScreenSafe Render RenderSpec Pixel PixelSpec PixelProofs PixelFrameSpec.

Lemma shows_none f b p : shows f b (0, 0, 0) p -> p = word b.
Proof.
  destruct f as [[fr fg] fb], b as [[br bg] bb]. intros ([[r g] bl] & _ & -> & N1 & N2 & N3). unfold nearest in *. assert (r = br) by lia. assert (g = bg) by lia. assert (bl = bb) by lia. now subst.
Qed.
(* Nothing but background belongs there. *)
Definition px_back (c : ctx) (e : easel) (d : dcall) (u v : Z) : bool :=
  let '(k, f) := face_for e (d_attr d) in
  negb (a_underline (d_attr d)) &&
  match (if d_len d =? 0 then None else glyph_for c k f (d_ch d)) with
  | None => true
  | Some g => let '(m1, m2, m3) := cover g u v in (m1 =? 0) && (m2 =? 0) && (m3 =? 0)
  end.
Lemma right_back c e d u v p : px_back c e d u v = true -> right_pixel c e d u v p -> p = word (snd (inks (d_attr d))).
Proof.
  unfold px_back, right_pixel. destruct (inks (d_attr d)) as [fore back]. destruct (face_for e (d_attr d)) as [k f]. intros E. apply andb_prop in E. destruct E as [E1 E2]. apply negb_true_iff in E1. rewrite E1. cbn [andb].
  destruct (if d_len d =? 0 then None else glyph_for c k f (d_ch d)) as [g|]; [|auto]. destruct (cover g u v) as [[m1 m2] m3]. assert (m1 = 0 /\ m2 = 0 /\ m3 = 0) as (-> & -> & ->) by lia. apply shows_none.
Qed.
(* After the events and a frame, that pixel of that cell is not background though
   it should be. *)
Definition exposed (w : widget) (evs : list event) (y x u v : Z) : bool :=
  match on_events w (evs ++ [GDraw]), play (client0 scr_init) (flat_map (acts_of (e_regular (g_easel w))) evs) with
  | Ok (Some w'), Ok k =>
    match draw (k_scr k) with
    | Ok (ds, _, _) =>
      match find (fun d => (d_y d =? y) && (d_x d =? x)) ds with
      | Some d => (d_width d =? 1) && px_back (g_ctx w') (g_easel w') d u v &&
        (0 <=? u) && (u <? x_w (g_ctx w')) && (0 <=? v) && (v <? x_h (g_ctx w')) &&
        match pixel (e_rend (g_easel w')) (d_x d * x_w (g_ctx w') + u) (d_y d * x_h (g_ctx w') + v) with
        | Some p => negb (p =? word (snd (inks (d_attr d))))
        | None => false
        end
      | None => false
      end
    | Ub => false
    end
  | _, _ => false
  end.
Lemma exposed_refutes (new : widget -> Prop) (ok : event -> Prop) w evs y x u v : new w -> Forall ok evs -> play_aged (client0 scr_init) (flat_map (acts_of (e_regular (g_easel w))) evs) ->
  exposed w evs y x u v = true -> ~ frames_right new ok.
Proof.
  intros N O A E H. unfold exposed in E. destruct (on_events w (evs ++ [GDraw])) as [[w'|]|] eqn:E1; try discriminate. destruct (play (client0 scr_init) (flat_map (acts_of (e_regular (g_easel w))) evs)) as [k|] eqn:E2; [|discriminate].
  destruct (H w evs k N O A E2) as (o & ds & s & age & F1 & F2 & F3). rewrite F2 in E. destruct (find _ ds) as [d|] eqn:E3; [|discriminate]. apply find_some in E3. destruct E3 as [I _].
  assert (o = Some w') by congruence. subst o. apply andb_prop in E. destruct E as [E Ep]. destruct (pixel (e_rend (g_easel w')) (d_x d * x_w (g_ctx w') + u) (d_y d * x_h (g_ctx w') + v)) as [p|] eqn:Px; [|discriminate].
  apply andb_prop in E. destruct E as [E B4]. apply andb_prop in E. destruct E as [E B3]. apply andb_prop in E. destruct E as [E B2]. apply andb_prop in E. destruct E as [E B1]. apply andb_prop in E. destruct E as [W B].
  pose proof (F3 w' d eq_refl I ltac:(lia) u v p ltac:(lia) ltac:(lia) Px) as R. apply (right_back _ _ _ _ _ _ B) in R. rewrite R, Z.eqb_refl in Ep. discriminate.
Qed.

(* -- a widget ----------------------------------------------------------------------------- *)
(* Cells of 2 by 3 pixels, grey glyphs as dark as the character says. *)
Definition grey : attr := mkA (-1) (-1) 200 100 50 0 10 20 false false false false false false.
Definition loud : attr := mkA (-1) (-1) 200 100 50 0 10 20 true false true false false false.
Definition tiny : face := mkFace 2 3 1 2 [].
Definition broad : face := mkFace 5 3 1 2 [].
Definition dab (n : nat) (ch : list Z) : list Z := repeat (match ch with c :: _ => c mod 256 | [] => 0 end) n.
Definition ctx0 : ctx := mkX 2 3 false A8 (fun k ch _ => Some (dab (if k =? 1 then 24 else 12) ch)).
Definition ctx1 : ctx := mkX 2 3 false A8 (fun k ch _ => Some (dab 12 ch)).
Definition blob : Pixel.glyph := mkG A1 3 4 2 [5; 0; 0; 0; 2; 0; 0; 0].
Definition canvas : rend := match renderer_realloc 8 6 true with Some r => r | None => mkRend 1 1 4 [0] 0 end.
Definition demo : widget := mkWg ctx1 (mkEasel canvas tiny (Some tiny) None) scr_init.
Definition demo_broad : widget := mkWg ctx0 (mkEasel canvas tiny (Some broad) None) scr_init.
Lemma byte_dab n ch : Forall byte (dab n ch).
Proof. apply Forall_forall. intros b H. apply repeat_spec in H. subst b. unfold byte. destruct ch as [|c r]; [lia|]. pose proof (Z.mod_pos_bound c 256 ltac:(lia)). lia. Qed.
Lemma canvas_sound : sound canvas.
Proof. constructor; vm_compute; split; congruence || reflexivity. Qed.
Lemma tiny_fits c : x_w c = 2 -> x_h c = 3 -> fits c tiny.
Proof. intros A B. constructor; cbn; lia. Qed.
Lemma demo_new : new_widget demo.
Proof.
  constructor; [|reflexivity|reflexivity|split; [reflexivity|]; split; intros f H; [injection H as <-; reflexivity|discriminate]].
  constructor; try (cbn; lia); [|exact canvas_sound|].
  - split; [apply tiny_fits; reflexivity|]. split; intros f H; [injection H as <-; apply tiny_fits; reflexivity|discriminate].
  - intros a ch g E. assert (F : snd (face_for (g_easel demo) a) = tiny) by (unfold face_for; cbn; now destruct (a_bold a), (a_italic a)). rewrite F in E. cbn in E. injection E as <-.
    constructor; try (cbn; lia); first [exact (byte_dab 12 ch)|exact (byte_dab 24 ch)].
Qed.
Lemma broad_new : new_any demo_broad.
Proof.
  constructor; try (cbn; lia); try reflexivity; [apply tiny_fits; reflexivity| |exact canvas_sound|].
  - split; [exists 172, 3, 2; reflexivity|]. split; intros f H; [injection H as <-; exists 430, 3, 2; reflexivity|discriminate].
  - intros a ch g E. assert (F : face_for (g_easel demo_broad) a = (0, tiny) \/ face_for (g_easel demo_broad) a = (1, broad)) by (unfold face_for; cbn; destruct (a_bold a), (a_italic a); auto).
    destruct F as [F|F]; rewrite F in E; cbn in E; injection E as <-; (constructor; try (cbn; lia); first [exact (byte_dab 12 ch)|exact (byte_dab 24 ch)]).
Qed.
Notation say c := (GCall (OWrite c grey)).
Definition evs_plain : list event := [GConfigure 9 6 true; say 97; GDraw; say 98; GDraw; GCall (OWrite 99 loud); GCall (OMoveTo 1 1); GCall (OSetFlags 4)].
Definition evs_wide : list event := [GConfigure 8 6 true; say 4352; GCall (OMoveTo 1 0); GCall (OInsChars 1); GCall (OMoveTo 3 1); GDraw; GCall (OMoveTo 0 0); GDraw; GCall (OMoveTo 3 1)].
Definition evs_bold : list event := [GConfigure 8 6 true; GCall (OMoveTo 3 1); GDraw; GCall (OMoveTo 0 0); GCall (OWrite 99 loud); GCall (OMoveTo 3 1)].
Definition evs_font : list event := [GConfigure 8 6 true; say 97; GDraw; GFont A8 (fun _ _ _ => Some (repeat 0 12)) tiny None None; GDraw].
Definition evs_half : list event := [GConfigure 8 6 true; say 97; say 98; GDraw; GCall (OMoveTo 0 0); say 4352; GCall (OMoveTo 3 1)].

(* As exposed, for a character two cells wide. *)
Definition halved (w : widget) (evs : list event) (y x u v : Z) : bool :=
  match on_events w (evs ++ [GDraw]), play (client0 scr_init) (flat_map (acts_of (e_regular (g_easel w))) evs) with
  | Ok (Some w'), Ok k =>
    match draw (k_scr k) with
    | Ok (ds, _, _) =>
      match find (fun d => (d_y d =? y) && (d_x d =? x)) ds with
      | Some d =>
        match x_ink (g_ctx w') 0 (d_ch d) 2, pixel (e_rend (g_easel w')) (d_x d * x_w (g_ctx w') + u) (d_y d * x_h (g_ctx w') + v) with
        | Some buf, Some p =>
          (d_width d =? 2) && negb (a_bold (d_attr d)) && negb (a_italic (d_attr d)) && negb (a_underline (d_attr d)) &&
          (0 <=? u) && (u <? 2 * x_w (g_ctx w')) && (0 <=? v) && (v <? x_h (g_ctx w')) &&
          (let '(m1, m2, m3) := cover (mkG (x_fmt (g_ctx w')) (2 * x_w (g_ctx w')) (stride_of (x_fmt (g_ctx w')) (2 * x_w (g_ctx w'))) (x_h (g_ctx w')) buf) u v in (m1 =? 0) && (m2 =? 0) && (m3 =? 0)) &&
          negb (p =? word (snd (inks (d_attr d))))
        | _, _ => false
        end
      | None => false
      end
    | Ub => false
    end
  | _, _ => false
  end.
Lemma halved_refutes (new : widget -> Prop) (ok : event -> Prop) w evs y x u v : new w -> Forall ok evs -> play_aged (client0 scr_init) (flat_map (acts_of (e_regular (g_easel w))) evs) ->
  halved w evs y x u v = true -> ~ wides_right new ok.
Proof.
  intros N O A E H. unfold halved in E. destruct (on_events w (evs ++ [GDraw])) as [[w'|]|] eqn:E1; try discriminate. destruct (play (client0 scr_init) (flat_map (acts_of (e_regular (g_easel w))) evs)) as [k|] eqn:E2; [|discriminate].
  destruct (draw (k_scr k)) as [[[ds s] age]|] eqn:E3; [|discriminate]. destruct (find _ ds) as [d|] eqn:E4; [|discriminate]. apply find_some in E4. destruct E4 as [I _].
  destruct (x_ink (g_ctx w') 0 (d_ch d) 2) as [buf|] eqn:Ei; [|discriminate]. destruct (pixel (e_rend (g_easel w')) (d_x d * x_w (g_ctx w') + u) (d_y d * x_h (g_ctx w') + v)) as [p|] eqn:Px; [|discriminate].
  repeat match goal with X : _ && _ = true |- _ => apply andb_prop in X; destruct X as [X ?] end.
  repeat match goal with X : negb _ = true |- _ => apply negb_true_iff in X end.
  pose proof (H w evs k w' ds s age d N O A E2 E1 E3 I ltac:(lia) ltac:(assumption) ltac:(assumption) ltac:(assumption) buf u v p Ei ltac:(lia) ltac:(lia) Px) as R.
  destruct (cover _ u v) as [[m1 m2] m3]. repeat match goal with X : _ && _ = true |- _ => apply andb_prop in X; destruct X as [X ?] end.
  assert (m1 = 0 /\ m2 = 0 /\ m3 = 0) as (-> & -> & ->) by lia. apply shows_none in R. lia.
Qed.
Ltac evs := repeat (apply Forall_cons; [unfold event_font, event_ok, event_args, op_args, u32_arg, attr_bytes, byte, grey, loud; cbn; repeat match goal with |- _ /\ _ => split end|]);
  [..|apply Forall_nil]; try exact I; try lia; try (right; left; vm_compute; reflexivity); try (right; right; reflexivity); try reflexivity; try (unfold byte; lia).
Lemma evs_plain_ok : Forall event_ok evs_plain.
Proof. unfold evs_plain. evs. Qed.
Lemma evs_wide_ok : Forall (event_args true) evs_wide.
Proof. unfold evs_wide. evs. Qed.
Lemma evs_half_ok : Forall (event_args true) evs_half.
Proof. unfold evs_half. evs. Qed.
Lemma evs_bold_ok : Forall event_ok evs_bold.
Proof. unfold evs_bold. evs. Qed.
Lemma evs_font_ok : Forall (event_font 2 3) evs_font.
Proof.
  unfold evs_font. evs; [exists 172, 3, 2; reflexivity|].
  intros ch g E. cbn in E. injection E as <-. constructor; cbn; try lia. repeat constructor; unfold byte; lia.
Qed.
Lemma wide_refuted : ~ frames_right new_widget (event_args true).
Proof. apply (exposed_refutes _ _ demo evs_wide 0 1 0 0 demo_new evs_wide_ok); [vm_compute; intuition|vm_compute; reflexivity]. Qed.
Lemma half_refuted : ~ wides_right new_widget (event_args true).
Proof. apply (halved_refutes _ _ demo evs_half 0 0 2 0 demo_new evs_half_ok); [vm_compute; intuition|vm_compute; reflexivity]. Qed.
Lemma faces_refuted : ~ frames_right new_any event_ok.
Proof. apply (exposed_refutes _ _ demo_broad evs_bold 0 2 0 0 broad_new evs_bold_ok); [vm_compute; intuition|vm_compute; reflexivity]. Qed.
Lemma font_refuted : ~ frames_right new_widget (event_font 2 3).
Proof. apply (exposed_refutes _ _ demo evs_font 0 0 0 0 demo_new evs_font_ok); [vm_compute; intuition|vm_compute; reflexivity]. Qed.
