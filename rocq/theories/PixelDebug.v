(* Measuring lines and drawing with debug set. *)
From Verif Require Import Base BaseProofs Screen Render Pixel PixelSpec PixelDebugSpec.

Lemma measured_thick width height baseline f : 0 <= baseline <= height -> height < 2147483648 -> measure_pango width height baseline = Some f ->
  (forall t, t <= f_thick f <-> t <= 1 \/ 2 * t <= height - baseline /\ 14 * t <= height) /\
  (baseline + 2 * f_thick f <= height -> f_upos f = baseline + f_thick f) /\ (height < baseline + 2 * f_thick f -> f_upos f + f_thick f = height).
Proof.
  intros B H. unfold measure_pango. cbv zeta. set (w := u32 _). destruct ((w =? 0) || (height =? 0)) eqn:E; [discriminate|]. intros X. injection X as <-. cbn [f_h f_upos f_thick].
  rewrite (u32_small (height - baseline)) by lia.
  pose proof (Z.div_mod (height - baseline) 2 ltac:(lia)). pose proof (Z.mod_pos_bound (height - baseline) 2 ltac:(lia)).
  pose proof (Z.div_mod height 14 ltac:(lia)). pose proof (Z.mod_pos_bound height 14 ltac:(lia)).
  set (p := (height - baseline) / 2) in *. set (q := height / 14) in *. set (t := Z.max (Z.min p q) 1).
  assert (T : 1 <= t <= height) by (unfold t; lia).
  split; [intros u; unfold t; lia|]. rewrite (u32_small (baseline + t)), (u32_small (height - t)) by lia. lia.
Qed.
Lemma seen_skip c e d : x_debug c = false -> seen e d -> draw_cell c e d = Ok e.
Proof.
  intros D (S1 & S2 & S3). unfold draw_cell. rewrite D. replace (negb (d_age d =? 0) && negb (r_age (e_rend e) =? 0) && (d_age d <=? r_age (e_rend e))) with true by (symmetry; lia). reflexivity.
Qed.
Lemma debug_cell c e d : x_debug c = true ->
  (seen e d -> draw_cell c e d = draw_cell (quiet c) e (unseen d)) /\
  (~ seen e d -> draw_cell c e d = (do e1 <- draw_cell (quiet c) e (unseen d); do r <- renderer_highlight (e_rend e1) (u32 (d_x d * x_w c)) (u32 (d_y d * x_h c)) (u32 (x_w c * d_width d)) (x_h c); Ok (set_rend e1 r))).
Proof.
  intros D. unfold seen, draw_cell. rewrite D. cbn [x_debug x_w x_h x_fmt x_ink quiet unseen d_age d_x d_y d_id d_ch d_len d_width d_attr]. change (negb (0 =? 0)) with false. cbn [andb negb].
  set (skip := negb (d_age d =? 0) && negb (r_age (e_rend e) =? 0) && (d_age d <=? r_age (e_rend e))).
  split; intros S.
  - assert (K : skip = true) by (unfold skip; lia). rewrite K. cbn [andb negb]. reflexivity.
  - assert (K : skip = false) by (unfold skip; lia). rewrite K. cbn [andb negb].
    destruct (if a_inverse (d_attr d) then _ else _) as [[[[[fr fg] fb] br] bg] bb]. destruct (pick e _ _) as [k fc].
    match goal with |- (do t <- ?X; _) = _ => destruct X as [[r fc']|]; cbn [bind]; [|reflexivity] end.
    match goal with |- (do r0 <- ?X; _) = _ => destruct X as [r1|]; cbn [bind]; [|reflexivity] end.
    change (e_rend (set_rend (put_face e k fc') r1)) with r1.
    match goal with |- (do r0 <- ?X; _) = _ => destruct X as [r2|]; cbn [bind]; reflexivity end.
Qed.
