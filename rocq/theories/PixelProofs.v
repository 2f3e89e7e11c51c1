(* What the cell renderer paints. *)
From Verif Require Import Base BaseProofs Screen Render Pixel PixelSpec.

Definition over (c : option Z) (o : option Z) : option Z := match c with Some v => Some v | None => o end.
Lemma store_ok d k v : 0 <= k < zlen d -> exists d', store d (4 * k) v = Ok d' /\ zlen d' = zlen d /\ forall p, znth d' p = if p =? k then Some v else znth d p.
Proof.
  intros H. exists (zput d k [v]). unfold store. replace (4 * k mod 4) with 0 by (rewrite Z.mul_comm, Z.mod_mul; lia). replace (4 * k / 4) with k by (rewrite Z.mul_comm, Z.div_mul; lia).
  cbn [Z.eqb]. split; [apply zcopy_ok; cbn [length]; lia|]. split; [rewrite length_zput; cbn [length]; lia|].
  intros p. rewrite znth_zput by (cbn [length]; lia). cbn [length]. destruct (Z.eqb_spec p k) as [->|N].
  - replace ((k <=? k) && (k <? k + Z.of_nat 1)) with true by lia. now rewrite Z.sub_diag.
  - now replace ((k <=? p) && (p <? k + Z.of_nat 1)) with false by lia.
Qed.
Lemma row_spec f c : forall n d k i, 0 <= k -> 0 <= i -> k + i + Z.of_nat n <= zlen d -> (forall j, i <= j < i + Z.of_nat n -> f j = Ok (c j)) ->
  exists d', px_row d (4 * k) n i f = Ok d' /\ zlen d' = zlen d /\
  forall p, znth d' p = if (k + i <=? p) && (p <? k + i + Z.of_nat n) then over (c (p - k)) (znth d p) else znth d p.
Proof.
  induction n as [|n IH]; intros d k i Hk Hi L F.
  - exists d. split; [reflexivity|]. split; [reflexivity|]. intros p. now replace ((k + i <=? p) && (p <? k + i + Z.of_nat 0)) with false by lia.
  - cbn [px_row]. rewrite F by lia. cbn [bind].
    assert (S1 : exists d1, match c i with Some v => store d (4 * k + 4 * i) v | None => Ok d end = Ok d1 /\ zlen d1 = zlen d /\ forall p, znth d1 p = if p =? k + i then over (c i) (znth d p) else znth d p).
    { destruct (c i) as [v|].
      - replace (4 * k + 4 * i) with (4 * (k + i)) by lia. destruct (store_ok d (k + i) v) as (d1 & E & Z1 & P); [lia|]. exists d1. auto.
      - exists d. split; [reflexivity|]. split; [reflexivity|]. intros p. cbn. now destruct (p =? k + i). }
    destruct S1 as (d1 & E1 & Z1 & P1). rewrite E1. cbn [bind]. destruct (IH d1 k (i + 1)) as (d2 & E2 & Z2 & P2); [lia|lia|lia|intros j Hj; apply F; lia|].
    exists d2. split; [exact E2|]. split; [lia|]. intros p. rewrite P2, P1.
    destruct (Z.eqb_spec p (k + i)) as [->|N].
    + replace ((k + (i + 1) <=? k + i) && (k + i <? k + (i + 1) + Z.of_nat n)) with false by lia.
      replace ((k + i <=? k + i) && (k + i <? k + i + Z.of_nat (S n))) with true by lia. now replace (k + i - k) with i by lia.
    + now replace ((k + (i + 1) <=? p) && (p <? k + (i + 1) + Z.of_nat n)) with ((k + i <=? p) && (p <? k + i + Z.of_nat (S n))) by lia.
Qed.
Lemma rect_spec f c W w : 1 <= W -> 0 <= w <= W -> forall n d k row, 0 <= k -> (n <> O -> k + (Z.of_nat n - 1) * W + w <= zlen d) ->
  (forall r j, row <= r < row + Z.of_nat n -> 0 <= j < w -> f r j = Ok (c r j)) ->
  exists d', px_rect d (4 * k) (4 * W) n row w f = Ok d' /\ zlen d' = zlen d /\
  forall u v, 0 <= u < W -> znth d' (k + v * W + u) = if (0 <=? v) && (v <? Z.of_nat n) && (u <? w) then over (c (row + v) u) (znth d (k + v * W + u)) else znth d (k + v * W + u).
Proof.
  intros HW Hw. induction n as [|n IH]; intros d k row Hk L F.
  - exists d. split; [reflexivity|]. split; [reflexivity|]. intros u v _. now replace ((0 <=? v) && (v <? Z.of_nat 0) && (u <? w)) with false by lia.
  - cbn [px_rect]. assert (L' := L ltac:(discriminate)). assert (0 <= Z.of_nat n * W) by nia.
    destruct (row_spec (f row) (c row) (Z.to_nat w) d k 0) as (d1 & E1 & Z1 & P1); [lia|lia|nia|intros j Hj; apply F; lia|].
    rewrite E1. cbn [bind]. replace (4 * k + 4 * W) with (4 * (k + W)) by lia.
    destruct (IH d1 (k + W) (row + 1)) as (d2 & E2 & Z2 & P2); [lia|intros _; nia|intros r j Hr Hj; apply F; lia|].
    exists d2. split; [exact E2|]. split; [lia|]. intros u v Hu. replace (k + v * W + u) with (k + W + (v - 1) * W + u) by lia. rewrite P2 by exact Hu. rewrite P1.
    replace (row + 1 + (v - 1)) with (row + v) by lia. replace (k + W + (v - 1) * W + u) with (k + v * W + u) by lia.
    destruct (Z.eqb_spec v 0) as [->|N].
    + replace ((0 <=? 0 - 1) && (0 - 1 <? Z.of_nat n) && (u <? w)) with false by lia.
      replace ((0 <=? 0) && (0 <? Z.of_nat (S n)) && (u <? w)) with (u <? w) by lia.
      replace ((k + 0 <=? k + 0 * W + u) && (k + 0 * W + u <? k + 0 + Z.of_nat (Z.to_nat w))) with (u <? w) by lia.
      replace (k + 0 * W + u - k) with u by lia. now replace (row + 0) with row by lia.
    + assert (X : (k + 0 <=? k + v * W + u) && (k + v * W + u <? k + 0 + Z.of_nat (Z.to_nat w)) = false).
      { destruct (Z.ltb_spec v 0) as [V|V]; [assert (v * W + u < 0) by nia; lia|]. assert (W <= v * W) by nia. lia. }
      rewrite X. now replace ((0 <=? v - 1) && (v - 1 <? Z.of_nat n) && (u <? w)) with ((0 <=? v) && (v <? Z.of_nat (S n)) && (u <? w)) by lia.
Qed.

Lemma clip_spec p len size : 0 <= p -> 0 <= len -> 1 <= size -> p + len < 4294967296 ->
  clip p len size = if (len =? 0) || (size <=? p) then None else Some (Z.min len (size - p)).
Proof.
  intros. unfold clip. rewrite u32_small by lia. replace (p + len <=? p) with (len =? 0) by lia. destruct ((len =? 0) || (size <=? p)); [reflexivity|].
  f_equal. destruct (Z.ltb_spec size (p + len)); lia.
Qed.
(* Painted with c, where that says anything. *)
Definition overlaid (r r' : rend) (x y w h : Z) (c : Z -> Z -> option Z) : Prop :=
  sound r' /\ r_w r' = r_w r /\ r_h r' = r_h r /\ r_age r' = r_age r /\
  forall X Y, 0 <= X < r_w r -> 0 <= Y < r_h r ->
    pixel r' X Y = if (x <=? X) && (X <? x + w) && (y <=? Y) && (Y <? y + h) then over (c (X - x) (Y - y)) (pixel r X Y) else pixel r X Y.
Lemma area_lt a b W H : 0 <= a < W -> 0 <= b < H -> 0 <= b * W /\ b * W + a < W * H.
Proof. nia. Qed.
Lemma area_le a b W H : a <= W -> b <= H -> 0 <= W -> (b - 1) * W + a <= W * H.
Proof. nia. Qed.
Lemma painted_spec r x y w h f c : sound r -> 0 <= x -> 0 <= y -> 0 <= w -> 0 <= h -> x + w < 4294967296 -> y + h < 4294967296 ->
  (forall u v, 0 <= u < Z.min w (r_w r - x) -> 0 <= v < Z.min h (r_h r - y) -> f (Z.min w (r_w r - x)) (Z.min h (r_h r - y)) v u = Ok (c u v)) ->
  exists r', painted r x y w h f = Ok r' /\ overlaid r r' x y w h c.
Proof.
  intros [Sw Sh Ss Sz Sd] Hx Hy Hw Hh Ox Oy F. unfold painted. rewrite !clip_spec by lia.
  assert (Same : (forall X Y, 0 <= X < r_w r -> 0 <= Y < r_h r -> (x <=? X) && (X <? x + w) && (y <=? Y) && (Y <? y + h) = false) -> overlaid r r x y w h c).
  { intros K. split; [now constructor|]. do 3 (split; [reflexivity|]). intros X Y HX HY. now rewrite K. }
  destruct ((w =? 0) || (r_w r <=? x)) eqn:Ex; [exists r; split; [reflexivity|]; apply Same; lia|].
  destruct ((h =? 0) || (r_h r <=? y)) eqn:Ey; [exists r; split; [reflexivity|]; apply Same; lia|].
  set (w' := Z.min w (r_w r - x)) in *. set (h' := Z.min h (r_h r - y)) in *.
  destruct (area_lt x y (r_w r) (r_h r)) as [B0 B1]; [lia|lia|].
  rewrite Ss. rewrite (u32_small (y * (4 * r_w r))) by lia. rewrite (u32_small (x * 4)) by lia. rewrite u32_small by lia.
  replace (y * (4 * r_w r) + x * 4) with (4 * (y * r_w r + x)) by lia.
  destruct (rect_spec (f w' h') (fun v u => c u v) (r_w r) w' ltac:(lia) ltac:(lia) (Z.to_nat h') (r_data r) (y * r_w r + x) 0) as (d' & E & Zd & P).
  - lia.
  - intros _. rewrite Sd, Z2Nat.id by lia. pose proof (area_le (x + w') (y + h') (r_w r) (r_h r) ltac:(lia) ltac:(lia) ltac:(lia)). lia.
  - intros v u Hv Hu. apply F; lia.
  - rewrite E. cbn [bind]. eexists. split; [reflexivity|]. split; [constructor; cbn; auto; lia|]. do 3 (split; [reflexivity|]).
    intros X Y HX HY. unfold pixel. cbn [set_data r_w r_h r_data]. replace ((0 <=? X) && (X <? r_w r) && (0 <=? Y) && (Y <? r_h r)) with true by lia.
    destruct (Z.leb_spec x X) as [LX|LX].
    + replace (Y * r_w r + X) with (y * r_w r + x + (Y - y) * r_w r + (X - x)) by lia. rewrite P by lia. rewrite Z2Nat.id by lia. replace (0 + (Y - y)) with (Y - y) by lia.
      now replace ((0 <=? Y - y) && (Y - y <? h') && (X - x <? w')) with (true && (X <? x + w) && (y <=? Y) && (Y <? y + h)) by lia.
    + cbn [andb]. destruct (Z.eq_dec Y 0) as [Y0|Y0].
      * (* the row above the first, seen from the offset *)
        replace (Y * r_w r + X) with (y * r_w r + x + (Y - 1 - y) * r_w r + (X - x + r_w r)) by lia. rewrite P by lia.
        now replace ((0 <=? Y - 1 - y) && (Y - 1 - y <? Z.of_nat (Z.to_nat h')) && (X - x + r_w r <? w')) with false by lia.
      * replace (Y * r_w r + X) with (y * r_w r + x + (Y - 1 - y) * r_w r + (X - x + r_w r)) by lia. rewrite P by lia.
        now replace ((0 <=? Y - 1 - y) && (Y - 1 - y <? Z.of_nat (Z.to_nat h')) && (X - x + r_w r <? w')) with false by lia.
Qed.
Lemma overlaid_repainted r r' x y w h c : overlaid r r' x y w h (fun u v => Some (c u v)) -> repainted r r' x y w h c.
Proof. intros H. exact H. Qed.
Lemma fill_spec r x y w h br bg bb : sound r -> 0 <= x -> 0 <= y -> 0 <= w -> 0 <= h -> x + w < 4294967296 -> y + h < 4294967296 ->
  exists r', renderer_fill r x y w h br bg bb = Ok r' /\ repainted r r' x y w h (fun _ _ => word (br, bg, bb)).
Proof.
  intros. destruct (painted_spec r x y w h (fun _ _ _ _ => Ok (Some (argb br bg bb))) (fun _ _ => Some (argb br bg bb))) as (r' & E & O); auto.
  exists r'. split; [exact E|]. apply overlaid_repainted in O. exact O.
Qed.
Lemma highlight_spec r x y w h : sound r -> 0 <= x -> 0 <= y -> 0 <= w -> 0 <= h -> x + w < 4294967296 -> y + h < 4294967296 ->
  exists r', renderer_highlight r x y w h = Ok r' /\ overlaid r r' x y w h (fun u v =>
    if (u =? 0) || (u =? Z.min w (r_w r - x) - 1) || (v =? 0) || (v + 1 =? Z.min h (r_h r - y)) then Some (word (208, 16, 16)) else None).
Proof.
  intros. destruct (painted_spec r x y w h (fun w h row i =>
    Ok (if (i =? 0) || (i =? w - 1) || (row =? 0) || (row + 1 =? h) then Some (argb 208 16 16) else None))
    (fun u v => if (u =? 0) || (u =? Z.min w (r_w r - x) - 1) || (v =? 0) || (v + 1 =? Z.min h (r_h r - y)) then Some (word (208, 16, 16)) else None)) as (r' & E & O); auto.
  exists r'. split; [exact E|exact O].
Qed.

(* -- shades ------------------------------------------------------------------------ *)
Lemma div255_near t : 0 <= t <= 65025 -> 2 * Z.abs (255 * div255 t - t) < 255.
Proof.
  intros H. unfold div255. cbv zeta. rewrite !Z.shiftr_div_pow2 by lia. change (2 ^ 8) with 256.
  pose proof (Z.div_mod (t + 128) 256 ltac:(lia)). pose proof (Z.mod_pos_bound (t + 128) 256 ltac:(lia)). set (q := (t + 128) / 256) in *. set (m := (t + 128) mod 256) in *.
  pose proof (Z.div_mod (t + 128 + q) 256 ltac:(lia)). pose proof (Z.mod_pos_bound (t + 128 + q) 256 ltac:(lia)). lia.
Qed.
Lemma mixed_near f b m : byte f -> byte b -> byte m -> nearest f b m (mixed f b m) /\ byte (mixed f b m).
Proof.
  unfold byte, nearest, mixed. intros Hf Hb Hm. destruct (Z.eqb_spec m 0) as [->|]; [split; lia|]. destruct (Z.eqb_spec m 255) as [->|]; [split; lia|].
  assert (T : 0 <= f * m + b * (255 - m) <= 65025) by nia. pose proof (div255_near _ T). split; [assumption|]. lia.
Qed.
Lemma near_unique f b m v v' : nearest f b m v -> nearest f b m v' -> v = v'.
Proof. unfold nearest. lia. Qed.
Lemma bit_test m k : 0 <= k -> negb (Z.land m (Z.shiftl 1 k) =? 0) = Z.testbit m k.
Proof.
  intros Hk. rewrite Z.shiftl_1_l. destruct (Z.testbit m k) eqn:E.
  - destruct (Z.eqb_spec (Z.land m (2 ^ k)) 0) as [X|]; [|reflexivity]. exfalso. assert (Y : Z.testbit (Z.land m (2 ^ k)) k = true) by (now rewrite Z.land_spec, E, Z.pow2_bits_true). rewrite X, Z.bits_0 in Y. discriminate.
  - replace (Z.land m (2 ^ k)) with 0; [reflexivity|]. symmetry. apply Z.bits_inj'. intros n Hn. rewrite Z.bits_0, Z.land_spec. destruct (Z.eq_dec n k) as [->|N]; [now rewrite E|].
    rewrite Z.pow2_bits_false by lia. apply andb_false_r.
Qed.
Lemma byte_at g o : inked g -> 0 <= o < zlen (g_buf g) -> exists m, znth (g_buf g) o = Some m /\ byte m.
Proof.
  intros [_ _ _ _ B] H. destruct (znth (g_buf g) o) as [m|] eqn:E; [|apply znth_None_range in E; lia]. exists m. split; [reflexivity|].
  rewrite Forall_forall in B. apply B. exact (znth_In _ _ _ E).
Qed.
Definition blend_px (g : glyph) := match g_fmt g with A1 => blend_a1 | A8 => blend_a8 | XRGB32 => blend_xrgb32 end.
Lemma blend_spec g f b u v : inked g -> is_colour f -> is_colour b -> 0 <= u < g_w g -> 0 <= v < g_h g ->
  let '(fr, fg, fb) := f in let '(br, bg, bb) := b in
  exists p, blend_px g g fr fg fb br bg bb v u = Ok (Some p) /\ shows f b (cover g u v) p.
Proof.
  destruct f as [[fr fg] fb], b as [[br bg] bb]. intros I (F1 & F2 & F3) (B1 & B2 & B3) Hu Hv. pose proof I as [Iw Ih Is Iz _].
  assert (V : v * g_stride g + g_stride g <= zlen (g_buf g)).
  { rewrite Iz. assert (0 <= g_stride g).
    { rewrite Is. unfold stride_of. destruct (g_fmt g); [assert (0 <= (g_w g + 31) / 32) by (apply Z.div_pos; lia); lia|assert (0 <= (g_w g + 3) / 4) by (apply Z.div_pos; lia); lia|lia]. }
    nia. }
  assert (V0 : 0 <= v * g_stride g).
  { rewrite Is. unfold stride_of. apply Z.mul_nonneg_nonneg; [lia|]. destruct (g_fmt g); [assert (0 <= (g_w g + 31) / 32) by (apply Z.div_pos; lia); lia|assert (0 <= (g_w g + 3) / 4) by (apply Z.div_pos; lia); lia|lia]. }
  assert (Done : forall m1 m2 m3, byte m1 -> byte m2 -> byte m3 -> shows (fr, fg, fb) (br, bg, bb) (m1, m2, m3) (argb (mixed fr br m1) (mixed fg bg m2) (mixed fb bb m3))).
  { intros m1 m2 m3 M1 M2 M3. exists (mixed fr br m1, mixed fg bg m2, mixed fb bb m3).
    destruct (mixed_near fr br m1 F1 B1 M1), (mixed_near fg bg m2 F2 B2 M2), (mixed_near fb bb m3 F3 B3 M3).
    split; [cbn; auto|]. split; [reflexivity|]. auto. }
  unfold blend_px, cover. destruct (g_fmt g) eqn:Ef; unfold stride_of in Is.
  - unfold blend_a1. pose proof (Z.div_mod u 8 ltac:(lia)). pose proof (Z.mod_pos_bound u 8 ltac:(lia)).
    pose proof (Z.div_mod (g_w g + 31) 32 ltac:(lia)). pose proof (Z.mod_pos_bound (g_w g + 31) 32 ltac:(lia)).
    destruct (byte_at g (v * g_stride g + u / 8) I) as (m & M & Mb); [lia|]. rewrite (zget_ok _ _ _ M), M. cbn [bind]. eexists. split; [reflexivity|].
    rewrite bit_test by lia. destruct (Z.testbit m (u mod 8)).
    + replace (argb fr fg fb) with (argb (mixed fr br 255) (mixed fg bg 255) (mixed fb bb 255)) by reflexivity. apply Done; unfold byte; lia.
    + replace (argb br bg bb) with (argb (mixed fr br 0) (mixed fg bg 0) (mixed fb bb 0)) by reflexivity. apply Done; unfold byte; lia.
  - unfold blend_a8. pose proof (Z.div_mod (g_w g + 3) 4 ltac:(lia)). pose proof (Z.mod_pos_bound (g_w g + 3) 4 ltac:(lia)).
    destruct (byte_at g (v * g_stride g + u) I) as (m & M & Mb); [lia|]. rewrite (zget_ok _ _ _ M), M. cbn [bind]. eexists. split; [reflexivity|]. now apply Done.
  - unfold blend_xrgb32.
    destruct (byte_at g (v * g_stride g + u * 4) I) as (m0 & M0 & B0); [lia|]. destruct (byte_at g (v * g_stride g + u * 4 + 1) I) as (m1 & M1 & B1'); [lia|].
    destruct (byte_at g (v * g_stride g + u * 4 + 2) I) as (m2 & M2 & B2'); [lia|]. destruct (byte_at g (v * g_stride g + u * 4 + 3) I) as (m3 & M3 & B3'); [lia|].
    rewrite (zget_ok _ _ _ M0), (zget_ok _ _ _ M1), (zget_ok _ _ _ M2), (zget_ok _ _ _ M3). cbn [bind].
    replace (v * g_stride g + (4 * u + 2)) with (v * g_stride g + u * 4 + 2) by lia. replace (v * g_stride g + (4 * u + 1)) with (v * g_stride g + u * 4 + 1) by lia. replace (v * g_stride g + 4 * u) with (v * g_stride g + u * 4) by lia.
    rewrite M0, M1, M2. eexists. split; [reflexivity|]. now apply Done.
Qed.
