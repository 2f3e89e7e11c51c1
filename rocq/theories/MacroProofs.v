(* Proofs about the arithmetic helpers. *)
From Verif Require Import Base BaseProofs Ring RingProofs Macro MacroSpec.

Lemma log2_bounds x : 0 < x < 2 ^ 64 -> 0 <= Z.log2 x <= 63.
Proof. intros H. split; [apply Z.log2_nonneg|]. assert (Z.log2 x < 64) by (apply Z.log2_lt_pow2; lia). lia. Qed.
Lemma align64 u : 2 <= u <= 2 ^ 63 -> Macro.align_power2 64 u = Ok (2 ^ (Z.log2 (u - 1) + 1)).
Proof.
  intros H. assert (B : 0 <= Z.log2 (u - 1) <= 62). { split; [apply Z.log2_nonneg|]. assert (Z.log2 (u - 1) < 63) by (apply Z.log2_lt_pow2; lia). lia. }
  unfold Macro.align_power2, clzll. rewrite u64_small by lia. replace (u - 1 =? 0) with false by lia. cbn [bind]. replace (64 - (63 - Z.log2 (u - 1))) with (Z.log2 (u - 1) + 1) by lia. rewrite u64_small by lia.
  unfold one_shl. replace (_ <? 64) with true by lia. cbn [bind]. rewrite Z.shiftl_1_l, Z.mod_small; [reflexivity|]. split; [lia|]. apply Z.pow_lt_mono_r; lia.
Qed.
Lemma least_log u : 2 <= u -> least_pow2 u (2 ^ (Z.log2 (u - 1) + 1)).
Proof.
  intros H. pose proof (Z.log2_nonneg (u - 1)). destruct (Z.log2_spec (u - 1) ltac:(lia)) as [L1 L2]. unfold Z.succ in L2. split; [exists (Z.log2 (u - 1) + 1); lia|]. split; [lia|].
  intros k K U. apply Z.pow_le_mono_r; [lia|]. assert (Z.log2 (u - 1) < k); [|lia]. apply Z.log2_lt_pow2; lia.
Qed.
Lemma align_least u : 2 <= u <= 2 ^ 63 -> exists p, Macro.align_power2 64 u = Ok p /\ least_pow2 u p.
Proof. intros H. exists (2 ^ (Z.log2 (u - 1) + 1)). split; [now apply align64|apply least_log; lia]. Qed.
Lemma align_undefined u : 0 <= u < 2 ^ 64 -> (Macro.align_power2 64 u = Ub <-> u < 2 \/ 2 ^ 63 < u).
Proof.
  intros H. split.
  - intros E. destruct (Z.ltb_spec u 2); [now left|]. destruct (Z.ltb_spec (2 ^ 63) u); [now right|]. rewrite align64 in E by lia. discriminate.
  - intros D. unfold Macro.align_power2, clzll. destruct (Z.eqb_spec (u64 (u - 1)) 0) as [|N]; [reflexivity|]. cbn [bind].
    assert (X : 2 ^ 63 <= u64 (u - 1) < 2 ^ 64).
    { destruct (Z.eq_dec u 0) as [->|]; [vm_compute; split; congruence|]. destruct (Z.eq_dec u 1) as [->|]; [exfalso; now apply N|]. rewrite u64_small by lia. lia. }
    assert (L : Z.log2 (u64 (u - 1)) = 63) by (apply Z.log2_unique; [lia|exact X]). rewrite L. reflexivity.
Qed.
Lemma align32_undefined u : 0 < u <= 2 ^ 31 -> Macro.align_power2 32 u = Ub.
Proof.
  intros H. unfold Macro.align_power2, clzll. rewrite u64_small by lia. destruct (Z.eqb_spec (u - 1) 0) as [|N]; [reflexivity|]. cbn [bind].
  assert (B : 0 <= Z.log2 (u - 1) <= 30). { split; [apply Z.log2_nonneg|]. assert (Z.log2 (u - 1) < 31) by (apply Z.log2_lt_pow2; lia). lia. }
  unfold one_shl, u64. replace (32 - (63 - Z.log2 (u - 1))) with (Z.log2 (u - 1) - 31) by lia. rewrite <- (Z.mod_add _ 1) by lia. rewrite Z.mod_small by lia. replace (_ <? 64) with false by lia. reflexivity.
Qed.
Lemma ring_align u : 0 <= u < 2 ^ 64 -> Macro.align_power2 64 u = Ring.align_power2 u.
Proof.
  intros H. destruct (Z.ltb_spec u 2) as [A|A]; [|destruct (Z.ltb_spec (2 ^ 63) u) as [B|B]].
  - rewrite (proj2 (align_undefined u H)) by now left. unfold Ring.align_power2. replace (_ || _) with true by lia. reflexivity.
  - rewrite (proj2 (align_undefined u H)) by now right. unfold Ring.align_power2. replace (_ || _) with true by lia. reflexivity.
  - rewrite align64 by lia. unfold Ring.align_power2. replace (_ || _) with false by lia. rewrite ?Z.shiftl_1_l. reflexivity.
Qed.
Lemma clamp_spec v l h : l <= h -> l <= shl_clamp v l h <= h /\ (l <= v <= h -> shl_clamp v l h = v) /\ (v < l -> shl_clamp v l h = l) /\ (h < v -> shl_clamp v l h = h).
Proof. intros H. unfold shl_clamp. destruct (Z.ltb_spec h v), (Z.ltb_spec v l); lia. Qed.
Lemma extremes a b : shl_max a b = Z.max a b /\ shl_min a b = Z.min a b.
Proof. unfold shl_max, shl_min. destruct (Z.ltb_spec b a), (Z.ltb_spec a b); lia. Qed.
Lemma real_checked max : 0 <= max -> checked max (real_mult max).
Proof.
  intros M v f V F. unfold real_mult, ERANGE. destruct (Z.eqb_spec f 0) as [->|N].
  - cbn [orb]. rewrite Z.mul_0_r, Z.mod_0_l by lia. split; [reflexivity|lia].
  - cbn [orb]. pose proof (Z.div_mod max f ltac:(lia)). pose proof (Z.mod_pos_bound max f ltac:(lia)). split; intros K.
    + replace (v <=? max / f) with true; [rewrite Z.mod_small by nia; reflexivity|]. symmetry. apply Z.leb_le. apply Z.div_le_lower_bound; lia.
    + replace (v <=? max / f) with false; [reflexivity|]. symmetry. apply Z.leb_gt. apply Z.div_lt_upper_bound; lia.
Qed.
Lemma upcast_checked t max : 0 <= max -> max < 2 ^ t -> max * max < 2 ^ t -> checked max (upcast_mult t max).
Proof.
  intros M T T2 v f V F. unfold upcast_mult, ERANGE. cbv zeta. rewrite (Z.mod_small f) by lia. rewrite (Z.mod_small (v * f)) by nia. split; intros K.
  - replace (v * f <=? max) with true by lia. rewrite Z.mod_small by nia. reflexivity.
  - replace (v * f <=? max) with false by lia. reflexivity.
Qed.
Lemma pow_mono a b : 0 <= a <= b -> 2 ^ a <= 2 ^ b.
Proof. intros H. apply Z.pow_le_mono_r; lia. Qed.
Lemma mult_all l f16 f32 : l = 32 \/ l = 64 -> 16 <= f16 -> 32 <= f32 ->
  checked (2 ^ 64 - 1) shl_mult_ull /\ checked (2 ^ l - 1) (shl_mult_ul l) /\ checked (2 ^ 32 - 1) (shl_mult_u l) /\
  checked (2 ^ 64 - 1) shl_mult_u64 /\ checked (2 ^ 32 - 1) shl_mult_u32 /\ checked (2 ^ 16 - 1) (shl_mult_u16 f32) /\ checked (2 ^ 8 - 1) (shl_mult_u8 f16).
Proof.
  intros L F16 F32. pose proof (pow_mono 16 f16 ltac:(lia)). pose proof (pow_mono 32 f32 ltac:(lia)). change (2 ^ 16) with 65536 in *. change (2 ^ 32) with 4294967296 in *. change (2 ^ 8) with 256.
  split; [apply real_checked; lia|]. split; [|split; [|split; [apply real_checked; lia|]]].
  - destruct L as [->| ->]; [exact (upcast_checked 64 (2 ^ 32 - 1) ltac:(lia) ltac:(lia) ltac:(lia))|exact (real_checked (2 ^ 64 - 1) ltac:(lia))].
  - destruct L as [->| ->]; exact (upcast_checked 64 4294967295 ltac:(lia) ltac:(lia) ltac:(lia)).
  - split; [exact (upcast_checked 64 4294967295 ltac:(lia) ltac:(lia) ltac:(lia))|]. split; apply upcast_checked; lia.
Qed.
