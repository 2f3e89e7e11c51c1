(* C70: the arithmetic helpers. Vocabulary in MacroSpec.v; proofs in MacroProofs.v. *)
From Verif Require Import Base Ring Macro MacroSpec MacroProofs.

(* The next power of two, on a machine of 64 bits. *)
Theorem C70_align_partial : forall u, 2 <= u <= 2 ^ 63 -> exists p, Macro.align_power2 64 u = Ok p /\ least_pow2 u p.
Proof. exact align_least. Qed.
Print Assumptions C70_align_partial.
Example C70_align_ex : Macro.align_power2 64 4097 = Ok 8192 /\ Macro.align_power2 64 8192 = Ok 8192 /\ Macro.align_power2 64 (2 ^ 63) = Ok (2 ^ 63).
Proof. repeat split; vm_compute; reflexivity. Qed.
(* It is undefined for all other values, of which the comment in the code says that
   1 gives 1 and the others 0. *)
Theorem C70_align_undefined : forall u, 0 <= u < 2 ^ 64 -> (Macro.align_power2 64 u = Ub <-> u < 2 \/ 2 ^ 63 < u).
Proof. exact align_undefined. Qed.
Print Assumptions C70_align_undefined.
Example C70_align_undefined_ex : 0 <= 2 ^ 63 + 1 < 2 ^ 64 /\ 2 ^ 63 < 2 ^ 63 + 1.
Proof. lia. Qed.
Theorem C70_align_refuted : ~ (forall u, 0 <= u < 2 ^ 64 -> Macro.align_power2 64 u <> Ub).
Proof. intros H. apply (H 0); [lia|vm_compute; reflexivity]. Qed.
Print Assumptions C70_align_refuted.
(* On a machine of 32 bits the count is still that of 64 bits: nothing up to 2^31 is
   defined, so no byte can be put into a ring (shl-ring.c:140). *)
Theorem C70_align32_refuted : forall u, 0 < u <= 2 ^ 31 -> Macro.align_power2 32 u = Ub.
Proof. exact align32_undefined. Qed.
Print Assumptions C70_align32_refuted.
Example C70_align32_ex : 0 < 4096 <= 2 ^ 31 /\ Macro.align_power2 32 4096 = Ub /\ Macro.align_power2 32 (2 ^ 31 + 1) = Ok 1.
Proof. split; [lia|]. split; vm_compute; reflexivity. Qed.
(* It is what the ring of C46 and C49 was modelled with. *)
Theorem C70_ring : forall u, 0 <= u < 2 ^ 64 -> Macro.align_power2 64 u = Ring.align_power2 u.
Proof. exact ring_align. Qed.
Print Assumptions C70_ring.
Example C70_ring_ex : 0 <= 5000 < 2 ^ 64 /\ Ring.align_power2 5000 = Ok 8192.
Proof. split; [lia|vm_compute; reflexivity]. Qed.

(* Multiplications give the product if it fits, else -ERANGE with the value as it
   was, whatever the widths of long and the fast types. *)
Theorem C70_mult : forall l f16 f32, l = 32 \/ l = 64 -> 16 <= f16 -> 32 <= f32 ->
  checked (2 ^ 64 - 1) shl_mult_ull /\ checked (2 ^ l - 1) (shl_mult_ul l) /\ checked (2 ^ 32 - 1) (shl_mult_u l) /\
  checked (2 ^ 64 - 1) shl_mult_u64 /\ checked (2 ^ 32 - 1) shl_mult_u32 /\ checked (2 ^ 16 - 1) (shl_mult_u16 f32) /\ checked (2 ^ 8 - 1) (shl_mult_u8 f16).
Proof. exact mult_all. Qed.
Print Assumptions C70_mult.
Example C70_mult_ex : shl_mult_u8 16 17 15 = (255, 0) /\ shl_mult_u8 16 16 16 = (16, -34) /\ shl_mult_ull (2 ^ 32) (2 ^ 31) = (2 ^ 63, 0) /\ shl_mult_ull (2 ^ 32) (2 ^ 32) = (2 ^ 32, -34) /\ shl_mult_ull (2 ^ 63) 0 = (0, 0).
Proof. repeat split; vm_compute; reflexivity. Qed.
Theorem C70_clamp : forall v l h, l <= h -> l <= shl_clamp v l h <= h /\ (l <= v <= h -> shl_clamp v l h = v) /\ (v < l -> shl_clamp v l h = l) /\ (h < v -> shl_clamp v l h = h).
Proof. exact clamp_spec. Qed.
Print Assumptions C70_clamp.
Theorem C70_extremes : forall a b, shl_max a b = Z.max a b /\ shl_min a b = Z.min a b.
Proof. exact extremes. Qed.
Print Assumptions C70_extremes.
Example C70_clamp_ex : shl_clamp (-5) 0 7 = 0 /\ shl_clamp 9 0 7 = 7 /\ shl_clamp 3 0 7 = 3.
Proof. repeat split; reflexivity. Qed.
