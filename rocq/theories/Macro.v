(* Model of the arithmetic helpers of /repo/src/shared/shl-macro.h. *)
From Verif Require Import Base.

(* __builtin_clzll as used at shl-macro.h:144: undefined for 0. *)
Definition clzll (x : Z) : res Z := if x =? 0 then Ub else Ok (63 - Z.log2 x).
(* 1ULL << s (shl-macro.h:144): undefined from 64 on. *)
Definition one_shl (s : Z) : res Z := if s <? 64 then Ok (Z.shiftl 1 s) else Ub.
(* shl-macro.h:142-145 SHL_ALIGN_POWER2, where size_t has w bits. *)
Definition align_power2 (w u : Z) : res Z :=
  do c <- clzll (u64 (u - 1));
  do p <- one_shl (u64 (w - c));
  Ok (p mod 2 ^ w).
(* shl-macro.h:97-103 shl_max, 114-120 shl_min, 131-139 shl_clamp. *)
Definition shl_max (a b : Z) : Z := if b <? a then a else b.
Definition shl_min (a b : Z) : Z := if a <? b then a else b.
Definition shl_clamp (v l h : Z) : Z := if h <? v then h else if v <? l then l else v.
(* ERANGE (errno.h), used in shl-macro.h:189, 197. *)
Definition ERANGE : Z := 34.
(* shl-macro.h:185-190 SHL__REAL_MULT: what val becomes and the result. *)
Definition real_mult (max val factor : Z) : Z * Z :=
  if (factor =? 0) || (val <=? max / factor) then ((val * factor) mod (max + 1), 0) else (val, - ERANGE).
(* shl-macro.h:192-198 SHL__UPCAST_MULT with a type of t bits. *)
Definition upcast_mult (t max val factor : Z) : Z * Z :=
  let v := (val * (factor mod 2 ^ t)) mod 2 ^ t in
  if v <=? max then (v mod (max + 1), 0) else (val, - ERANGE).
(* shl-macro.h:200-246; l is the width of unsigned long, f16 and f32 those of
   uint_fast16_t and uint_fast32_t, uint_fast64_t and unsigned long long have 64
   bits and unsigned int 32. *)
Definition shl_mult_ull (val factor : Z) : Z * Z := real_mult (2 ^ 64 - 1) val factor.
Definition shl_mult_ul (l val factor : Z) : Z * Z :=
  if 2 ^ l - 1 <? 2 ^ 64 - 1 then upcast_mult 64 (2 ^ l - 1) val factor else shl_mult_ull val factor.
Definition shl_mult_u (l val factor : Z) : Z * Z :=
  if 2 ^ 32 - 1 <? 2 ^ l - 1 then upcast_mult l (2 ^ 32 - 1) val factor else upcast_mult 64 (2 ^ 32 - 1) val factor.
Definition shl_mult_u64 (val factor : Z) : Z * Z := real_mult (2 ^ 64 - 1) val factor.
Definition shl_mult_u32 (val factor : Z) : Z * Z := upcast_mult 64 (2 ^ 32 - 1) val factor.
Definition shl_mult_u16 (f32 val factor : Z) : Z * Z := upcast_mult f32 (2 ^ 16 - 1) val factor.
Definition shl_mult_u8 (f16 val factor : Z) : Z * Z := upcast_mult f16 (2 ^ 8 - 1) val factor.
