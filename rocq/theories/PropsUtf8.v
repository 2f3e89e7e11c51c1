(* Properties C01-C04, C06: UTF-8 and character width. The specification
   vocabulary is in Utf8Spec.v (utf8, scalar, nonchar, structural) and in
   WcwidthProofs.v (in_intervals, no_column). sg is the signedness of char. *)
From Verif Require Import Base BaseProofs Utf8 Utf8Spec Utf8Proofs Wcwidth WcwidthProofs.

(* C01: one code point, from any decoder state with no sequence pending. *)
Theorem C01_roundtrip_one : forall sg m g,
  0 <= g < 2 ^ 32 -> ucs4_to_utf8 g <> [] -> idle m ->
  exists n m', umach_run sg m (ucs4_to_utf8 g) = (m', repeat None n ++ [Some g])
            /\ length (ucs4_to_utf8 g) = S n /\ idle m'.
Proof. exact round_trip_one. Qed.
Print Assumptions C01_roundtrip_one.

Example C01_roundtrip_one_ex :
  ucs4_to_utf8 0x1F600 = [0xF0; 0x9F; 0x98; 0x80] /\
  umach_run true umach_new [0xF0; 0x9F; 0x98; 0x80]
  = (mkU UAccept 0x1F600, [None; None; None; Some 0x1F600]).
Proof. split; vm_compute; reflexivity. Qed.

(* C01: any text. *)
Theorem C01_roundtrip_text : forall sg m gs,
  idle m -> Forall (fun g => 0 <= g < 2 ^ 32 /\ ucs4_to_utf8 g <> []) gs ->
  umach_decode sg m (flat_map ucs4_to_utf8 gs) = gs
  /\ idle (fst (umach_run sg m (flat_map ucs4_to_utf8 gs))).
Proof. exact round_trip_text. Qed.
Print Assumptions C01_roundtrip_text.

Example C01_roundtrip_text_ex :
  umach_decode false (mkU UReject 77) (flat_map ucs4_to_utf8 [0x41; 0x20AC; 0x7FF; 0x10FFFD; 10])
  = [0x41; 0x20AC; 0x7FF; 0x10FFFD; 10].
Proof. vm_compute; reflexivity. Qed.

(* C02: at most one code point per byte, each below 2^21, on any bytes. *)
Theorem C02_bounded : forall sg bs,
  bytes bs ->
  length (snd (umach_run sg umach_new bs)) = length bs /\
  Forall (fun o => match o with Some v => 0 <= v < 2 ^ 21 | None => True end)
         (snd (umach_run sg umach_new bs)).
Proof. exact run_bounded. Qed.
Print Assumptions C02_bounded.

Example C02_bounded_ex :
  bytes [0xFF; 0xF7; 0xBF; 0xBF; 0xBF; 0x80; 0x41] /\
  snd (umach_run true umach_new [0xFF; 0xF7; 0xBF; 0xBF; 0xBF; 0x80; 0x41])
  = [Some 0xFFFD; None; None; None; Some 0x1FFFFF; None; Some 0x41].
Proof. split; [repeat constructor; unfold byte; lia|vm_compute; reflexivity]. Qed.

(* C02: whenever something other than U+FFFD is reported, the bytes just read
   are a complete lead-plus-continuations sequence carrying that value. *)
Theorem C02_malformed_is_fffd_or_nothing : forall sg bs b v,
  bytes (bs ++ [b]) ->
  umach_out (fst (umach_run sg umach_new (bs ++ [b]))) = Some v -> v <> 0xFFFD ->
  exists p w, bs ++ [b] = p ++ w /\ structural w v.
Proof. exact accepted_structural. Qed.
Print Assumptions C02_malformed_is_fffd_or_nothing.

Example C02_malformed_ex :
  umach_out (fst (umach_run true umach_new ([0x80; 0xE2; 0x82] ++ [0xAC]))) = Some 0x20AC.
Proof. vm_compute; reflexivity. Qed.

(* C02: self-synchronisation after any garbage. *)
Theorem C02_resync : forall sg garbage cp cps,
  scalar cp -> Forall scalar cps ->
  exists o, (o = cp \/ o = 0xFFFD) /\
    umach_decode sg umach_new (garbage ++ utf8 cp ++ utf8_text cps)
    = umach_decode sg umach_new garbage ++ o :: cps.
Proof. exact resync_any. Qed.
Print Assumptions C02_resync.

Example C02_resync_ex :
  umach_decode true umach_new ([0x41; 0xE2] ++ utf8 0x20AC ++ utf8_text [0x42; 0xE9])
  = [0x41; 0xFFFD; 0x42; 0xE9].
Proof. vm_compute; reflexivity. Qed.

(* C03 as stated (only shortest well-formed encodings are accepted) is false of
   the code: an overlong form, a surrogate and a value above U+10FFFF are
   reported as code points. *)


Theorem C03_only_shortest_refuted : ~ only_well_formed true /\ ~ only_well_formed false.
Proof. exact only_well_formed_false. Qed.
Print Assumptions C03_only_shortest_refuted.

Example C03_surrogate_accepted :
  umach_decode true umach_new [0xED; 0xA0; 0x80] = [0xD800] /\ ~ scalar 0xD800.
Proof. split; [vm_compute; reflexivity|unfold scalar; lia]. Qed.
Example C03_above_unicode_accepted :
  umach_decode false umach_new [0xF7; 0xBF; 0xBF; 0xBF] = [0x1FFFFF] /\ ~ scalar 0x1FFFFF.
Proof. split; [vm_compute; reflexivity|unfold scalar; lia]. Qed.

(* C03, the part that holds: what is accepted is a structurally complete
   sequence, and if it happens to be the shortest form of a scalar value it is
   decoded to exactly that value. Missing: exclusion of overlong forms,
   surrogates and values above U+10FFFF, which the code accepts. *)
Theorem C03_accepted_is_structural_partial : forall sg bs b v,
  bytes (bs ++ [b]) ->
  umach_out (fst (umach_run sg umach_new (bs ++ [b]))) = Some v -> v <> 0xFFFD ->
  exists p w, bs ++ [b] = p ++ w /\ structural w v /\
    (forall cp, well_formed w cp -> cp = v).
Proof. exact accepted_structural_exact. Qed.
Print Assumptions C03_accepted_is_structural_partial.

Example C03_accepted_is_structural_ex :
  bytes ([0xC3] ++ [0xA9]) /\
  umach_out (fst (umach_run true umach_new ([0xC3] ++ [0xA9]))) = Some 0xE9.
Proof. split; [repeat constructor; unfold byte; lia|vm_compute; reflexivity]. Qed.

(* C04: exactly the scalar values that are not noncharacters are encoded. *)
Theorem C04_encodes_exactly : forall g, 0 <= g < 2 ^ 32 ->
  (scalar g /\ ~ nonchar g -> ucs4_to_utf8 g = utf8 g /\ 1 <= zlen (ucs4_to_utf8 g) <= 4) /\
  (~ (scalar g /\ ~ nonchar g) -> ucs4_to_utf8 g = []).
Proof. exact encode_exact. Qed.
Print Assumptions C04_encodes_exactly.

Example C04_encodes_exactly_ex :
  ucs4_to_utf8 0x20AC = [0xE2; 0x82; 0xAC] /\ ucs4_to_utf8 0xFDD0 = [] /\ ucs4_to_utf8 0x110000 = [].
Proof. repeat split; vm_compute; reflexivity. Qed.

(* C04: injective and prefix-free. *)
Theorem C04_prefix_free : forall g h x,
  0 <= g < 2 ^ 32 -> 0 <= h < 2 ^ 32 -> ucs4_to_utf8 g <> [] -> ucs4_to_utf8 h <> [] ->
  ucs4_to_utf8 g ++ x = ucs4_to_utf8 h -> g = h /\ x = [].
Proof. exact encode_prefix_free. Qed.
Print Assumptions C04_prefix_free.

Example C04_prefix_free_ex : ucs4_to_utf8 0x41 <> [] /\ ucs4_to_utf8 0x41 ++ [] = ucs4_to_utf8 0x41.
Proof. split; [discriminate|reflexivity]. Qed.

(* C04 for the allocating variant: never writes past its buffer, and returns
   the concatenated encodings (NULL when there are none). *)
Theorem C04_alloc : forall cs,
  Forall (fun g => 0 <= g < 2 ^ 32) cs ->
  ucs4_to_utf8_alloc cs =
  Ok (match flat_map ucs4_to_utf8 cs with [] => None | l => Some l end).
Proof. exact alloc_ok. Qed.
Print Assumptions C04_alloc.

Example C04_alloc_ex :
  ucs4_to_utf8_alloc [0x41; 0xD800; 0x1F600] = Ok (Some [0x41; 0xF0; 0x9F; 0x98; 0x80])
  /\ ucs4_to_utf8_alloc [0xFFFF] = Ok None.
Proof. split; vm_compute; reflexivity. Qed.

(* C06: the width function, for every 32-bit code point (as wchar_t). *)
Theorem C06_width : forall c,
  exists w, ucs4_get_width c = Ok w /\
    (no_column (i32 c) -> w = 0) /\
    (~ no_column (i32 c) -> in_intervals WIDE_EASTASIAN (i32 c) -> w = 2) /\
    (~ no_column (i32 c) -> ~ in_intervals WIDE_EASTASIAN (i32 c) -> w = 1) /\
    0 <= w <= 2.
Proof. exact width_ok. Qed.
Print Assumptions C06_width.

Example C06_width_ex :
  ucs4_get_width 0x41 = Ok 1 /\ ucs4_get_width 0x4E2D = Ok 2 /\ ucs4_get_width 0x301 = Ok 0
  /\ ucs4_get_width 7 = Ok 0 /\ ucs4_get_width 0x3FFFD = Ok 2 /\ ucs4_get_width 0x3FFFE = Ok 1.
Proof. repeat split; vm_compute; reflexivity. Qed.
