(* Independent specification of UTF-8 (RFC 3629 / Unicode), in plain arithmetic. *)
From Verif Require Import Base.

(* Unicode scalar values. *)
Definition scalar (cp : Z) : Prop := 0 <= cp <= 0x10FFFF /\ ~ (0xD800 <= cp <= 0xDFFF).

(* Unicode noncharacters: U+FDD0..U+FDEF and the last two of every plane. *)
Definition nonchar (cp : Z) : Prop :=
  0xFDD0 <= cp <= 0xFDEF \/ cp mod 65536 = 0xFFFE \/ cp mod 65536 = 0xFFFF.

(* The shortest-form encoding of a scalar value. *)
Definition utf8 (cp : Z) : list Z :=
  if cp <? 0x80 then [cp]
  else if cp <? 0x800 then [0xC0 + cp / 64; 0x80 + cp mod 64]
  else if cp <? 0x10000 then [0xE0 + cp / 4096; 0x80 + cp / 64 mod 64; 0x80 + cp mod 64]
  else [0xF0 + cp / 262144; 0x80 + cp / 4096 mod 64; 0x80 + cp / 64 mod 64; 0x80 + cp mod 64].

Definition utf8_text (cps : list Z) : list Z := flat_map utf8 cps.

(* What a terminal may safely accept: a byte string that is the shortest
   well-formed encoding of cp. *)
Definition well_formed (w : list Z) (cp : Z) : Prop := scalar cp /\ w = utf8 cp.

(* Structurally complete sequences: a lead byte followed by the number of
   continuation bytes it announces, with the value they carry (not necessarily
   shortest, possibly a surrogate, up to 21 bits). *)
Definition cont (b : Z) : Prop := 0x80 <= b < 0xC0.
Inductive structural : list Z -> Z -> Prop :=
| St1 b : 0 <= b < 0x80 -> structural [b] b
| St2 a b : 0xC0 <= a < 0xE0 -> cont b -> structural [a; b] ((a - 0xC0) * 64 + (b - 0x80))
| St3 a b c : 0xE0 <= a < 0xF0 -> cont b -> cont c ->
    structural [a; b; c] ((a - 0xE0) * 4096 + (b - 0x80) * 64 + (c - 0x80))
| St4 a b c d : 0xF0 <= a < 0xF8 -> cont b -> cont c -> cont d ->
    structural [a; b; c; d]
      ((a - 0xF0) * 262144 + (b - 0x80) * 4096 + (c - 0x80) * 64 + (d - 0x80)).

Definition byte (b : Z) : Prop := 0 <= b < 256.
Definition bytes (l : list Z) : Prop := Forall byte l.
