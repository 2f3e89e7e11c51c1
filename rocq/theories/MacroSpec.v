(* Vocabulary for the arithmetic helpers. *)
From Verif Require Import Base.

(* p is the least power of two not below u. *)
Definition least_pow2 (u p : Z) : Prop := (exists k, 0 <= k /\ p = 2 ^ k) /\ u <= p /\ forall k, 0 <= k -> u <= 2 ^ k -> p <= 2 ^ k.
(* Multiplication of values up to max that says when it does not fit. *)
Definition checked (max : Z) (mult : Z -> Z -> Z * Z) : Prop :=
  forall val factor, 0 <= val <= max -> 0 <= factor <= max ->
    (val * factor <= max -> mult val factor = (val * factor, 0)) /\
    (max < val * factor -> mult val factor = (val, -34)).
