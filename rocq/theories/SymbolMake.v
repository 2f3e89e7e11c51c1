(* Proofs about Symbol.v: symbols made of one number. *)
From Verif Require Import Base BaseProofs Symbol.

(* tsm_symbol_make gives a symbol of one character whatever it is given. *)
Lemma make_any t u : 0 <= u -> symbol_get t (symbol_make u) = [if u <=? UCS4_MAX then u else 0].
Proof.
  intros H. unfold symbol_make. destruct (Z.ltb_spec UCS4_MAX u) as [L|L].
  - replace (u <=? UCS4_MAX) with false by lia. reflexivity.
  - replace (u <=? UCS4_MAX) with true by lia. unfold symbol_get. replace (u <=? UCS4_MAX) with true by lia. reflexivity.
Qed.
