(* The hash table: property C48. Nothing is proved here but by reference. *)
From Verif Require Import Base Htable HtableSpec HtableProofs.
From Coq Require Import Permutation.

(* C48, for objects whose addresses have their highest bit in common, and up to
   3 * 2^28 insertions (beyond, 1 << bits would overflow). Every call ends, and
   the results are those of a bag, for every hash function. Missing: objects whose
   addresses differ in the highest bit; see C48_refuted. *)
Theorem C48_bag_partial : forall rehash k ops, 1 <= k < 64 -> Forall (consistent rehash) ops -> Forall (same_top k) ops -> inserts ops <= 3 * 2 ^ 28 ->
  exists rs ht bag, hrun rehash ht_init ops = Ok (rs, ht) /\ bag_run [] ops rs bag /\ Permutation (visited ht) bag.
Proof. exact htable_bag. Qed.
Print Assumptions C48_bag_partial.
Example C48_bag_ex : Forall (consistent demo_hash) demo_ops /\ Forall (same_top 6) demo_ops /\
  (exists ht, hrun demo_hash ht_init demo_ops = Ok ([RDone true; RDone true; RDone true; RDone true; RFound (Some 65); RFound None;
     RDone true; RDone true; RFound (Some 67); RDone true; RDone true; RFound (Some 70); RDone true; RFound (Some 69); RDone true; RFound (Some 66);
     RList [68; 66; 70; 66; 71; 69]; RList [68; 66; 70; 66; 71; 69]; RList []], ht)).
Proof.
  split; [|split; [|eexists; vm_compute; reflexivity]].
  - repeat constructor; try (unfold demo_hash; cbn; lia); intros q Q; apply Z.eqb_eq in Q; subst q; reflexivity.
  - repeat constructor; cbn; lia.
Qed.

(* C48 does not hold for all addresses: an object is lost. *)
Theorem C48_refuted : exists rehash ops rs ht, Forall (consistent rehash) ops /\ inserts ops = 2 /\ hrun rehash ht_init ops = Ok (rs, ht) /\
  forall bag, ~ bag_run [] ops rs bag.
Proof. exact htable_lost. Qed.
Print Assumptions C48_refuted.
