(* What a hash table should be: a bag of objects. *)
From Verif Require Import Base Htable.
From Coq Require Import Permutation.

(* One call on a bag: its result and the bag afterwards. *)
Inductive bag_step : list Z -> hop -> hres -> list Z -> Prop :=
  | bag_insert bag mem p hash : bag_step bag (HInsert mem p hash) (RDone true) (p :: bag)
  | bag_nomem bag p hash : bag_step bag (HInsert false p hash) (RDone false) bag
  | bag_lookup bag cmp hash p : In p bag -> cmp p = true -> bag_step bag (HLookup cmp hash) (RFound (Some p)) bag
  | bag_lookup_none bag cmp hash : (forall p, In p bag -> cmp p = false) -> bag_step bag (HLookup cmp hash) (RFound None) bag
  | bag_remove bag cmp hash p bag' : Permutation bag (p :: bag') -> cmp p = true -> bag_step bag (HRemove cmp hash) (RFound (Some p)) bag'
  | bag_remove_none bag cmp hash : (forall p, In p bag -> cmp p = false) -> bag_step bag (HRemove cmp hash) (RFound None) bag
  | bag_visit bag ps : Permutation ps bag -> bag_step bag HVisit (RList ps) bag
  | bag_clear bag ps : Permutation ps bag -> bag_step bag HClear (RList ps) [].
Inductive bag_run : list Z -> list hop -> list hres -> list Z -> Prop :=
  | bag_nil bag : bag_run bag [] [] bag
  | bag_cons bag o r bag1 os rs bag2 : bag_step bag o r bag1 -> bag_run bag1 os rs bag2 -> bag_run bag (o :: os) (r :: rs) bag2.

(* Proper use: the hash passed with an object is the one rehash computes, and
   objects that compare equal have equal hashes. *)
Definition word (x : Z) : Prop := 0 <= x < 2 ^ 64.
Definition consistent (rehash : Z -> Z) (o : hop) : Prop :=
  match o with
  | HInsert _ p hash => 0 < p < 2 ^ 64 /\ hash = rehash p
  | HLookup cmp hash | HRemove cmp hash => word hash /\ forall q, cmp q = true -> rehash q = hash
  | _ => True
  end.
(* All objects between 2^k and 2^(k+1): their highest bit is the same. *)
Definition same_top (k : Z) (o : hop) : Prop :=
  match o with HInsert _ p _ => 2 ^ k <= p < 2 ^ (k + 1) | _ => True end.
Fixpoint inserts (ops : list hop) : Z :=
  match ops with
  | [] => 0
  | HInsert _ _ _ :: r => 1 + inserts r
  | _ :: r => inserts r
  end.
