(* Generic vocabulary of the model: results with undefined behaviour as a
   distinct outcome, C integer conversions, Z-indexed arrays as lists.
   Nothing in this file models a particular function of /repo; the definitions
   give the C language constructs used by all of src/tsm and src/shared. *)
From Coq Require Export ZArith List Bool Lia.
From Coq Require Export ZifyBool ZifyNat ZifyN.
Export ListNotations.
Ltac Zify.zify_post_hook ::= Z.div_mod_to_equations.
Global Open Scope Z_scope.
Global Open Scope list_scope.
Global Arguments Z.add : simpl never.
Global Arguments Z.sub : simpl never.
Global Arguments Z.mul : simpl never.
Global Arguments Z.div : simpl never.
Global Arguments Z.modulo : simpl never.
Global Arguments Z.pow : simpl never.
Global Arguments Z.land : simpl never.
Global Arguments Z.lor : simpl never.
Global Arguments Z.ldiff : simpl never.
Global Arguments Z.testbit : simpl never.
Global Arguments Z.to_nat : simpl never.
Global Arguments Z.of_nat : simpl never.
Global Arguments Z.eqb : simpl never.
Global Arguments Z.ltb : simpl never.
Global Arguments Z.leb : simpl never.
Global Arguments Z.max : simpl never.
Global Arguments Z.min : simpl never.

(* Outcome of a C function: a value, or undefined behaviour (out-of-bounds
   access, dangling pointer); used for every modelled function of src/tsm/*.c
   that touches memory. *)
Inductive res (A : Type) : Type :=
| Ok (a : A)
| Ub.
Arguments Ok {A} a.
Arguments Ub {A}.

(* Sequencing of C statements (e.g. src/tsm/tsm-screen.c:85-111): undefined
   behaviour is absorbing. *)
Definition bind {A B} (x : res A) (f : A -> res B) : res B :=
  match x with Ok a => f a | Ub => Ub end.
Notation "'do' x <- e ; k" := (bind e (fun x => k))
  (at level 200, x pattern, e at level 100, k at level 200, right associativity).

(* C integer conversions on x86-64 (unsigned int, uint64_t/size_t, int, int8_t,
   uint8_t), e.g. src/tsm/libtsm-int.h:106-158. *)
Definition u32 (z : Z) : Z := z mod 4294967296.
Definition u64 (z : Z) : Z := z mod 18446744073709551616.
Definition u8 (z : Z) : Z := z mod 256.
Definition i32 (z : Z) : Z := (z + 2147483648) mod 4294967296 - 2147483648.
Definition i8 (z : Z) : Z := (z + 128) mod 256 - 128.

(* Arrays are lists; lengths and indices are Z. *)
Notation zlen l := (Z.of_nat (length l)).

(* a[i] as an option, None outside the array (C array read). *)
Definition znth {A} (l : list A) (i : Z) : option A :=
  if i <? 0 then None else nth_error l (Z.to_nat i).

(* C array read a[i], undefined outside the array. *)
Definition zget {A} (l : list A) (i : Z) : res A :=
  match znth l i with Some a => Ok a | None => Ub end.

(* Apply f at every index, used to describe in-place updates of C arrays. *)
Fixpoint mapi_from {A B} (k : Z) (f : Z -> A -> B) (l : list A) : list B :=
  match l with
  | [] => []
  | x :: xs => f k x :: mapi_from (k + 1) f xs
  end.
Definition mapi {A B} (f : Z -> A -> B) (l : list A) : list B := mapi_from 0 f l.

(* In-place update a[i] = f(a[i]) (total version, no effect out of range). *)
Definition zupd {A} (l : list A) (i : Z) (f : A -> A) : list A :=
  mapi (fun k x => if k =? i then f x else x) l.

(* C array write a[i] = f(a[i]), undefined outside the array. *)
Definition zmod {A} (l : list A) (i : Z) (f : A -> A) : res (list A) :=
  if (0 <=? i) && (i <? zlen l) then Ok (zupd l i f) else Ub.

(* &a[i .. i+n) *)
Definition zslice {A} (l : list A) (i n : Z) : list A :=
  firstn (Z.to_nat n) (skipn (Z.to_nat i) l).

(* Overwrite a[i ..] by the list v (total version). *)
Definition zput {A} (l : list A) (i : Z) (v : list A) : list A :=
  firstn (Z.to_nat i) l ++ v ++ skipn (Z.to_nat i + length v)%nat l.

(* memcpy(&a[i], v, length v): undefined if the target range leaves the array. *)
Definition zcopy {A} (l : list A) (i : Z) (v : list A) : res (list A) :=
  if (0 <=? i) && (i + zlen v <=? zlen l) then Ok (zput l i v) else Ub.

(* memmove(&a[dst], &a[src], n elements): undefined if a range leaves the
   array (n is a byte count divided by the element size, so it may be huge). *)
Definition zmove {A} (l : list A) (dst src n : Z) : res (list A) :=
  if (0 <=? dst) && (0 <=? src) && (0 <=? n)
     && (dst + n <=? zlen l) && (src + n <=? zlen l)
  then Ok (zput l dst (zslice l src n)) else Ub.

(* for (i = start; count iterations; ++i) body, e.g. tsm-screen.c:150. *)
Fixpoint for_n {S} (n : nat) (i : Z) (body : Z -> S -> res S) (s : S) : res S :=
  match n with
  | O => Ok s
  | S n' => do s' <- body i s; for_n n' (i + 1) body s'
  end.

(* for (i = a; i < b; ++i) body *)
Definition forz {S} (a b : Z) (body : Z -> S -> res S) (s : S) : res S :=
  for_n (Z.to_nat (b - a)) a body s.

(* Bit test of a flag word: (w & (1 << n)) != 0. *)
Definition bit (w n : Z) : bool := Z.testbit w n.

(* a[i] updated by a partial operation on the element, e.g. the line object
   behind con->lines[i] (tsm-screen.c:404-416). *)
Definition zmodm {A} (l : list A) (i : Z) (f : A -> res A) : res (list A) :=
  do a <- zget l i;
  do a' <- f a;
  Ok (zupd l i (fun _ => a')).

(* Counted loop with break: the body returns the new state and whether to go
   on, e.g. tsm-screen.c:1331-1340. *)
Fixpoint loop_n {S} (n : nat) (body : S -> res (S * bool)) (s : S) : res S :=
  match n with
  | O => Ok s
  | S n' => do r <- body s;
            let '(s', go) := r in if go : bool then loop_n n' body s' else Ok s'
  end.
