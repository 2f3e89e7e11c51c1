(* Vocabulary for what pty_write tells: from the number n of bytes waiting and what
   the system calls did. *)
From Verif Require Import Base Ring.

(* The bytes still waiting afterwards; a second call is made only if the first took
   some but not all. *)
Definition still (n : Z) (k1 k2 : kres) : Z :=
  match k1, k2 with
  | KTake a, KTake b => Z.max 0 (n - a - b)
  | KTake a, _ => Z.max 0 (n - a)
  | _, _ => n
  end.
Definition last_call (n : Z) (k1 k2 : kres) : kres := match k1 with KTake a => if a <? n then k2 else k1 | _ => k1 end.
(* Nothing waits, or nothing can be done until the kernel has room: 0. Something
   waits and trying again may help: -EAGAIN. Else the error. *)
Definition tells (left : Z) (k : kres) (c : Z) : Prop :=
  (left = 0 \/ k = KErr 11 -> c = 0) /\
  (0 < left -> match k with KTake _ => c = -11 | KZero => c = -32 | KErr e => (e = 4 -> c = -11) /\ (e <> 4 -> e <> 11 -> c = - e) end).
