(* Specification vocabulary for src/shared: queues and lists. Nothing here
   refers to how the buffers are laid out. *)
From Verif Require Import Base Ring Array.

(* A byte queue observed through the calls of the ring: fifo q ops obs q' says
   that with content q the calls ops may answer obs and leave the content q'. *)
Inductive fifo : list Z -> list ring_op -> list ring_obs -> list Z -> Prop :=
| fi_nil q : fifo q [] [] q
| fi_push q mem d ops obs q' : fifo (q ++ d) ops obs q' -> fifo q (RPush mem d :: ops) (RRet 0 :: obs) q'
| fi_nomem q d ops obs q' : fifo q ops obs q' -> fifo q (RPush false d :: ops) (RRet (-12) :: obs) q'
| fi_pull q n ops obs q' : fifo (skipn (Z.to_nat n) q) ops obs q' -> fifo q (RPull n :: ops) (RNone :: obs) q'
| fi_peek q ops obs q' : fifo q ops obs q' -> fifo q (RPeek :: ops) (RBytes (map Some q) :: obs) q'
| fi_copy q n ops obs q' : fifo q ops obs q' ->
    fifo q (RCopy n :: ops) (RBytes (map Some (firstn (Z.to_nat n) q)) :: obs) q'
| fi_flush q ops obs q' : fifo [] ops obs q' -> fifo q (RFlush :: ops) (RNone :: obs) q'.

Definition ring_args (o : ring_op) : Prop :=
  match o with RPull n | RCopy n => 0 <= n | _ => True end.
Definition ring_pushed (ops : list ring_op) : Z :=
  fold_right (fun o n => match o with RPush _ d => zlen d + n | _ => n end) 0 ops.
(* Objects in memory are at most 2^63 bytes. *)
Definition MEM_MAX : Z := 9223372036854775808.

(* What was accepted for the pty: the data of the writes that returned 0. *)
Fixpoint accepted (ops : list pty_op) (codes : list Z) : list Z :=
  match ops, codes with
  | PWrite _ d :: ops', c :: codes' => (if c =? 0 then d else []) ++ accepted ops' codes'
  | PDispatch _ _ :: ops', _ => accepted ops' codes
  | _, _ => []
  end.
Definition pty_args (o : pty_op) : Prop :=
  let ok k := match k with KTake n => 0 < n | _ => True end in
  match o with PWrite _ _ => True | PDispatch k1 k2 => ok k1 /\ ok k2 end.
Definition pty_pushed (ops : list pty_op) : Z :=
  fold_right (fun o n => match o with PWrite _ d => zlen d + n | _ => n end) 0 ops.

(* The list behaviour of a dynamic array: the list after each call, and its
   return code; without memory a push may fail and changes nothing. *)
Inductive listlike : list Z -> list array_op -> list Z -> list Z -> Prop :=
| ll_nil l : listlike l [] [] l
| ll_push l mem x ops cs l' : listlike (l ++ [x]) ops cs l' -> listlike l (APush mem x :: ops) (0 :: cs) l'
| ll_nomem l x ops cs l' : listlike l ops cs l' -> listlike l (APush false x :: ops) (-12 :: cs) l'
| ll_pop l ops cs l' : listlike (removelast l) ops cs l' -> listlike l (APop :: ops) (0 :: cs) l'.
Definition push_pop (o : array_op) : Prop := match o with AResize _ _ => False | _ => True end.
