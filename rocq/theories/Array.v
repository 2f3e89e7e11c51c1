(* Model of the dynamic array /repo/src/shared/shl-array.h. An element is one
   value (element_size bytes are always copied together); storage that was
   never written is None. Whether realloc succeeds is an input. *)
From Verif Require Import Base.

(* shl-array.h:37-42 struct shl_array; size is the length of v_data. *)
Record array := mkV { v_data : list (option Z); v_len : Z; v_esz : Z }.

(* shl-array.h:47-74 shl_array_new; -22 is -EINVAL; allocations succeed. *)
Definition array_new (esz initial : Z) : option array :=
  if esz =? 0 then None
  else Some (mkV (repeat None (Z.to_nat (if initial =? 0 then 4 else initial))) 0 esz).

(* shl-array.h:86-99 shl_array_pow2: for (i = 1; i < 64; i *= 2) v |= v >> i. *)
Definition array_pow2 (v0 : Z) : Z :=
  if v0 =? 0 then 4
  else
    let v := fold_left (fun v i => Z.lor v (Z.shiftr v i)) [1; 2; 4; 8; 16; 32] (v0 - 1) in
    u64 (v + 1).

(* realloc(data, esz * n): the byte count wraps; fewer bytes than elements is a
   buffer too small, shown as the number of whole elements that fit. *)
Definition array_realloc (a : array) (n : Z) : list (option Z) :=
  let cap := u64 (v_esz a * n) / v_esz a in
  firstn (Z.to_nat cap) (v_data a) ++ repeat None (Z.to_nat (cap - zlen (v_data a))).

(* shl-array.h:102-125 shl_array_zresize. The size field after a wrapped
   realloc would differ from the storage; such calls are Ub. *)
Definition array_zresize (mem : bool) (a : array) (size : Z) : res (array * Z) :=
  if zlen (v_data a) <? size then
    if mem then
      let n := array_pow2 size in
      let d := array_realloc a n in
      if zlen d =? n then
        do d' <- zcopy d (v_len a) (repeat (Some 0) (Z.to_nat (size - v_len a)));
        Ok (mkV d' size (v_esz a), 0)
      else Ub
    else Ok (a, -12)
  else Ok (mkV (v_data a) size (v_esz a), 0).

(* shl-array.h:127-150 shl_array_push. *)
Definition array_push (mem : bool) (a : array) (x : Z) : res (array * Z) :=
  if zlen (v_data a) <=? v_len a then
    if mem then
      let n := u64 (zlen (v_data a) * 2) in
      let d := array_realloc a n in
      if zlen d =? n then
        do d' <- zmod d (v_len a) (fun _ => Some x);
        Ok (mkV d' (v_len a + 1) (v_esz a), 0)
      else Ub
    else Ok (a, -12)
  else
    do d' <- zmod (v_data a) (v_len a) (fun _ => Some x);
    Ok (mkV d' (v_len a + 1) (v_esz a), 0).

(* shl-array.h:152-158 shl_array_pop. *)
Definition array_pop (a : array) : array :=
  if v_len a =? 0 then a else mkV (v_data a) (v_len a - 1) (v_esz a).

(* shl-array.h:44-45, 160-166 SHL_ARRAY_AT. *)
Definition array_at (a : array) (i : Z) : res (option Z) := zget (v_data a) i.

(* The calls that change an array. *)
Inductive array_op := APush (mem : bool) (x : Z) | APop | AResize (mem : bool) (n : Z).
Definition array_step (a : array) (o : array_op) : res (array * Z) :=
  match o with
  | APush mem x => array_push mem a x
  | APop => Ok (array_pop a, 0)
  | AResize mem n => array_zresize mem a n
  end.
Fixpoint array_run (a : array) (ops : list array_op) : res (array * list Z) :=
  match ops with
  | [] => Ok (a, [])
  | o :: r =>
    do x <- array_step a o;
    do y <- array_run (fst x) r;
    Ok (fst y, snd x :: snd y)
  end.
