(* Model of the byte ring /repo/src/shared/shl-ring.c and of the output side of
   /repo/src/shared/shl-pty.c. Bytes of freshly allocated memory are None: they
   have no defined value. Whether malloc succeeds is an input. *)
From Verif Require Import Base.

(* shl-ring.h:20-25 struct shl_ring; size is the length of r_buf. *)
Record ring := mkR { r_buf : list (option Z); r_start : Z; r_used : Z }.

(* shl-ring.c:27-31 shl_ring_clear, also the zeroed initial ring. *)
Definition ring_zero : ring := mkR [] 0 0.

(* shl-ring.c:21-25 shl_ring_flush. *)
Definition ring_flush (r : ring) : ring := mkR (r_buf r) 0 0.

(* shl-ring.c:19 RING_MASK. *)
Definition ring_mask (r : ring) (v : Z) : Z := Z.land v (u64 (zlen (r_buf r) - 1)).

(* Source range of a memcpy or an iovec: &buf[i], n bytes, must lie in buf. *)
Definition bread (buf : list (option Z)) (i n : Z) : res (list (option Z)) :=
  if (0 <=? i) && (0 <=? n) && (i + n <=? zlen buf) then Ok (zslice buf i n) else Ub.

(* shl-ring.c:45-64 shl_ring_peek: the bytes behind the filled iovecs. *)
Definition ring_peek (r : ring) : res (list (list (option Z))) :=
  let size := zlen (r_buf r) in
  if r_used r =? 0 then Ok []
  else if u64 (r_start r + r_used r) <=? size then
    do a <- bread (r_buf r) (r_start r) (r_used r); Ok [a]
  else
    do a <- bread (r_buf r) (r_start r) (u64 (size - r_start r));
    do b <- bread (r_buf r) 0 (u64 (r_used r - (size - r_start r)));
    Ok [a; b].

(* shl-ring.c:71-89 shl_ring_copy: the bytes stored into the caller's buffer
   (which the caller provides with at least n bytes). *)
Definition ring_copy (r : ring) (n0 : Z) : res (list (option Z)) :=
  let n := if r_used r <? n0 then r_used r else n0 in
  if 0 <? n then
    let l := u64 (zlen (r_buf r) - r_start r) in
    if n <=? l then bread (r_buf r) (r_start r) n
    else
      do a <- bread (r_buf r) (r_start r) l;
      do b <- bread (r_buf r) 0 (n - l);
      Ok (a ++ b)
  else Ok [].

(* shl-ring.c:95-120 ring_resize with a successful malloc. *)
Definition ring_resize (r : ring) (nsize : Z) : res ring :=
  let buf := repeat None (Z.to_nat nsize) in
  do buf' <-
    (if 0 <? r_used r then
       let l := u64 (zlen (r_buf r) - r_start r) in
       if r_used r <=? l then
         do a <- bread (r_buf r) (r_start r) (r_used r); zcopy buf 0 a
       else
         do a <- bread (r_buf r) (r_start r) l;
         do buf1 <- zcopy buf 0 a;
         do b <- bread (r_buf r) 0 (u64 (r_used r - l));
         zcopy buf1 l b
     else Ok buf);
  Ok (mkR buf' 0 (r_used r)).

(* shl-macro.h:142-145 SHL_ALIGN_POWER2: 1 << (64 - clz(u - 1)); clz of 0 and a
   shift by 64 are undefined. *)
Definition align_power2 (u : Z) : res Z :=
  if (u <=? 1) || (9223372036854775808 <? u) then Ub else Ok (2 ^ (Z.log2 (u - 1) + 1)).

(* shl-ring.c:127-145 ring_grow; mem = malloc succeeds; -12 is -ENOMEM. *)
Definition ring_grow (mem : bool) (r : ring) (add : Z) : res (ring * Z) :=
  if add <=? u64 (zlen (r_buf r) - r_used r) then Ok (r, 0)
  else
    let need := u64 (r_used r + add) in
    if need <=? r_used r then Ok (r, -12)
    else
      do n <- align_power2 (if need <? 4096 then 4096 else need);
      if n =? 0 then Ok (r, -12)
      else if mem then do r' <- ring_resize r n; Ok (r', 0) else Ok (r, -12).

(* shl-ring.c:151-175 shl_ring_push. *)
Definition ring_push (mem : bool) (r0 : ring) (u8 : list Z) : res (ring * Z) :=
  let size := zlen u8 in
  if size =? 0 then Ok (r0, 0)
  else
    do g <- ring_grow mem r0 size;
    let '(r, err) := g in
    if err <? 0 then Ok (r, err)
    else
      let pos := ring_mask r (u64 (r_start r + r_used r)) in
      let l := u64 (zlen (r_buf r) - pos) in
      let data := map Some u8 in
      do buf <-
        (if size <=? l then zcopy (r_buf r) pos data
         else
           do b1 <- zcopy (r_buf r) pos (zslice data 0 l);
           zcopy b1 0 (zslice data l (size - l)));
      Ok (mkR buf (r_start r) (u64 (r_used r + size)), 0).

(* shl-ring.c:181-188 shl_ring_pull. *)
Definition ring_pull (r : ring) (n0 : Z) : ring :=
  let n := if r_used r <? n0 then r_used r else n0 in
  mkR (r_buf r) (ring_mask r (u64 (r_start r + n))) (u64 (r_used r - n)).

(* The calls of shl-ring.h:30-48. *)
Inductive ring_op :=
| RPush (mem : bool) (data : list Z)
| RPull (n : Z)
| RPeek
| RCopy (n : Z)
| RFlush.
(* What the caller sees: a return code or the bytes read. *)
Inductive ring_obs := RRet (code : Z) | RBytes (b : list (option Z)) | RNone.
Definition ring_step (r : ring) (o : ring_op) : res (ring * ring_obs) :=
  match o with
  | RPush mem d => do x <- ring_push mem r d; Ok (fst x, RRet (snd x))
  | RPull n => Ok (ring_pull r n, RNone)
  | RPeek => do v <- ring_peek r; Ok (r, RBytes (concat v))
  | RCopy n => do v <- ring_copy r n; Ok (r, RBytes v)
  | RFlush => Ok (ring_flush r, RNone)
  end.
Fixpoint ring_run (r : ring) (ops : list ring_op) : res (ring * list ring_obs) :=
  match ops with
  | [] => Ok (r, [])
  | o :: rest =>
    do x <- ring_step r o;
    do y <- ring_run (fst x) rest;
    Ok (fst y, snd x :: snd y)
  end.

(* shl-pty.c:338-348: what writev may do when offered n > 0 bytes: take k of
   them (0 < k <= n), take none, or fail with an error code. *)
Inductive kres := KTake (k : Z) | KZero | KErr (errno : Z).

(* shl-pty.c:319-354 pty_write: one writev per element of the oracle list, at
   most two; returns the bytes handed to the kernel. *)
Fixpoint pty_write_loop (r : ring) (ks : list kres) (sent : list (option Z))
  : res (ring * list (option Z) * Z) :=
  match ks with
  | [] => Ok (r, sent, if 0 <? r_used r then -11 else 0)
  | k :: ks' =>
    do v <- ring_peek r;
    match v with
    | [] => Ok (r, sent, 0)
    | _ =>
      match k with
      | KErr e => Ok (r, sent, if e =? 11 then 0 else if e =? 4 then -11 else - e)
      | KZero => Ok (r, sent, -32)
      | KTake n => pty_write_loop (ring_pull r n) ks' (sent ++ firstn (Z.to_nat n) (concat v))
      end
    end
  end.
Definition pty_write (r : ring) (k1 k2 : kres) : res (ring * list (option Z) * Z) :=
  pty_write_loop r [k1; k2] [].

(* The calls on the output side of an open pty: shl_pty_write
   (shl-pty.c:405-411) and the write half of shl_pty_dispatch (393-403). *)
Inductive pty_op := PWrite (mem : bool) (data : list Z) | PDispatch (k1 k2 : kres).
Record pty := mkPty { y_out : ring; y_sent : list (option Z); y_codes : list Z }.
Definition pty0 : pty := mkPty ring_zero [] [].
Definition pty_step (p : pty) (o : pty_op) : res pty :=
  match o with
  | PWrite mem d =>
    do x <- ring_push mem (y_out p) d; Ok (mkPty (fst x) (y_sent p) (y_codes p ++ [snd x]))
  | PDispatch k1 k2 =>
    do x <- pty_write (y_out p) k1 k2;
    Ok (mkPty (fst (fst x)) (y_sent p ++ snd (fst x)) (y_codes p))
  end.
Fixpoint pty_run (p : pty) (ops : list pty_op) : res pty :=
  match ops with [] => Ok p | o :: r => do p' <- pty_step p o; pty_run p' r end.
