(* src/shared/shl-pty.c: the reading side of a pty and the bridge that watches
   several ptys through one epoll set, with the part of the kernel they rely
   on. Ring.v has the buffer and the writing side. *)
From Verif Require Import Base Ring.

(* shl-pty.c:60-70 struct shl_pty (t_open stands for fd >= 0, in_buf is
   t_ibuf, out_buf is t_out), and what the kernel keeps for its descriptor:
   the bytes the child wrote that were not read yet, how many bytes writev
   would take now, whether the child has gone, whether the descriptor is in the
   epoll set, and whether it is on the ready list of that set. The last three
   only remember the past for the statements: the results of the last pty_read
   and pty_write, and whether shl_pty_write was called after the last
   dispatch. *)
Record tty := mkTty {
  t_open : bool; t_ibuf : list Z; t_out : ring;
  t_in : list Z; t_room : Z; t_hup : bool; t_reg : bool; t_ready : bool;
  t_rcode : Z; t_wcode : Z; t_asked : bool }.

Definition set_in (q : list Z) (t : tty) := mkTty (t_open t) (t_ibuf t) (t_out t) q (t_room t) (t_hup t) (t_reg t) (t_ready t) (t_rcode t) (t_wcode t) (t_asked t).
Definition set_ibuf (b : list Z) (t : tty) := mkTty (t_open t) b (t_out t) (t_in t) (t_room t) (t_hup t) (t_reg t) (t_ready t) (t_rcode t) (t_wcode t) (t_asked t).
Definition set_out (r : ring) (t : tty) := mkTty (t_open t) (t_ibuf t) r (t_in t) (t_room t) (t_hup t) (t_reg t) (t_ready t) (t_rcode t) (t_wcode t) (t_asked t).
Definition set_room (n : Z) (t : tty) := mkTty (t_open t) (t_ibuf t) (t_out t) (t_in t) n (t_hup t) (t_reg t) (t_ready t) (t_rcode t) (t_wcode t) (t_asked t).
Definition set_hup (t : tty) := mkTty (t_open t) (t_ibuf t) (t_out t) (t_in t) (t_room t) true (t_reg t) (t_ready t) (t_rcode t) (t_wcode t) (t_asked t).
Definition set_watch (g y : bool) (t : tty) := mkTty (t_open t) (t_ibuf t) (t_out t) (t_in t) (t_room t) (t_hup t) g y (t_rcode t) (t_wcode t) (t_asked t).
Definition set_codes (r w : Z) (a : bool) (t : tty) := mkTty (t_open t) (t_ibuf t) (t_out t) (t_in t) (t_room t) (t_hup t) (t_reg t) (t_ready t) r w a.
Definition set_closed (t : tty) := mkTty false (t_ibuf t) (t_out t) (t_in t) (t_room t) (t_hup t) false false (t_rcode t) (t_wcode t) (t_asked t).

(* shl-pty.c:30 SHL_PTY_BUFSIZE. *)
Definition PTY_BUFSIZE : Z := 16384.
(* shl-pty.c:186-269 shl_pty_open, seen by the parent: a block from calloc and
   an open descriptor. room is what the kernel takes before the child reads. *)
Definition tty_new (room : Z) : tty :=
  mkTty true (repeat 0 (Z.to_nat PTY_BUFSIZE)) ring_zero [] room false false false 0 0 false.

(* What a system call is allowed to do: be interrupted, or move at most n
   bytes (at least one if there is anything to move). *)
Inductive mood := MIntr | MTake (n : Z).

(* read(2) on the descriptor, asked for at most max bytes (shl-pty.c:370): the
   bytes, or the error number. An empty queue is EAGAIN, and EIO after the child
   has gone. *)
Definition k_read (t : tty) (max : Z) (m : mood) : (list Z * tty) + Z :=
  match m with
  | MIntr => inr 4
  | MTake n =>
    match t_in t with
    | [] => inr (if t_hup t then 5 else 11)
    | q =>
      let k := Z.to_nat (Z.max 1 (Z.min n max)) in
      inl (firstn k q, set_in (skipn k q) t)
    end
  end.

(* writev(2) offered n > 0 bytes (shl-pty.c:338). *)
Definition k_write (hup : bool) (room n : Z) (m : mood) : kres :=
  match m with
  | MIntr => KErr 4
  | MTake w =>
    if hup then KErr 5
    else if room <=? 0 then KErr 11
    else KTake (Z.max 1 (Z.min w (Z.min room n)))
  end.

(* What can be seen: a call of fn_input with its data and the byte behind the
   data, a shl_pty_write with its data and result, bytes that writev took. *)
Inductive event :=
| Fed (i : Z) (data : list Z) (behind : Z)
| Asked (i : Z) (data : list Z) (code : Z)
| Sent (i : Z) (data : list (option Z)).

(* shl-pty.c:405-411 shl_pty_write. *)
Definition tty_write (i : Z) (mem : bool) (d : list Z) (t : tty) : res (tty * list event) :=
  if negb (t_open t) then Ok (t, [Asked i d (-19)])
  else
    do x <- ring_push mem (t_out t) d;
    Ok (set_codes (t_rcode t) (t_wcode t) true (set_out (fst x) t), [Asked i d (snd x)]).
(* The calls of shl_pty_write an application makes inside fn_input
   (gtktsm-terminal.c:1527-1545 does so through the terminal). *)
Fixpoint tty_writes (i : Z) (ws : list (bool * list Z)) (t : tty) : res (tty * list event) :=
  match ws with
  | [] => Ok (t, [])
  | (mem, d) :: r =>
    do x <- tty_write i mem d t;
    do y <- tty_writes i r (fst x);
    Ok (fst y, snd x ++ snd y)
  end.

(* shl-pty.c:356-391 pty_read: one read(2) per element of the list, at most two;
   each element has what the system call does and what fn_input writes. fn_input
   is not NULL and does not close the pty. *)
Fixpoint pty_read_loop (i : Z) (ms : list (mood * list (bool * list Z))) (t : tty) (tr : list event)
  : res (tty * list event * Z) :=
  match ms with
  | [] => Ok (t, tr, -11)
  | (m, ws) :: ms' =>
    match k_read t (PTY_BUFSIZE - 1) m with
    | inr e => Ok (t, tr, if e =? 11 then 0 else if e =? 4 then -11 else - e)
    | inl (d, t1) =>
      let len := zlen d in
      do b1 <- zcopy (t_ibuf t1) 0 d;
      do b2 <- zcopy b1 len [0];
      do z <- zget b2 len;
      do x <- tty_writes i ws (set_ibuf b2 t1);
      pty_read_loop i ms' (fst x) (tr ++ [Fed i (zslice b2 0 len) z] ++ snd x)
    end
  end.

(* What the kernel and the application do in one dispatch. *)
Record luck := mkLuck { l_r1 : mood; l_a1 : list (bool * list Z); l_r2 : mood; l_a2 : list (bool * list Z);
                        l_w1 : mood; l_w2 : mood }.

(* shl-pty.c:319-354 pty_write on the kernel above. *)
Definition tty_flush (l : luck) (t : tty) : res (tty * list (option Z) * Z) :=
  let k1 := k_write (t_hup t) (t_room t) (r_used (t_out t)) (l_w1 l) in
  let k2 := match k1 with
            | KTake n => k_write (t_hup t) (t_room t - n) (r_used (t_out t) - n) (l_w2 l)
            | _ => k1
            end in
  do x <- pty_write (t_out t) k1 k2;
  let '(r, sent, w) := x in
  Ok (set_room (t_room t - zlen sent) (set_out r t), sent, w).

(* shl-pty.c:393-403 shl_pty_dispatch. With heed it would also report what
   pty_write said; the code has heed = false. *)
Definition tty_dispatch (heed : bool) (i : Z) (l : luck) (t : tty) : res (tty * list event * Z) :=
  if negb (t_open t) then Ok (t, [], -19)
  else
    do x <- pty_read_loop i [(l_r1 l, l_a1 l); (l_r2 l, l_a2 l)] t [];
    let '(t1, tr, r) := x in
    do y <- tty_flush l t1;
    let '(t2, sent, w) := y in
    Ok (set_codes r w false t2, tr ++ [Sent i sent], if heed && (w =? -11) then w else r).

(* Whether epoll_ctl finds something to report when it looks at the descriptor. *)
Definition pollable (t : tty) : bool :=
  negb (match t_in t with [] => true | _ => false end) || (0 <? t_room t) || t_hup t.

(* epoll_ctl(2). EPOLL_CTL_ADD of a descriptor that is in the set already fails
   with EEXIST and changes nothing; otherwise it enters the set, and the ready
   list if there is anything to report. EPOLL_CTL_MOD looks again at one that
   is in the set. *)
Definition ctl_add (t : tty) : tty * Z :=
  if t_reg t then (t, -17) else (set_watch true (pollable t) t, 0).
Definition ctl_mod (t : tty) : tty * Z :=
  if t_reg t then (set_watch true (t_ready t || pollable t) t, 0) else (t, -2).

(* shl-pty.c:470-493 shl_pty_bridge_dispatch_pty. The code calls EPOLL_CTL_ADD
   (mend = false); with mend it would do what its comment says and modify, and
   heed the result of pty_write. *)
Definition bridge_dispatch_pty (mend : bool) (i : Z) (l : luck) (t : tty) : res (tty * list event) :=
  do x <- tty_dispatch mend i l t;
  let '(t1, tr, r) := x in
  Ok (if r =? -11 then fst (if mend then ctl_mod t1 else ctl_add t1) else t1, tr).

(* shl-pty.c:495-517 shl_pty_bridge_dispatch once epoll_wait has picked this
   pty: it leaves the ready list, being edge-triggered. If it is not on the
   list the call has returned without a pty. *)
Definition bridge_dispatch (mend : bool) (i : Z) (l : luck) (t : tty) : res (tty * list event) :=
  if t_ready t then bridge_dispatch_pty mend i l (set_watch (t_reg t) false t)
  else Ok (t, []).

(* shl-pty.c:519-541 shl_pty_bridge_add. *)
Definition bridge_add (t : tty) : tty * Z := if negb (t_open t) then (t, -19) else ctl_add t.
(* shl-pty.c:543-552 shl_pty_bridge_remove: EPOLL_CTL_DEL. *)
Definition bridge_remove (t : tty) : tty := if negb (t_open t) then t else set_watch false false t.
(* shl-pty.c:289-296 shl_pty_close: a closed descriptor leaves the set. *)
Definition tty_close (t : tty) : tty := if negb (t_open t) then t else set_closed t.

(* The kernel promises an event only when something becomes possible that was
   not: bytes to read in an empty queue, room where there was none, the child
   gone. KWake is an event it gives of its own accord. *)
Definition k_say (d : list Z) (t : tty) : tty :=
  let edge := match t_in t, d with [], _ :: _ => true | _, _ => false end in
  set_watch (t_reg t) (t_ready t || (t_reg t && edge)) (set_in (t_in t ++ d) t).
Definition k_drain (n : Z) (t : tty) : tty :=
  let edge := (t_room t <=? 0) && (0 <? t_room t + n) in
  set_watch (t_reg t) (t_ready t || (t_reg t && edge)) (set_room (t_room t + n) t).
Definition k_gone (t : tty) : tty :=
  set_watch (t_reg t) (t_ready t || t_reg t) (set_hup t).
Definition k_wake (t : tty) : tty := set_watch (t_reg t) (t_ready t || t_reg t) t.

(* Everything that happens: the child of pty i writes bytes, reads n bytes (so
   that there is room for n more), goes away; the kernel wakes the bridge; the
   application calls the functions of shl-pty.c. *)
Inductive bop :=
| KSay (i : Z) (d : list Z) | KDrain (i : Z) (n : Z) | KGone (i : Z) | KWake (i : Z)
| BAdd (i : Z) | BRemove (i : Z) | BClose (i : Z)
| BWrite (i : Z) (mem : bool) (d : list Z)
| BDispatchPty (i : Z) (l : luck) | BDispatch (i : Z) (l : luck).

Definition pure {A} (x : A) : res (A * list event) := Ok (x, []).
Definition at_tty (i : Z) (f : tty -> res (tty * list event)) (s : list tty) : res (list tty * list event) :=
  do t <- zget s i;
  do x <- f t;
  do s' <- zcopy s i [fst x];
  Ok (s', snd x).
Definition b_step (mend : bool) (s : list tty) (o : bop) : res (list tty * list event) :=
  match o with
  | KSay i d => at_tty i (fun t => pure (k_say d t)) s
  | KDrain i n => at_tty i (fun t => pure (k_drain n t)) s
  | KGone i => at_tty i (fun t => pure (k_gone t)) s
  | KWake i => at_tty i (fun t => pure (k_wake t)) s
  | BAdd i => at_tty i (fun t => pure (fst (bridge_add t))) s
  | BRemove i => at_tty i (fun t => pure (bridge_remove t)) s
  | BClose i => at_tty i (fun t => pure (tty_close t)) s
  | BWrite i mem d => at_tty i (tty_write i mem d) s
  | BDispatchPty i l => at_tty i (bridge_dispatch_pty mend i l) s
  | BDispatch i l => at_tty i (bridge_dispatch mend i l) s
  end.
Fixpoint b_run (mend : bool) (s : list tty) (ops : list bop) : res (list tty * list event) :=
  match ops with
  | [] => Ok (s, [])
  | o :: rest =>
    do x <- b_step mend s o;
    do y <- b_run mend (fst x) rest;
    Ok (fst y, snd x ++ snd y)
  end.
