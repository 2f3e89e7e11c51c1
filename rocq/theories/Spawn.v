(* Model of /repo/src/shared/shl-pty.c: opening a pty with a child process, and
   the references to it. Modelled are the descriptors of the two processes, the
   signals, the session and the terminal as far as these calls touch them.
   fork gives two processes; the parent's next call that waits is reading from
   the pipe (line 261), and until then the two share nothing else that either
   looks at, so the child's part is run first. No other process has the pipe.
   exit handlers are not modelled. *)
From Verif Require Import Base.

(* -- the kernel's side ------------------------------------------------------- *)
(* What a descriptor refers to; the numbers tell objects of a kind apart. Other
   is anything the caller has opened for itself (shl-pty.c:165, 210, 214). *)
Inductive obj := Master (n : Z) | Slave (n : Z) | PipeR (n : Z) | PipeW (n : Z) | Other (n : Z).
(* A descriptor with its O_CLOEXEC flag (shl-pty.c:165, 210, 214). *)
Record fdesc := mkF { f_obj : obj; f_cloexec : bool }.
(* The descriptors of a process, by number (used at shl-pty.c:127-269). *)
Definition fdt := list (option fdesc).
(* What number f refers to (read by every call that takes one, e.g. shl-pty.c:83). *)
Definition fd_get (t : fdt) (f : Z) : option fdesc := match znth t f with Some x => x | None => None end.
(* The table with entry n replaced (by open, dup2 and close, shl-pty.c:127-129, 165). *)
Fixpoint fd_put (t : fdt) (n : nat) (x : option fdesc) : fdt :=
  match n, t with
  | O, _ :: r => x :: r
  | O, [] => [x]
  | S m, y :: r => y :: fd_put r m x
  | S m, [] => None :: fd_put [] m x
  end.
(* The same for a number that may be negative, which changes nothing (as above). *)
Definition fd_set (t : fdt) (f : Z) (x : option fdesc) : fdt := if f <? 0 then t else fd_put t (Z.to_nat f) x.
(* New descriptors get the lowest number that is free (shl-pty.c:165, 210, 214). *)
Fixpoint fd_free (t : fdt) : Z :=
  match t with
  | Some _ :: r => 1 + fd_free r
  | _ => 0
  end.
(* open, posix_openpt, pipe2: the table and the number (shl-pty.c:165, 210, 214). *)
Definition fd_new (t : fdt) (o : obj) (cloexec : bool) : fdt * Z := (fd_set t (fd_free t) (Some (mkF o cloexec)), fd_free t).
(* close (e.g. shl-pty.c:172, 222); closing what is not open has no effect. *)
Definition fd_close (t : fdt) (f : Z) : fdt := match fd_get t f with Some _ => fd_set t f None | None => t end.
(* dup2 that works (shl-pty.c:127-129): onto itself it changes nothing. *)
Definition fd_dup2 (t : fdt) (a b : Z) : fdt :=
  match fd_get t a with
  | Some d => if a =? b then t else fd_set t b (Some (mkF (f_obj d) false))
  | None => t
  end.

(* A process: descriptors, what is done on signals 1 to 64 (0 is SIG_DFL), those
   blocked, whether it leads a session, its controlling terminal
   (shl-pty.c:144-183). *)
Record proc := mkProc { p_fds : fdt; p_sigs : list Z; p_mask : list Z; p_leader : bool; p_ctty : option Z }.
(* The process with other descriptors (shl-pty.c:127-129, 172, 222). *)
Definition p_setfds (p : proc) (t : fdt) : proc := mkProc t (p_sigs p) (p_mask p) (p_leader p) (p_ctty p).
(* The terminal: unlocked, size, UTF-8 input, erase character, bytes written to
   the slave (shl-pty.c:100-133, 156). *)
Record term := mkT { t_unlocked : bool; t_size : Z * Z; t_utf8 : bool; t_erase : Z; t_bytes : list Z }.
(* A new one (shl-pty.c:210): locked, the driver's defaults. *)
Definition term_new : term := mkT false (0, 0) false 127 [].
(* What happens to the k-th call of the child: it works, fails with errno, or the
   child is killed before it (shl-pty.c:104-181, in the order they are made). *)
Inductive fate := Works | Fails (errno : Z) | Kill.
(* All that is up to the kernel in one call of shl_pty_open: whether calloc gives
   memory (201), the errors of posix_openpt, pipe2 and fork (210, 214, 218; 0 is
   success), the child's calls, errors of the write to and the read from the pipe
   before they get through (83, 94), and the pid. *)
Record env := mkE { e_mem : bool; e_open : Z; e_pipe : Z; e_fork : Z; e_child : Z -> fate; e_send : list Z; e_recv : list Z; e_pid : Z }.

(* -- the child ---------------------------------------------------------------- *)
(* Its process, the terminal n, and the bytes in the pipe n (shl-pty.c:225-251). *)
Record child := mkC { c_proc : proc; c_term : term; c_pipe : list Z }.
(* Its descriptors, and these changed (shl-pty.c:226-250). *)
Definition c_fds (c : child) : fdt := p_fds (c_proc c).
(* As above (shl-pty.c:226-250). *)
Definition c_setfds (c : child) (t : fdt) : child := mkC (p_setfds (c_proc c) t) (c_term c) (c_pipe c).
(* A function in the child returned, or the child is gone (shl-pty.c:229, 237). *)
Inductive did := Ret (c : child) (r : Z) | Gone (c : child).
(* One of its calls: failing is handled by h, succeeding by k (shl-pty.c:108-181). *)
Definition sys (f : fate) (c : child) (h : Z -> did) (k : did) : did :=
  match f with Works => k | Fails e => h e | Kill => Gone c end.

(* signal.h: SIGSYS on x86-64 (used at shl-pty.c:149). *)
Definition SIGSYS : Z := 31.
(* shl-pty.c:149-150, the loop over the signals. *)
Definition sig_default (l : list Z) : list Z := mapi_from 1 (fun i d => if i <? SIGSYS then 0 else d) l.

(* shl-pty.c:135-184 pty_init_child. *)
Definition pty_init_child (ev : env) (n : Z) (c : child) (fd : Z) : did :=
  sys (e_child ev 0) c (fun e => Ret c (- e))
    (let p := c_proc c in
     let c := mkC (mkProc (p_fds p) (sig_default (p_sigs p)) [] (p_leader p) (p_ctty p)) (c_term c) (c_pipe c) in
     sys (e_child ev 1) c (fun e => Ret c (- e))
    (sys (e_child ev 2) c (fun e => Ret c (- e))
    (let t := c_term c in
     let c := mkC (c_proc c) (mkT true (t_size t) (t_utf8 t) (t_erase t) (t_bytes t)) (c_pipe c) in
     sys (e_child ev 3) c (fun e => Ret c (- e))
    (sys (e_child ev 4) c (fun e => Ret c (- e))
    (let x := fd_new (c_fds c) (Slave n) true in
     let slave := snd x in
     let c := c_setfds c (fst x) in
     sys (e_child ev 5) c (fun e => Ret (c_setfds c (fd_close (c_fds c) slave)) (- e))
    (let p := c_proc c in
     let c := mkC (mkProc (p_fds p) (p_sigs p) (p_mask p) true None) (c_term c) (c_pipe c) in
     sys (e_child ev 6) c (fun e => Ret (c_setfds c (fd_close (c_fds c) slave)) (- e))
    (let p := c_proc c in
     Ret (mkC (mkProc (p_fds p) (p_sigs p) (p_mask p) (p_leader p) (Some n)) (c_term c) (c_pipe c)) slave))))))).

(* shl-pty.c:100-133 pty_setup_child; the width and height are unsigned short. *)
Definition pty_setup_child (ev : env) (c : child) (slave w h : Z) : did :=
  sys (e_child ev 7) c (fun e => Ret c (- e))
  (sys (e_child ev 8) c (fun e => Ret c (- e))
  (let t := c_term c in
   let c := mkC (c_proc c) (mkT (t_unlocked t) (t_size t) true 8 (t_bytes t)) (c_pipe c) in
   sys (e_child ev 9) c (fun e => Ret c (- e))
  (let t := c_term c in
   let c := mkC (c_proc c) (mkT (t_unlocked t) (w, h) (t_utf8 t) (t_erase t) (t_bytes t)) (c_pipe c) in
   sys (e_child ev 10) c (fun e => Ret c (- e))
  (let c := c_setfds c (fd_dup2 (c_fds c) slave 0) in
   sys (e_child ev 11) c (fun e => Ret c (- e))
  (let c := c_setfds c (fd_dup2 (c_fds c) slave 1) in
   sys (e_child ev 12) c (fun e => Ret c (- e))
  (let c := c_setfds c (fd_dup2 (c_fds c) slave 2) in Ret c 0)))))).

(* shl-pty.c:72-75: enum shl_pty_msg. *)
Definition SHL_PTY_FAILED : Z := 0.
(* shl-pty.c:74. *)
Definition SHL_PTY_SETUP : Z := 1.
(* A byte written to descriptor fd (shl-pty.c:94). *)
Definition put_byte (c : child) (fd d : Z) : child :=
  match fd_get (c_fds c) fd with
  | Some (mkF (PipeW _) _) => mkC (c_proc c) (c_term c) (c_pipe c ++ [d])
  | Some (mkF (Slave _) _) =>
    let t := c_term c in mkC (c_proc c) (mkT (t_unlocked t) (t_size t) (t_utf8 t) (t_erase t) (t_bytes t ++ [d])) (c_pipe c)
  | _ => c
  end.
(* shl-pty.c:89-98 pty_send; EINTR is 4, EAGAIN 11. *)
Fixpoint pty_send (es : list Z) (c : child) (fd d : Z) : child :=
  match es with
  | [] => put_byte c fd d
  | e :: r => if (e =? 4) || (e =? 11) then pty_send r c fd d else c
  end.

(* shl-pty.c:225-251, what the child does: Ret when shl_pty_open returns in it (with
   fork's 0), Gone when it has exited or was killed. *)
Definition child_main (ev : env) (n : Z) (c : child) (fd comm0 comm1 w h : Z) : did :=
  match pty_init_child ev n c fd with
  | Gone c => Gone c
  | Ret c slave =>
    if slave <? 0 then Gone c
    else
      let c := c_setfds c (fd_close (fd_close (c_fds c) comm0) fd) in
      match pty_setup_child ev c slave w h with
      | Gone c => Gone c
      | Ret c r =>
        if r <? 0 then Gone c
        else
          let c := if 2 <? slave then c_setfds c (fd_close (c_fds c) slave) else c in
          match e_child ev 13 with
          | Works =>
            let c := pty_send (e_send ev) c comm1 SHL_PTY_SETUP in
            let c := c_setfds c (fd_close (c_fds c) comm1) in
            match e_child ev 14 with Works => Ret c 0 | _ => Gone c end
          | _ => Gone c
          end
      end
  end.

(* -- the parent ---------------------------------------------------------------- *)
(* shl-pty.c:61-70 struct shl_pty without the buffers. *)
Record pty := mkY { y_ref : Z; y_fd : Z; y_child : Z }.
(* The caller's process, the ptys by address (None is freed), the number of the
   next kernel object, and the children not waited for (shl-pty.c:186-269). *)
Record world := mkW { w_proc : proc; w_ptys : list (option pty); w_next : Z; w_kids : list Z }.
(* The caller's descriptors, and these and the ptys changed (shl-pty.c:201-294). *)
Definition w_fds (w : world) : fdt := p_fds (w_proc w).
(* As above (shl-pty.c:210-294). *)
Definition set_fds (w : world) (t : fdt) : world := mkW (p_setfds (w_proc w) t) (w_ptys w) (w_next w) (w_kids w).
(* As above (shl-pty.c:201, 286). *)
Definition set_ptys (w : world) (l : list (option pty)) : world := mkW (w_proc w) l (w_next w) (w_kids w).
(* Reading through a pointer to a pty (shl-pty.c:273-316); a freed one is undefined. *)
Definition at_pty (w : world) (a : Z) : res pty := match znth (w_ptys w) a with Some (Some y) => Ok y | _ => Ub end.
(* Writing through it, or freeing it (shl-pty.c:273-294). *)
Definition put_pty (w : world) (a : Z) (y : option pty) : world := set_ptys w (zupd (w_ptys w) a (fun _ => y)).

(* shl-pty.c:289-296 shl_pty_close. *)
Definition shl_pty_close (w : world) (a : Z) : res world :=
  do y <- at_pty w a;
  if y_fd y <? 0 then Ok w
  else Ok (put_pty (set_fds w (fd_close (w_fds w) (y_fd y))) a (Some (mkY (y_ref y) (-1) (y_child y)))).
(* shl-pty.c:271-277 shl_pty_ref. *)
Definition shl_pty_ref (w : world) (a : Z) : res world :=
  do y <- at_pty w a;
  if y_ref y =? 0 then Ok w else Ok (put_pty w a (Some (mkY (u64 (y_ref y + 1)) (y_fd y) (y_child y)))).
(* shl-pty.c:279-287 shl_pty_unref; the ring buffer is in Ring.v. *)
Definition shl_pty_unref (w : world) (a : Z) : res world :=
  do y <- at_pty w a;
  if y_ref y =? 0 then Ok w
  else
    let r := u64 (y_ref y - 1) in
    let w := put_pty w a (Some (mkY r (y_fd y) (y_child y))) in
    if negb (r =? 0) then Ok w
    else do w <- shl_pty_close w a; Ok (put_pty w a None).
(* shl-pty.c:298-302 shl_pty_is_open. *)
Definition shl_pty_is_open (w : world) (a : Z) : res bool := do y <- at_pty w a; Ok (0 <=? y_fd y).
(* shl-pty.c:304-309 shl_pty_get_fd. *)
Definition shl_pty_get_fd (w : world) (a : Z) : res Z := do y <- at_pty w a; Ok (if 0 <=? y_fd y then y_fd y else -32).
(* shl-pty.c:311-317 shl_pty_get_child. *)
Definition shl_pty_get_child (w : world) (a : Z) : res Z := do y <- at_pty w a; Ok (if 0 <? y_child y then y_child y else -10).

(* Whether a process may still write to the pipe (for shl-pty.c:83). *)
Definition holds_pipe (n : Z) (t : fdt) : bool :=
  existsb (fun x => match x with Some (mkF (PipeW k) _) => k =? n | _ => false end) t.
(* The read of shl-pty.c:83 when nothing interrupts it: a byte, the end of the
   file (0 bytes), or it waits for ever. *)
Inductive got := GByte (d : Z) | GEnd | GWait.
(* As above (shl-pty.c:83). *)
Definition read_pipe (n : Z) (parent : fdt) (f : Z) (d : did) : got :=
  match fd_get parent f with
  | Some (mkF (PipeR _) _) =>
    match d with
    | Ret c _ => match c_pipe c with b :: _ => GByte b | [] => if holds_pipe n parent || holds_pipe n (c_fds c) then GWait else GEnd end
    | Gone c => match c_pipe c with b :: _ => GByte b | [] => if holds_pipe n parent then GWait else GEnd end
    end
  | _ => GEnd
  end.
(* shl-pty.c:77-87 pty_recv. None if it waits for ever. *)
Fixpoint pty_recv (es : list Z) (g : got) : option Z :=
  match es with
  | [] => match g with GByte d => Some d | GEnd => Some SHL_PTY_FAILED | GWait => None end
  | e :: r => if (e =? 4) || (e =? 11) then pty_recv r g else Some SHL_PTY_FAILED
  end.

(* How shl_pty_open ends in the parent: what it returns, *out if it is set, and
   what became of the child if there is one; or never (shl-pty.c:186-269). *)
Inductive opened := Opened (w : world) (r : Z) (out : option Z) (d : option did) | Waits.
(* The cleanup of pty and fd at a return (shl-macro.h:59-63, shl-pty.h:41-46). *)
Definition leave (w : world) (a fd : Z) (r : Z) (d : option did) : res opened :=
  let w := if 0 <=? fd then set_fds w (fd_close (w_fds w) fd) else w in
  do w <- shl_pty_unref w a; Ok (Opened w r None d).
(* shl-pty.c:186-269 shl_pty_open with out not NULL. The variables are destroyed
   in the order fd, pty. *)
Definition shl_pty_open (ev : env) (w : world) (width height : Z) : res opened :=
  if negb (e_mem ev) then Ok (Opened w (-12) None None)
  else
    let a := zlen (w_ptys w) in
    let n := w_next w in
    let w := mkW (w_proc w) (w_ptys w ++ [Some (mkY 1 (-1) 0)]) (n + 1) (w_kids w) in
    if negb (e_open ev =? 0) then leave w a (-1) (- e_open ev) None
    else
      let x := fd_new (w_fds w) (Master n) true in
      let fd := snd x in
      let w := set_fds w (fst x) in
      if negb (e_pipe ev =? 0) then leave w a fd (- e_pipe ev) None
      else
        let x := fd_new (w_fds w) (PipeR n) true in
        let y := fd_new (fst x) (PipeW n) true in
        let comm0 := snd x in let comm1 := snd y in
        let w := set_fds w (fst y) in
        if negb (e_fork ev =? 0) then
          leave (set_fds w (fd_close (fd_close (w_fds w) comm0) comm1)) a fd (- e_fork ev) None
        else
          let d := child_main ev n (mkC (w_proc w) term_new []) fd comm0 comm1 width height in
          let w := mkW (w_proc w) (zupd (w_ptys w) a (fun _ => Some (mkY 1 fd (e_pid ev)))) (w_next w) (e_pid ev :: w_kids w) in
          let w := set_fds w (fd_close (w_fds w) comm1) in
          match pty_recv (e_recv ev) (read_pipe n (w_fds w) comm0 d) with
          | None => Ok Waits
          | Some b =>
            let w := set_fds w (fd_close (w_fds w) comm0) in
            if negb (b =? SHL_PTY_SETUP) then leave w a (-1) (-22) (Some d)
            else Ok (Opened w (e_pid ev) (Some a) (Some d))
          end.
