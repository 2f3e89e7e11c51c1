(* Vocabulary for opening ptys. *)
From Verif Require Import Base Spawn.

Definition same_fds (a b : fdt) : Prop := forall f, fd_get a f = fd_get b f.
(* The caller's descriptors: its own, and the masters of its ptys. *)
Definition own_or_master (t : fdt) : Prop :=
  forall f d, fd_get t f = Some d -> match f_obj d with Other _ | Master _ => True | _ => False end.
(* errno is positive; writing to and reading from the pipe, which both have ends
   of, can only be interrupted. *)
Definition interrupted (es : list Z) : Prop := Forall (fun e => e = 4 \/ e = 11) es.
Record env_ok (ev : env) : Prop := mkEok {
  ek_child : forall k e, e_child ev k = Fails e -> 0 < e;
  ek_open : 0 <= e_open ev; ek_pipe : 0 <= e_pipe ev; ek_fork : 0 <= e_fork ev; ek_pid : 0 < e_pid ev;
  ek_send : interrupted (e_send ev); ek_recv : interrupted (e_recv ev)
}.
(* A child ready to execute a program on terminal n: the terminal is its standard
   input, output and error, kept when executing, and its controlling terminal; it
   leads a session of its own; the other descriptors are those of the process it
   comes from; no signal is blocked and those below SIGSYS are handled by
   default. The terminal has the size asked for. *)
Record ready (n width height : Z) (before : proc) (c : child) : Prop := mkReady {
  rd_std : forall f, 0 <= f <= 2 -> fd_get (c_fds c) f = Some (mkF (Slave n) false);
  rd_rest : forall f, 2 < f -> fd_get (c_fds c) f = fd_get (p_fds before) f;
  rd_sigs : forall i, 0 <= i < 30 -> i < zlen (p_sigs before) -> znth (p_sigs (c_proc c)) i = Some 0;
  rd_sigs_rest : forall i, 30 <= i -> znth (p_sigs (c_proc c)) i = znth (p_sigs before) i;
  rd_mask : p_mask (c_proc c) = [];
  rd_session : p_leader (c_proc c) = true /\ p_ctty (c_proc c) = Some n;
  rd_term : c_term c = mkT true (width, height) true 8 []
}.
Definition child_of (d : did) : child := match d with Ret c _ | Gone c => c end.
(* The child has not ended: shl_pty_open returned in it. *)
Definition runs (d : option did) : Prop := match d with Some (Ret _ _) => True | _ => False end.
(* One of the standard descriptors is open. *)
Definition some_std (t : fdt) : Prop := exists f, 0 <= f <= 2 /\ fd_get t f <> None.

(* What the caller may do: open a pty, reference, drop and close one it holds a
   reference to, open a descriptor of its own and close such a one. *)
Inductive pcall :=
| POpen (ev : env) (width height : Z)
| PRef (a : Z) | PUnref (a : Z) | PClose (a : Z)
| POther (n : Z) (cloexec : bool) | PShut (f : Z).
(* The references held, as addresses, one for each. *)
Record client := mkCl { l_world : world; l_held : list Z }.
Fixpoint drop (a : Z) (l : list Z) : list Z :=
  match l with [] => [] | x :: r => if x =? a then r else x :: drop a r end.
Definition legal (s : client) (o : pcall) : Prop :=
  match o with
  | POpen ev _ _ => env_ok ev
  | PRef a => In a (l_held s) /\ zlen (l_held s) < 2 ^ 62
  | PUnref a | PClose a => In a (l_held s)
  | POther _ _ => True
  | PShut f => exists n b, fd_get (w_fds (l_world s)) f = Some (mkF (Other n) b)
  end.
Definition pstep (s : client) (o : pcall) : res client :=
  let w := l_world s in
  match o with
  | POpen ev x y =>
    do r <- shl_pty_open ev w x y;
    match r with Opened w' _ out _ => Ok (mkCl w' (match out with Some a => a :: l_held s | None => l_held s end)) | Waits => Ub end
  | PRef a => do w' <- shl_pty_ref w a; Ok (mkCl w' (a :: l_held s))
  | PUnref a => do w' <- shl_pty_unref w a; Ok (mkCl w' (drop a (l_held s)))
  | PClose a => do w' <- shl_pty_close w a; Ok (mkCl w' (l_held s))
  | POther n b => Ok (mkCl (set_fds w (fst (fd_new (w_fds w) (Other n) b))) (l_held s))
  | PShut f => Ok (mkCl (set_fds w (fd_close (w_fds w) f)) (l_held s))
  end.
(* Any history of such calls from a process without ptys. *)
Definition start (p : proc) : client := mkCl (mkW p [] 0 []) [].
Definition only_own (t : fdt) : Prop := forall f d, fd_get t f = Some d -> exists n, f_obj d = Other n.
Inductive preach : client -> Prop :=
| pr_start p : only_own (p_fds p) -> preach (start p)
| pr_step s o s' : preach s -> legal s o -> pstep s o = Ok s' -> preach s'.
(* The pty at a is open with descriptor f. *)
Definition open_at (s : client) (a f : Z) : Prop := exists y, at_pty (l_world s) a = Ok y /\ y_fd y = f /\ 0 <= f.
(* In order: the ptys alive are those held; the open ones have descriptors of
   their own, and every master in the table is one of these. *)
Record in_order (s : client) : Prop := mkOrder {
  or_alive : forall a, (exists y, at_pty (l_world s) a = Ok y) <-> In a (l_held s);
  or_open : forall a f, open_at s a f -> exists n, fd_get (w_fds (l_world s)) f = Some (mkF (Master n) true);
  or_apart : forall a b f, open_at s a f -> open_at s b f -> a = b;
  or_masters : forall f n b, fd_get (w_fds (l_world s)) f = Some (mkF (Master n) b) -> exists a, open_at s a f;
  or_kinds : own_or_master (w_fds (l_world s))
}.
(* What a call of shl_pty_open that returns did in the parent. *)
Definition opens (s : client) (ev : env) (x y : Z) (w' : world) (r : Z) (out : option Z) (d : option did) : Prop :=
  match out with
  | None => r < 0 /\ same_fds (w_fds w') (w_fds (l_world s)) /\ forall a, at_pty w' a = at_pty (l_world s) a
  | Some a => r = e_pid ev /\ ~ In a (l_held s) /\ exists f, at_pty w' a = Ok (mkY 1 f (e_pid ev)) /\ fd_get (w_fds (l_world s)) f = None /\
      (forall g, fd_get (w_fds w') g = if g =? f then Some (mkF (Master (w_next (l_world s))) true) else fd_get (w_fds (l_world s)) g) /\
      (forall b, b <> a -> at_pty w' b = at_pty (l_world s) b) /\
      exists c, d = Some c /\ ready (w_next (l_world s)) x y (w_proc (l_world s)) (child_of c)
  end.
