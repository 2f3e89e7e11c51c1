(* Model of /repo/src/shared/shl-pty.c:440-552, the set of ptys a bridge watches:
   which pointers the kernel gives back. Bridge.v has the bytes and the events;
   there a pty is never freed. Here bytes are left out: a dispatch makes calls
   through the pty's callback and is told whether reading was stopped (-EAGAIN). *)
From Verif Require Import Base Spawn.

(* What epoll_ctl keeps (shl-pty.c:484-488, 529-537): the file, the number it was
   added with, and data.ptr. *)
Record entry := mkN { n_file : Z; n_fd : Z; n_ptr : Z }.
(* The caller's process and ptys, the descriptors of its children that have not
   executed a program (these have what they inherited, close-on-exec or not), and
   the set behind the bridge (shl-pty.c:451-460). *)
Record bridge := mkB { b_world : world; b_kids : list fdt; b_set : list entry }.
(* Replacing one part (shl-pty.c:440-552). *)
Definition set_world (b : bridge) (w : world) : bridge := mkB w (b_kids b) (b_set b).
(* As above. *)
Definition set_kids (b : bridge) (l : list fdt) : bridge := mkB (b_world b) l (b_set b).
(* As above. *)
Definition set_set (b : bridge) (l : list entry) : bridge := mkB (b_world b) (b_kids b) l.

(* Whether a table has a descriptor for the master n. *)
Definition has_master (n : Z) (t : fdt) : bool :=
  existsb (fun x => match x with Some (mkF (Master k) _) => k =? n | _ => false end) t.
(* Closing a descriptor (shl-pty.c:294) takes a file out of the set only when no
   process has one left for it: epoll(7). *)
Definition settle (b : bridge) : bridge :=
  set_set b (filter (fun e => has_master (n_file e) (w_fds (b_world b)) || existsb (has_master (n_file e)) (b_kids b)) (b_set b)).
(* EPOLL_CTL_ADD (shl-pty.c:485, 534): a file is in the set once for each number.
   mem is whether the kernel has memory. *)
Definition ep_add (b : bridge) (f a : Z) (mem : bool) : bridge :=
  match fd_get (w_fds (b_world b)) f with
  | Some (mkF (Master n) _) =>
    if existsb (fun e => (n_file e =? n) && (n_fd e =? f)) (b_set b) || negb mem then b
    else set_set b (mkN n f a :: b_set b)
  | _ => b
  end.
(* EPOLL_CTL_DEL (shl-pty.c:548-551). *)
Definition ep_del (b : bridge) (f : Z) : bridge :=
  match fd_get (w_fds (b_world b)) f with
  | Some (mkF (Master n) _) => set_set b (filter (fun e => negb ((n_file e =? n) && (n_fd e =? f))) (b_set b))
  | _ => b
  end.

(* shl-pty.c:519-541 shl_pty_bridge_add. *)
Definition shl_pty_bridge_add (b : bridge) (a : Z) (mem : bool) : res bridge :=
  do o <- shl_pty_is_open (b_world b) a;
  if negb o then Ok b else do f <- shl_pty_get_fd (b_world b) a; Ok (ep_add b f a mem).
(* shl-pty.c:543-552 shl_pty_bridge_remove. *)
Definition shl_pty_bridge_remove (b : bridge) (a : Z) : res bridge :=
  do o <- shl_pty_is_open (b_world b) a;
  if negb o then Ok b else do f <- shl_pty_get_fd (b_world b) a; Ok (ep_del b f).
(* shl-pty.c:470-493 shl_pty_bridge_dispatch_pty. shl_pty_dispatch (393-403) does
   nothing on a closed pty; else reading calls back, which is run here as cb, and
   uses the pty again after it (366, 402). stop is whether it returned -EAGAIN. *)
Definition shl_pty_bridge_dispatch_pty (b : bridge) (a : Z) (cb : bridge -> res bridge) (stop mem : bool) : res bridge :=
  do o <- shl_pty_is_open (b_world b) a;
  if negb o then Ok b
  else
    do b <- cb b;
    do f <- shl_pty_get_fd (b_world b) a;
    Ok (if stop then ep_add b f a mem else b).
(* shl-pty.c:495-517 shl_pty_bridge_dispatch when epoll_wait reports the k-th entry. *)
Definition shl_pty_bridge_dispatch (b : bridge) (k : Z) (cb : bridge -> res bridge) (stop mem : bool) : res bridge :=
  match znth (b_set b) k with
  | Some e => shl_pty_bridge_dispatch_pty b (n_ptr e) cb stop mem
  | None => Ok b
  end.
(* The i-th child executes a program, losing what is close-on-exec (shl-pty.c:210),
   or ends. *)
Definition child_exec (b : bridge) (i : Z) (ends : bool) : bridge :=
  set_kids b (zupd (b_kids b) i (fun t => if ends then [] else map (fun x => match x with Some (mkF _ true) => None | _ => x end) t)).
(* The child of an opening, which goes on as a copy of the caller (shl-pty.c:218-251). *)
Definition child_added (b : bridge) (d : option did) : bridge :=
  match d with Some (Ret c _) => set_kids b (c_fds c :: b_kids b) | _ => b end.
