(* Vocabulary for ptys watched by a bridge. *)
From Verif Require Import Base Spawn SpawnSpec Watch.

(* What may be called at any time, also by the callback: as in SpawnSpec.v, adding
   and removing ptys; and children execute programs or end. *)
Inductive wcall := WP (o : pcall) | WAdd (a : Z) (mem : bool) | WRemove (a : Z) | WChild (i : Z) (ends : bool).
(* And by the main loop: the bridge's descriptor is dispatched with the kernel
   reporting its k-th entry, or a pty is; cs is what the callback does. *)
Inductive wop := WCall (c : wcall) | WDispatch (k : Z) (cs : list wcall) (stop mem : bool) | WDispatchPty (a : Z) (cs : list wcall) (stop mem : bool).

(* The caller remembers the references it holds and the ptys that may be watched:
   added or dispatched since they were last removed. *)
Record user := mkU { u_bridge : bridge; u_held : list Z; u_watched : list Z }.
Definition u_client (u : user) : client := mkCl (b_world (u_bridge u)) (u_held u).
Definition without (a : Z) (l : list Z) : list Z := filter (fun x => negb (x =? a)) l.
(* Removing a closed pty has no effect. *)
Definition unwatched (u : user) (a : Z) : list Z :=
  match shl_pty_is_open (b_world (u_bridge u)) a with Ok true => without a (u_watched u) | _ => u_watched u end.
Definition wc_step (u : user) (c : wcall) : res user :=
  let b := u_bridge u in
  match c with
  | WP o =>
    do s <- pstep (u_client u) o;
    let b1 := set_world b (l_world s) in
    do b2 <- match o with
             | POpen ev x y => do r <- shl_pty_open ev (b_world b) x y; match r with Opened _ _ _ d => Ok (child_added b1 d) | Waits => Ub end
             | _ => Ok b1
             end;
    Ok (mkU (settle b2) (l_held s) (u_watched u))
  | WAdd a mem => do b' <- shl_pty_bridge_add b a mem; Ok (mkU b' (u_held u) (a :: u_watched u))
  | WRemove a => do b' <- shl_pty_bridge_remove b a; Ok (mkU b' (u_held u) (unwatched u a))
  | WChild i ends => Ok (mkU (settle (child_exec b i ends)) (u_held u) (u_watched u))
  end.
Fixpoint wc_steps (u : user) (cs : list wcall) : res user :=
  match cs with [] => Ok u | c :: r => do u' <- wc_step u c; wc_steps u' r end.
(* A dispatch of the pty at a: on an open one the callback makes calls, which
   change the caller's books too; go is the dispatching function. *)
Definition dispatched (u : user) (a : Z) (cs : list wcall) (go : (bridge -> res bridge) -> res bridge) : res user :=
  do o <- shl_pty_is_open (b_world (u_bridge u)) a;
  if negb o then do b <- go Ok; Ok (mkU b (u_held u) (u_watched u))
  else
    do v <- wc_steps u cs;
    do b <- go (fun _ => Ok (u_bridge v));
    Ok (mkU b (u_held v) (a :: u_watched v)).
Definition w_step (u : user) (o : wop) : res user :=
  let b := u_bridge u in
  match o with
  | WCall c => wc_step u c
  | WDispatch k cs stop mem =>
    match znth (b_set b) k with
    | Some e => dispatched u (n_ptr e) cs (fun cb => shl_pty_bridge_dispatch b k cb stop mem)
    | None => Ok u
    end
  | WDispatchPty a cs stop mem => dispatched u a cs (fun cb => shl_pty_bridge_dispatch_pty b a cb stop mem)
  end.

(* No child that has not executed a program has a descriptor of the pty at a. *)
Definition alone (u : user) (a : Z) : Prop :=
  forall f n c t g d, open_at (u_client u) a f -> fd_get (w_fds (b_world (u_bridge u))) f = Some (mkF (Master n) c) ->
    In t (b_kids (u_bridge u)) -> fd_get t g <> Some (mkF (Master n) d).
(* Care in closing, and dropping the last reference: the pty was removed from the
   bridge, or no child has it. *)
Definition careful (u : user) (c : wcall) : Prop :=
  match c with
  | WP (PClose a) => ~ In a (u_watched u) \/ alone u a
  | WP (PUnref a) => In a (drop a (u_held u)) \/ ~ In a (u_watched u) \/ alone u a
  | _ => True
  end.
Definition wc_legal (u : user) (c : wcall) : Prop :=
  match c with
  | WP o => legal (u_client u) o
  | WAdd a _ | WRemove a => In a (u_held u)
  | WChild _ _ => True
  end.
Fixpoint all_legal (care : bool) (u : user) (cs : list wcall) : Prop :=
  match cs with
  | [] => True
  | c :: r => wc_legal u c /\ (care = true -> careful u c) /\ forall u', wc_step u c = Ok u' -> all_legal care u' r
  end.
(* A callback leaves a reference to the pty it was called for, if there is one. *)
Definition cb_legal (care : bool) (u : user) (a : Z) (cs : list wcall) : Prop :=
  all_legal care u cs /\ (In a (u_held u) -> forall u', wc_steps u cs = Ok u' -> In a (u_held u')).
Definition w_legal (care : bool) (u : user) (o : wop) : Prop :=
  match o with
  | WCall c => wc_legal u c /\ (care = true -> careful u c)
  | WDispatch k cs _ _ => forall e, znth (b_set (u_bridge u)) k = Some e -> cb_legal care u (n_ptr e) cs
  | WDispatchPty a cs _ _ => In a (u_held u) /\ cb_legal care u a cs
  end.
Definition begin (p : proc) : user := mkU (mkB (mkW p [] 0 []) [] []) [] [].
Inductive wreach (care : bool) : user -> Prop :=
| wr_start p : only_own (p_fds p) -> wreach care (begin p)
| wr_step u o u' : wreach care u -> w_legal care u o -> w_step u o = Ok u' -> wreach care u'.
(* The pointers the kernel has are to ptys that are alive, open, watched, each
   with its own descriptor. *)
Definition points (u : user) : Prop :=
  forall e, In e (b_set (u_bridge u)) -> In (n_ptr e) (u_held u) /\ In (n_ptr e) (u_watched u) /\ open_at (u_client u) (n_ptr e) (n_fd e).
(* The kernel has an entry for the pty at a. *)
Definition watches (u : user) (a : Z) : Prop := exists e, In e (b_set (u_bridge u)) /\ n_ptr e = a.
(* Calls that may end the watching of the pty at a: closing it, dropping the last
   reference to it, removing it. *)
Definition ends_watch (u : user) (c : wcall) (a : Z) : Prop :=
  match c with
  | WP (PClose b) | WRemove b => b = a
  | WP (PUnref b) => b = a /\ ~ In b (drop b (u_held u))
  | _ => False
  end.
Fixpoint none_ends (u : user) (cs : list wcall) (a : Z) : Prop :=
  match cs with [] => True | c :: r => ~ ends_watch u c a /\ forall u', wc_step u c = Ok u' -> none_ends u' r a end.
(* What is called back in a dispatch. *)
Definition calls_of (o : wop) : option (list wcall) :=
  match o with WCall _ => None | WDispatch _ cs _ _ | WDispatchPty _ cs _ _ => Some cs end.
