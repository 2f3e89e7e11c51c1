(* Specification vocabulary for the ptys and the bridge: what the child wrote,
   what the application was given, what it asked to be sent and what was sent,
   all read off the history and the trace of events. *)
From Verif Require Import Base Ring SharedSpec Bridge.

(* The bytes the child of pty i wrote in a history. *)
Fixpoint said (i : Z) (ops : list bop) : list Z :=
  match ops with
  | [] => []
  | KSay j d :: r => (if j =? i then d else []) ++ said i r
  | _ :: r => said i r
  end.

(* The bytes given to fn_input of pty i; the bytes of the calls of shl_pty_write
   that returned 0; the bytes the kernel took. *)
Fixpoint fed (i : Z) (tr : list event) : list Z :=
  match tr with
  | [] => []
  | Fed j d _ :: r => (if j =? i then d else []) ++ fed i r
  | _ :: r => fed i r
  end.
Fixpoint taken (i : Z) (tr : list event) : list Z :=
  match tr with
  | [] => []
  | Asked j d c :: r => (if (j =? i) && (c =? 0) then d else []) ++ taken i r
  | _ :: r => taken i r
  end.
Fixpoint sent (i : Z) (tr : list event) : list (option Z) :=
  match tr with
  | [] => []
  | Sent j d :: r => (if j =? i then d else []) ++ sent i r
  | _ :: r => sent i r
  end.

(* fn_input gets at least one byte, at most as many as fit before the
   terminating zero, and the zero. A write fails only for want of memory or
   because the pty is closed. *)
Definition tidy (e : event) : Prop :=
  match e with
  | Fed _ d z => 0 < zlen d < PTY_BUFSIZE /\ z = 0
  | Asked _ _ c => c = 0 \/ c = -12 \/ c = -19
  | Sent _ _ => True
  end.

(* Histories: calls are about existing ptys, and less than 2^63 bytes are
   written to them. *)
Definition about (o : bop) : Z :=
  match o with
  | KSay i _ | KDrain i _ | KGone i | KWake i | BAdd i | BRemove i | BClose i
  | BWrite i _ _ | BDispatchPty i _ | BDispatch i _ => i
  end.
Definition bulk (ws : list (bool * list Z)) : Z := fold_right (fun w n => zlen (snd w) + n) 0 ws.
Definition asks (o : bop) : Z :=
  match o with
  | BWrite _ _ d => zlen d
  | BDispatchPty _ l | BDispatch _ l => bulk (l_a1 l) + bulk (l_a2 l)
  | _ => 0
  end.
Definition asks_all (ops : list bop) : Z := fold_right (fun o n => asks o + n) 0 ops.
Definition possible (n : Z) (ops : list bop) : Prop :=
  Forall (fun o => 0 <= about o < n) ops /\ Forall (fun o => match o with KDrain _ k => 0 <= k | _ => True end) ops /\
  asks_all ops <= MEM_MAX.

(* Nothing is left that could be done: no byte of the child is unread; no byte
   waits to be sent that the kernel would take. *)
Definition all_read (t : tty) : Prop := t_in t = [].
Definition all_sent (t : tty) : Prop := r_used (t_out t) = 0 \/ t_room t <= 0 \/ t_hup t = true.
(* The pty is watched and the kernel has nothing to report, so that a program
   which waits for the bridge sleeps. *)
Definition asleep (t : tty) : Prop := t_reg t = true /\ t_ready t = false.

(* A dispatch in which no system call is interrupted and fn_input writes
   nothing. *)
Definition calm (l : luck) : Prop :=
  l_r1 l <> MIntr /\ l_r2 l <> MIntr /\ l_w1 l <> MIntr /\ l_w2 l <> MIntr /\ l_a1 l = [] /\ l_a2 l = [].

(* The pty an event is about; what can still be seen of a closed pty: calls of
   shl_pty_write that return -ENODEV. *)
Definition whose (e : event) : Z := match e with Fed i _ _ | Asked i _ _ | Sent i _ => i end.
Definition refusal (e : event) : Prop := match e with Asked _ _ c => c = -19 | _ => False end.
(* How often fn_input was called. *)
Fixpoint feeds (tr : list event) : Z := match tr with [] => 0 | Fed _ _ _ :: r => 1 + feeds r | _ :: r => feeds r end.
