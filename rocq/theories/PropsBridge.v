(* C63: the reading side of a pty and the bridge. *)
From Verif Require Import Base Ring SharedSpec Bridge BridgeSpec BridgeThms BridgeClose BridgeResult BridgeDemo.

(* Whatever the children, the kernel and the application do, nothing undefined
   happens; fn_input of each pty gets the bytes its child wrote, each once and in
   order, at most 16383 at a time and followed by a zero, and the rest is
   unread; the kernel gets the bytes of the calls of shl_pty_write that returned
   0, each once and in order, and the rest waits in the buffer. *)
Theorem C63_order : forall rooms ops, possible (zlen rooms) ops ->
  exists s tr, b_run false (map tty_new rooms) ops = Ok (s, tr) /\ zlen s = zlen rooms /\ Forall tidy tr /\
    forall i t, znth s i = Some t ->
      fed i tr ++ t_in t = said i ops /\
      exists q, zlen q = r_used (t_out t) /\ sent i tr ++ map Some q = map Some (taken i tr).
Proof. exact (order false). Qed.
Print Assumptions C63_order.

Example C63_order_ex : possible (zlen [5; 3]) session /\
  match b_run false (map tty_new [5; 3]) session with
  | Ok (s, tr) => fed 1 tr = [1; 2; 3; 4; 5; 6] /\ taken 1 tr = [65; 66; 48; 49; 50; 51; 48; 49; 50] /\
                  sent 1 tr = [Some 65; Some 66; Some 48; Some 49; Some 50] /\ fed 0 tr = [9]
  | Ub => False
  end.
Proof. split; [apply possible_ok|]; vm_compute; auto. Qed.

(* Wanted: when a program that waits for the bridge sleeps, no byte of a child
   is unread. The code adds where it should modify: after two full reads the
   rest stays where it is, and no wait for the bridge will ever fetch it. *)
Theorem C63_read_refuted : ~ (forall rooms ops s tr i t, possible (zlen rooms) ops ->
  b_run false (map tty_new rooms) ops = Ok (s, tr) -> znth s i = Some t -> asleep t -> all_read t).
Proof.
  intros H. destruct (unread_ok (b_run false (map tty_new [0]) flood)) as (t & tr & E & A & N & _); [vm_compute; reflexivity|].
  exact (N (H [0] flood [t] tr 0 t (possible_ok 1 flood eq_refl) E eq_refl A)).
Qed.
Print Assumptions C63_read_refuted.
Example C63_read_refuted_ex : exists t tr, b_run false (map tty_new [0]) flood = Ok ([t], tr) /\ asleep t /\ ~ all_read t /\
  forall ls, b_run false [t] (map (BDispatch 0) ls) = Ok ([t], []).
Proof. apply unread_ok. vm_compute. reflexivity. Qed.

(* Wanted: then no byte waits that the kernel would take, if the program has
   dispatched the pty after its last write. The code drops what pty_write
   reports: after an interrupted writev the bytes wait though there is room. *)
Theorem C63_sent_refuted : ~ (forall rooms ops s tr i t, possible (zlen rooms) ops ->
  b_run false (map tty_new rooms) ops = Ok (s, tr) -> znth s i = Some t -> asleep t -> t_asked t = false -> all_sent t).
Proof.
  intros H. destruct (unsent_ok false (b_run false (map tty_new [50]) nudge)) as (t & tr & E & A & Q & N & _); [vm_compute; reflexivity|].
  exact (N (H [50] nudge [t] tr 0 t (possible_ok 1 nudge eq_refl) E eq_refl A Q)).
Qed.
Print Assumptions C63_sent_refuted.
Example C63_sent_refuted_ex : exists t tr, b_run false (map tty_new [50]) nudge = Ok ([t], tr) /\ asleep t /\ t_asked t = false /\ ~ all_sent t /\
  forall ls, b_run false [t] (map (BDispatch 0) ls) = Ok ([t], []).
Proof. apply unsent_ok. vm_compute. reflexivity. Qed.

(* What does hold of the code: a sleeping program has read everything if the
   last pty_read of the pty did not ask to be called again (two reads that both
   got something, or an interrupted one), and has sent everything the kernel
   takes if the last pty_write did not. *)
Theorem C63_idle_partial : forall rooms ops, possible (zlen rooms) ops ->
  exists s tr, b_run false (map tty_new rooms) ops = Ok (s, tr) /\ zlen s = zlen rooms /\
    forall i t, znth s i = Some t -> asleep t ->
      (t_rcode t <> -11 -> all_read t) /\
      (t_asked t = false -> t_wcode t <> -11 -> all_sent t).
Proof.
  intros rooms ops P. destruct (idle false rooms ops P) as (s & tr & E & L & F). exists s, tr. split; [exact E|]. split; [exact L|].
  intros i t Et A. destruct (F i t Et A) as [F1 F2]. split; auto.
Qed.
Print Assumptions C63_idle_partial.
Example C63_idle_partial_ex :
  match b_run false (map tty_new [5; 3]) (session ++ [BDispatch 0 usual]) with
  | Ok (s, tr) => match znth s 0 with
                  | Some t => (t_reg t = true /\ t_ready t = false) /\ t_rcode t = 0 /\ t_wcode t = 0 /\ t_asked t = false
                  | None => False
                  end
  | Ub => False
  end.
Proof. vm_compute. auto. Qed.

(* A bridge that modifies, and heeds what pty_write reports, has the wanted
   property for all histories, *)
Theorem C63_mended : forall rooms ops, possible (zlen rooms) ops ->
  exists s tr, b_run true (map tty_new rooms) ops = Ok (s, tr) /\ zlen s = zlen rooms /\
    forall i t, znth s i = Some t -> asleep t -> all_read t /\ (t_asked t = false -> all_sent t).
Proof.
  intros rooms ops P. destruct (idle true rooms ops P) as (s & tr & E & L & F). exists s, tr. split; [exact E|]. split; [exact L|].
  intros i t Et A. destruct (F i t Et A) as [F1 F2]. split; auto.
Qed.
Print Assumptions C63_mended.
Example C63_mended_ex :
  match b_run true (map tty_new [0]) flood with Ok ([t], _) => t_ready t = true /\ 0 < zlen (t_in t) | _ => False end /\
  match b_run true (map tty_new [50]) nudge with Ok ([t], _) => t_ready t = true /\ r_used (t_out t) = 3 | _ => False end.
Proof. vm_compute. auto. Qed.

(* and gets there: once no system call is interrupted, as many dispatches as
   bytes wait are enough to read and send them all. *)
Theorem C63_drained : forall rooms ops s tr i t ls, possible (zlen rooms) ops -> b_run true (map tty_new rooms) ops = Ok (s, tr) ->
  znth s i = Some t -> t_reg t = true -> Forall calm ls -> zlen (t_in t) + r_used (t_out t) < zlen ls ->
  exists s' tr' t', b_run true s (map (BDispatch i) ls) = Ok (s', tr') /\ znth s' i = Some t' /\ t_ready t' = false /\ all_read t' /\
    (t_ready t = true \/ t_asked t = false -> all_sent t').
Proof. exact drained. Qed.
Print Assumptions C63_drained.
Example C63_drained_ex : calm usual /\
  match b_run true (map tty_new [50]) (nudge ++ [BDispatch 0 interrupted]) with
  | Ok (s, _) =>
    match znth s 0, b_run true s (map (BDispatch 0) (repeat usual 4)) with
    | Some t, Ok ([t'], tr') => (t_reg t = true /\ t_ready t = true /\ r_used (t_out t) = 3) /\ t_ready t' = false /\ sent 0 tr' = map Some [108; 115; 10]
    | _, _ => False
    end
  | Ub => False
  end.
Proof. split; [repeat split; discriminate|vm_compute; auto]. Qed.

(* From closing a pty on, whatever is called and whatever the kernel does, its
   fn_input is not called, the kernel is given none of its bytes, and its writes
   return -ENODEV; as long as it is not closed none does. *)
Theorem C63_closed : forall s i ops s' tr, b_run false s (BClose i :: ops) = Ok (s', tr) -> Forall (fun e => whose e = i -> refusal e) tr.
Proof. intros s i ops s' tr. exact (closed false i ops s s' tr). Qed.
Print Assumptions C63_closed.
Theorem C63_open : forall rooms i ops s tr, ~ In (BClose i) ops -> b_run false (map tty_new rooms) ops = Ok (s, tr) -> Forall (fun e => whose e = i -> ~ refusal e) tr.
Proof. intros rooms i ops s tr. exact (opened false i rooms ops s tr). Qed.
Print Assumptions C63_open.
Example C63_closed_ex : let l := mkLuck (MTake 9) [(true, [66])] (MTake 9) [] (MTake 9) (MTake 9) in
  let ops := [KSay 0 [7]; KSay 1 [8]; BWrite 0 true [65]; BDispatchPty 0 l; BDispatchPty 1 l] in
  match b_run false (map tty_new [5; 5]) (BClose 0 :: ops), b_run false (map tty_new [5; 5]) ops with
  | Ok (_, tr), Ok (_, tr2) => tr = [Asked 0 [65] (-19); Fed 1 [8] 0; Asked 1 [66] 0; Sent 1 [Some 66]] /\ tr2 = [Asked 0 [65] 0; Fed 0 [7] 0; Asked 0 [66] 0; Sent 0 [Some 65; Some 66]; Fed 1 [8] 0; Asked 1 [66] 0; Sent 1 [Some 66]]
  | _, _ => False
  end.
Proof. vm_compute. auto. Qed.

(* What dispatching an open pty returns: 0 if all that the child wrote was read; -EIO
   if in addition the child is gone; -EAGAIN if a read was interrupted or fn_input was
   called twice. *)
Theorem C63_result : forall i l t t' tr c, t_open t = true -> tty_dispatch false i l t = Ok (t', tr, c) ->
  (c = 0 /\ t_in t' = [] /\ t_hup t' = false) \/ (c = -5 /\ t_in t' = [] /\ t_hup t' = true) \/
  (c = -11 /\ (l_r1 l = MIntr \/ l_r2 l = MIntr \/ feeds tr = 2)).
Proof. exact dispatch_tells. Qed.
Print Assumptions C63_result.
Example C63_result_ex : let code l t := match tty_dispatch false 0 l t with Ok (_, _, c) => c | Ub => 1 end in
  let t := tty_new 5 in
  code usual (k_say [7] t) = 0 /\ code usual (k_gone (k_say [7] t)) = -5 /\ code slow (k_say [7; 8; 9] t) = -11 /\ code interrupted t = -11.
Proof. vm_compute. auto. Qed.
