(* C65: opening a pty with a child process. Vocabulary in SpawnSpec.v; proofs in
   SpawnProofs.v and SpawnThms.v, examples from SpawnDemo.v. *)
From Verif Require Import Base BaseProofs Spawn SpawnSpec SpawnProofs SpawnThms SpawnDemo.

(* shl_pty_open always returns in the parent. If it fails, descriptors and ptys
   are as before. If it succeeds there is one more pty and one more descriptor,
   which is the pty's, and the child is ready to execute a program. *)
Theorem C65_open : forall s ev x y, preach s -> env_ok ev -> exists w' r out d,
  shl_pty_open ev (l_world s) x y = Ok (Opened w' r out d) /\ opens s ev x y w' r out d.
Proof. exact open_whole. Qed.
Print Assumptions C65_open.
(* No call follows a pointer to a freed pty; every open pty has its descriptor to
   itself, no other master is left open; a pty lives as long as it is held. *)
Theorem C65_defined : forall s o, preach s -> legal s o -> exists s', pstep s o = Ok s'.
Proof. exact pty_defined. Qed.
Print Assumptions C65_defined.
Theorem C65_order : forall s, preach s -> in_order s.
Proof. exact pty_order. Qed.
Print Assumptions C65_order.
Theorem C65_end : forall s, preach s -> l_held s = [] -> (forall a, at_pty (l_world s) a = Ub) /\ only_own (w_fds (l_world s)).
Proof. exact pty_end. Qed.
Print Assumptions C65_end.
(* A pty answers whether it is open, with its descriptor if so; and from opening
   to the end with the pid opening it returned. *)
Theorem C65_query : forall s a, preach s -> In a (l_held s) -> exists b f,
  shl_pty_is_open (l_world s) a = Ok b /\ shl_pty_get_fd (l_world s) a = Ok f /\
  (if b then open_at s a f else f = -32 /\ forall g, ~ open_at s a g).
Proof. exact pty_query. Qed.
Print Assumptions C65_query.
Theorem C65_pid : forall s ev x y w r a d, preach s -> env_ok ev ->
  shl_pty_open ev (l_world s) x y = Ok (Opened w r (Some a) d) -> shl_pty_get_child w a = Ok r.
Proof. exact pty_born. Qed.
Print Assumptions C65_pid.
Theorem C65_pid_kept : forall s o s' a, preach s -> legal s o -> pstep s o = Ok s' -> In a (l_held s) -> In a (l_held s') ->
  shl_pty_get_child (l_world s') a = shl_pty_get_child (l_world s) a.
Proof. exact pty_child. Qed.
Print Assumptions C65_pid_kept.
(* When it fails no child goes on to execute a program; missing: if the caller
   has none of the standard descriptors open. *)
Theorem C65_orphan_partial : forall s ev x y w' r d, preach s -> env_ok ev -> some_std (w_fds (l_world s)) ->
  shl_pty_open ev (l_world s) x y = Ok (Opened w' r None d) -> ~ runs d.
Proof. exact open_orphan. Qed.
Print Assumptions C65_orphan_partial.

(* Two ptys, one closed and dropped, a failure in between. *)
Example C65_ex : preach after /\ l_held after = [2] /\
  map (option_map f_obj) (w_fds (l_world after)) = [Some (Other 1); Some (Other 2); Some (Other 3); None; Some (Other 4); Some (Other 9); Some (Master 2); None; None] /\
  w_kids (l_world after) = [100; 101; 100].
Proof. split; [exact after_reach|]. split; [vm_compute; reflexivity|split; vm_compute; reflexivity]. Qed.
(* The child of the first call, with the log file kept from the caller. *)
Example C65_open_ex : exists w d, shl_pty_open fine (l_world (start shell)) 80 24 = Ok (Opened w 100 (Some 0) (Some d)) /\ runs (Some d) /\
  c_fds (child_of d) = [Some (mkF (Slave 0) false); Some (mkF (Slave 0) false); Some (mkF (Slave 0) false); None; Some (mkF (Other 4) false); None; None; None] /\
  w_fds w = [Some (mkF (Other 1) false); Some (mkF (Other 2) true); Some (mkF (Other 3) false); Some (mkF (Master 0) true); Some (mkF (Other 4) false); None; None].
Proof. do 2 eexists. split; [vm_compute; reflexivity|]. split; [exact I|]. split; vm_compute; reflexivity. Qed.
Example C65_defined_ex : preach after /\ legal after (PUnref 2) /\ legal after (PShut 5).
Proof. split; [apply C65_ex|]. split; [|exists 9, true]; vm_compute; auto. Qed.
Example C65_end_ex : preach after_all /\ l_held after_all = [] /\ w_fds (l_world after_all) <> [].
Proof.
  split; [|split; [vm_compute; reflexivity|vm_compute; discriminate]]. apply (pr_step after (PUnref 2)); [apply C65_ex|vm_compute; auto|vm_compute; reflexivity].
Qed.
Example C65_pid_ex : exists s, pstep after (PClose 2) = Ok s /\ In 2 (l_held after) /\ In 2 (l_held s) /\
  shl_pty_get_child (l_world s) 2 = Ok 100 /\ shl_pty_get_fd (l_world after) 2 = Ok 6 /\ shl_pty_get_fd (l_world s) 2 = Ok (-32).
Proof.
  eexists. split; [vm_compute; reflexivity|]. split; [vm_compute; auto|]. split; [vm_compute; auto|]. repeat split; vm_compute; reflexivity.
Qed.
Example C65_orphan_ex : preach after /\ env_ok no_session /\ some_std (w_fds (l_world after)) /\
  exists w d, shl_pty_open no_session (l_world after) 80 24 = Ok (Opened w (-22) None (Some d)).
Proof.
  split; [apply C65_ex|]. split; [exact no_session_ok|]. split; [exists 0; split; [lia|vm_compute; discriminate]|]. do 2 eexists. vm_compute. reflexivity.
Qed.

(* Without standard descriptors the writing end of the pipe is number 2, which
   becomes the terminal: the parent reports a failure while the child, told that
   all is well, goes on without standard error, and the message is on the terminal. *)
Theorem C65_orphan_refuted : exists s ev w d c, preach s /\ env_ok ev /\ shl_pty_open ev (l_world s) 80 24 = Ok (Opened w (-22) None d) /\
  d = Some (Ret c 0) /\ fd_get (c_fds c) 2 = None /\ t_bytes (c_term c) = [1].
Proof.
  exists (start daemon), fine. do 3 eexists. split; [apply pr_start, own_b; reflexivity|]. split; [exact fine_ok|].
  split; [vm_compute; reflexivity|]. split; [reflexivity|]. split; vm_compute; reflexivity.
Qed.
Print Assumptions C65_orphan_refuted.
(* After a failure the child is left to be waited for, by a caller that was not
   told its pid. *)
Theorem C65_waited_refuted : exists s ev w d, preach s /\ env_ok ev /\ shl_pty_open ev (l_world s) 80 24 = Ok (Opened w (-22) None d) /\
  w_kids (l_world s) = [] /\ w_kids w <> [].
Proof.
  exists (start shell), no_session. do 2 eexists. split; [apply pr_start, own_b; reflexivity|]. split; [exact no_session_ok|].
  split; [vm_compute; reflexivity|]. split; [reflexivity|vm_compute; discriminate].
Qed.
Print Assumptions C65_waited_refuted.
(* SIGSYS is not among the signals set to the default. *)
Theorem C65_signals_refuted : exists s ev w a c, preach s /\ env_ok ev /\ shl_pty_open ev (l_world s) 80 24 = Ok (Opened w 100 (Some a) (Some (Ret c 0))) /\
  znth (p_sigs (c_proc c)) (SIGSYS - 1) = Some 1.
Proof.
  exists (start shell), fine. do 3 eexists. split; [apply pr_start, own_b; reflexivity|]. split; [exact fine_ok|].
  split; [vm_compute; reflexivity|vm_compute; reflexivity].
Qed.
Print Assumptions C65_signals_refuted.
