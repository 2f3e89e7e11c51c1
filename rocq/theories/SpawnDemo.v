(* Processes and histories for the examples of PropsSpawn.v. *)
From Verif Require Import Base BaseProofs Spawn SpawnSpec SpawnProofs SpawnThms.

(* A process with standard descriptors of which output is close-on-exec, a log
   file, SIGINT and SIGSYS ignored, SIGCHLD blocked. *)
Definition shell : proc :=
  mkProc [Some (mkF (Other 1) false); Some (mkF (Other 2) true); Some (mkF (Other 3) false); None; Some (mkF (Other 4) false)]
    (repeat 0 1 ++ [1] ++ repeat 0 28 ++ [1] ++ repeat 0 33) [17] false None.
Definition fine : env := mkE true 0 0 0 (fun _ => Works) [4; 11] [4] 100.
(* setsid fails in the child. *)
Definition no_session : env := mkE true 0 0 0 (fun k => if k =? 5 then Fails 1 else Works) [] [] 101.
Lemma own_b t : forallb (fun x => match x with Some (mkF (Other _) _) | None => true | _ => false end) t = true -> only_own t.
Proof.
  intros H f d E. unfold fd_get in E. destruct (znth t f) as [x|] eqn:K; [|discriminate]. apply znth_In in K. rewrite forallb_forall in H. specialize (H x K). subst x.
  destruct d as [[] b]; try discriminate. now exists n.
Qed.
Lemma fine_ok : env_ok fine.
Proof. constructor; cbn; try lia; try discriminate; repeat constructor; lia. Qed.
Lemma no_session_ok : env_ok no_session.
Proof. constructor; cbn; try lia; try (now constructor). intros k e. destruct (k =? 5); [intros E; injection E; lia|discriminate]. Qed.
Definition pnext (s : client) (o : pcall) : client := match pstep s o with Ok s' => s' | Ub => s end.
Lemma pnext_reach s o : preach s -> legal s o -> preach (pnext s o).
Proof. intros P L. destruct (pty_defined s o P L) as [s' E]. unfold pnext. rewrite E. exact (pr_step s o s' P L E). Qed.
(* Two ptys, one closed and dropped, a failure in between. *)
Definition after : client :=
  pnext (pnext (pnext (pnext (pnext (pnext (pnext (pnext (start shell)
    (POpen fine 80 24)) (PRef 0)) (POpen no_session 80 24)) (POther 9 true)) (POpen fine 132 50)) (PClose 0)) (PUnref 0)) (PUnref 0).
Lemma after_reach : preach after.
Proof.
  pose proof fine_ok as F. pose proof no_session_ok as N. unfold after.
  apply pnext_reach; [|vm_compute; auto].
  apply pnext_reach; [|vm_compute; auto].
  apply pnext_reach; [|vm_compute; auto].
  apply pnext_reach; [|exact F].
  apply pnext_reach; [|exact I].
  apply pnext_reach; [|exact N].
  apply pnext_reach; [|split; [vm_compute; auto|vm_compute; reflexivity]].
  apply pnext_reach; [|exact F].
  apply pr_start. apply own_b. reflexivity.
Qed.
Definition after_all : client := match pstep after (PUnref 2) with Ok s => s | Ub => after end.
(* A process without standard descriptors. *)
Definition daemon : proc := mkProc [] (repeat 0 64) [] true None.
