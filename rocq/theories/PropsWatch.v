(* C66: the pointers a bridge keeps. Vocabulary in WatchSpec.v; proofs in
   WatchProofs.v, examples from WatchDemo.v. *)
From Verif Require Import Base BaseProofs Spawn SpawnSpec SpawnProofs SpawnThms SpawnDemo Watch WatchSpec WatchProofs WatchKept WatchDemo.

(* A caller who removes a pty from the bridge before closing it or dropping its
   last reference, or knows that no child that still has to execute a program has
   its descriptor, never makes the bridge follow a pointer to a freed pty. *)
Theorem C66_defined : forall u o, wreach true u -> w_legal true u o -> exists u', w_step u o = Ok u'.
Proof. exact watch_defined. Qed.
Print Assumptions C66_defined.
(* All the time the pointers the kernel has are to ptys held, open, and added or
   dispatched since they were last removed. *)
Theorem C66_points : forall u, wreach true u -> points u.
Proof. exact watch_points. Qed.
Print Assumptions C66_points.

Example C66_points_ex : wreach true careful_end /\ wreach true two /\
  map n_ptr (b_set (u_bridge two)) = [1; 0] /\ u_held careful_end = [1] /\ b_set (u_bridge careful_end) = [] /\
  existsb (has_master 0) (b_kids (u_bridge careful_end)) = true.
Proof. split; [exact careful_reach|]. split; [apply two_reach|]. repeat split; vm_compute; reflexivity. Qed.
(* The callback removes its pty and takes a reference to the other. *)
Example C66_defined_ex : wreach true two /\ w_legal true two (WDispatch 1 [WRemove 0; WP (PRef 1)] true true) /\
  exists e, znth (b_set (u_bridge two)) 1 = Some e /\ n_ptr e = 0.
Proof.
  split; [apply two_reach|]. assert (K0 : znth (b_set (u_bridge two)) 1 = Some (mkN 0 3 0)) by (vm_compute; reflexivity).
  split; [|exists (mkN 0 3 0); auto]. intros e K. rewrite K0 in K. injection K as <-. cbn [n_ptr].
  assert (E0 : wc_step two (WRemove 0) = Ok removed) by (vm_compute; reflexivity).
  assert (E1 : wc_steps two [WRemove 0; WP (PRef 1)] = Ok (wnext removed (WCall (WP (PRef 1))))) by (vm_compute; reflexivity).
  apply cb_b with (1 := E1); [apply in_b; vm_compute; reflexivity|].
  split; [apply in_b; vm_compute; reflexivity|]. split; [intros _; exact I|]. apply next_b with (1 := E0).
  split; [split; [apply in_b; vm_compute; reflexivity|vm_compute; reflexivity]|]. split; [intros _; exact I|]. intros u2 _. exact I.
Qed.

(* Without that care: a child started later has the master until it executes a
   program; the kernel keeps the entry, and the next dispatch reads a freed pty. *)
Theorem C66_drop_refuted : exists u k, wreach false u /\ w_legal false u (WDispatch k [] false true) /\ w_step u (WDispatch k [] false true) = Ub.
Proof.
  exists dropped, 1. split; [exact dropped_reach|]. split; [|vm_compute; reflexivity].
  assert (K0 : znth (b_set (u_bridge dropped)) 1 = Some (mkN 0 3 0)) by (vm_compute; reflexivity).
  intros e K. rewrite K0 in K. injection K as <-. cbn [n_ptr].
  assert (N : existsb (Z.eqb 0) (u_held dropped) = false) by (vm_compute; reflexivity).
  split; [exact I|]. intros Ha. destruct (not_in_b 0 (u_held dropped) N Ha).
Qed.
Print Assumptions C66_drop_refuted.
(* Removing it after closing it is no help: that does nothing. *)
Theorem C66_late_refuted : exists u k, wreach false u /\ ~ In 0 (u_held u) /\ u = wnext (wnext (wnext two (WCall (WP (PClose 0)))) (WCall (WRemove 0))) (WCall (WP (PUnref 0))) /\
  w_step u (WDispatch k [] false true) = Ub.
Proof.
  exists late, 1. split; [exact late_reach|]. split; [apply not_in_b; vm_compute; reflexivity|]. split; [reflexivity|vm_compute; reflexivity].
Qed.
Print Assumptions C66_late_refuted.
(* A pty removed by its callback may be watched again when the dispatch returns. *)
Theorem C66_removed_refuted : exists u v k, wreach true u /\ w_legal true u (WDispatch k [WRemove 0] true true) /\
  w_step u (WDispatch k [WRemove 0] true true) = Ok v /\ exists e, In e (b_set (u_bridge v)) /\ n_ptr e = 0.
Proof.
  exists one, (wnext one (WDispatch 0 [WRemove 0] true true)), 0. split; [exact one_reach|].
  assert (K0 : znth (b_set (u_bridge one)) 0 = Some (mkN 0 3 0)) by (vm_compute; reflexivity).
  split; [|split; [vm_compute; reflexivity|exists (mkN 0 3 0); split; [apply (znth_In _ 0); vm_compute; reflexivity|reflexivity]]].
  intros e K. rewrite K0 in K. injection K as <-. cbn [n_ptr].
  assert (E1 : wc_steps one [WRemove 0] = Ok (wnext one (WCall (WRemove 0)))) by (vm_compute; reflexivity).
  apply cb_b with (1 := E1); [apply in_b; vm_compute; reflexivity|].
  split; [apply in_b; vm_compute; reflexivity|]. split; [intros _; exact I|]. intros u1 _. exact I.
Qed.
Print Assumptions C66_removed_refuted.
(* A callback may not drop the last reference to its pty, which is used after it. *)
Theorem C66_callback_refuted : exists u k, wreach true u /\ all_legal true u [WP (PUnref 0)] /\ w_step u (WDispatch k [WP (PUnref 0)] false true) = Ub.
Proof.
  exists one, 0. split; [exact one_reach|]. split; [|vm_compute; reflexivity].
  split; [apply (in_b 0 (u_held one)); vm_compute; reflexivity|]. split; [intros _; right; right; exact one_alone|]. intros u1 _. exact I.
Qed.
Print Assumptions C66_callback_refuted.

(* An open pty is watched once it is added, no longer once it is removed,
   and else stays watched, whatever is done with it or other ptys and children, until
   it is closed or a reference to it is dropped. *)
Theorem C66_added : forall u a f, wreach true u -> In a (u_held u) -> open_at (u_client u) a f ->
  exists u', w_step u (WCall (WAdd a true)) = Ok u' /\ u_held u' = u_held u /\ forall b, watches u' b <-> watches u b \/ b = a.
Proof. exact added. Qed.
Print Assumptions C66_added.
Theorem C66_remove : forall u a f, wreach true u -> In a (u_held u) -> open_at (u_client u) a f ->
  exists u', w_step u (WCall (WRemove a)) = Ok u' /\ u_held u' = u_held u /\ forall b, watches u' b <-> watches u b /\ b <> a.
Proof. exact removed_one. Qed.
Print Assumptions C66_remove.
Theorem C66_kept : forall u c u' a, wreach true u -> w_legal true u (WCall c) -> w_step u (WCall c) = Ok u' -> ~ ends_watch u c a -> watches u a -> watches u' a.
Proof. exact kept. Qed.
Print Assumptions C66_kept.
Theorem C66_kept_dispatch : forall u o cs u' a, wreach true u -> w_legal true u o -> calls_of o = Some cs -> none_ends u cs a ->
  w_step u o = Ok u' -> watches u a -> watches u' a.
Proof. exact kept_dispatch. Qed.
Print Assumptions C66_kept_dispatch.
Example C66_kept_ex : wreach true two /\ In 0 (u_held two) /\ open_at (u_client two) 0 3 /\ watches two 0 /\ watches two 1 /\
  w_legal true two (WCall (WRemove 1)) /\ okb (w_step two (WCall (WRemove 1))) = true /\ map n_ptr (b_set (u_bridge (wnext two (WCall (WRemove 1))))) = [0].
Proof.
  split; [apply two_reach|]. split; [apply in_b; vm_compute; reflexivity|].
  split; [eexists; split; [vm_compute; reflexivity|split; [reflexivity|lia]]|].
  split; [exists (mkN 0 3 0); split; [apply (znth_In _ 1); vm_compute; reflexivity|reflexivity]|].
  split; [eexists; split; [apply (znth_In _ 0); vm_compute; reflexivity|reflexivity]|].
  split; [split; [apply in_b; vm_compute; reflexivity|intros _; exact I]|]. split; vm_compute; reflexivity.
Qed.
(* The dispatch of C66_defined_ex, whose callback removes pty 0, keeps pty 1. *)
Example C66_kept_dispatch_ex : none_ends two [WRemove 0; WP (PRef 1); WP (PUnref 1)] 1 /\
  match w_step two (WDispatch 1 [WRemove 0; WP (PRef 1); WP (PUnref 1)] false true) with Ok u => map n_ptr (b_set (u_bridge u)) | Ub => [] end = [1].
Proof.
  split; [|vm_compute; reflexivity]. cbn [none_ends ends_watch]. split; [discriminate|]. intros u1 E1. vm_compute in E1. injection E1 as <-.
  split; [tauto|]. intros u2 E2. vm_compute in E2. injection E2 as <-. split; [|auto]. intros [_ X]. apply X. vm_compute. auto.
Qed.
