(* Histories for the examples of PropsWatch.v. *)
From Verif Require Import Base BaseProofs Spawn SpawnSpec SpawnProofs SpawnThms SpawnDemo Watch WatchSpec WatchProofs.

Definition okb {A} (r : res A) : bool := match r with Ok _ => true | Ub => false end.
Definition wnext (u : user) (o : wop) : user := match w_step u o with Ok u' => u' | Ub => u end.
Lemma wnext_reach care u o : wreach care u -> w_legal care u o -> okb (w_step u o) = true -> wreach care (wnext u o).
Proof. intros R L. unfold wnext. destruct (w_step u o) as [u'|] eqn:E; [|discriminate]. intros _. exact (wr_step care u o u' R L E). Qed.
Lemma has_master_none n t g d : has_master n t = false -> fd_get t g <> Some (mkF (Master n) d).
Proof.
  intros H K. enough (has_master n t = true) by congruence. apply existsb_exists. unfold fd_get in K. destruct (znth t g) as [x|] eqn:Z; [|discriminate].
  exists x. split; [exact (znth_In _ _ _ Z)|]. subst x. apply Z.eqb_refl.
Qed.
Lemma alone_b u a y f n : at_pty (b_world (u_bridge u)) a = Ok y -> y_fd y = f -> fd_get (w_fds (b_world (u_bridge u))) f = Some (mkF (Master n) true) ->
  existsb (has_master n) (b_kids (u_bridge u)) = false -> alone u a.
Proof.
  intros Y F G K f' n' c t g d (y' & Y' & F' & _) G' Ht. cbn [u_client l_world] in Y'. rewrite Y in Y'. injection Y' as <-. rewrite F in F'. subst f'. rewrite G in G'. injection G' as <- <-.
  apply has_master_none. apply not_true_is_false. intros X. rewrite (proj2 (existsb_exists _ _)) in K by (now exists t). discriminate.
Qed.
Lemma in_b a l : existsb (Z.eqb a) l = true -> In a l.
Proof. intros H. apply existsb_exists in H. destruct H as (x & Hx & E). apply Z.eqb_eq in E. now subst x. Qed.
Lemma not_in_b a l : existsb (Z.eqb a) l = false -> ~ In a l.
Proof. intros H K. rewrite (proj2 (existsb_exists _ _)) in H by (exists a; split; [exact K|apply Z.eqb_refl]). discriminate. Qed.
(* Two ptys watched; the child of the first has executed a program, that of the
   second not, so it has the first one's master. *)
Definition two : user :=
  wnext (wnext (wnext (wnext (wnext (begin shell)
    (WCall (WP (POpen fine 80 24)))) (WCall (WChild 0 false))) (WCall (WAdd 0 true))) (WCall (WP (POpen fine 80 24)))) (WCall (WAdd 1 true)).
Lemma two_reach care : wreach care two.
Proof.
  unfold two.
  apply wnext_reach; [|split; [apply in_b; vm_compute; reflexivity|intros _; exact I]|vm_compute; reflexivity].
  apply wnext_reach; [|split; [exact fine_ok|intros _; exact I]|vm_compute; reflexivity].
  apply wnext_reach; [|split; [apply in_b; vm_compute; reflexivity|intros _; exact I]|vm_compute; reflexivity].
  apply wnext_reach; [|split; [exact I|intros _; exact I]|vm_compute; reflexivity].
  apply wnext_reach; [|split; [exact fine_ok|intros _; exact I]|vm_compute; reflexivity].
  apply wr_start, own_b. reflexivity.
Qed.
(* The first is dropped without being removed. *)
Definition dropped : user := wnext two (WCall (WP (PUnref 0))).
Lemma dropped_reach : wreach false dropped.
Proof. apply wnext_reach; [apply two_reach|split; [apply in_b; vm_compute; reflexivity|discriminate]|vm_compute; reflexivity]. Qed.
(* It is removed, but only after it was closed. *)
Definition late : user := wnext (wnext (wnext two (WCall (WP (PClose 0)))) (WCall (WRemove 0))) (WCall (WP (PUnref 0))).
Lemma late_reach : wreach false late.
Proof.
  unfold late.
  apply wnext_reach; [|split; [apply in_b; vm_compute; reflexivity|discriminate]|vm_compute; reflexivity].
  apply wnext_reach; [|split; [apply in_b; vm_compute; reflexivity|discriminate]|vm_compute; reflexivity].
  apply wnext_reach; [apply two_reach|split; [apply in_b; vm_compute; reflexivity|discriminate]|vm_compute; reflexivity].
Qed.
(* The first is removed and dropped; the second is closed while watched. *)
Definition before_end : user := wnext (wnext two (WCall (WRemove 0))) (WCall (WP (PUnref 0))).
Definition careful_end : user := wnext before_end (WCall (WP (PClose 1))).
Lemma before_reach : wreach true before_end.
Proof.
  unfold before_end.
  apply wnext_reach; [|split; [apply in_b; vm_compute; reflexivity|intros _; right; left; apply not_in_b; vm_compute; reflexivity]|vm_compute; reflexivity].
  apply wnext_reach; [apply two_reach|split; [apply in_b; vm_compute; reflexivity|intros _; exact I]|vm_compute; reflexivity].
Qed.
Lemma before_alone : alone before_end 1.
Proof. eapply alone_b; vm_compute; reflexivity. Qed.
Lemma careful_reach : wreach true careful_end.
Proof. unfold careful_end. apply wnext_reach; [exact before_reach|split; [apply in_b; vm_compute; reflexivity|intros _; right; exact before_alone]|vm_compute; reflexivity]. Qed.
(* One pty, watched, no child left. *)
Definition one : user := wnext (wnext (wnext (begin shell) (WCall (WP (POpen fine 80 24)))) (WCall (WChild 0 true))) (WCall (WAdd 0 true)).
Lemma one_reach : wreach true one.
Proof.
  unfold one.
  apply wnext_reach; [|split; [apply in_b; vm_compute; reflexivity|intros _; exact I]|vm_compute; reflexivity].
  apply wnext_reach; [|split; [exact I|intros _; exact I]|vm_compute; reflexivity].
  apply wnext_reach; [|split; [exact fine_ok|intros _; exact I]|vm_compute; reflexivity].
  apply wr_start, own_b. reflexivity.
Qed.
Lemma one_alone : alone one 0.
Proof. eapply alone_b; vm_compute; reflexivity. Qed.
(* The first pty of two removed. *)
Definition removed : user := wnext two (WCall (WRemove 0)).
Lemma cb_b care u a cs v : wc_steps u cs = Ok v -> In a (u_held v) -> all_legal care u cs -> cb_legal care u a cs.
Proof. intros E H L. split; [exact L|]. intros _ v' E'. rewrite E in E'. injection E' as <-. exact H. Qed.
Lemma next_b care u c v cs : wc_step u c = Ok v -> all_legal care v cs -> forall u', wc_step u c = Ok u' -> all_legal care u' cs.
Proof. intros E L u' E'. rewrite E in E'. injection E' as <-. exact L. Qed.
