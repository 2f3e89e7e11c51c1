(* Proofs about Bridge.v: what a dispatch returns. *)
From Verif Require Import Base BaseProofs Ring SharedSpec Bridge BridgeSpec.

Lemma feeds_app a b : feeds (a ++ b) = feeds a + feeds b.
Proof. induction a as [|[] a IH]; cbn [app feeds]; lia. Qed.
Definition alike (t t' : tty) : Prop := t_in t' = t_in t /\ t_hup t' = t_hup t.
Lemma write_alike i mem d t t' tr : tty_write i mem d t = Ok (t', tr) -> alike t t' /\ feeds tr = 0.
Proof.
  unfold tty_write. destruct (negb _); intros E; [injection E as <- <-; repeat split|]. destruct (ring_push _ _ _) as [[r c]|]; [cbn [bind fst snd] in E|discriminate E]. injection E as <- <-. repeat split.
Qed.
Lemma writes_alike i ws : forall t t' tr, tty_writes i ws t = Ok (t', tr) -> alike t t' /\ feeds tr = 0.
Proof.
  induction ws as [|[mem d] ws IH]; intros t t' tr E; cbn [tty_writes] in E; [injection E as <- <-; repeat split|].
  destruct (tty_write i mem d t) as [[t1 a]|] eqn:W; [cbn [bind fst snd] in E|discriminate E]. apply write_alike in W. destruct W as [[W1 W2] W3].
  destruct (tty_writes i ws t1) as [[t2 b]|] eqn:V; [cbn [bind fst snd] in E|discriminate E]. apply IH in V. destruct V as [[V1 V2] V3].
  injection E as <- <-. rewrite feeds_app. unfold alike. split; [split; congruence|lia].
Qed.
Lemma loop_tells i ms : forall t tr t' tr' c, pty_read_loop i ms t tr = Ok (t', tr', c) ->
  (c = 0 /\ t_in t' = [] /\ t_hup t' = false) \/ (c = -5 /\ t_in t' = [] /\ t_hup t' = true) \/
  (c = -11 /\ (Exists (fun m => fst m = MIntr) ms \/ feeds tr' = feeds tr + zlen ms)).
Proof.
  induction ms as [|[m ws] ms IH]; intros t tr t' tr' c E; cbn [pty_read_loop] in E.
  { injection E as <- <- <-. right. right. split; [reflexivity|]. right. cbn [length]. lia. }
  destruct m as [|n]; cbn [k_read] in E.
  { injection E as <- <- <-. right. right. split; [reflexivity|]. left. now left. }
  destruct (t_in t) as [|x q] eqn:Q.
  { destruct (t_hup t) eqn:Hu; injection E as <- <- <-; [right; left|left]; auto. }
  cbv zeta in E. destruct (zcopy _ 0 _) as [b1|]; [cbn [bind] in E|discriminate E]. destruct (zcopy b1 _ _) as [b2|]; [cbn [bind] in E|discriminate E].
  destruct (zget b2 _) as [z|]; [cbn [bind] in E|discriminate E]. destruct (tty_writes _ _ _) as [[t2 a]|] eqn:V; [cbn [bind fst snd] in E|discriminate E].
  apply writes_alike in V. destruct V as [_ F]. destruct (IH _ _ _ _ _ E) as [X|[X|[X1 X2]]]; [now left|right; now left|]. right. right. split; [exact X1|].
  destruct X2 as [X2|X2]; [left; now right|right]. rewrite feeds_app in X2. cbn [app feeds] in X2. cbn [length]. lia.
Qed.
Lemma dispatch_tells i l t t' tr c : t_open t = true -> tty_dispatch false i l t = Ok (t', tr, c) ->
  (c = 0 /\ t_in t' = [] /\ t_hup t' = false) \/ (c = -5 /\ t_in t' = [] /\ t_hup t' = true) \/
  (c = -11 /\ (l_r1 l = MIntr \/ l_r2 l = MIntr \/ feeds tr = 2)).
Proof.
  intros O E. unfold tty_dispatch in E. rewrite O in E. cbn [negb] in E. destruct (pty_read_loop _ _ _ _) as [[[t1 a] r]|] eqn:L; [cbn [bind] in E|discriminate E].
  destruct (tty_flush l t1) as [[[t2 b] w]|] eqn:W; [cbn [bind] in E|discriminate E]. cbn [andb] in E. injection E as <- <- <-.
  assert (A : t_in t2 = t_in t1 /\ t_hup t2 = t_hup t1). { unfold tty_flush in W. cbv zeta in W. destruct (pty_write _ _ _) as [[[r1 s1] w1]|]; [cbn [bind] in W|discriminate W]. injection W as <- _ _. split; reflexivity. }
  destruct A as [A1 A2]. cbn [set_codes t_in t_hup]. rewrite A1, A2. apply loop_tells in L. destruct L as [X|[X|[X1 X2]]]; [now left|right; now left|]. right. right. split; [exact X1|].
  destruct X2 as [X2|X2].
  - inversion X2 as [? ? Y|? ? Y]; subst; [now left|]. inversion Y as [? ? Y2|? ? Y2]; subst; [right; now left|inversion Y2].
  - right. right. rewrite feeds_app, X2. reflexivity.
Qed.
