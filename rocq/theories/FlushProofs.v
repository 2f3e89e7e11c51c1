(* Proofs about pty_write of Ring.v: what it returns. *)
From Verif Require Import Base BaseProofs Ring Array SharedSpec RingProofs FlushSpec.

Lemma pull_used r q n : rep r q -> 0 <= n -> r_used (ring_pull r n) = Z.max 0 (r_used r - n).
Proof.
  intros R H. pose proof (pull_ok r q n R H) as (_ & L & _). destruct R as (_ & L0 & _). rewrite <- L, skipn_length. lia.
Qed.
Lemma write_tells r q k1 k2 : rep r q -> pty_args (PDispatch k1 k2) ->
  exists r' s c, pty_write r k1 k2 = Ok (r', s, c) /\ r_used r' = still (r_used r) k1 k2 /\ zlen s = r_used r - r_used r' /\ tells (r_used r') (last_call (r_used r) k1 k2) c.
Proof.
  intros R [A1 A2]. pose proof R as (_ & L & _). unfold pty_write. cbn [pty_write_loop app].
  destruct (peek_ok r q R) as (v & -> & Ev & Nv). cbn [bind]. destruct v as [|x v].
  { assert (q = []) by tauto. subst q. cbn [length] in L. exists r, [], 0. split; [reflexivity|]. cbn [length].
    assert (S : still (r_used r) k1 k2 = 0) by (rewrite <- L; destruct k1, k2; cbn [still]; lia). split; [lia|]. split; [lia|]. split; [auto|lia]. }
  assert (N : 0 < r_used r). { destruct q; [|cbn [length] in L; lia]. exfalso. destruct Nv as [_ Nv]. discriminate (Nv eq_refl). }
  destruct k1 as [a| |e].
  2:{ eexists _, _, _. split; [reflexivity|]. cbn [still last_call length]. split; [reflexivity|]. split; [lia|]. split; [intros [X|X]; [lia|discriminate X]|reflexivity]. }
  2:{ eexists _, _, _. split; [reflexivity|]. cbn [still last_call length]. split; [reflexivity|]. split; [lia|]. split; [intros [X|X]; [lia|injection X as ->; reflexivity]|intros _; split; intros; repeat match goal with |- context [?p =? ?q] => destruct (Z.eqb_spec p q) end; lia]. }
  pose proof (pull_ok r q a R ltac:(lia)) as R1. pose proof (pull_used r q a R ltac:(lia)) as U1. rewrite Ev.
  assert (La : Z.of_nat (length (firstn (Z.to_nat a) (map (@Some Z) q))) = Z.min a (r_used r)) by (rewrite firstn_length, map_length; lia).
  destruct (peek_ok _ _ R1) as (w & -> & Ew & Nw). cbn [bind]. pose proof R1 as (_ & L1 & _). destruct w as [|y w].
  { assert (E : skipn (Z.to_nat a) q = []) by tauto. rewrite E in L1. cbn [length] in L1. eexists _, _, _. split; [reflexivity|].
    assert (S : still (r_used r) (KTake a) k2 = 0) by (destruct k2; cbn [still]; lia). split; [lia|]. split; [lia|]. split; [reflexivity|lia]. }
  assert (N1 : 0 < r_used (ring_pull r a)). { destruct (skipn (Z.to_nat a) q); [|cbn [length] in L1; lia]. exfalso. destruct Nw as [_ Nw]. discriminate (Nw eq_refl). }
  cbn [last_call]. replace (a <? r_used r) with true by lia. destruct k2 as [b| |e].
  - pose proof (pull_used _ _ b R1 ltac:(lia)) as U2. eexists _, _, _. split; [reflexivity|]. cbn [still]. split; [lia|].
    split; [rewrite Ew, app_length, !firstn_length, !map_length; lia|].
    split; [intros [X|X]; [|discriminate X]|intros X]; [rewrite X; reflexivity|]. destruct (Z.ltb_spec 0 (r_used (ring_pull (ring_pull r a) b))); [reflexivity|lia].
  - eexists _, _, _. split; [reflexivity|]. cbn [still]. split; [lia|]. split; [lia|]. split; [intros [X|X]; [lia|discriminate X]|reflexivity].
  - eexists _, _, _. split; [reflexivity|]. cbn [still]. split; [lia|]. split; [lia|]. split; [intros [X|X]; [lia|injection X as ->; reflexivity]|intros _; split; intros; repeat match goal with |- context [?p =? ?q] => destruct (Z.eqb_spec p q) end; lia].
Qed.
Lemma result ops p k1 k2 : Forall pty_args ops -> pty_pushed ops <= MEM_MAX -> pty_run pty0 ops = Ok p -> pty_args (PDispatch k1 k2) ->
  exists r' s c, pty_write (y_out p) k1 k2 = Ok (r', s, c) /\ r_used r' = still (r_used (y_out p)) k1 k2 /\ zlen s = r_used (y_out p) - r_used r' /\
    tells (r_used r') (last_call (r_used (y_out p)) k1 k2) c.
Proof.
  intros A B E K. destruct (pty_ok ops pty0 [] rep0 A) as (p' & q & s & cs & E' & R & _); [cbn [length]; lia|]. rewrite E in E'. injection E' as <-. exact (write_tells _ _ _ _ R K).
Qed.
