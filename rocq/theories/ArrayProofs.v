(* Proofs about Array.v: push, pop and access behave like a list. *)
From Verif Require Import Base BaseProofs Ring Array SharedSpec.

Definition arep (cap : Z) (a : array) (l : list Z) : Prop :=
  zlen l = v_len a /\ v_len a <= zlen (v_data a) /\ 0 < zlen (v_data a) <= cap /\
  forall i, 0 <= i < v_len a -> znth (v_data a) i = option_map Some (znth l i).

Lemma realloc_ok a n : 0 < v_esz a -> zlen (v_data a) <= n -> v_esz a * n < 18446744073709551616 ->
  array_realloc a n = v_data a ++ repeat None (Z.to_nat (n - zlen (v_data a))).
Proof.
  intros He Hn Hb. unfold array_realloc. rewrite u64_small by (split; [apply Z.mul_nonneg_nonneg; lia|lia]).
  rewrite Z.mul_comm, Z.div_mul by lia. rewrite firstn_all2 by lia. reflexivity.
Qed.

Lemma store_ok (d : list (option Z)) n (l : list Z) x : zlen l = n -> n < zlen d ->
  (forall i, 0 <= i < n -> znth d i = option_map Some (znth l i)) ->
  zmod d n (fun _ => Some x) = Ok (zupd d n (fun _ => Some x)) /\
  forall i, 0 <= i < n + 1 -> znth (zupd d n (fun _ => Some x)) i = option_map Some (znth (l ++ [x]) i).
Proof.
  intros L Hn A. split; [apply zmod_ok; lia|]. intros i Hi. rewrite znth_zupd, znth_app, L.
  destruct (Z.eqb_spec i n) as [->|Ne].
  - replace (n <? n) with false by lia. destruct (znth_some d n ltac:(lia)) as (y & ->). rewrite Z.sub_diag. reflexivity.
  - replace (i <? n) with true by lia. apply A. lia.
Qed.

Lemma apush_ok cap mem a l x : arep cap a l -> 0 < v_esz a -> v_esz a * (2 * (cap + 1)) < 18446744073709551616 ->
  exists a' c, array_push mem a x = Ok (a', c) /\ v_esz a' = v_esz a /\
    ((c = 0 /\ arep (Z.max cap (2 * (v_len a + 1))) a' (l ++ [x])) \/ (c = -12 /\ mem = false /\ a' = a)).
Proof.
  intros (L & Hl & Hc & A) He Hb. unfold array_push. destruct (Z.leb_spec (zlen (v_data a)) (v_len a)).
  - destruct mem; [|exists a, (-12); auto 8]. cbv zeta.
    assert (EM : v_esz a * (zlen (v_data a) * 2) <= v_esz a * (2 * (cap + 1))) by (apply Z.mul_le_mono_nonneg_l; lia).
    assert (EM1 : 1 * (zlen (v_data a) * 2) <= v_esz a * (zlen (v_data a) * 2)) by (apply Z.mul_le_mono_nonneg_r; lia).
    rewrite u64_small by lia. rewrite realloc_ok by lia.
    set (d := v_data a ++ _). assert (Ld : zlen d = zlen (v_data a) * 2) by (unfold d; rewrite app_length, repeat_length; lia).
    rewrite Ld, Z.eqb_refl.
    destruct (store_ok d (v_len a) l x L ltac:(lia)) as (-> & S).
    { intros i Hi. unfold d. rewrite znth_app. replace (_ <? _) with true by lia. apply A. lia. }
    cbn [bind]. eexists _, 0. split; [reflexivity|]. split; [reflexivity|]. left. split; [reflexivity|].
    unfold arep. cbn [v_data v_len]. rewrite length_zupd, app_length. cbn [length].
    repeat match goal with |- _ /\ _ => split end; try lia. exact S.
  - destruct (store_ok (v_data a) (v_len a) l x L ltac:(lia) A) as (-> & S).
    cbn [bind]. eexists _, 0. split; [reflexivity|]. split; [reflexivity|]. left. split; [reflexivity|].
    unfold arep. cbn [v_data v_len]. rewrite length_zupd, app_length. cbn [length].
    repeat match goal with |- _ /\ _ => split end; try lia. exact S.
Qed.

Lemma apop_ok cap a l : arep cap a l -> arep cap (array_pop a) (removelast l).
Proof.
  intros (L & Hl & Hc & A). unfold array_pop. destruct (Z.eqb_spec (v_len a) 0) as [E|E].
  - destruct l; [|cbn [length] in L; lia]. cbn [removelast]. exact (conj L (conj Hl (conj Hc A))).
  - assert (X : exists l0 x, l = l0 ++ [x]). { destruct l as [|y l]; [cbn [length] in L; lia|]. destruct (exists_last (l:=y :: l) ltac:(discriminate)) as (l0 & x & E1). eauto. }
    destruct X as (l0 & x & ->). rewrite removelast_last. rewrite app_length in L. cbn [length] in L.
    unfold arep; cbn [v_len v_data]. repeat match goal with |- _ /\ _ => split end; try lia.
    intros i Hi. rewrite A by lia. rewrite znth_app. replace (_ <? _) with true by lia. reflexivity.
Qed.

Lemma array_listlike ops : forall cap a l, arep cap a l -> Forall push_pop ops -> 0 < v_esz a ->
  v_len a + zlen ops <= cap -> v_esz a * (4 * (cap + 1)) < 18446744073709551616 ->
  exists a' cs l', array_run a ops = Ok (a', cs) /\ listlike l ops cs l' /\ arep (2 * cap) a' l'.
Proof.
  assert (G : forall ops cap a l, arep (2 * cap) a l -> Forall push_pop ops -> 0 < v_esz a ->
    v_len a + zlen ops <= cap -> v_esz a * (4 * (cap + 1)) < 18446744073709551616 ->
    exists a' cs l', array_run a ops = Ok (a', cs) /\ listlike l ops cs l' /\ arep (2 * cap) a' l').
  { clear ops. intros ops. induction ops as [|o ops IH]; intros cap a l R P He Hn Hb.
    { exists a, [], l. split; [reflexivity|]. split; [constructor|exact R]. }
    inversion P as [|? ? P1 P2]; subst. cbn [array_run]. cbn [length] in Hn. pose proof R as (L & _). destruct o as [mem x| |]; [| |destruct P1]; cbn [array_step].
    - destruct (apush_ok (2 * cap) mem a l x R He) as (a1 & c & -> & E1 & [(-> & R1)|(-> & -> & ->)]).
      { assert (v_esz a * (2 * (2 * cap + 1)) <= v_esz a * (4 * (cap + 1))) by (apply Z.mul_le_mono_nonneg_l; lia). lia. }
      + cbn [bind fst snd]. replace (Z.max _ _) with (2 * cap) in R1 by lia.
        destruct (IH cap a1 (l ++ [x]) R1 P2) as (a' & cs & l' & -> & F & R'); [lia| |rewrite E1; lia|].
        { destruct R1 as (L1 & _). rewrite app_length in L1. cbn [length] in L1. lia. }
        cbn [bind fst snd]. eexists _, _, l'. split; [reflexivity|]. split; [constructor; exact F|exact R'].
      + cbn [bind fst snd]. destruct (IH cap a l R P2 He ltac:(lia) Hb) as (a' & cs & l' & -> & F & R').
        cbn [bind fst snd]. eexists _, _, l'. split; [reflexivity|]. split; [constructor; exact F|exact R'].
    - cbn [bind fst snd]. pose proof (apop_ok _ _ _ R) as R1.
      assert (E1 : v_esz (array_pop a) = v_esz a) by (unfold array_pop; destruct (_ =? _); reflexivity).
      destruct (IH cap _ _ R1 P2) as (a' & cs & l' & -> & F & R'); [lia| |rewrite E1; lia|].
      { unfold array_pop. destruct (_ =? _); cbn [v_len]; lia. }
      cbn [bind fst snd]. eexists _, _, l'. split; [reflexivity|]. split; [constructor; exact F|exact R']. }
  intros cap a l (L & H1 & H2 & A) P He Hn Hb. apply (G ops cap a l); auto. split; [exact L|]. split; [lia|]. split; [lia|exact A].
Qed.

Lemma array_list0 esz init ops : 0 < esz -> 0 <= init -> Forall push_pop ops ->
  esz * (4 * (init + zlen ops + 5)) < 18446744073709551616 ->
  exists a0 a cs l, array_new esz init = Some a0 /\ array_run a0 ops = Ok (a, cs) /\ listlike [] ops cs l /\
    v_len a = zlen l /\ v_len a <= zlen (v_data a) /\
    forall i x, znth l i = Some x -> array_at a i = Ok (Some x).
Proof.
  intros He Hi P Hb. unfold array_new. replace (esz =? 0) with false by lia.
  set (n := if init =? 0 then 4 else init). assert (Hn : 0 < n <= init + 4) by (unfold n; destruct (Z.eqb_spec init 0); lia). clearbody n.
  set (a0 := mkV (repeat None (Z.to_nat n)) 0 esz).
  assert (R : arep (init + zlen ops + 4) a0 []).
  { unfold arep, a0; cbn [v_len v_data length]. rewrite repeat_length. repeat match goal with |- _ /\ _ => split end; try lia. }
  destruct (array_listlike ops (init + zlen ops + 4) a0 [] R P) as (a & cs & l & E & F & (L & H1 & _ & A)).
  - exact He.
  - cbn [a0 v_len]. lia.
  - cbn [a0 v_esz]. replace (init + zlen ops + 4 + 1) with (init + zlen ops + 5) by lia. lia.
  - exists a0, a, cs, l. split; [reflexivity|]. split; [exact E|]. split; [exact F|]. split; [lia|]. split; [exact H1|].
    intros i x X. unfold array_at. apply zget_ok. rewrite A, X; [reflexivity|]. apply znth_Some_range in X. lia.
Qed.

(* -- resizing --------------------------------------------------------------- *)
(* Bit m of w is set if one of the k bits of v from m on is. *)
Definition smeared (v w k : Z) : Prop := forall m, 0 <= m -> (Z.testbit w m = true <-> exists j, 0 <= j < k /\ Z.testbit v (m + j) = true).
Lemma smear_step v w k : 0 < k -> smeared v w k -> smeared v (Z.lor w (Z.shiftr w k)) (2 * k).
Proof.
  intros K S m M. rewrite Z.lor_spec, Z.shiftr_spec, orb_true_iff by lia. rewrite (S m M), (S (m + k)) by lia. split.
  - intros [(j & J & B)|(j & J & B)]; [exists j; split; [lia|exact B]|exists (k + j); split; [lia|]]. now rewrite Z.add_assoc.
  - intros (j & J & B). destruct (Z.lt_ge_cases j k); [left; exists j; split; [lia|exact B]|right; exists (j - k); split; [lia|]]. replace (m + k + (j - k)) with (m + j) by lia. exact B.
Qed.
Lemma pow2_least v : 1 <= v <= 2 ^ 63 -> exists k, array_pow2 v = 2 ^ k /\ 0 <= k /\ v <= 2 ^ k < 2 * v.
Proof.
  intros V. change (2 ^ 63) with 9223372036854775808 in V. unfold array_pow2. replace (v =? 0) with false by lia. cbv zeta. set (u := v - 1). cbn [fold_left].
  assert (S1 : smeared u u 1) by (intros m M; split; [intros B; exists 0; rewrite Z.add_0_r; split; [lia|exact B]|intros (j & J & B); replace (m + j) with m in B by lia; exact B]).
  apply smear_step in S1; [|lia]. change (2 * 1) with 2 in S1. apply smear_step in S1; [|lia]. change (2 * 2) with 4 in S1. apply smear_step in S1; [|lia]. change (2 * 4) with 8 in S1.
  apply smear_step in S1; [|lia]. change (2 * 8) with 16 in S1. apply smear_step in S1; [|lia]. change (2 * 16) with 32 in S1. apply smear_step in S1; [|lia]. change (2 * 32) with 64 in S1.
  match type of S1 with smeared _ ?t _ => set (w := t) in *; clearbody w end. destruct (Z.eq_dec u 0) as [U0|U0].
  - assert (W : w = 0). { apply Z.bits_inj'. intros m M. rewrite Z.bits_0. destruct (Z.testbit w m) eqn:B; [|reflexivity]. apply S1 in B; [|exact M]. destruct B as (j & _ & B). rewrite U0, Z.bits_0 in B. discriminate. }
    exists 0. rewrite W. unfold u in U0. split; [reflexivity|]. change (2 ^ 0) with 1. lia.
  - assert (UP : 0 < u) by (unfold u in *; lia). set (g := Z.log2 u) in *. assert (G0 : 0 <= g) by apply Z.log2_nonneg. assert (GU : 2 ^ g <= u < 2 ^ (g + 1)) by (unfold g; rewrite Z.add_1_r; now apply Z.log2_spec).
    assert (G62 : g <= 62). { assert (g < 63); [|lia]. apply Z.log2_lt_pow2; [exact UP|]. change (2 ^ 63) with 9223372036854775808. unfold u. lia. }
    assert (W : w = Z.ones (g + 1)).
    { apply Z.bits_inj'. intros m M. destruct (Z.lt_ge_cases m (g + 1)) as [LT|GE].
      - rewrite Z.ones_spec_low by lia. apply S1; [exact M|]. exists (g - m). split; [lia|]. replace (m + (g - m)) with g by lia. now apply Z.bit_log2.
      - rewrite Z.ones_spec_high by lia. destruct (Z.testbit w m) eqn:B; [|reflexivity]. apply S1 in B; [|exact M]. destruct B as (j & J & B). rewrite Z.bits_above_log2 in B; [discriminate|lia|fold g; lia]. }
    assert (P : 2 ^ (g + 1) <= 9223372036854775808) by (change 9223372036854775808 with (2 ^ 63); apply Z.pow_le_mono_r; lia).
    exists (g + 1). rewrite W, Z.ones_equiv. unfold Z.pred. rewrite u64_small by lia. split; [lia|]. split; [lia|]. rewrite (Z.pow_add_r 2 g 1) in * by lia. change (2 ^ 1) with 2 in *. unfold u in GU. lia.
Qed.
Theorem array_grows a n : 0 < v_esz a -> 0 <= v_len a <= zlen (v_data a) -> zlen (v_data a) < n -> v_esz a * (2 * n) <= 2 ^ 64 ->
  array_zresize false a n = Ok (a, -12) /\
  exists a' k, array_zresize true a n = Ok (a', 0) /\ v_len a' = n /\ v_esz a' = v_esz a /\ zlen (v_data a') = 2 ^ k /\ n <= 2 ^ k < 2 * n /\
    forall i, 0 <= i < n -> array_at a' i = if i <? v_len a then array_at a i else Ok (Some 0).
Proof.
  intros E L N B. change (2 ^ 64) with 18446744073709551616 in B. unfold array_zresize. replace (zlen (v_data a) <? n) with true by lia. split; [reflexivity|]. cbv zeta.
  destruct (pow2_least n) as (k & -> & K0 & K). { change (2 ^ 63) with 9223372036854775808. nia. }
  assert (D : array_realloc a (2 ^ k) = v_data a ++ repeat None (Z.to_nat (2 ^ k - zlen (v_data a)))).
  { apply realloc_ok; [lia|lia|nia]. }
  rewrite D. assert (LD : zlen (v_data a ++ repeat None (Z.to_nat (2 ^ k - zlen (v_data a)))) = 2 ^ k) by (rewrite app_length, repeat_length; lia).
  replace (_ =? 2 ^ k) with true by lia. assert (LR : zlen (repeat (Some 0) (Z.to_nat (n - v_len a))) = n - v_len a) by (rewrite repeat_length; lia).
  rewrite zcopy_ok by lia. cbn [bind]. eexists _, k. split; [reflexivity|]. cbn [v_len v_esz v_data]. split; [reflexivity|]. split; [reflexivity|]. split; [rewrite length_zput by lia; exact LD|]. split; [exact K|].
  intros i I. unfold array_at, zget. cbn [v_data]. rewrite znth_zput by lia. rewrite LR. destruct (Z.ltb_spec i (v_len a)).
  - replace (_ && _) with false by lia. rewrite znth_app. replace (i <? zlen (v_data a)) with true by lia. reflexivity.
  - replace (_ && _) with true by lia. rewrite znth_repeat. replace (_ && _) with true by lia. reflexivity.
Qed.
(* Within the capacity only the length changes. *)
Lemma array_fits mem a n : n <= zlen (v_data a) -> array_zresize mem a n = Ok (mkV (v_data a) n (v_esz a), 0).
Proof. intros H. unfold array_zresize. replace (_ <? n) with false by lia. reflexivity. Qed.
