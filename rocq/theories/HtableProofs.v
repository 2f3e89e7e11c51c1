(* The hash table is a bag. *)
From Verif Require Import Base BaseProofs Htable HtableSpec.
From Coq Require Import Permutation Btauto.

(* -- bits -------------------------------------------------------------------------- *)
Ltac bits := apply Z.bits_inj'; let i := fresh "i" in let Hi := fresh "Hi" in intros i Hi;
  repeat first [rewrite Z.lor_spec|rewrite Z.land_spec|rewrite Z.ldiff_spec|rewrite Z.lxor_spec|rewrite Z.bits_0].
Lemma sub_bit a m i : Z.land a m = a -> Z.testbit a i = true -> Z.testbit m i = true.
Proof. intros H T. rewrite <- H, Z.land_spec in T. now apply andb_true_iff in T. Qed.
Lemma land_low x b : 0 <= b -> Z.land x (2 ^ b - 1) = x mod 2 ^ b.
Proof. intros H. rewrite <- Z.land_ones by lia. f_equal. rewrite Z.ones_equiv. lia. Qed.
Lemma bit_ge x i : 0 <= x -> 0 <= i -> Z.testbit x i = true -> 2 ^ i <= x.
Proof.
  intros Hx Hi T. destruct (Z_lt_le_dec x (2 ^ i)) as [L|L]; [|exact L]. exfalso.
  destruct (Z.eq_dec x 0) as [->|N]; [rewrite Z.bits_0 in T; discriminate|].
  rewrite Z.bits_above_log2 in T; [discriminate|lia|]. apply Z.log2_lt_pow2; lia.
Qed.
Lemma top_bit p k : 0 <= k -> 2 ^ k <= p < 2 ^ (k + 1) -> Z.testbit p k = true.
Proof.
  intros Hk H. assert (Z.log2 p = k). { apply Z.log2_unique; [lia|]. replace (Z.succ k) with (k + 1) by lia. exact H. }
  subst k. apply Z.bit_log2. pose proof (Z.pow_pos_nonneg 2 (Z.log2 p) ltac:(lia) Hk). lia.
Qed.

(* -- cyclic positions ------------------------------------------------------------------ *)
Lemma cyc_add N a d : 0 <= a < N -> 0 <= d < N -> (a + d) mod N = if a + d <? N then a + d else a + d - N.
Proof.
  intros A D. destruct (Z.ltb_spec (a + d) N); [apply Z.mod_small; lia|].
  rewrite <- (Z.mod_small (a + d - N) N) by lia. replace (a + d - N) with (a + d + (-1) * N) by lia. now rewrite Z_mod_plus_full.
Qed.
Lemma cyc_sub N i g : 0 <= i < N -> 0 <= g < N -> (i - g) mod N = if g <=? i then i - g else i - g + N.
Proof.
  intros A D. destruct (Z.leb_spec g i); [apply Z.mod_small; lia|].
  rewrite <- (Z.mod_small (i - g + N) N) by lia. replace (i - g + N) with (i - g + 1 * N) by lia. now rewrite Z_mod_plus_full.
Qed.
Lemma least (P : Z -> bool) n : forall m, 0 <= m <= Z.of_nat n -> P m = true -> exists z, 0 <= z <= m /\ P z = true /\ forall j, 0 <= j < z -> P j = false.
Proof.
  induction n as [|n IH]; intros m Hm Pm.
  - exists m. split; [lia|]. split; [exact Pm|]. lia.
  - destruct (Z.eq_dec m 0) as [->|]; [exists 0; split; [lia|]; split; [exact Pm|lia]|].
    destruct (P (m - 1)) eqn:E.
    + destruct (IH (m - 1) ltac:(lia) E) as (z & Z1 & Z2 & Z3). exists z. split; [lia|auto].
    + destruct (existsb (fun i => P (Z.of_nat i)) (seq 0 (Z.to_nat m))) eqn:X.
      * apply existsb_exists in X. destruct X as (i & I1 & I2). apply in_seq in I1.
        destruct (IH (Z.of_nat i) ltac:(lia) I2) as (z & Z1 & Z2 & Z3). exists z. split; [lia|auto].
      * exists m. split; [lia|]. split; [exact Pm|]. intros j Hj. destruct (P j) eqn:Pj; [|reflexivity]. exfalso.
        assert (Y : existsb (fun i => P (Z.of_nat i)) (seq 0 (Z.to_nat m)) = true); [|congruence].
        apply existsb_exists. exists (Z.to_nat j). split; [apply in_seq; lia|]. now rewrite Z2Nat.id by lia.
Qed.

(* -- lists of entries ---------------------------------------------------------------------- *)
Definition at_slot (T : list Z) (i : Z) : Z := match znth T i with Some e => e | None => 0 end.
Lemma at_get T i : 0 <= i < zlen T -> zget T i = Ok (at_slot T i) /\ znth T i = Some (at_slot T i).
Proof. intros H. destruct (znth_some T i H) as (e & E). unfold at_slot. rewrite E. split; [now apply zget_ok|reflexivity]. Qed.
Lemma at_upd T i v j : 0 <= i < zlen T -> at_slot (zupd T i (fun _ => v)) j = if j =? i then v else at_slot T j.
Proof.
  intros H. unfold at_slot. rewrite znth_zupd. destruct (Z.eqb_spec j i) as [->|]; [|reflexivity].
  destruct (znth_some T i H) as (e & ->). reflexivity.
Qed.
Lemma zupd_split {A} (f : A -> A) : forall (T : list A) i x, znth T i = Some x ->
  exists l1 l2, T = l1 ++ x :: l2 /\ zlen l1 = i /\ zupd T i f = l1 ++ f x :: l2.
Proof.
  intros T i x E. pose proof (znth_Some_range _ _ _ E) as R.
  assert (Sp : T = firstn (Z.to_nat i) T ++ x :: skipn (S (Z.to_nat i)) T).
  { apply znth_ext'. intros j. rewrite znth_app, firstn_length. destruct (Z.ltb_spec j (Z.of_nat (Nat.min (Z.to_nat i) (length T)))) as [L|L].
    - destruct (Z_lt_le_dec j 0) as [J|J]; [unfold znth; replace (j <? 0) with true by lia; reflexivity|]. rewrite znth_firstn. replace (j <? _) with true by lia. reflexivity.
    - destruct (Z.eq_dec j i) as [->|].
      + replace (i - _) with 0 by lia. rewrite E. reflexivity.
      + replace (j - Z.of_nat (Nat.min (Z.to_nat i) (length T))) with ((j - i - 1) + 1) by lia.
        assert (Q : forall (y : A) l d, 0 <= d -> znth (y :: l) (d + 1) = znth l d).
        { intros y l d D. unfold znth. replace (d + 1 <? 0) with false by lia. replace (d <? 0) with false by lia.
          replace (Z.to_nat (d + 1)) with (S (Z.to_nat d)) by lia. reflexivity. }
        rewrite Q by lia. rewrite znth_skipn by lia. f_equal. lia. }
  exists (firstn (Z.to_nat i) T), (skipn (S (Z.to_nat i)) T). split; [exact Sp|]. split; [rewrite firstn_length; lia|].
  apply znth_ext'. intros j. rewrite znth_zupd. rewrite Sp at 2. rewrite !znth_app, firstn_length.
  replace (Z.of_nat (Nat.min (Z.to_nat i) (length T))) with i by lia.
  destruct (Z.eqb_spec j i) as [->|J].
  - rewrite E. replace (i <? i) with false by lia. rewrite Z.sub_diag. reflexivity.
  - destruct (j <? i) eqn:L; [reflexivity|].
    assert (Q : forall (y : A) l d, 0 < d -> znth (y :: l) d = znth l (d - 1)).
    { intros y l d D. unfold znth. replace (d <? 0) with false by lia. replace (d - 1 <? 0) with false by lia.
      replace (Z.to_nat d) with (S (Z.to_nat (d - 1))) by lia. reflexivity. }
    rewrite !Q by lia. reflexivity.
Qed.

(* Objects held by a table, in the order of the slots; number of words in use. *)
Definition held (ht : htable) (T : list Z) : list Z := map (raw_ptr ht) (filter entry_valid T).
Definition used (T : list Z) : Z := zlen (filter (fun e => negb (e =? 0)) T).
Lemma held_put ht T i v x : znth T i = Some x -> entry_valid x = false -> entry_valid v = true ->
  Permutation (held ht (zupd T i (fun _ => v))) (raw_ptr ht v :: held ht T).
Proof.
  intros E X V. destruct (zupd_split (fun _ => v) T i x E) as (l1 & l2 & -> & _ & ->). unfold held.
  rewrite !filter_app, !map_app. cbn [filter]. rewrite X, V. cbn [map]. symmetry. apply Permutation_middle.
Qed.
Lemma held_drop ht T i v x : znth T i = Some x -> entry_valid x = true -> entry_valid v = false ->
  Permutation (held ht T) (raw_ptr ht x :: held ht (zupd T i (fun _ => v))).
Proof.
  intros E X V. destruct (zupd_split (fun _ => v) T i x E) as (l1 & l2 & -> & _ & ->). unfold held.
  rewrite !filter_app, !map_app. cbn [filter]. rewrite X, V. cbn [map]. symmetry. apply Permutation_middle.
Qed.
Lemma held_same ht T i v x : znth T i = Some x -> entry_valid x = false -> entry_valid v = false ->
  held ht (zupd T i (fun _ => v)) = held ht T.
Proof.
  intros E X V. destruct (zupd_split (fun _ => v) T i x E) as (l1 & l2 & -> & _ & ->). unfold held.
  rewrite !filter_app, !map_app. cbn [filter]. now rewrite X, V.
Qed.
Lemma used_upd T i v x : znth T i = Some x ->
  used (zupd T i (fun _ => v)) = used T - (if x =? 0 then 0 else 1) + (if v =? 0 then 0 else 1).
Proof.
  intros E. destruct (zupd_split (fun _ => v) T i x E) as (l1 & l2 & -> & _ & ->). unfold used.
  rewrite !filter_app, !app_length. cbn [filter]. destruct (x =? 0), (v =? 0); cbn [negb length]; lia.
Qed.
Lemma used_some T : used T < zlen T -> exists i, 0 <= i < zlen T /\ at_slot T i = 0.
Proof.
  unfold used. induction T as [|e T IH]; intros H; cbn [filter length] in H; [lia|].
  destruct (Z.eqb_spec e 0) as [->|N]; cbn [negb length] in H.
  - exists 0. cbn [length]. split; [lia|reflexivity].
  - destruct IH as (i & I1 & I2); [lia|]. exists (i + 1). cbn [length]. split; [lia|].
    unfold at_slot, znth in *. replace (i + 1 <? 0) with false by lia. replace (i <? 0) with false in I2 by lia.
    replace (Z.to_nat (i + 1)) with (S (Z.to_nat i)) by lia. exact I2.
Qed.
Lemma used_held ht T : zlen (held ht T) <= used T.
Proof.
  unfold held, used. rewrite map_length. induction T as [|e T IH]; cbn [filter]; [lia|].
  unfold entry_valid, HT_DELETED in *. destruct (Z.ltb_spec 1 e), (Z.eqb_spec e 0); cbn [negb length]; lia.
Qed.
Lemma used_le T : used T <= zlen T.
Proof. unfold used. induction T as [|e T IH]; cbn [filter length]; [lia|]. destruct (negb _); cbn [length]; lia. Qed.

(* -- entries ------------------------------------------------------------------------------------ *)
Definition okp (k p : Z) : Prop := 2 ^ k <= p < 2 ^ (k + 1).
Record shape (k : Z) (ht : htable) : Prop := mkSh {
  sh_k : 1 <= k < 64; sh_bits : 1 <= h_bits ht <= 30; sh_mask : 0 <= h_mask ht; sh_k_out : Z.testbit (h_mask ht) k = false;
  sh_cb : Z.land (h_cbits ht) (h_mask ht) = h_cbits ht; sh_perf : Z.land (h_perf ht) (h_mask ht) = h_perf ht;
  sh_cb0 : 0 <= h_cbits ht; sh_perf0 : 0 <= h_perf ht
}.
Definition slots (ht : htable) : Z := 2 ^ h_bits ht.
Definition home (ht : htable) (h : Z) : Z := h mod slots ht.
Definition enc (rehash : Z -> Z) (ht : htable) (p i : Z) : Z :=
  make_hval ht p (Z.lor (hash_ptr_bits ht (rehash p)) (if i =? home ht (rehash p) then h_perf ht else 0)).
Lemma slots_big ht k : shape k ht -> 2 <= slots ht <= 1073741824.
Proof.
  intros H. unfold slots. destruct (sh_bits _ _ H). split.
  - change 2 with (2 ^ 1) at 1. apply Z.pow_le_mono_r; lia.
  - change 1073741824 with (2 ^ 30). apply Z.pow_le_mono_r; lia.
Qed.
Lemma home_range ht k h : shape k ht -> 0 <= home ht h < slots ht.
Proof. intros H. apply Z.mod_pos_bound. pose proof (slots_big _ _ H). lia. Qed.
Lemma bucket_home ht k h : shape k ht -> hash_bucket ht h = home ht h.
Proof. intros H. apply land_low. destruct (sh_bits _ _ H). lia. Qed.
Lemma next_slot_eq ht k i : shape k ht -> 0 <= i < slots ht -> next_slot ht i = (i + 1) mod slots ht.
Proof.
  intros H Hi. pose proof (slots_big _ _ H). unfold next_slot, low_mask. rewrite u64_small by lia.
  apply land_low. destruct (sh_bits _ _ H). lia.
Qed.
Lemma okp_bit k p : 1 <= k < 64 -> okp k p -> Z.testbit p k = true /\ 0 < p < 2 ^ 64.
Proof.
  intros Hk H. split; [apply top_bit; [lia|exact H]|]. unfold okp in H.
  pose proof (Z.pow_pos_nonneg 2 k ltac:(lia) ltac:(lia)). pose proof (Z.pow_le_mono_r 2 (k + 1) 64 ltac:(lia) ltac:(lia)). lia.
Qed.
Lemma hpb_mask ht h : Z.land (hash_ptr_bits ht h) (h_mask ht) = hash_ptr_bits ht h.
Proof. unfold hash_ptr_bits. bits. btauto. Qed.
Lemma hpb_perf ht h : Z.ldiff (hash_ptr_bits ht h) (h_perf ht) = hash_ptr_bits ht h.
Proof. unfold hash_ptr_bits. bits. btauto. Qed.
Definition bs (rehash : Z -> Z) (ht : htable) (p i : Z) : Z := Z.lor (hash_ptr_bits ht (rehash p)) (if i =? home ht (rehash p) then h_perf ht else 0).
Lemma bs_mask rehash k ht p i : shape k ht -> Z.land (bs rehash ht p i) (h_mask ht) = bs rehash ht p i.
Proof.
  intros H. unfold bs. rewrite Z.land_lor_distr_l, hpb_mask. f_equal. destruct (_ =? _); [apply (sh_perf _ _ H)|apply Z.land_0_l].
Qed.
Lemma enc_raw rehash k ht p i : shape k ht -> Z.land p (h_mask ht) = h_cbits ht -> raw_ptr ht (enc rehash ht p i) = p.
Proof.
  intros H C. unfold raw_ptr, enc, make_hval. fold (bs rehash ht p i). pose proof (bs_mask rehash k ht p i H) as B. rewrite <- C, <- B. bits.
  btauto.
Qed.
Lemma enc_extra rehash k ht p i : shape k ht -> extra_bits ht (enc rehash ht p i) = bs rehash ht p i.
Proof.
  intros H. unfold extra_bits, enc, make_hval. fold (bs rehash ht p i). pose proof (bs_mask rehash k ht p i H) as B. rewrite <- B. bits.
  btauto.
Qed.
Lemma enc_perf rehash k ht p i : shape k ht -> Z.land (enc rehash ht p i) (h_perf ht) = if i =? home ht (rehash p) then h_perf ht else 0.
Proof.
  intros H. unfold enc, make_hval. fold (bs rehash ht p i). pose proof (sh_perf _ _ H) as P. rewrite <- P at 1. unfold bs, hash_ptr_bits. bits.
  destruct (_ =? _); rewrite ?Z.bits_0; destruct (Z.testbit (h_perf ht) i0) eqn:E; rewrite ?(sub_bit _ _ _ P E); try btauto.
Qed.
Lemma enc_bit rehash k ht p i : shape k ht -> okp k p -> Z.testbit (enc rehash ht p i) k = true.
Proof.
  intros H O. destruct (okp_bit k p (sh_k _ _ H) O) as [B _]. unfold enc, make_hval. rewrite Z.lor_spec, Z.ldiff_spec, B, (sh_k_out _ _ H). reflexivity.
Qed.
Lemma enc_nonneg rehash k ht p i : shape k ht -> okp k p -> 0 <= enc rehash ht p i.
Proof.
  intros H O. destruct (okp_bit k p (sh_k _ _ H) O) as [_ R]. unfold enc, make_hval. apply Z.lor_nonneg. split; [apply Z.ldiff_nonneg; lia|].
  fold (bs rehash ht p i). rewrite <- (bs_mask rehash k ht p i H). apply Z.land_nonneg. right. apply H.
Qed.
Lemma enc_valid rehash k ht p i : shape k ht -> okp k p -> entry_valid (enc rehash ht p i) = true.
Proof.
  intros H O. pose proof (enc_bit rehash k ht p i H O) as B. pose proof (bit_ge _ k (enc_nonneg rehash k ht p i H O) ltac:(destruct (sh_k _ _ H); lia) B) as G.
  pose proof (Z.pow_le_mono_r 2 1 k ltac:(lia) ltac:(destruct (sh_k _ _ H); lia)). unfold entry_valid, HT_DELETED. change (2 ^ 1) with 2 in *. lia.
Qed.

(* Every valid entry encodes an object for its slot; every slot between the home
   of an object and its place is in use. *)
Definition entry_ok (rehash : Z -> Z) (k : Z) (ht : htable) (i e : Z) : Prop :=
  okp k (raw_ptr ht e) /\ Z.land (raw_ptr ht e) (h_mask ht) = h_cbits ht /\ e = enc rehash ht (raw_ptr ht e) i.
Definition entries_ok (rehash : Z -> Z) (k : Z) (ht : htable) (T : list Z) : Prop :=
  forall i, 0 <= i < zlen T -> 0 <= at_slot T i /\ (entry_valid (at_slot T i) = true -> entry_ok rehash k ht i (at_slot T i)).
Definition ehome (rehash : Z -> Z) (ht : htable) (e : Z) : Z := home ht (rehash (raw_ptr ht e)).
Definition chains (rehash : Z -> Z) (ht : htable) (T : list Z) : Prop :=
  forall i, 0 <= i < zlen T -> entry_valid (at_slot T i) = true ->
  forall d, 0 <= d < (i - ehome rehash ht (at_slot T i)) mod slots ht -> at_slot T ((ehome rehash ht (at_slot T i) + d) mod slots ht) <> 0.

(* -- adding an entry ------------------------------------------------------------------------------ *)
Definition put (ht : htable) (T : list Z) : htable :=
  mkH (h_bits ht) (h_elems ht) (h_deleted ht) (h_max ht) (h_maxd ht) (h_mask ht) (h_cbits ht) (h_perf ht) (Some T).
Lemma ht_set_ok ht T i v : h_tab ht = Some T -> 0 <= i < zlen T -> ht_set ht i v = Ok (put ht (zupd T i (fun _ => v))).
Proof. intros E Hi. unfold ht_set. rewrite E. unfold zmod. replace ((0 <=? i) && (i <? zlen T)) with true by lia. reflexivity. Qed.
Lemma shape_put k ht T : shape k ht -> shape k (put ht T).
Proof. intros []. constructor; auto. Qed.
Lemma tab_some ht T : h_tab ht = Some T -> ht_tab ht = T.
Proof. intros E. unfold ht_tab. now rewrite E. Qed.
Lemma step_mod N i j : 0 < N -> (((i + j) mod N) + 1) mod N = (i + (j + 1)) mod N.
Proof. intros H. rewrite Zplus_mod_idemp_l. f_equal. lia. Qed.
Lemma add_slot_ok k ht T : shape k ht -> h_tab ht = Some T -> zlen T = slots ht -> forall d n i perf, 0 <= d -> (Z.to_nat d < n)%nat -> 0 <= i < slots ht ->
  (forall j, 0 <= j < d -> entry_valid (at_slot T ((i + j) mod slots ht)) = true) -> entry_valid (at_slot T ((i + d) mod slots ht)) = false ->
  add_slot n ht i perf = Ok ((i + d) mod slots ht, if d =? 0 then perf else 0).
Proof.
  intros H E L d n. pose proof (slots_big _ _ H) as B. revert d. induction n as [|n IH]; intros d i perf Hd Hn Hi V W; [lia|].
  cbn [add_slot]. rewrite (tab_some _ _ E). destruct (at_get T i ltac:(lia)) as [-> _]. cbn [bind].
  destruct (Z.eqb_spec d 0) as [->|D].
  - rewrite Z.add_0_r in *. rewrite (Z.mod_small i) in * by lia. rewrite W. reflexivity.
  - specialize (V 0 ltac:(lia)) as V0. rewrite Z.add_0_r, (Z.mod_small i) in V0 by lia. rewrite V0.
    rewrite (next_slot_eq ht k) by auto.
    assert (S : forall j, ((i + 1) mod slots ht + j) mod slots ht = (i + (j + 1)) mod slots ht) by (intros j; rewrite Zplus_mod_idemp_l; f_equal; lia).
    rewrite (IH (d - 1)); [|lia|lia|apply Z.mod_pos_bound; lia| |].
    + rewrite S. replace (d - 1 + 1) with d by lia. destruct (d - 1 =? 0); reflexivity.
    + intros j Hj. rewrite S. apply V. lia.
    + rewrite S. replace (d - 1 + 1) with d by lia. exact W.
Qed.
(* The entry goes to the first slot from its home that holds no object. *)
Lemma ht_add_at rehash k ht T p : shape k ht -> h_tab ht = Some T -> zlen T = slots ht ->
  (exists i, 0 <= i < zlen T /\ entry_valid (at_slot T i) = false) ->
  exists d, 0 <= d < slots ht /\ let g := home ht (rehash p) in let i := (g + d) mod slots ht in
    (forall j, 0 <= j < d -> entry_valid (at_slot T ((g + j) mod slots ht)) = true) /\ entry_valid (at_slot T i) = false /\
    ht_add ht p (rehash p) = Ok (put ht (zupd T i (fun _ => enc rehash ht p i))).
Proof.
  intros H E L (i0 & I0 & V0). pose proof (slots_big _ _ H) as B. pose proof (home_range ht k (rehash p) H) as G.
  set (g := home ht (rehash p)) in *. set (N := slots ht) in *.
  destruct (least (fun d => negb (entry_valid (at_slot T ((g + d) mod N)))) (Z.to_nat N) ((i0 - g) mod N)) as (d & D1 & D2 & D3).
  - pose proof (Z.mod_pos_bound (i0 - g) N ltac:(lia)). lia.
  - rewrite Zplus_mod_idemp_r. replace (g + (i0 - g)) with i0 by lia. rewrite Z.mod_small by lia. now rewrite V0.
  - pose proof (Z.mod_pos_bound (i0 - g) N ltac:(lia)). exists d. split; [lia|]. cbv zeta.
    assert (V : forall j, 0 <= j < d -> entry_valid (at_slot T ((g + j) mod N)) = true).
    { intros j Hj. specialize (D3 j Hj). now apply negb_false_iff in D3. }
    apply negb_true_iff in D2. split; [exact V|]. split; [exact D2|].
    unfold ht_add. rewrite (bucket_home ht k) by exact H. fold g.
    rewrite (add_slot_ok k ht T H E L d) by (auto; unfold ht_fuel; rewrite ?(tab_some _ _ E); lia). cbn [bind fst snd].
    pose proof (Z.mod_pos_bound (g + d) N ltac:(lia)). rewrite (ht_set_ok ht T) by (auto; lia). f_equal. f_equal. f_equal.
    unfold enc. fold g. replace ((g + d) mod N =? g) with (d =? 0); [reflexivity|].
    rewrite cyc_add by lia. destruct (Z.eqb_spec d 0); destruct (Z.ltb_spec (g + d) N); destruct (Z.eqb_spec (if g + d <? N then g + d else g + d - N) g); lia.
Qed.
Lemma entry_ok_enc rehash k ht p i : shape k ht -> okp k p -> Z.land p (h_mask ht) = h_cbits ht -> entry_ok rehash k ht i (enc rehash ht p i).
Proof.
  intros H O C. unfold entry_ok. rewrite (enc_raw rehash k) by auto. auto.
Qed.
Lemma entry_ok_put rehash k ht T i e : entry_ok rehash k (put ht T) i e <-> entry_ok rehash k ht i e.
Proof. reflexivity. Qed.
Lemma entries_ok_upd rehash k ht T i v : entries_ok rehash k ht T -> 0 <= v -> (entry_valid v = true -> entry_ok rehash k ht i v) ->
  entries_ok rehash k ht (zupd T i (fun _ => v)).
Proof.
  intros A V W j Hj. rewrite length_zupd in Hj. destruct (Z_lt_le_dec i 0) as [I|I]; [|destruct (Z_lt_le_dec i (zlen T)) as [J|J]].
  - unfold at_slot. rewrite znth_zupd. replace (j =? i) with false by lia. apply A, Hj.
  - rewrite at_upd by lia. destruct (Z.eqb_spec j i) as [->|]; [auto|]. apply A, Hj.
  - unfold at_slot. rewrite znth_zupd. replace (j =? i) with false by lia. apply A, Hj.
Qed.
(* Chains survive as long as no slot in use becomes empty. *)
Lemma chains_upd rehash ht T i v : chains rehash ht T -> 0 <= i < zlen T -> v <> 0 ->
  (entry_valid v = true -> forall d, 0 <= d < (i - ehome rehash ht v) mod slots ht -> at_slot T ((ehome rehash ht v + d) mod slots ht) <> 0) ->
  chains rehash ht (zupd T i (fun _ => v)).
Proof.
  intros C Hi V W j Hj Vj d Hd. rewrite length_zupd in Hj. rewrite at_upd in Vj, Hd by exact Hi.
  assert (K : at_slot T ((ehome rehash ht (at_slot (zupd T i (fun _ => v)) j) + d) mod slots ht) <> 0).
  { rewrite at_upd by exact Hi. destruct (Z.eqb_spec j i) as [->|]; [now apply W|]. now apply C. }
  remember ((ehome rehash ht (at_slot (zupd T i (fun _ => v)) j) + d) mod slots ht) as x eqn:X. rewrite at_upd by exact Hi.
  destruct (x =? i); [exact V|exact K].
Qed.
Lemma valid_nz e : entry_valid e = true -> e <> 0.
Proof. unfold entry_valid, HT_DELETED. lia. Qed.
Record tidy (rehash : Z -> Z) (k : Z) (ht : htable) (T : list Z) : Prop := mkTidy {
  td_shape : shape k ht; td_tab : h_tab ht = Some T; td_len : zlen T = slots ht; td_ent : entries_ok rehash k ht T; td_ch : chains rehash ht T
}.
Lemma ht_add_ok rehash k ht T p : tidy rehash k ht T -> used T < slots ht -> okp k p -> Z.land p (h_mask ht) = h_cbits ht ->
  exists T', ht_add ht p (rehash p) = Ok (put ht T') /\ tidy rehash k (put ht T') T' /\ Permutation (held ht T') (p :: held ht T) /\ used T' <= used T + 1.
Proof.
  intros [H E L A C] U O P. destruct (used_some T ltac:(lia)) as (i0 & I0 & Z0).
  destruct (ht_add_at rehash k ht T p H E L) as (d & Hd & V & W & R). { exists i0. split; [exact I0|]. now rewrite Z0. }
  cbv zeta in *. pose proof (slots_big _ _ H) as B. pose proof (home_range ht k (rehash p) H) as G. set (g := home ht (rehash p)) in *. set (N := slots ht) in *.
  set (i := (g + d) mod N) in *. assert (Hi : 0 <= i < zlen T) by (rewrite L; apply Z.mod_pos_bound; lia).
  destruct (at_get T i Hi) as [_ Gi]. pose proof (enc_valid rehash k ht p i H O) as EV.
  exists (zupd T i (fun _ => enc rehash ht p i)). split; [exact R|]. split; [|split].
  - constructor; auto; try (rewrite length_zupd; exact L).
    + now apply shape_put.
    + change (entries_ok rehash k ht (zupd T i (fun _ => enc rehash ht p i))). apply entries_ok_upd; auto; [apply (enc_nonneg rehash k); auto|].
      intros _. now apply entry_ok_enc.
    + change (chains rehash ht (zupd T i (fun _ => enc rehash ht p i))). apply chains_upd; auto; [now apply valid_nz|].
      intros _ j Hj. unfold ehome in *. rewrite (enc_raw rehash k) in * by auto. fold g N in Hj. fold g N. apply valid_nz, V.
      unfold i in Hj. rewrite cyc_add in Hj by lia. destruct (Z.ltb_spec (g + d) N); rewrite cyc_sub in Hj by lia; destruct (Z.leb_spec g (g + d)); try lia;
        destruct (Z.leb_spec g (g + d - N)); lia.
  - pose proof (held_put ht T i (enc rehash ht p i) _ Gi W EV) as Q. rewrite (enc_raw rehash k) in Q by auto. exact Q.
  - rewrite (used_upd T i _ _ Gi). destruct (at_slot T i =? 0), (enc rehash ht p i =? 0); lia.
Qed.

(* -- looking for an object ------------------------------------------------------------------------ *)
Definition sl (ht : htable) (h j : Z) : Z := (home ht h + j) mod slots ht.
Definition cand (ht : htable) (T : list Z) (h j : Z) : bool :=
  let e := at_slot T (sl ht h j) in
  negb (e =? HT_DELETED) && (extra_bits ht e =? (if j =? 0 then Z.lor (hash_ptr_bits ht h) (h_perf ht) else hash_ptr_bits ht h)).
Lemma sl_range k ht h j : shape k ht -> 0 <= sl ht h j < slots ht.
Proof. intros H. apply Z.mod_pos_bound. pose proof (slots_big _ _ H). lia. Qed.
Lemma sl_next k ht h j : shape k ht -> next_slot ht (sl ht h j) = sl ht h (j + 1).
Proof. intros H. pose proof (slots_big _ _ H). rewrite (next_slot_eq ht k) by (auto; now apply (sl_range k)). apply step_mod. lia. Qed.
Definition found_at (ht : htable) (T : list Z) (h i : Z) (off p : Z) : Prop := off = sl ht h i /\ p = raw_ptr ht (at_slot T off) /\ cand ht T h i = true.
Lemma ht_val_ok k ht T h z : shape k ht -> h_tab ht = Some T -> zlen T = slots ht -> at_slot T (sl ht h z) = 0 ->
  (forall j, 0 <= j < z -> at_slot T (sl ht h j) <> 0) -> forall n j h2 perf, 0 <= j <= z -> z - j < Z.of_nat n ->
  h2 = (if j =? 0 then Z.lor (hash_ptr_bits ht h) (h_perf ht) else hash_ptr_bits ht h) -> perf = h_perf ht \/ perf = 0 /\ 0 < j ->
  exists c, ht_val n ht (sl ht h j) h2 perf = Ok c /\
    match c with
    | None => forall i, j <= i < z -> cand ht T h i = false
    | Some (off, p) => exists i, j <= i < z /\ found_at ht T h i off p /\ forall i', j <= i' < i -> cand ht T h i' = false
    end.
Proof.
  intros H E L Z0 NZ. induction n as [|n IH]; intros j h2 perf Hj Hn HH HP; [lia|].
  cbn [ht_val]. rewrite (tab_some _ _ E). pose proof (sl_range k ht h j H) as R. destruct (at_get T (sl ht h j) ltac:(lia)) as [-> _]. cbn [bind].
  destruct (Z.eq_dec j z) as [->|J].
  - rewrite Z0, Z.eqb_refl. exists None. split; [reflexivity|lia].
  - specialize (NZ j ltac:(lia)) as NZj. destruct (Z.eqb_spec (at_slot T (sl ht h j)) 0); [contradiction|].
    destruct (negb (at_slot T (sl ht h j) =? HT_DELETED) && (extra_bits ht (at_slot T (sl ht h j)) =? h2)) eqn:C.
    + exists (Some (sl ht h j, raw_ptr ht (at_slot T (sl ht h j)))). split; [reflexivity|]. exists j. split; [lia|].
      split; [|lia]. unfold found_at, cand. rewrite <- HH. auto.
    + rewrite (sl_next k) by exact H. destruct (IH (j + 1) (Z.ldiff h2 perf) perf ltac:(lia) ltac:(lia)) as (c & Ec & Pc).
      * replace (j + 1 =? 0) with false by lia. rewrite HH. destruct HP as [-> | [-> HP]].
        -- destruct (j =? 0); [|apply hpb_perf]. rewrite <- (hpb_perf ht h). bits. btauto.
        -- replace (j =? 0) with false by lia. apply Z.ldiff_0_r.
      * destruct HP as [-> | [-> ?]]; [now left|right; lia].
      * exists c. split; [exact Ec|].
        assert (Cj : cand ht T h j = false) by (unfold cand; rewrite <- HH; exact C).
        destruct c as [[off p]|].
        -- destruct Pc as (i & Hi & F & Q). exists i. split; [lia|]. split; [exact F|]. intros i' Hi'. destruct (Z.eq_dec i' j) as [->|]; [exact Cj|]. apply Q. lia.
        -- intros i Hi. destruct (Z.eq_dec i j) as [->|]; [exact Cj|]. apply Pc. lia.
Qed.
Definition search_post (ht : htable) (T : list Z) (cmp : Z -> bool) (h j z : Z) (r : option (Z * Z)) : Prop :=
  match r with
  | None => forall i, j <= i < z -> cand ht T h i = true -> cmp (raw_ptr ht (at_slot T (sl ht h i))) = false
  | Some (off, p) => exists i, j <= i < z /\ found_at ht T h i off p /\ cmp p = true
  end.
Lemma search_ok k ht T h z cmp : shape k ht -> h_tab ht = Some T -> zlen T = slots ht -> 0 <= z < slots ht -> at_slot T (sl ht h z) = 0 ->
  (forall j, 0 <= j < z -> at_slot T (sl ht h j) <> 0) -> forall n j c, 0 <= j <= z -> z - j < Z.of_nat n ->
  match c with
  | None => forall i, j <= i < z -> cand ht T h i = false
  | Some (off, p) => exists i, j <= i < z /\ found_at ht T h i off p /\ forall i', j <= i' < i -> cand ht T h i' = false
  end ->
  exists r, search n ht cmp h c = Ok r /\ search_post ht T cmp h j z r.
Proof.
  intros H E L Hz Z0 NZ. induction n as [|n IH]; intros j c Hj Hn P; [lia|].
  cbn [search]. destruct c as [[off p]|].
  - destruct P as (i & Hi & (-> & -> & Ci) & Q). destruct (cmp _) eqn:Cm.
    + eexists. split; [reflexivity|]. exists i. split; [lia|]. unfold found_at. auto.
    + unfold ht_next. rewrite (sl_next k) by exact H.
      destruct (ht_val_ok k ht T h z H E L Z0 NZ (ht_fuel ht) (i + 1) (hash_ptr_bits ht h) 0) as (c & -> & Pc).
      * lia.
      * unfold ht_fuel. rewrite (tab_some _ _ E). lia.
      * now replace (i + 1 =? 0) with false by lia.
      * right. lia.
      * cbn [bind]. destruct (IH (i + 1) c ltac:(lia) ltac:(lia) Pc) as (r & -> & Pr). exists r. split; [reflexivity|].
        destruct r as [[off' p']|].
        -- destruct Pr as (i2 & Hi2 & F2). exists i2. split; [lia|exact F2].
        -- intros i2 Hi2 C2. destruct (Z.eq_dec i2 i) as [->|]; [exact Cm|]. destruct (Z_lt_le_dec i2 i) as [Lt|Ge].
           ++ rewrite Q in C2 by lia. discriminate.
           ++ apply Pr; [lia|exact C2].
  - exists None. split; [reflexivity|]. intros i Hi C. rewrite P in C by exact Hi. discriminate.
Qed.
Lemma in_held ht T p : In p (held ht T) -> exists i, 0 <= i < zlen T /\ entry_valid (at_slot T i) = true /\ p = raw_ptr ht (at_slot T i).
Proof.
  unfold held. intros I. apply in_map_iff in I. destruct I as (e & <- & I). apply filter_In in I. destruct I as [I V].
  apply In_nth_error in I. destruct I as (n & En). assert (n < length T)%nat by (apply nth_error_Some; congruence).
  exists (Z.of_nat n). split; [lia|]. assert (A : at_slot T (Z.of_nat n) = e).
  { unfold at_slot, znth. replace (Z.of_nat n <? 0) with false by lia. rewrite Nat2Z.id, En. reflexivity. }
  rewrite A. auto.
Qed.
Lemma held_in ht T i : 0 <= i < zlen T -> entry_valid (at_slot T i) = true -> In (raw_ptr ht (at_slot T i)) (held ht T).
Proof.
  intros Hi V. destruct (at_get T i Hi) as [_ E]. unfold held. apply in_map. apply filter_In. split; [|exact V].
  unfold znth in E. replace (i <? 0) with false in E by lia. now apply nth_error_In in E.
Qed.
Lemma ht_search_ok rehash k ht T cmp h : tidy rehash k ht T -> used T < slots ht -> (forall q, cmp q = true -> rehash q = h) ->
  exists r, ht_search ht cmp h = Ok r /\
    match r with
    | None => forall p, In p (held ht T) -> cmp p = false
    | Some (off, p) => 0 <= off < zlen T /\ entry_valid (at_slot T off) = true /\ p = raw_ptr ht (at_slot T off) /\ cmp p = true
    end.
Proof.
  intros [H E L A C] U K. destruct (used_some T ltac:(lia)) as (i0 & I0 & Z0). pose proof (slots_big _ _ H) as B.
  pose proof (home_range ht k h H) as G.
  destruct (least (fun d => at_slot T (sl ht h d) =? 0) (Z.to_nat (slots ht)) ((i0 - home ht h) mod slots ht)) as (z & D1 & D2 & D3).
  { pose proof (Z.mod_pos_bound (i0 - home ht h) (slots ht) ltac:(lia)). lia. }
  { unfold sl. rewrite Zplus_mod_idemp_r. replace (home ht h + (i0 - home ht h)) with i0 by lia. rewrite Z.mod_small by lia. now rewrite Z0. }
  pose proof (Z.mod_pos_bound (i0 - home ht h) (slots ht) ltac:(lia)) as MB. apply Z.eqb_eq in D2.
  assert (NZ : forall j, 0 <= j < z -> at_slot T (sl ht h j) <> 0). { intros j Hj. specialize (D3 j Hj). now apply Z.eqb_neq in D3. }
  unfold ht_search, ht_first. rewrite (bucket_home ht k) by exact H.
  assert (S0 : sl ht h 0 = home ht h). { unfold sl. rewrite Z.add_0_r. apply Z.mod_small. exact G. }
  rewrite <- S0.
  assert (F : z < Z.of_nat (ht_fuel ht)) by (unfold ht_fuel; rewrite (tab_some _ _ E); lia).
  destruct (ht_val_ok k ht T h z H E L D2 NZ (ht_fuel ht) 0 (Z.lor (hash_ptr_bits ht h) (h_perf ht)) (h_perf ht)) as (c & -> & Pc); [lia|lia|reflexivity|now left|].
  cbn [bind]. destruct (search_ok k ht T h z cmp H E L ltac:(lia) D2 NZ (ht_fuel ht) 0 c ltac:(lia) ltac:(lia) Pc) as (r & -> & Pr).
  exists r. split; [reflexivity|]. destruct r as [[off p]|].
  - destruct Pr as (i & Hi & (-> & -> & Ci) & Cm). pose proof (sl_range k ht h i H) as SR. split; [lia|]. split; [|auto].
    unfold cand in Ci. apply andb_true_iff in Ci. destruct Ci as [Ci _]. specialize (NZ i ltac:(lia)). destruct (A (sl ht h i) ltac:(lia)) as [NN _].
    unfold entry_valid, HT_DELETED in *. lia.
  - intros p I. destruct (in_held _ _ _ I) as (s & Hs & Vs & ->). destruct (cmp _) eqn:Cm; [|reflexivity]. exfalso.
    pose proof (K _ Cm) as Kh. destruct (A s Hs) as [_ Es]. specialize (Es Vs). destruct Es as (_ & _ & Es).
    set (d := (s - home ht h) mod slots ht). pose proof (Z.mod_pos_bound (s - home ht h) (slots ht) ltac:(lia)) as DR. fold d in DR.
    assert (Sd : sl ht h d = s). { unfold sl, d. rewrite Zplus_mod_idemp_r. replace (home ht h + (s - home ht h)) with s by lia. apply Z.mod_small. lia. }
    assert (Dz : d < z).
    { destruct (Z_lt_le_dec d z) as [|Ge]; [assumption|]. exfalso. destruct (Z.eq_dec d z) as [->|].
      - rewrite Sd in D2. apply (valid_nz _ Vs D2).
      - specialize (C s Hs Vs z). unfold ehome in C. rewrite Kh in C. apply C; [unfold d in *; lia|exact D2]. }
    assert (Cd : cand ht T h d = true).
    { unfold cand. rewrite Sd. rewrite Es, (enc_extra rehash k) by exact H. unfold bs. rewrite Kh. apply andb_true_iff. split.
      - pose proof (enc_valid rehash k ht (raw_ptr ht (at_slot T s)) s H) as EV. rewrite <- Es. unfold entry_valid, HT_DELETED in *. lia.
      - apply Z.eqb_eq. replace (s =? home ht h) with (d =? 0). { destruct (d =? 0); [reflexivity|apply Z.lor_0_r]. }
        unfold d. rewrite cyc_sub by lia. destruct (Z.leb_spec (home ht h) s); destruct (Z.eqb_spec s (home ht h)); lia. }
    specialize (Pr d ltac:(lia) Cd). rewrite Sd in Pr. congruence.
Qed.

(* -- removing an entry ------------------------------------------------------------------------------ *)
Lemma tidy_del rehash k ht T i : tidy rehash k ht T -> 0 <= i < zlen T -> tidy rehash k (put ht (zupd T i (fun _ => HT_DELETED))) (zupd T i (fun _ => HT_DELETED)).
Proof.
  intros [H E L A C] Hi. constructor; auto.
  - now apply shape_put.
  - rewrite length_zupd. exact L.
  - change (entries_ok rehash k ht (zupd T i (fun _ => HT_DELETED))). apply entries_ok_upd; [exact A|unfold HT_DELETED; lia|discriminate].
  - change (chains rehash ht (zupd T i (fun _ => HT_DELETED))). apply chains_upd; auto; discriminate.
Qed.

(* -- changing the common bits -------------------------------------------------------------------------- *)
Lemma highest_bit_top p k : 2 ^ k <= p < 2 ^ (k + 1) -> forall n, 1 <= k <= Z.of_nat n -> highest_bit n p = k.
Proof.
  intros O. induction n as [|n IH]; intros Hk; [lia|]. cbn [highest_bit].
  destruct (Z.eq_dec k (Z.of_nat (S n))) as [<-|N].
  - rewrite top_bit by (auto; lia). reflexivity.
  - destruct (Z.testbit p (Z.of_nat (S n))) eqn:T; [|apply IH; lia]. exfalso.
    assert (P0 : 0 <= p) by (pose proof (Z.pow_pos_nonneg 2 k ltac:(lia) ltac:(lia)); lia).
    pose proof (bit_ge p (Z.of_nat (S n)) P0 ltac:(lia) T). pose proof (Z.pow_le_mono_r 2 (k + 1) (Z.of_nat (S n)) ltac:(lia) ltac:(lia)). lia.
Qed.
Definition blank (T : list Z) : Prop := forall i, 0 <= i < zlen T -> 0 <= at_slot T i /\ entry_valid (at_slot T i) = false.
Lemma blank_held ht T : blank T -> held ht T = [].
Proof.
  intros B. destruct (held ht T) as [|p l] eqn:E; [reflexivity|]. exfalso.
  destruct (in_held ht T p) as (i & Hi & V & _); [rewrite E; now left|]. destruct (B i Hi) as [_ W]. congruence.
Qed.
Lemma held_blank rehash k ht T : entries_ok rehash k ht T -> held ht T = [] -> blank T.
Proof.
  intros A H i Hi. destruct (A i Hi) as [N _]. split; [exact N|]. destruct (entry_valid _) eqn:V; [|reflexivity].
  pose proof (held_in ht T i Hi V) as I. rewrite H in I. contradiction.
Qed.
Lemma blank_tidy rehash k ht T : shape k ht -> h_tab ht = Some T -> zlen T = slots ht -> blank T -> tidy rehash k ht T.
Proof.
  intros H E L B. constructor; auto.
  - intros i Hi. destruct (B i Hi) as [N V]. split; [exact N|congruence].
  - intros i Hi V. destruct (B i Hi). congruence.
Qed.
Lemma update_empty rehash k ht T p : 1 <= k < 64 -> 1 <= h_bits ht <= 30 -> h_tab ht = Some T -> zlen T = slots ht -> blank T -> h_elems ht = 0 -> okp k p ->
  tidy rehash k (update_common ht p) T /\ Z.land p (h_mask (update_common ht p)) = h_cbits (update_common ht p).
Proof.
  intros Hk Hb E L B E0 O. unfold update_common. rewrite E0. change (0 =? 0) with true. cbv iota zeta. rewrite (highest_bit_top p k O 63) by lia.
  assert (P0 : 0 <= p) by (destruct (okp_bit k p Hk O); lia).
  assert (M : forall i, Z.testbit (Z.ldiff (2 ^ 64 - 1) (2 ^ k)) i = ((0 <=? i) && (i <? 64)) && negb (k =? i)).
  { intros i. rewrite Z.ldiff_spec. replace (2 ^ 64 - 1) with (Z.ones 64) by reflexivity. rewrite Z.testbit_ones by lia. rewrite Z.pow2_bits_eqb by lia. reflexivity. }
  split; [|reflexivity]. apply blank_tidy; auto.
  - constructor; cbn [h_bits h_mask h_cbits h_perf]; try lia.
    + apply Z.ldiff_nonneg. lia.
    + rewrite M. lia.
    + rewrite <- Z.land_assoc. now rewrite Z.land_diag.
    + change 1 with (2 ^ 0) at 1. apply Z.bits_inj'. intros i Hi. rewrite Z.land_spec, M, Z.pow2_bits_eqb by lia.
      change 1 with (2 ^ 0). rewrite Z.pow2_bits_eqb by lia. destruct (Z.eqb_spec 0 i); [|reflexivity]. lia.
    + apply Z.land_nonneg. left. exact P0.
Qed.
Definition recode (ht : htable) (p e : Z) : Z :=
  let maskdiff := Z.lxor (h_cbits ht) (Z.land p (h_mask ht)) in
  if entry_valid e then Z.lor (Z.ldiff e maskdiff) (Z.land (h_cbits ht) maskdiff) else e.
Lemma at_map (f : Z -> Z) T i : f 0 = 0 -> at_slot (map f T) i = f (at_slot T i).
Proof.
  intros F. unfold at_slot, znth. destruct (i <? 0); [now rewrite F|]. rewrite nth_error_map. destruct (nth_error T (Z.to_nat i)); cbn; auto.
Qed.
Lemma shape_common k ht p : shape k ht -> h_elems ht <> 0 -> shape k (update_common ht p).
Proof.
  intros [K Bt M KO CB PF C0 P0] E0. unfold update_common. replace (h_elems ht =? 0) with false by lia. cbv zeta.
  constructor; cbn [h_bits h_mask h_cbits h_perf]; auto.
  - apply Z.ldiff_nonneg. auto.
  - rewrite Z.ldiff_spec, KO. reflexivity.
  - rewrite <- CB at 3. bits. btauto.
  - rewrite <- PF at 2. bits. btauto.
  - apply Z.ldiff_nonneg. auto.
  - apply Z.ldiff_nonneg. auto.
Qed.
Lemma recode_raw k ht p e : shape k ht -> h_elems ht <> 0 -> entry_valid e = true -> raw_ptr (update_common ht p) (recode ht p e) = raw_ptr ht e.
Proof.
  intros [K Bt M KO CB PF C0 P0] E0 V. unfold update_common, recode, raw_ptr. rewrite V. replace (h_elems ht =? 0) with false by lia. cbv zeta.
  cbn [h_bits h_mask h_cbits h_perf]. rewrite <- CB. bits. btauto.
Qed.
Lemma recode_enc rehash k ht p i q : shape k ht -> h_elems ht <> 0 -> okp k q -> Z.land q (h_mask ht) = h_cbits ht ->
  recode ht p (enc rehash ht q i) = enc rehash (update_common ht p) q i.
Proof.
  intros H E0 O Q. unfold recode. rewrite (enc_valid rehash k) by auto. destruct H as [K Bt M KO CB PF C0 P0].
  unfold enc, make_hval, update_common, home, slots, hash_ptr_bits. replace (h_elems ht =? 0) with false by lia. cbv zeta. cbn [h_bits h_mask h_cbits h_perf].
  destruct (i =? _).
  - rewrite <- PF, <- Q. bits. btauto.
  - rewrite <- PF, <- Q. bits. btauto.
Qed.
Lemma update_some rehash k ht T p : tidy rehash k ht T -> h_elems ht <> 0 -> let ht' := update_common ht p in let T' := map (recode ht p) T in
  tidy rehash k ht' T' /\ Z.land p (h_mask ht') = h_cbits ht' /\ held ht' T' = held ht T /\ used T' = used T.
Proof.
  intros [H E L A C] E0. cbv zeta. pose proof (shape_common k ht p H E0) as H'.
  assert (R0 : recode ht p 0 = 0) by reflexivity.
  assert (Vi : forall i, 0 <= i < zlen T -> entry_valid (recode ht p (at_slot T i)) = entry_valid (at_slot T i)).
  { intros i Hi. destruct (A i Hi) as [N W]. destruct (entry_valid (at_slot T i)) eqn:V.
    - destruct (W eq_refl) as (O & Q & X). rewrite X, (recode_enc rehash k) by auto. now apply (enc_valid rehash k).
    - unfold recode. rewrite V. exact V. }
  assert (Bs : h_bits (update_common ht p) = h_bits ht) by (unfold update_common; destruct (_ =? _); reflexivity).
  assert (Sl : slots (update_common ht p) = slots ht) by (unfold slots; now rewrite Bs).
  assert (Ho : forall h, home (update_common ht p) h = home ht h) by (intros; unfold home; now rewrite Sl).
  assert (Zi : forall i, 0 <= i < zlen T -> recode ht p (at_slot T i) = 0 <-> at_slot T i = 0).
  { intros i Hi. specialize (Vi i Hi). split; intros X; [|rewrite X; exact R0]. destruct (entry_valid (at_slot T i)) eqn:V; [rewrite X in Vi; discriminate|].
    unfold recode in X. rewrite V in X. exact X. }
  split; [|split; [|split]].
  - constructor; auto.
    + unfold update_common. replace (h_elems ht =? 0) with false by lia. cbv zeta. cbn [h_tab]. rewrite E. reflexivity.
    + rewrite map_length, Sl. exact L.
    + intros i Hi. rewrite map_length in Hi. rewrite at_map by exact R0. specialize (Vi i Hi). destruct (A i Hi) as [N W].
      destruct (entry_valid (at_slot T i)) eqn:V.
      * destruct (W eq_refl) as (O & Q & X). split; [|].
        { rewrite X, (recode_enc rehash k) by auto. apply (enc_nonneg rehash k); auto. }
        intros _. unfold entry_ok. rewrite (recode_raw k) by auto. split; [exact O|]. split.
        { unfold update_common. replace (h_elems ht =? 0) with false by lia. cbv zeta. cbn [h_mask h_cbits]. rewrite <- Q. bits. btauto. }
        rewrite <- (recode_enc rehash k) by auto. f_equal. exact X.
      * split; [|congruence]. unfold recode. rewrite V. exact N.
    + intros i Hi V d Hd. rewrite map_length in Hi. rewrite at_map in * by exact R0. rewrite (Vi i Hi) in V.
      unfold ehome in *. rewrite (recode_raw k) in * by auto. rewrite at_map by exact R0. rewrite Ho, Sl in *. intros X.
      apply Zi in X; [|rewrite L; apply Z.mod_pos_bound; pose proof (slots_big _ _ H); lia]. rewrite (recode_raw k) in X by auto. exact (C i Hi V d Hd X).
  - unfold update_common. replace (h_elems ht =? 0) with false by lia. cbv zeta. cbn [h_mask h_cbits]. destruct H. rewrite <- sh_cb1. bits. btauto.
  - unfold held. assert (G : forall l, (forall e, In e l -> entry_valid (recode ht p e) = entry_valid e) ->
      map (raw_ptr (update_common ht p)) (filter entry_valid (map (recode ht p) l)) = map (raw_ptr ht) (filter entry_valid l)).
    { induction l as [|e l IH]; intros Q; [reflexivity|]. cbn [map filter]. rewrite (Q e (or_introl eq_refl)).
      destruct (entry_valid e) eqn:V; cbn [map]; rewrite IH by (intros; apply Q; now right); [|reflexivity]. now rewrite (recode_raw k). }
    apply G. intros e I. apply In_nth_error in I. destruct I as (n & En). assert (n < length T)%nat by (apply nth_error_Some; congruence).
    specialize (Vi (Z.of_nat n) ltac:(lia)). unfold at_slot, znth in Vi. replace (Z.of_nat n <? 0) with false in Vi by lia. rewrite Nat2Z.id, En in Vi. exact Vi.
  - unfold used. assert (G : forall l, (forall e, In e l -> (recode ht p e =? 0) = (e =? 0)) ->
      zlen (filter (fun e => negb (e =? 0)) (map (recode ht p) l)) = zlen (filter (fun e => negb (e =? 0)) l)).
    { induction l as [|e l IH]; intros Q; [reflexivity|]. cbn [map filter]. rewrite (Q e (or_introl eq_refl)).
      specialize (IH ltac:(intros; apply Q; now right)). destruct (negb (e =? 0)); cbn [length]; lia. }
    apply G. intros e I. apply In_nth_error in I. destruct I as (n & En). assert (n < length T)%nat by (apply nth_error_Some; congruence).
    specialize (Zi (Z.of_nat n) ltac:(lia)). unfold at_slot, znth in Zi. replace (Z.of_nat n <? 0) with false in Zi by lia. rewrite Nat2Z.id, En in Zi.
    destruct (Z.eqb_spec (recode ht p e) 0), (Z.eqb_spec e 0); auto; tauto.
Qed.

(* -- doubling ------------------------------------------------------------------------------------------- *)
Lemma move_ok rehash k new : forall es T, tidy rehash k (put new T) T ->
  (forall e, In e es -> entry_valid e = true -> okp k (raw_ptr new e) /\ Z.land (raw_ptr new e) (h_mask new) = h_cbits new) ->
  used T + zlen (held new es) <= slots new ->
  exists T', move_entries rehash new es (put new T) = Ok (put new T') /\ tidy rehash k (put new T') T' /\
    Permutation (held new T') (held new es ++ held new T) /\ used T' <= used T + zlen (held new es).
Proof.
  induction es as [|e es IH]; intros T D Q U.
  - exists T. split; [reflexivity|]. split; [exact D|]. split; [apply Permutation_refl|]. unfold held. cbn. lia.
  - cbn [move_entries]. unfold move_entry. unfold held in U |- *. cbn [filter] in U |- *. destruct (entry_valid e) eqn:V.
    + cbn [map length] in U. destruct (Q e (or_introl eq_refl) V) as [O M].
      destruct (ht_add_ok rehash k (put new T) T (raw_ptr new e) D) as (T1 & R & D1 & P1 & U1); auto.
      { change (used T < slots new). lia. }
      cbv zeta. rewrite R. cbn [bind]. change (put (put new T) T1) with (put new T1) in *.
      destruct (IH T1 D1) as (T' & R' & D' & P' & U').
      { intros; apply Q; auto. now right. } { unfold held. lia. }
      exists T'. split; [exact R'|]. split; [exact D'|]. unfold held in *. cbn [map length app]. split; [|lia].
      change (raw_ptr (put new T)) with (raw_ptr new) in P1. eapply Permutation_trans; [exact P'|].
      eapply Permutation_trans; [apply Permutation_app_head, P1|]. symmetry. apply Permutation_middle.
    + cbn [bind]. apply IH; auto. intros; apply Q; auto. now right.
Qed.
Lemma lowest_bit_sub m : forall n i, 0 <= i -> Z.land (lowest_bit n i m) m = lowest_bit n i m /\ 0 <= lowest_bit n i m.
Proof.
  induction n as [|n IH]; intros i Hi; cbn [lowest_bit]; [split; [apply Z.land_0_l|lia]|]. destruct (Z.testbit m i) eqn:T; [|apply IH; lia].
  split; [|apply Z.pow_nonneg; lia]. apply Z.bits_inj'. intros j Hj. rewrite Z.land_spec, Z.pow2_bits_eqb by lia. destruct (Z.eqb_spec i j) as [->|]; [now rewrite T|reflexivity].
Qed.
Lemma zeros_blank n : blank (repeat 0 n).
Proof.
  intros i Hi. assert (at_slot (repeat 0 n) i = 0) as ->; [|split; [lia|reflexivity]].
  unfold at_slot, znth. destruct (i <? 0); [reflexivity|]. destruct (nth_error (repeat 0 n) (Z.to_nat i)) eqn:E; [|reflexivity].
  apply nth_error_In, repeat_spec in E. exact E.
Qed.
Lemma zeros_used n : used (repeat 0 n) = 0.
Proof. unfold used. induction n; cbn; auto. Qed.
Lemma in_at T e : In e T -> exists i, 0 <= i < zlen T /\ at_slot T i = e.
Proof.
  intros I. apply In_nth_error in I. destruct I as (n & En). assert (n < length T)%nat by (apply nth_error_Some; congruence).
  exists (Z.of_nat n). split; [lia|]. unfold at_slot, znth. replace (Z.of_nat n <? 0) with false by lia. now rewrite Nat2Z.id, En.
Qed.
Lemma double_some rehash k ht T : tidy rehash k ht T -> h_bits ht <= 29 -> zlen (held ht T) <= slots ht ->
  exists perf T', let ht' := mkH (h_bits ht + 1) (h_elems ht) 0 (3 * 2 ^ (h_bits ht + 1) / 4) (9 * 2 ^ (h_bits ht + 1) / 10) (h_mask ht) (h_cbits ht) perf (Some T') in
    double_table rehash true ht = Ok (Some ht') /\ tidy rehash k ht' T' /\ Permutation (held ht' T') (held ht T) /\ used T' <= zlen (held ht T).
Proof.
  intros [H E L A C] B U. unfold double_table. replace (31 <=? h_bits ht + 1) with false by lia. cbn [negb]. cbv zeta.
  set (perf := if (h_perf ht =? 0) && negb (h_mask ht =? 0) then lowest_bit 64 0 (h_mask ht) else h_perf ht).
  assert (PF : Z.land perf (h_mask ht) = perf /\ 0 <= perf).
  { unfold perf. destruct (_ && _); [apply lowest_bit_sub; lia|]. split; apply H. }
  set (b := h_bits ht + 1). set (Z0 := repeat 0 (Z.to_nat (2 ^ b))).
  set (new := mkH b (h_elems ht) (h_deleted ht) (3 * 2 ^ b / 4) (9 * 2 ^ b / 10) (h_mask ht) (h_cbits ht) perf (Some Z0)).
  assert (BB : 1 <= h_bits ht) by apply H.
  assert (Hn : shape k new). { destruct H. constructor; cbn; auto; try lia; apply PF. }
  assert (Ln : slots new = 2 * slots ht). { unfold slots, new, b. cbn [h_bits]. rewrite Z.pow_add_r by lia. lia. }
  assert (LZ : zlen Z0 = slots new). { unfold Z0. rewrite repeat_length. change (2 ^ b) with (slots new). pose proof (slots_big _ _ Hn). lia. }
  pose proof (slots_big _ _ H) as SB.
  rewrite E. destruct (move_ok rehash k new T Z0) as (T' & R & D & P & V).
  - change (put new Z0) with new. apply blank_tidy; auto. apply zeros_blank.
  - intros e I Ve. destruct (in_at T e I) as (i & Hi & <-). destruct (A i Hi) as [_ W]. destruct (W Ve) as (O & M & _). auto.
  - unfold Z0. rewrite zeros_used. change (held new T) with (held ht T). lia.
  - change (put new Z0) with new in R. rewrite R. cbn [bind]. exists perf, T'. split; [reflexivity|]. split; [|split].
    + destruct D as [D1 D2 D3 D4 D5]. constructor; auto. destruct D1. constructor; auto.
    + change (Permutation (held new T') (held ht T)). eapply Permutation_trans; [exact P|]. rewrite (blank_held new Z0) by apply zeros_blank.
      rewrite app_nil_r. apply Permutation_refl.
    + change (held new T) with (held ht T) in V. unfold Z0 in V. rewrite zeros_used in V. lia.
Qed.

(* -- rehashing in place -------------------------------------------------------------------------------------- *)
Definition rl (ht : htable) (T : list Z) (start j : Z) : Z := at_slot T ((start + j) mod slots ht).
Definition rhome (rehash : Z -> Z) (ht : htable) (start e : Z) : Z := (ehome rehash ht e - start) mod slots ht.
Record mid (rehash : Z -> Z) (k : Z) (ht : htable) (start q : Z) (T : list Z) : Prop := mkMid {
  md_len : zlen T = slots ht; md_ent : entries_ok rehash k ht T; md_start : rl ht T start 0 = 0;
  md_home : forall i, 0 <= i < slots ht -> entry_valid (rl ht T start i) = true -> 1 <= rhome rehash ht start (rl ht T start i) <= i;
  md_ch : forall i, 0 <= i < slots ht -> entry_valid (rl ht T start i) = true ->
    forall j, rhome rehash ht start (rl ht T start i) <= j < i -> i < q \/ q <= j -> rl ht T start j <> 0;
  md_done : forall j, 0 <= j < q -> rl ht T start j <> HT_DELETED
}.
Lemma rl_upd k ht T start l v j : shape k ht -> zlen T = slots ht -> 0 <= j < slots ht -> 0 <= l < slots ht ->
  rl ht (zupd T ((start + l) mod slots ht) (fun _ => v)) start j = if j =? l then v else rl ht T start j.
Proof.
  intros H L Hj Hl. pose proof (slots_big _ _ H) as B. unfold rl. rewrite at_upd by (rewrite L; apply Z.mod_pos_bound; lia).
  assert (Q : ((start + j) mod slots ht =? (start + l) mod slots ht) = (j =? l)); [|now rewrite Q].
  rewrite <- (Zplus_mod_idemp_l start j), <- (Zplus_mod_idemp_l start l). pose proof (Z.mod_pos_bound start (slots ht) ltac:(lia)).
  rewrite !cyc_add by lia. destruct (Z.ltb_spec (start mod slots ht + j) (slots ht)), (Z.ltb_spec (start mod slots ht + l) (slots ht)); lia.
Qed.
Lemma rl_ent rehash k ht T start j : shape k ht -> zlen T = slots ht -> entries_ok rehash k ht T -> 0 <= rl ht T start j /\
  (entry_valid (rl ht T start j) = true -> entry_ok rehash k ht ((start + j) mod slots ht) (rl ht T start j)).
Proof. intros H L A. apply A. rewrite L. apply Z.mod_pos_bound. pose proof (slots_big _ _ H). lia. Qed.
Lemma rhome_abs rehash k ht start e j : shape k ht -> (start + (rhome rehash ht start e + j)) mod slots ht = (ehome rehash ht e + j) mod slots ht.
Proof.
  intros H. unfold rhome. replace (start + ((ehome rehash ht e - start) mod slots ht + j)) with ((ehome rehash ht e - start) mod slots ht + (start + j)) by lia.
  rewrite Zplus_mod_idemp_l. f_equal. lia.
Qed.
Lemma rhome_range rehash k ht start e : shape k ht -> 0 <= rhome rehash ht start e < slots ht.
Proof. intros H. apply Z.mod_pos_bound. pose proof (slots_big _ _ H). lia. Qed.
Lemma ehome_range rehash k ht e : shape k ht -> 0 <= ehome rehash ht e < slots ht.
Proof. intros H. now apply (home_range ht k). Qed.
(* Distance from home, in either coordinates. *)
Lemma rel_dist rehash k ht start e i : shape k ht -> 0 <= i < slots ht -> ((start + i) mod slots ht - ehome rehash ht e) mod slots ht = (i - rhome rehash ht start e) mod slots ht.
Proof.
  intros H Hi. unfold rhome. rewrite Zminus_mod_idemp_l, Zminus_mod_idemp_r. f_equal. lia.
Qed.
Lemma mid_start rehash k ht T start : tidy rehash k ht T -> 0 <= start < slots ht -> at_slot T start = 0 -> mid rehash k ht start 0 T.
Proof.
  intros [H E L A C] Hs Z0. pose proof (slots_big _ _ H) as B.
  assert (R0 : rl ht T start 0 = 0). { unfold rl. rewrite Z.add_0_r, Z.mod_small by lia. exact Z0. }
  assert (G : forall i, 0 <= i < slots ht -> entry_valid (rl ht T start i) = true -> forall d, 0 <= d < (i - rhome rehash ht start (rl ht T start i)) mod slots ht ->
    rl ht T start ((rhome rehash ht start (rl ht T start i) + d) mod slots ht) <> 0).
  { intros i Hi V d Hd. unfold rl at 1. rewrite Zplus_mod_idemp_r. rewrite (rhome_abs rehash k) by exact H. apply C; auto.
    - rewrite L. apply Z.mod_pos_bound. lia.
    - change (at_slot T ((start + i) mod slots ht)) with (rl ht T start i). rewrite (rel_dist rehash k) by auto. exact Hd. }
  assert (M : forall i, 0 <= i < slots ht -> entry_valid (rl ht T start i) = true -> 1 <= rhome rehash ht start (rl ht T start i) <= i).
  { intros i Hi V. pose proof (rhome_range rehash k ht start (rl ht T start i) H) as RR. specialize (G i Hi V). set (g := rhome rehash ht start (rl ht T start i)) in *.
    rewrite cyc_sub in G by lia. destruct (Z.leb_spec g i) as [Le|Gt].
    - split; [|lia]. destruct (Z_lt_le_dec g 1) as [Lt|]; [|assumption]. exfalso. assert (g = 0) by lia. destruct (Z.eq_dec i 0) as [->|].
      + rewrite R0 in V. discriminate.
      + apply (G 0 ltac:(lia)). replace (g + 0) with 0 by lia. rewrite Z.mod_0_l by lia. exact R0.
    - exfalso. destruct (Z.eq_dec i 0) as [->|]; [rewrite R0 in V; discriminate|]. apply (G (slots ht - g) ltac:(lia)). replace (g + (slots ht - g)) with (slots ht) by lia. rewrite Z.mod_same by lia. exact R0. }
  constructor; auto.
  - intros i Hi V j Hj _. specialize (M i Hi V). specialize (G i Hi V). set (g := rhome rehash ht start (rl ht T start i)) in *.
    rewrite cyc_sub in G by lia. replace (g <=? i) with true in G by lia. specialize (G (j - g) ltac:(lia)). replace (g + (j - g)) with j in G by lia.
    now rewrite Z.mod_small in G by lia.
  - lia.
Qed.
Lemma mid_end rehash k ht T start : mid rehash k ht start (slots ht) T -> shape k ht -> 0 <= start < slots ht -> chains rehash ht T /\ used T = zlen (held ht T).
Proof.
  intros [L A R0 M C F] H Hs. pose proof (slots_big _ _ H) as B.
  assert (AB : forall s, 0 <= s < slots ht -> 0 <= (s - start) mod slots ht < slots ht /\ (start + (s - start) mod slots ht) mod slots ht = s).
  { intros s Hi. split; [apply Z.mod_pos_bound; lia|]. rewrite Zplus_mod_idemp_r. replace (start + (s - start)) with s by lia. apply Z.mod_small. lia. }
  split.
  - intros s Hi V d Hd. rewrite L in Hi. destruct (AB s Hi) as [I1 I2]. set (i := (s - start) mod slots ht) in *. clearbody i. clear AB.
    assert (RS : rl ht T start i = at_slot T s) by (unfold rl; now rewrite I2). rewrite <- RS in *.
    rewrite <- I2 in Hd. rewrite (rel_dist rehash k) in Hd by auto. specialize (M i I1 V). specialize (C i I1 V).
    rewrite <- (rhome_abs rehash k ht start) by exact H. set (g := rhome rehash ht start (rl ht T start i)) in *. clearbody g. rewrite (Z.mod_small (i - g)) in Hd by lia.
    change (rl ht T start (g + d) <> 0). apply C; lia.
  - assert (ND : forall e, In e T -> (e =? 0) = negb (entry_valid e)).
    { intros e I. destruct (in_at T e I) as (s & Hi & <-). destruct (A s Hi) as [N _]. rewrite L in Hi. destruct (AB s Hi) as [I1 I2].
      specialize (F _ I1). unfold rl in F. rewrite I2 in F. unfold entry_valid, HT_DELETED in *. lia. }
    unfold used, held. rewrite map_length. clear - ND. induction T as [|e T IH]; [reflexivity|]. cbn [filter]. rewrite (ND e (or_introl eq_refl)), negb_involutive.
    specialize (IH ltac:(intros; apply ND; now right)). destruct (entry_valid e); cbn [length]; lia.
Qed.
(* Clearing the slot at hand, whatever it holds. *)
Lemma mid_clear rehash k ht start q T : shape k ht -> mid rehash k ht start q T -> 0 <= q < slots ht ->
  mid rehash k ht start (q + 1) (zupd T ((start + q) mod slots ht) (fun _ => 0)).
Proof.
  intros H [L A R0 M C F] Hq. pose proof (slots_big _ _ H) as B. set (T' := zupd T ((start + q) mod slots ht) (fun _ => 0)).
  assert (RU : forall j, 0 <= j < slots ht -> rl ht T' start j = if j =? q then 0 else rl ht T start j) by (intros; now apply (rl_upd k)).
  constructor.
  - unfold T'. now rewrite length_zupd.
  - apply entries_ok_upd; [exact A|lia|discriminate].
  - rewrite RU by lia. destruct (0 =? q); [reflexivity|exact R0].
  - intros i Hi V. rewrite RU in * by exact Hi. destruct (i =? q); [discriminate|]. now apply M.
  - intros i Hi V j Hj D. rewrite (RU i Hi) in *. destruct (Z.eqb_spec i q); [discriminate|]. specialize (M i Hi V). rewrite RU by lia.
    destruct (Z.eqb_spec j q); [lia|]. apply (C i Hi V j Hj). lia.
  - intros j Hj. rewrite RU by lia. destruct (Z.eqb_spec j q); [discriminate|]. apply F. lia.
Qed.
Lemma mid_keep rehash k ht start q T : shape k ht -> mid rehash k ht start q T -> 0 <= q < slots ht ->
  rl ht T start q <> HT_DELETED -> (entry_valid (rl ht T start q) = true -> rhome rehash ht start (rl ht T start q) = q) -> mid rehash k ht start (q + 1) T.
Proof.
  intros H [L A R0 M C F] Hq ND HM. constructor; auto.
  - intros i Hi V j Hj D. destruct (Z.eq_dec i q) as [->|].
    + rewrite (HM V) in Hj. lia.
    + apply (C i Hi V j Hj). lia.
  - intros j Hj. destruct (Z.eq_dec j q) as [->|]; [exact ND|]. apply F. lia.
Qed.
(* Storing an object at the first free slot from its home, which is not beyond q. *)
Lemma mid_add rehash k ht start q T p l : shape k ht -> mid rehash k ht start (q + 1) T -> 0 <= q < slots ht ->
  okp k p -> Z.land p (h_mask ht) = h_cbits ht -> let g := (home ht (rehash p) - start) mod slots ht in 1 <= g <= l -> l <= q ->
  (forall j, g <= j < l -> entry_valid (rl ht T start j) = true) ->
  mid rehash k ht start (q + 1) (zupd T ((start + l) mod slots ht) (fun _ => enc rehash ht p ((start + l) mod slots ht))).
Proof.
  cbv zeta. intros H [L A R0 M C F] Hq O P Hg Hl V. pose proof (slots_big _ _ H) as B. set (a := (start + l) mod slots ht) in *. set (T' := zupd T a _).
  assert (RU : forall j, 0 <= j < slots ht -> rl ht T' start j = if j =? l then enc rehash ht p a else rl ht T start j) by (intros; apply (rl_upd k); auto; lia).
  pose proof (enc_valid rehash k ht p a H O) as EV. pose proof (enc_raw rehash k ht p a H P) as ER.
  assert (EH : rhome rehash ht start (enc rehash ht p a) = (home ht (rehash p) - start) mod slots ht) by (unfold rhome, ehome; now rewrite ER).
  constructor.
  - unfold T'. now rewrite length_zupd.
  - apply entries_ok_upd; [exact A|apply (enc_nonneg rehash k); auto|]. intros _. now apply entry_ok_enc.
  - rewrite RU by lia. destruct (Z.eqb_spec 0 l); [lia|exact R0].
  - intros i Hi W. rewrite RU in * by exact Hi. destruct (Z.eqb_spec i l) as [->|]; [|now apply M]. rewrite EH. lia.
  - intros i Hi W j Hj D. rewrite (RU i Hi) in *. assert (0 <= j < slots ht).
    { pose proof (rhome_range rehash k ht start (if i =? l then enc rehash ht p a else rl ht T start i) H). lia. }
    rewrite RU by assumption. destruct (Z.eqb_spec j l); [now apply valid_nz|]. destruct (Z.eqb_spec i l) as [->|].
    + rewrite EH in Hj. apply valid_nz, V. lia.
    + now apply (C i Hi W j Hj).
  - intros j Hj. rewrite RU by lia. destruct (j =? l); [|apply F; lia]. unfold entry_valid in EV. lia.
Qed.
Lemma rehash_slot_ok rehash k ht T0 start q T : shape k ht -> 0 <= start < slots ht -> 0 <= q < slots ht -> mid rehash k ht start q T -> Permutation (held ht T) (held ht T0) ->
  exists T', rehash_slot rehash start q (put ht T) = Ok (put ht T') /\ mid rehash k ht start (q + 1) T' /\ Permutation (held ht T') (held ht T0).
Proof.
  intros H Hs Hq W PM. pose proof (slots_big _ _ H) as B. pose proof (md_len _ _ _ _ _ _ W) as L. pose proof (md_ent _ _ _ _ _ _ W) as A.
  unfold rehash_slot. change (low_mask (put ht T)) with (2 ^ h_bits ht - 1). rewrite u64_small by lia. rewrite land_low by (destruct (sh_bits _ _ H); lia).
  change (2 ^ h_bits ht) with (slots ht). replace (q + start) with (start + q) by lia. cbv zeta. set (a := (start + q) mod slots ht).
  assert (Ha : 0 <= a < zlen T) by (rewrite L; apply Z.mod_pos_bound; lia). change (ht_tab (put ht T)) with T. destruct (at_get T a Ha) as [-> Ga]. cbn [bind].
  destruct (rl_ent rehash k ht T start q H L A) as [NN EO]. change (rl ht T start q) with (at_slot T a) in *. fold a in EO.
  pose proof (mid_clear rehash k ht start q T H W Hq) as MC. fold a in MC.
  destruct (Z.eqb_spec (at_slot T a) 0) as [E0|E0].
  { exists T. split; [reflexivity|]. split; [|exact PM]. apply (mid_keep rehash k); auto; change (rl ht T start q) with (at_slot T a); rewrite E0; discriminate. }
  destruct (Z.eqb_spec (at_slot T a) HT_DELETED) as [E1|E1].
  { exists (zupd T a (fun _ => 0)). split; [now rewrite (ht_set_ok (put ht T) T)|]. split; [exact MC|]. rewrite (held_same ht T a 0 _ Ga); auto. now rewrite E1. }
  assert (V : entry_valid (at_slot T a) = true) by (unfold entry_valid, HT_DELETED in *; lia).
  destruct (EO V) as (O & P & X). set (p := raw_ptr ht (at_slot T a)) in *.
  change (h_perf (put ht T)) with (h_perf ht). destruct (Z.eqb_spec (Z.land (at_slot T a) (h_perf ht)) 0) as [PF|PF].
  - rewrite (ht_set_ok (put ht T) T) by auto. cbn [bind]. change (put (put ht T) (zupd T a (fun _ => 0))) with (put ht (zupd T a (fun _ => 0))).
    change (raw_ptr (put ht T) (at_slot T a)) with p. set (T1 := zupd T a (fun _ => 0)) in *.
    destruct (ht_add_at rehash k (put ht T1) T1 p) as (d & Hd & VV & W1 & R).
    { now apply shape_put. } { reflexivity. } { unfold T1. rewrite length_zupd. exact L. }
    { exists a. unfold T1. rewrite length_zupd. split; [exact Ha|]. rewrite at_upd by exact Ha. now rewrite Z.eqb_refl. }
    cbv zeta in *. change (slots (put ht T1)) with (slots ht) in *. change (home (put ht T1) (rehash p)) with (home ht (rehash p)) in *.
    pose proof (md_home _ _ _ _ _ _ W q Hq V) as G. set (g := (home ht (rehash p) - start) mod slots ht).
    change (rhome rehash ht start (rl ht T start q)) with g in G.
    assert (AB : forall j, (home ht (rehash p) + j) mod slots ht = (start + (g + j)) mod slots ht).
    { intros j. unfold g. replace (start + ((home ht (rehash p) - start) mod slots ht + j)) with ((home ht (rehash p) - start) mod slots ht + (start + j)) by lia.
      rewrite Zplus_mod_idemp_l. f_equal. lia. }
    rewrite AB in *. assert (GD : g + d <= q).
    { destruct (Z_lt_le_dec q (g + d)) as [Lt|]; [|assumption]. exfalso. specialize (VV (q - g) ltac:(lia)). rewrite AB in VV. replace (g + (q - g)) with q in VV by lia.
      fold a in VV. unfold T1 in VV. rewrite at_upd in VV by exact Ha. rewrite Z.eqb_refl in VV. discriminate. }
    rewrite R. eexists. split; [reflexivity|]. change (enc rehash (put ht T1) p) with (enc rehash ht p). split.
    + apply (mid_add rehash k); auto; fold g; try lia. intros j Hj. specialize (VV (j - g) ltac:(lia)). rewrite AB in VV. now replace (g + (j - g)) with j in VV by lia.
    + set (b := (start + (g + d)) mod slots ht) in *. assert (Hb : 0 <= b < zlen T1) by (unfold T1; rewrite length_zupd, L; apply Z.mod_pos_bound; lia).
      destruct (at_get T1 b Hb) as [_ Gb].
      pose proof (held_put ht T1 b (enc rehash ht p b) _ Gb W1 (enc_valid rehash k ht p b H O)) as Q1. rewrite (enc_raw rehash k) in Q1 by auto.
      eapply Permutation_trans; [exact Q1|]. eapply Permutation_trans; [|exact PM]. symmetry. apply (held_drop ht T a 0 _ Ga V eq_refl).
  - exists T. split; [reflexivity|]. split; [|exact PM]. apply (mid_keep rehash k); auto. intros _. change (rl ht T start q) with (at_slot T a). unfold rhome, ehome. fold p.
    rewrite X, (enc_perf rehash k) in PF by exact H. destruct (Z.eqb_spec a (home ht (rehash p))) as [<-|]; [|congruence].
    unfold a. rewrite Zminus_mod_idemp_l. replace (start + q - start) with q by lia. apply Z.mod_small. exact Hq.
Qed.
Lemma first_empty_ok : forall T, (exists i, 0 <= i < zlen T /\ at_slot T i = 0) -> exists s, first_empty T = Ok s /\ 0 <= s < zlen T /\ at_slot T s = 0.
Proof.
  induction T as [|e T IH]; intros (i & Hi & Zi); cbn [length] in Hi; [lia|]. cbn [first_empty length]. destruct (Z.eqb_spec e 0) as [->|N].
  - exists 0. split; [reflexivity|]. split; [lia|reflexivity].
  - assert (Q : forall j, 0 <= j -> at_slot (e :: T) (j + 1) = at_slot T j).
    { intros j Hj. unfold at_slot, znth. replace (j + 1 <? 0) with false by lia. replace (j <? 0) with false by lia. replace (Z.to_nat (j + 1)) with (S (Z.to_nat j)) by lia. reflexivity. }
    destruct IH as (s & -> & Hs & Zs).
    + exists (i - 1). destruct (Z.eq_dec i 0) as [->|]; [change (at_slot (e :: T) 0) with e in Zi; contradiction|]. split; [lia|]. rewrite <- Q by lia. now replace (i - 1 + 1) with i by lia.
    + exists (s + 1). split; [reflexivity|]. split; [lia|]. now rewrite Q by lia.
Qed.
Lemma put_id ht T : h_tab ht = Some T -> put ht T = ht.
Proof. destruct ht. cbn. intros ->. reflexivity. Qed.
Lemma rehash_ok rehash k ht T : tidy rehash k ht T -> used T < slots ht ->
  exists T', rehash_table rehash ht = Ok (set_deleted (put ht T') 0) /\ tidy rehash k (put ht T') T' /\ Permutation (held ht T') (held ht T) /\ used T' = zlen (held ht T).
Proof.
  intros D U. pose proof D as [H E L A C]. destruct (first_empty_ok T) as (start & E1 & Hs & Z0); [apply used_some; lia|].
  unfold rehash_table. rewrite (tab_some _ _ E), E1. cbn [bind].
  destruct (forz_inv (fun q s => exists T', s = put ht T' /\ mid rehash k ht start q T' /\ Permutation (held ht T') (held ht T)) 0 (2 ^ h_bits ht) (rehash_slot rehash start) ht)
    as (s' & -> & T' & -> & W & PM).
  - pose proof (slots_big _ _ H). unfold slots in *. lia.
  - exists T. split; [symmetry; now apply put_id|]. split; [|apply Permutation_refl]. apply mid_start; auto. lia.
  - intros q s Hq (T' & -> & W & PM). destruct (rehash_slot_ok rehash k ht T start q T') as (T2 & R2 & W2 & P2); auto; [lia|]. eexists. split; [exact R2|]. eauto.
  - cbn [bind]. destruct (mid_end rehash k ht T' start W H ltac:(lia)) as [CH UH]. exists T'. split; [reflexivity|]. split; [|split; [exact PM|]].
    + constructor; auto; [now apply shape_put|apply W|exact (md_ent _ _ _ _ _ _ W)].
    + rewrite UH. f_equal. now apply Permutation_length.
Qed.

(* -- a table holding a bag ---------------------------------------------------------------------------------------- *)
Lemma tidy_as rehash k ht ht' T : tidy rehash k ht T -> h_bits ht' = h_bits ht -> h_mask ht' = h_mask ht -> h_cbits ht' = h_cbits ht -> h_perf ht' = h_perf ht ->
  h_tab ht' = Some T -> tidy rehash k ht' T.
Proof.
  intros [H E L A C] e1 e2 e3 e4 e5. destruct ht as [b1 b2 b3 b4 b5 b6 b7 b8 b9], ht' as [c1 c2 c3 c4 c5 c6 c7 c8 c9]. cbn in *. subst.
  destruct H. constructor; auto. constructor; auto.
Qed.
Definition limits (ht : htable) : Prop := h_max ht = 3 * 2 ^ h_bits ht / 4 /\ h_maxd ht = 9 * 2 ^ h_bits ht / 10.
Definition rep (rehash : Z -> Z) (k : Z) (ht : htable) (bag : list Z) : Prop :=
  (ht = ht_init /\ bag = []) \/
  exists T, tidy rehash k ht T /\ limits ht /\ Permutation bag (held ht T) /\ h_elems ht = zlen bag /\ h_elems ht <= h_max ht /\ 0 <= h_deleted ht /\
    used T <= h_elems ht + h_deleted ht <= h_maxd ht.
(* Ready to take one more object. *)
Definition base (rehash : Z -> Z) (k : Z) (ht : htable) (bag : list Z) : Prop :=
  exists T, h_tab ht = Some T /\ zlen T = slots ht /\ 1 <= h_bits ht <= 30 /\
    (tidy rehash k ht T \/ blank T /\ h_elems ht = 0 /\ forall p, okp k p -> Z.land p (h_mask ht) <> h_cbits ht) /\
    limits ht /\ Permutation bag (held ht T) /\ h_elems ht = zlen bag /\ h_elems ht + 1 <= h_max ht /\ 0 <= h_deleted ht /\
    used T <= h_elems ht + h_deleted ht /\ h_elems ht + h_deleted ht + 1 <= h_maxd ht.
Lemma limit_slots k ht : shape k ht -> limits ht -> h_max ht <= h_maxd ht < slots ht.
Proof. intros H [-> ->]. fold (slots ht). pose proof (slots_big _ _ H). split; [|apply Z.div_lt_upper_bound; lia]. lia. Qed.
Lemma common_ready rehash k ht bag p : 1 <= k < 64 -> base rehash k ht bag -> okp k p ->
  let ht3 := if Z.land p (h_mask ht) =? h_cbits ht then ht else update_common ht p in
  exists T, tidy rehash k ht3 T /\ Z.land p (h_mask ht3) = h_cbits ht3 /\ Permutation bag (held ht3 T) /\ used T <= h_elems ht + h_deleted ht /\
    h_bits ht3 = h_bits ht /\ h_elems ht3 = h_elems ht /\ h_deleted ht3 = h_deleted ht /\ h_max ht3 = h_max ht /\ h_maxd ht3 = h_maxd ht.
Proof.
  intros Hk (T & E & L & Bt & D & LM & PM & EL & MX & D0 & U & MD) O. cbv zeta.
  destruct (Z.eqb_spec (Z.land p (h_mask ht)) (h_cbits ht)) as [Y|Y].
  - destruct D as [D|(_ & _ & D)]; [|specialize (D p O); contradiction]. exists T. repeat match goal with |- _ /\ _ => split end; auto.
  - assert (FE : h_bits (update_common ht p) = h_bits ht /\ h_elems (update_common ht p) = h_elems ht /\ h_deleted (update_common ht p) = h_deleted ht /\
      h_max (update_common ht p) = h_max ht /\ h_maxd (update_common ht p) = h_maxd ht).
    { unfold update_common. destruct (_ =? _); cbn; auto. }
    destruct (Z.eq_dec (h_elems ht) 0) as [Z0|NZ].
    + assert (BL : blank T).
      { destruct D as [D|(BL & _)]; [|exact BL]. apply (held_blank rehash k ht); [apply D|]. apply length_zero_iff_nil. apply Permutation_length in PM. lia. }
      destruct (update_empty rehash k ht T p Hk Bt E L BL Z0 O) as [DU CU]. exists T. split; [exact DU|]. split; [exact CU|]. split; [|split; [exact U|exact FE]].
      rewrite (blank_held _ _ BL) in PM. rewrite (blank_held _ _ BL). exact PM.
    + destruct D as [D|(_ & D & _)]; [|contradiction]. destruct (update_some rehash k ht T p D NZ) as (DU & CU & HU & UU). exists (map (recode ht p) T).
      split; [exact DU|]. split; [exact CU|]. rewrite HU, UU. split; [exact PM|]. split; [exact U|exact FE].
Qed.
Lemma add_tail rehash k ht bag p : 1 <= k < 64 -> base rehash k ht bag -> okp k p -> zlen bag + 1 < 2 ^ 64 ->
  exists ht', (do ht4 <- ht_add (if Z.land p (h_mask ht) =? h_cbits ht then ht else update_common ht p) p (rehash p); Ok (true, set_elems ht4 (u64 (h_elems ht4 + 1)))) = Ok (true, ht')
    /\ rep rehash k ht' (p :: bag).
Proof.
  intros Hk Bs O Sz. destruct (common_ready rehash k ht bag p Hk Bs O) as (T3 & D & C & PM & U & e1 & e2 & e3 & e4 & e5).
  destruct Bs as (T & _ & _ & _ & _ & LM & _ & EL & MX & D0 & _ & MD). set (ht3 := if _ =? _ then _ else _) in *.
  assert (LM3 : limits ht3) by (unfold limits in *; now rewrite e1, e4, e5).
  pose proof (limit_slots k ht3 (td_shape _ _ _ _ D) LM3) as LS.
  destruct (ht_add_ok rehash k ht3 T3 p D) as (T' & -> & D' & P' & U'); auto; [lia|]. cbn [bind]. eexists. split; [reflexivity|].
  right. exists T'. cbn [put h_elems set_elems]. rewrite e2, EL. rewrite u64_small by lia. split; [|split; [|split; [|split; [|split; [|split]]]]].
  - apply (tidy_as rehash k (put ht3 T') _ T' D'); reflexivity.
  - exact LM3.
  - change (Permutation (p :: bag) (held ht3 T')). symmetry. eapply Permutation_trans; [exact P'|]. apply perm_skip. symmetry. exact PM.
  - cbn [length]. cbn. lia.
  - cbn. lia.
  - cbn. lia.
  - cbn. lia.
Qed.
Lemma double_init rehash : double_table rehash true ht_init = Ok (Some (mkH 1 0 0 1 1 (2 ^ 64 - 1) 0 1 (Some [0; 0]))).
Proof. reflexivity. Qed.
Lemma init_base rehash k : 1 <= k < 64 -> base rehash k (mkH 1 0 0 1 1 (2 ^ 64 - 1) 0 1 (Some [0; 0])) [].
Proof.
  intros Hk. exists [0; 0]. split; [reflexivity|]. split; [reflexivity|]. split; [cbn; lia|]. split; [|split; [split; reflexivity|split; [apply Permutation_refl|change (used [0; 0]) with 0; cbn [h_elems h_max h_maxd h_deleted length]; lia]]].
  right. split; [apply (zeros_blank 2)|]. split; [reflexivity|]. intros p O. destruct (okp_bit k p Hk O) as [_ R]. cbn [h_mask h_cbits].
  rewrite land_low by lia. rewrite Z.mod_small by lia. lia.
Qed.
Lemma insert_ok rehash k ht bag mem p : 1 <= k < 64 -> rep rehash k ht bag -> okp k p -> zlen bag + 1 <= 3 * 2 ^ 28 ->
  exists b ht', htable_add rehash mem ht (rehash p) p = Ok (b, ht') /\ (if b then rep rehash k ht' (p :: bag) else mem = false /\ ht' = ht).
Proof.
  intros Hk R O Sz. assert (P0 : (p =? 0) = false) by (destruct (okp_bit k p Hk O); lia).
  assert (S64 : zlen bag + 1 < 2 ^ 64) by lia.
  unfold htable_add. destruct R as [[-> ->]|(T & D & LM & PM & EL & MX & D0 & U & MD)].
  - cbn [h_max h_elems ht_init]. change (0 <? u64 (0 + 1)) with true. cbv iota. destruct mem.
    + rewrite double_init. cbn [bind h_maxd h_elems h_deleted]. change (1 <? u64 (0 + 1 + 0)) with false. cbv iota. cbn [bind]. rewrite P0.
      destruct (add_tail rehash k _ [] p Hk (init_base rehash k Hk) O ltac:(cbn; lia)) as (ht' & E & R). exists true, ht'. split; [exact E|exact R].
    + exists false, ht_init. split; [reflexivity|]. split; reflexivity.
  - pose proof (td_shape _ _ _ _ D) as H. pose proof (limit_slots k ht H LM) as LS. pose proof (slots_big _ _ H) as SB.
    assert (HN : zlen (held ht T) = zlen bag) by (f_equal; symmetry; now apply Permutation_length).
    (* what follows the first test *)
    assert (Rest : forall ht1 T1, tidy rehash k ht1 T1 -> limits ht1 -> Permutation bag (held ht1 T1) -> h_elems ht1 = zlen bag -> h_elems ht1 + 1 <= h_max ht1 ->
      0 <= h_deleted ht1 -> used T1 <= h_elems ht1 + h_deleted ht1 <= h_maxd ht1 ->
      exists ht', (do ht2 <- (if h_maxd ht1 <? u64 (h_elems ht1 + 1 + h_deleted ht1) then rehash_table rehash ht1 else Ok ht1);
        if p =? 0 then Ub
        else
          let ht3 := if Z.land p (h_mask ht2) =? h_cbits ht2 then ht2 else update_common ht2 p in
          do ht4 <- ht_add ht3 p (rehash p);
          Ok (true, set_elems ht4 (u64 (h_elems ht4 + 1)))) = Ok (true, ht') /\ rep rehash k ht' (p :: bag)).
    { intros ht1 T1 D1 LM1 PM1 EL1 MX1 D01 U1. pose proof (td_shape _ _ _ _ D1) as H1. pose proof (limit_slots k ht1 H1 LM1) as LS1. pose proof (slots_big _ _ H1) as SB1.
      rewrite u64_small by lia. destruct (Z.ltb_spec (h_maxd ht1) (h_elems ht1 + 1 + h_deleted ht1)) as [Lt|Ge].
      - destruct (rehash_ok rehash k ht1 T1 D1 ltac:(lia)) as (T2 & -> & D2 & P2 & U2). cbn [bind]. rewrite P0. cbv zeta.
        apply (add_tail rehash k (set_deleted (put ht1 T2) 0) bag p); auto. exists T2.
        assert (zlen (held ht1 T1) = zlen bag) by (f_equal; symmetry; now apply Permutation_length).
        pose proof (sh_bits _ _ H1). repeat match goal with |- _ /\ _ => split end; auto; try (cbn [put set_deleted h_elems h_deleted h_max h_maxd h_bits]; lia).
        + exact (td_len _ _ _ _ D2).
        + left. apply (tidy_as rehash k (put ht1 T2) _ T2 D2); reflexivity.
        + change (Permutation bag (held ht1 T2)). eapply Permutation_trans; [exact PM1|]. symmetry. exact P2.
      - cbn [bind]. rewrite P0. cbv zeta. apply (add_tail rehash k ht1 bag p); auto. exists T1. pose proof (sh_bits _ _ H1).
        destruct D1 as [D11 D12 D13 D14 D15]. repeat match goal with |- _ /\ _ => split end; auto; try lia. left. constructor; auto. }
    rewrite u64_small by lia. destruct (Z.ltb_spec (h_max ht) (h_elems ht + 1)) as [Lt|Ge].
    + assert (B29 : h_bits ht <= 29).
      { destruct (Z_le_gt_dec (h_bits ht) 29) as [|G]; [assumption|]. exfalso. assert (h_bits ht = 30) by (pose proof (sh_bits _ _ H); lia).
        destruct LM as [LM _]. rewrite H0 in LM. change (3 * 2 ^ 30 / 4) with 805306368 in LM. lia. }
      destruct mem.
      * destruct (double_some rehash k ht T D B29 ltac:(lia)) as (perf & T1 & E1 & D1 & P1 & U1). cbv zeta in *. rewrite E1. cbn [bind].
        set (ht1 := mkH _ _ _ _ _ _ _ _ _) in *. destruct (Rest ht1 T1 D1) as (ht' & E' & R').
        -- split; reflexivity.
        -- eapply Permutation_trans; [exact PM|]. symmetry. exact P1.
        -- exact EL.
        -- change (h_elems ht + 1 <= 3 * 2 ^ (h_bits ht + 1) / 4). destruct LM as [LM _]. fold (slots ht) in LM. pose proof (sh_bits _ _ H).
           rewrite Z.pow_add_r by lia. change (2 ^ 1) with 2. fold (slots ht). lia.
        -- cbn. lia.
        -- change (used T1 <= h_elems ht + 0 <= 9 * 2 ^ (h_bits ht + 1) / 10). split; [lia|]. destruct LM as [LM _]. fold (slots ht) in LM. pose proof (sh_bits _ _ H).
           rewrite Z.pow_add_r by lia. change (2 ^ 1) with 2. fold (slots ht). lia.
        -- exists true, ht'. split; [exact E'|exact R'].
      * unfold double_table. replace (31 <=? h_bits ht + 1) with false by lia. cbn [negb bind]. exists false, ht. auto.
    + cbn [bind]. destruct (Rest ht T D LM PM EL Ge D0 (conj U MD)) as (ht' & E' & R'). exists true, ht'. split; [exact E'|exact R'].
Qed.
Lemma init_search cmp h : ht_search ht_init cmp h = Ok None.
Proof. unfold ht_search, ht_first, hash_bucket, low_mask. cbn [h_bits ht_init]. change (2 ^ 0 - 1) with 0. rewrite Z.land_0_r. reflexivity. Qed.
Lemma rep_search rehash k ht bag cmp h : rep rehash k ht bag -> (forall q, cmp q = true -> rehash q = h) ->
  exists r, ht_search ht cmp h = Ok r /\
    match r with
    | None => forall p, In p bag -> cmp p = false
    | Some (off, p) => In p bag /\ cmp p = true /\ exists T, h_tab ht = Some T /\ 0 <= off < zlen T /\ entry_valid (at_slot T off) = true /\ p = raw_ptr ht (at_slot T off)
    end.
Proof.
  intros [[-> ->]|(T & D & LM & PM & EL & MX & D0 & U & MD)] K.
  - exists None. split; [apply init_search|]. intros p [].
  - pose proof (limit_slots k ht (td_shape _ _ _ _ D) LM) as LS. destruct (ht_search_ok rehash k ht T cmp h D ltac:(lia) K) as (r & -> & P). exists r. split; [reflexivity|].
    destruct r as [[off p]|].
    + destruct P as (Ho & V & -> & C). split; [|split; [exact C|]].
      * apply (Permutation_in _ (Permutation_sym PM)). now apply held_in.
      * exists T. split; [apply D|auto].
    + intros p I. apply P. now apply (Permutation_in _ PM).
Qed.
Lemma rep_remove rehash k ht bag T off : rep rehash k ht bag -> h_tab ht = Some T -> 0 <= off < zlen T -> entry_valid (at_slot T off) = true ->
  exists ht' bag', htable_delval ht off = Ok ht' /\ rep rehash k ht' bag' /\ Permutation bag (raw_ptr ht (at_slot T off) :: bag').
Proof.
  intros [[-> ->]|(T0 & D & LM & PM & EL & MX & D0 & U & MD)] E Ho V; [discriminate|].
  assert (T0 = T) by (pose proof (td_tab _ _ _ _ D); congruence). subst T0. pose proof (td_len _ _ _ _ D) as L.
  pose proof (td_shape _ _ _ _ D) as H. pose proof (limit_slots k ht H LM) as LS. pose proof (slots_big _ _ H) as SB.
  destruct (at_get T off Ho) as [G1 G2]. pose proof (held_drop ht T off HT_DELETED _ G2 V eq_refl) as HD.
  set (T' := zupd T off (fun _ => HT_DELETED)) in *.
  assert (LB : zlen bag = zlen (held ht T') + 1).
  { apply Permutation_length in PM. apply Permutation_length in HD. cbn [length] in HD. lia. }
  unfold htable_delval. fold (slots ht). replace (negb (off <? slots ht)) with false by lia. rewrite (tab_some _ _ E), G1. cbn [bind]. rewrite V. cbn [negb].
  rewrite (ht_set_ok _ T) by auto. cbn [bind]. fold T'. eexists _, (held ht T'). split; [reflexivity|]. split.
  - right. exists T'. assert (UT : used T' = used T).
    { unfold T'. rewrite (used_upd T off HT_DELETED _ G2). apply valid_nz in V. change (HT_DELETED =? 0) with false. replace (at_slot T off =? 0) with false by lia. lia. }
    cbn [put set_elems set_deleted h_elems h_deleted h_max h_maxd h_bits]. rewrite (u64_small (h_elems ht - 1)), (u64_small (h_deleted ht + 1)) by lia.
    repeat match goal with |- _ /\ _ => split end; try (cbn [put set_elems set_deleted h_elems h_deleted h_max h_maxd h_bits]; lia).
    + apply (tidy_as rehash k (put ht T') _ T'); auto. now apply tidy_del.
    + exact LM.
    + apply Permutation_refl.
  - eapply Permutation_trans; [exact PM|exact HD].
Qed.
Lemma rep_visited rehash k ht bag : rep rehash k ht bag -> Permutation (visited ht) bag.
Proof.
  intros [[-> ->]|(T & D & LM & PM & _)]; [apply Permutation_refl|]. unfold visited. rewrite (td_tab _ _ _ _ D). symmetry. exact PM.
Qed.
Lemma hstep_ok rehash k ht bag o : 1 <= k < 64 -> rep rehash k ht bag -> consistent rehash o -> same_top k o -> zlen bag + inserts [o] <= 3 * 2 ^ 28 ->
  exists r ht' bag', hstep rehash ht o = Ok (r, ht') /\ rep rehash k ht' bag' /\ bag_step bag o r bag' /\ zlen bag' <= zlen bag + inserts [o].
Proof.
  intros Hk R C S B. destruct o as [mem p h|cmp h|cmp h| |]; cbn [hstep].
  - destruct C as [_ ->]. cbn [inserts] in B. destruct (insert_ok rehash k ht bag mem p Hk R S ltac:(lia)) as (b & ht' & -> & Q). cbn [bind fst snd]. destruct b.
    + exists (RDone true), ht', (p :: bag). split; [reflexivity|]. split; [exact Q|]. split; [constructor|]. cbn [inserts length]. lia.
    + destruct Q as [-> ->]. exists (RDone false), ht, bag. split; [reflexivity|]. split; [exact R|]. split; [constructor|]. cbn [inserts]. lia.
  - destruct C as [_ C]. destruct (rep_search rehash k ht bag cmp h R C) as (r & -> & P). cbn [bind]. exists (RFound (option_map snd r)), ht, bag. split; [reflexivity|].
    split; [exact R|]. split; [|cbn [inserts]; lia]. destruct r as [[off p]|]; cbn [option_map snd]; [|now constructor]. destruct P as (I & Cm & _). now constructor.
  - destruct C as [_ C]. destruct (rep_search rehash k ht bag cmp h R C) as (r & -> & P). cbn [bind]. destruct r as [[off p]|].
    + destruct P as (I & Cm & T & E & Ho & V & ->). destruct (rep_remove rehash k ht bag T off R E Ho V) as (ht' & bag' & -> & R' & PM). cbn [bind].
      eexists _, ht', bag'. split; [reflexivity|]. split; [exact R'|]. split; [now constructor|]. apply Permutation_length in PM. cbn [length inserts] in *. lia.
    + eexists _, ht, bag. split; [reflexivity|]. split; [exact R|]. split; [now constructor|]. cbn [inserts]. lia.
  - eexists _, ht, bag. split; [reflexivity|]. split; [exact R|]. split; [constructor; now apply (rep_visited rehash k)|]. cbn [inserts]. lia.
  - eexists _, ht_init, []. split; [reflexivity|]. split; [now left|]. split; [constructor; now apply (rep_visited rehash k)|]. cbn [inserts length]. lia.
Qed.
Lemma inserts_cons o ops : inserts (o :: ops) = inserts [o] + inserts ops.
Proof. destruct o; cbn [inserts]; lia. Qed.
Lemma inserts_nonneg ops : 0 <= inserts ops.
Proof. induction ops as [|o ops IH]; [cbn; lia|]. destruct o; cbn [inserts]; lia. Qed.
Lemma hrun_ok rehash k : 1 <= k < 64 -> forall ops ht bag, rep rehash k ht bag -> Forall (consistent rehash) ops -> Forall (same_top k) ops -> zlen bag + inserts ops <= 3 * 2 ^ 28 ->
  exists rs ht' bag', hrun rehash ht ops = Ok (rs, ht') /\ rep rehash k ht' bag' /\ bag_run bag ops rs bag'.
Proof.
  intros Hk. induction ops as [|o ops IH]; intros ht bag R C S B.
  - exists [], ht, bag. split; [reflexivity|]. split; [exact R|constructor].
  - inversion C as [|? ? Co Cs]; subst. inversion S as [|? ? So Ss]; subst. rewrite inserts_cons in B. pose proof (inserts_nonneg ops).
    destruct (hstep_ok rehash k ht bag o Hk R Co So ltac:(lia)) as (r & ht1 & bag1 & E1 & R1 & B1 & Z1).
    destruct (IH ht1 bag1 R1 Cs Ss ltac:(lia)) as (rs & ht2 & bag2 & E2 & R2 & B2).
    cbn [hrun]. rewrite E1. cbn [bind snd fst]. rewrite E2. cbn [bind fst snd]. exists (r :: rs), ht2, bag2. split; [reflexivity|]. split; [exact R2|]. econstructor; eauto.
Qed.
Lemma htable_bag rehash k ops : 1 <= k < 64 -> Forall (consistent rehash) ops -> Forall (same_top k) ops -> inserts ops <= 3 * 2 ^ 28 ->
  exists rs ht bag, hrun rehash ht_init ops = Ok (rs, ht) /\ bag_run [] ops rs bag /\ Permutation (visited ht) bag.
Proof.
  intros Hk C S B. destruct (hrun_ok rehash k Hk ops ht_init [] ltac:(now left) C S ltac:(cbn [length]; lia)) as (rs & ht & bag & E & R & P).
  exists rs, ht, bag. split; [exact E|]. split; [exact P|]. now apply (rep_visited rehash k).
Qed.

(* -- witnesses ----------------------------------------------------------------------------------------------------- *)
(* 24 and 8 differ only in the highest bit of 24: the entry for 8 is the mark of a
   deleted one. *)
Definition lost_ops : list hop := [HInsert true 24 0; HInsert true 8 0; HLookup (fun p => p =? 8) 0].
Lemma htable_lost : exists rehash ops rs ht, Forall (consistent rehash) ops /\ inserts ops = 2 /\ hrun rehash ht_init ops = Ok (rs, ht) /\ forall bag, ~ bag_run [] ops rs bag.
Proof.
  destruct (hrun (fun _ => 0) ht_init lost_ops) as [[rs ht]|] eqn:E; vm_compute in E; [|discriminate].
  exists (fun _ => 0), lost_ops, rs, ht. split; [|split; [reflexivity|split]].
  - repeat constructor; cbn; lia.
  - inversion E. subst. vm_compute. reflexivity.
  - assert (Q : rs = [RDone true; RDone true; RFound None]) by (inversion E; reflexivity). rewrite Q. clear.
    intros bag B. inversion B as [|? ? ? ? ? ? ? S1 B1]; subst. inversion S1; subst. inversion B1 as [|? ? ? ? ? ? ? S2 B2]; subst. inversion S2; subst.
    inversion B2 as [|? ? ? ? ? ? ? S3 B3]; subst. inversion S3 as [| | |? ? ? N| | | |]; subst. specialize (N 8 (or_introl eq_refl)). discriminate.
Qed.
(* A run with collisions, a removal, a doubling and a rehash in place. *)
Definition demo_ops : list hop :=
  [HInsert true 65 0; HInsert true 66 0; HInsert true 67 1; HInsert true 66 0; HRemove (fun p => p =? 65) 0; HLookup (fun p => p =? 65) 0;
   HInsert true 68 0; HInsert true 69 1; HRemove (fun p => p =? 67) 1; HInsert true 70 0; HInsert false 71 1; HRemove (fun p => p =? 70) 0; HInsert true 70 0;
   HRemove (fun p => p =? 69) 1; HInsert true 69 1; HLookup (fun p => p =? 66) 0; HVisit; HClear; HVisit].
Definition demo_hash (p : Z) : Z := if Z.odd p && negb (p =? 65) then 1 else 0.
