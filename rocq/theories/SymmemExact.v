(* Proofs about Symmem.v: exactly when an append is undefined. *)
From Verif Require Import Base BaseProofs Symbol SymbolProofs Ring Array SharedSpec ArrayProofs Htable HtableSpec HtableProofs Symmem SymmemSpec SymmemProofs.
From Coq Require Import Permutation.

(* -- how large the hash table is ------------------------------------------------------------------------------------ *)
Lemma set_bits ht i v ht' : ht_set ht i v = Ok ht' -> h_bits ht' = h_bits ht.
Proof. unfold ht_set. destruct (h_tab ht); [|discriminate]. destruct (zmod _ _ _); [|discriminate]. cbn [bind]. intros E. assert (X : ht' = ltac:(match type of E with Ok ?x = _ => exact x end)) by congruence. now rewrite X. Qed.
Lemma add_bits ht p h ht' : ht_add ht p h = Ok ht' -> h_bits ht' = h_bits ht.
Proof. unfold ht_add. destruct (add_slot _ _ _ _); [|discriminate]. cbn [bind]. apply set_bits. Qed.
Lemma move_bits r old es : forall ht ht', move_entries r old es ht = Ok ht' -> h_bits ht' = h_bits ht.
Proof.
  induction es as [|e es IH]; intros ht ht' E; cbn [move_entries] in E; [congruence|]. destruct (move_entry r old ht e) as [h1|] eqn:M; [|discriminate]. cbn [bind] in E.
  rewrite (IH _ _ E). unfold move_entry in M. destruct (entry_valid e); [|congruence]. exact (add_bits _ _ _ _ M).
Qed.
Lemma double_bits r mem ht ht' : double_table r mem ht = Ok (Some ht') -> h_bits ht' = h_bits ht + 1.
Proof.
  unfold double_table. destruct (31 <=? _); [discriminate|]. destruct mem; [|discriminate]. cbn [negb]. cbv zeta. set (new := mkH _ _ _ _ _ _ _ _ _). intros E.
  destruct (h_tab ht) as [T|].
  - destruct (move_entries r new T new) as [h1|] eqn:M; [|discriminate]. cbn [bind] in E. assert (X : ht' = set_deleted h1 0) by congruence. rewrite X. cbn [set_deleted h_bits].
    rewrite (move_bits _ _ _ _ _ M). reflexivity.
  - cbn [bind] in E. assert (X : ht' = set_deleted new 0) by congruence. now rewrite X.
Qed.
Lemma double_none r mem ht : double_table r mem ht = Ok None -> mem = false.
Proof.
  unfold double_table. destruct (31 <=? _); [discriminate|]. destruct mem; [|reflexivity]. cbn [negb]. cbv zeta. set (new := mkH _ _ _ _ _ _ _ _ _).
  destruct (match h_tab ht with Some t => move_entries r new t new | None => Ok new end); discriminate.
Qed.
Lemma slot_bits r start i ht ht' : rehash_slot r start i ht = Ok ht' -> h_bits ht' = h_bits ht.
Proof.
  unfold rehash_slot. cbv zeta. destruct (zget _ _) as [e|]; [|discriminate]. cbn [bind]. destruct (e =? 0); [congruence|]. destruct (e =? HT_DELETED); [apply set_bits|].
  destruct (_ =? 0); [|congruence]. destruct (ht_set ht _ 0) as [h1|] eqn:E1; [|discriminate]. cbn [bind]. intros E. rewrite (add_bits _ _ _ _ E). exact (set_bits _ _ _ _ E1).
Qed.
Lemma for_bits r start n : forall i ht ht', for_n n i (rehash_slot r start) ht = Ok ht' -> h_bits ht' = h_bits ht.
Proof.
  induction n as [|n IH]; intros i ht ht' E; cbn [for_n] in E; [congruence|]. destruct (rehash_slot r start i ht) as [h1|] eqn:M; [|discriminate]. cbn [bind] in E.
  rewrite (IH _ _ _ E). exact (slot_bits _ _ _ _ _ M).
Qed.
Lemma rehash_bits r ht ht' : rehash_table r ht = Ok ht' -> h_bits ht' = h_bits ht.
Proof.
  unfold rehash_table. destruct (first_empty _) as [start|]; [|discriminate]. cbn [bind]. unfold forz. destruct (for_n _ _ _ _) as [h1|] eqn:E; [|discriminate]. cbn [bind].
  intros X. assert (Y : ht' = set_deleted h1 0) by congruence. rewrite Y. exact (for_bits _ _ _ _ _ _ E).
Qed.
Lemma common_bits ht p : h_bits (update_common ht p) = h_bits ht.
Proof. unfold update_common. destruct (_ =? _); reflexivity. Qed.
Lemma insert_size r mem ht h p b ht' : htable_add r mem ht h p = Ok (b, ht') ->
  let big := h_max ht <? u64 (h_elems ht + 1) in
  b = negb (big && negb mem) /\ (b = true -> h_bits ht' = h_bits ht + (if big then 1 else 0)).
Proof.
  unfold htable_add. cbv zeta. set (big := h_max ht <? _).
  assert (D : forall d, (if big then double_table r mem ht else Ok (Some ht)) = Ok d ->
    match d with None => big = true /\ mem = false | Some h1 => h_bits h1 = h_bits ht + (if big then 1 else 0) /\ (big = true -> mem = true) end).
  { intros d E. destruct big.
    - destruct d as [h1|]; [|split; [reflexivity|exact (double_none _ _ _ E)]]. split; [exact (double_bits _ _ _ _ E)|]. intros _. destruct mem; [reflexivity|].
      unfold double_table in E. destruct (31 <=? _); discriminate.
    - assert (X : d = Some ht) by congruence. rewrite X. split; [lia|discriminate]. }
  destruct (if big then _ else _) as [d|]; [|discriminate]. specialize (D d eq_refl). cbn [bind]. destruct d as [h1|].
  2:{ intros E. destruct D as [-> ->]. assert (b = false) by congruence. subst b. split; [reflexivity|discriminate]. }
  destruct D as [B M]. intros E.
  assert (X : exists h2, h_bits h2 = h_bits h1 /\ (if p =? 0 then Ub else let ht3 := if Z.land p (h_mask h2) =? h_cbits h2 then h2 else update_common h2 p in
      do ht4 <- ht_add ht3 p h; Ok (true, set_elems ht4 (u64 (h_elems ht4 + 1)))) = Ok (b, ht')).
  { destruct (h_maxd h1 <? _).
    - destruct (rehash_table r h1) as [h2|] eqn:RT; [|discriminate]. cbn [bind] in E. exists h2. split; [exact (rehash_bits _ _ _ RT)|exact E].
    - cbn [bind] in E. exists h1. auto. }
  destruct X as (h2 & B2 & E2). destruct (p =? 0); [discriminate|]. cbv zeta in E2. destruct (ht_add _ p h) as [h4|] eqn:A; [|discriminate]. cbn [bind] in E2.
  assert (Bt : b = true) by congruence. assert (H4 : ht' = set_elems h4 (u64 (h_elems h4 + 1))) by congruence. rewrite Bt, H4. cbn [set_elems h_bits].
  rewrite (add_bits _ _ _ _ A). replace (h_bits (if _ =? _ then h2 else update_common h2 p)) with (h_bits h2) by (destruct (_ =? _); [reflexivity|symmetry; apply common_bits]).
  rewrite B2, B. split; [|auto]. destruct big, mem; try reflexivity. now specialize (M eq_refl).
Qed.

(* -- no larger than needed ------------------------------------------------------------------------------------------ *)
Definition tight_table (ht : htable) (n : Z) : Prop :=
  h_max ht = 3 * 2 ^ h_bits ht / 4 /\ 0 <= h_bits ht /\ (h_bits ht = 0 \/ 3 * 2 ^ (h_bits ht - 1) / 4 < n) /\ h_elems ht = n /\ n <= h_max ht.
Definition tight_index (a : array) : Prop := exists j, 2 <= j /\ zlen (v_data a) = 2 ^ j /\ (j = 2 \/ 2 ^ (j - 1) < v_len a) /\ v_len a <= 2 ^ j.
Definition snug (t : symmem) : Prop := tight_table (sm_ht t) (zlen (sm_mem t)) /\ tight_index (sm_index t).
Lemma snug_new t : symmem_new = Ok t -> snug t.
Proof.
  intros E. rewrite new_is in E. assert (X : t = mkSM (UCS4_MAX + 2) (mkV [Some 0; None; None; None] 1 8) ht_init []) by congruence. subst t. split.
  - unfold tight_table. cbn. lia.
  - exists 2. cbn. lia.
Qed.
Lemma table_full_iff ht n : tight_table ht n -> (table_full n <-> h_max ht < n + 1).
Proof.
  intros (M & B0 & Lo & EL & Hi). split.
  - intros (j & Hj & E). rewrite M in *. destruct Lo as [Z0|Lo].
    + rewrite Z0 in *. change (3 * 2 ^ 0 / 4) with 0 in *. lia.
    + destruct (Z_le_gt_dec (h_bits ht) j) as [L|G].
      * assert (2 ^ h_bits ht <= 2 ^ j) by (apply Z.pow_le_mono_r; lia). assert (3 * 2 ^ h_bits ht / 4 <= 3 * 2 ^ j / 4) by (apply Z.div_le_mono; lia). lia.
      * assert (2 ^ j <= 2 ^ (h_bits ht - 1)) by (apply Z.pow_le_mono_r; lia). assert (3 * 2 ^ j / 4 <= 3 * 2 ^ (h_bits ht - 1) / 4) by (apply Z.div_le_mono; lia). lia.
  - intros H. exists (h_bits ht). split; [exact B0|]. lia.
Qed.
Lemma index_full_iff a n : tight_index a -> v_len a = n + 1 -> (index_full n <-> zlen (v_data a) <= v_len a).
Proof.
  intros (j & Hj & C & Lo & Hi) L. rewrite C, L in *. split.
  - intros (i & Hi' & E). rewrite E in *. destruct (Z_le_gt_dec j i) as [A|A]; [apply Z.pow_le_mono_r; lia|].
    assert (2 ^ i <= 2 ^ (j - 1)) by (apply Z.pow_le_mono_r; lia). destruct Lo as [->|Lo]; [lia|lia].
  - intros H. exists j. split; [exact Hj|]. lia.
Qed.

Lemma push_size mem a x : 0 < v_esz a -> v_esz a * (2 * zlen (v_data a)) < 2 ^ 64 -> 0 < zlen (v_data a) -> 0 <= v_len a <= zlen (v_data a) ->
  exists a', array_push mem a x = (if (zlen (v_data a) <=? v_len a) && negb mem then Ok (a, -12) else Ok (a', 0)) /\
    zlen (v_data a') = (if zlen (v_data a) <=? v_len a then zlen (v_data a) * 2 else zlen (v_data a)) /\ v_len a' = v_len a + 1.
Proof.
  intros He Hb Hc Hl. unfold array_push. destruct (Z.leb_spec (zlen (v_data a)) (v_len a)) as [L|L].
  - destruct mem; cbn [andb negb].
    + cbv zeta. assert (1 * (2 * zlen (v_data a)) <= v_esz a * (2 * zlen (v_data a))) by (apply Z.mul_le_mono_nonneg_r; lia).
      rewrite u64_small by lia. rewrite realloc_ok by lia.
      set (d := v_data a ++ _). assert (Ld : zlen d = zlen (v_data a) * 2) by (unfold d; rewrite app_length, repeat_length; lia).
      rewrite Ld, Z.eqb_refl. rewrite zmod_ok by lia. cbn [bind]. eexists. split; [reflexivity|]. cbn [v_data v_len]. rewrite length_zupd. lia.
    + exists (mkV (v_data a ++ v_data a) (v_len a + 1) (v_esz a)). split; [reflexivity|]. cbn [v_data v_len]. rewrite app_length. lia.
  - cbn [andb]. rewrite zmod_ok by lia. cbn [bind]. eexists. split; [reflexivity|]. cbn [v_data v_len]. rewrite length_zupd. lia.
Qed.

Lemma append_exact k t T sym u g : 1 <= k < 64 -> srep k t T -> snug t -> 0 <= sym < 2 ^ 32 -> 0 <= u < 2 ^ 32 -> zlen (t_syms T) < 3 * 2 ^ 28 ->
  match g_malloc g with Some b => forall s, sm_get t sym = Ok s -> new_block k (sm_mem t) (zlen s + 3) b | None => True end ->
  (sm_append t sym u g = Ub <-> denied T sym u g) /\ forall t' s, sm_append t sym u g = Ok (t', s) -> snug t'.
Proof.
  intros Hk R [TT TI] Hs Hu Hn Hb. unfold denied, interns, has_room. pose proof (sr_len _ _ _ R) as SL.
  destruct (append_cases k t T sym u g Hk R Hs Hu Hn Hb) as [[E ->]|(key & TK & E & C)].
  { split; [|intros t' s X; assert (t' = t) by congruence; subst; split; assumption]. split; [discriminate|]. intros [X _]. rewrite E in X. contradiction. }
  rewrite E in *. cbn [fst snd t_next] in *. destruct (g_malloc g) as [b|].
  2:{ rewrite C. split; [|intros t' s X; assert (t' = t) by congruence; subst; split; assumption]. split; [discriminate|]. intros (_ & X & _). discriminate. }
  cbv zeta in C. set (m := (b, (t_next T + 1) :: key ++ [TERM]) :: sm_mem t) in *. destruct C as (BR & NB & RM & ->). unfold placed.
  assert (LM : zlen (map key_of (sm_mem t)) + 1 <= 3 * 2 ^ 28) by (rewrite map_length; lia).
  destruct (insert_ok (key_hash m) k (sm_ht t) _ (g_calloc g) (b + 4) Hk RM BR LM) as (ins & ht' & EI & RI). rewrite EI. cbn [bind fst snd].
  pose proof (insert_size _ _ _ _ _ _ _ EI) as [IB BT]. cbv zeta in IB, BT. pose proof (table_full_iff _ _ TT) as TF.
  destruct TT as (M & B0 & Lo & EL & Hi). rewrite u64_small in IB, BT by lia. rewrite EL in IB, BT.
  assert (VL : v_len (sm_index t) = zlen (t_syms T) + 1). { pose proof (sr_idx _ _ _ R) as (LL & _). cbn [length] in LL. rewrite rev_length, map_length in LL. lia. }
  pose proof (index_full_iff _ _ TI VL) as XF. rewrite <- SL in *.
  destruct (push_size (g_realloc g) (sm_index t) (b + 4)) as (a' & AP & AD & AL).
  { rewrite (sr_esz _ _ _ R). lia. } { rewrite (sr_esz _ _ _ R). pose proof (sr_idx _ _ _ R) as (_ & _ & X & _). lia. }
  { apply (sr_idx _ _ _ R). } { pose proof (sr_idx _ _ _ R) as (_ & X & _). lia. }
  assert (TT' : ins = true -> tight_table ht' (zlen m)).
  { intros X. subst ins. specialize (BT X). rewrite X in RI. change (zlen m) with (Z.of_nat (S (length (sm_mem t)))). destruct RI as [[_ RI]|(T' & D & LM' & PM & EL' & MX & _)]; [discriminate|].
    cbn [length] in EL'. rewrite map_length in EL'. destruct LM' as [LM' _]. unfold tight_table. rewrite BT in *.
    destruct (Z.ltb_spec (h_max (sm_ht t)) (zlen (sm_mem t) + 1)) as [F|NF]; repeat match goal with |- _ /\ _ => split end; try lia.
    - right. replace (h_bits (sm_ht t) + 1 - 1) with (h_bits (sm_ht t)) by lia. lia.
    - destruct Lo as [Lo|Lo]; [left; lia|right]. replace (h_bits (sm_ht t) + 0 - 1) with (h_bits (sm_ht t) - 1) by lia. lia. }
  assert (TI' : tight_index a').
  { destruct TI as (j & Hj & C & Lj & Hj'). unfold tight_index. destruct (Z.leb_spec (zlen (v_data (sm_index t))) (v_len (sm_index t))) as [FI|FI].
    - exists (j + 1). rewrite AD, AL, C in *. replace (j + 1 - 1) with j by lia. rewrite Z.pow_add_r by lia. assert (0 < 2 ^ j) by (apply Z.pow_pos_nonneg; lia).
      repeat match goal with |- _ /\ _ => split end; try lia.
    - exists j. rewrite AD, AL, C in *. repeat match goal with |- _ /\ _ => split end; try lia. }
  rewrite AP. clear AP AD AL EI RI BT.
  set (full := zlen (v_data (sm_index t)) <=? v_len (sm_index t)) in *. set (big := h_max (sm_ht t) <? zlen (sm_mem t) + 1) in *.
  assert (TF' : table_full (zlen (sm_mem t)) <-> big = true) by (rewrite TF; unfold big; lia).
  assert (XF' : index_full (zlen (sm_mem t)) <-> full = true) by (rewrite XF; unfold full; lia). clear TF XF. clearbody full big.
  rewrite TF', XF'. subst ins. destruct big, (g_calloc g), full, (g_realloc g); cbn [andb negb bind fst snd] in *;
    try (change (0 =? 0) with true); try (change (-12 =? 0) with false); cbv iota.
  all: split; [split; [first [discriminate | intros _; (split; [lia|auto])] | first [reflexivity | intros (_ & _ & [[? ?]|[? ?]]); discriminate]]|].
  all: first [discriminate | intros t' s' X; assert (Y : t' = mkSM (sm_next t + 1) a' ht' m) by congruence; subst t'; (split; [apply TT'; reflexivity|exact TI'])].
Qed.

Lemma run_exact k : 1 <= k < 64 -> forall l t T t' rs, srep k t T -> snug t -> served k t l -> zlen (t_syms T) + zlen l <= 3 * 2 ^ 28 -> sm_run t l = Ok (t', rs) -> snug t'.
Proof.
  intros Hk. induction l as [|[[sym u] g] l IH]; intros t T t' rs R Sn Sv Ln E.
  { cbn in E. congruence. }
  destruct Sv as (Hs & Hu & Hm & Nx). cbn [sm_run length] in *. pose proof (append_or_len (has_room g) T sym u) as AL.
  destruct (append_exact k t T sym u g Hk R Sn Hs Hu ltac:(lia) Hm) as [_ NS].
  destruct (append_ok k t T sym u g Hk R Hs Hu ltac:(lia) Hm) as [[EU _]|(t1 & E1 & R1)]; [rewrite EU in E; discriminate|].
  rewrite E1 in E. cbn [bind fst snd] in E. destruct (sm_run t1 l) as [[t2 r2]|] eqn:E2; [|discriminate]. cbn [bind fst snd] in E.
  assert (t2 = t') by congruence. subst t2. exact (IH t1 _ t' r2 R1 (NS _ _ E1) (Nx _ _ E1) ltac:(lia) E2).
Qed.
