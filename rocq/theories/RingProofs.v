(* Proofs about Ring.v: the ring is a queue of bytes. *)
From Verif Require Import Base BaseProofs Ring SharedSpec.

(* Position in the buffer of the i-th queued byte. *)
Definition idx (r : ring) (i : Z) : Z :=
  if r_start r + i <? zlen (r_buf r) then r_start r + i else r_start r + i - zlen (r_buf r).

Definition pow2 (n : Z) : Prop := exists k, 0 <= k <= 63 /\ n = 2 ^ k.

Definition wf (r : ring) : Prop :=
  (r_buf r = [] /\ r_start r = 0 /\ r_used r = 0) \/
  (pow2 (zlen (r_buf r)) /\ 0 <= r_start r < zlen (r_buf r) /\ 0 <= r_used r <= zlen (r_buf r)).

Definition rep (r : ring) (q : list Z) : Prop :=
  wf r /\ zlen q = r_used r /\
  forall i, 0 <= i < r_used r -> znth (r_buf r) (idx r i) = option_map Some (znth q i).

Lemma pow2_range n : pow2 n -> 1 <= n <= 9223372036854775808.
Proof.
  intros (k & H & ->). change 9223372036854775808 with (2 ^ 63). change 1 with (2 ^ 0).
  split; apply Z.pow_le_mono_r; lia.
Qed.

Lemma mask_mod n v : pow2 n -> 0 <= v -> Z.land v (u64 (n - 1)) = v mod n.
Proof.
  intros P Hv. pose proof (pow2_range n P). rewrite u64_small by lia.
  destruct P as (k & H1 & ->). rewrite <- Z.land_ones by lia. f_equal. rewrite Z.ones_equiv. lia.
Qed.

Lemma mod_idx n s i : 0 <= s < n -> 0 <= i <= n -> (s + i) mod n = if s + i <? n then s + i else s + i - n.
Proof.
  intros H1 H2. destruct (Z.ltb_spec (s + i) n).
  - apply Z.mod_small. lia.
  - symmetry. apply (Z.mod_unique_pos _ _ 1); lia.
Qed.

Lemma wf_bounds r : wf r -> 0 <= r_start r /\ 0 <= r_used r <= zlen (r_buf r) /\
  zlen (r_buf r) <= 9223372036854775808 /\ r_start r <= zlen (r_buf r) /\ (r_used r > 0 -> r_start r < zlen (r_buf r)).
Proof.
  intros [(-> & -> & ->)|(P & H1 & H2)]; [cbn; lia|]. pose proof (pow2_range _ P). lia.
Qed.

Lemma ring_mask_idx r i : wf r -> zlen (r_buf r) <> 0 -> 0 <= i <= zlen (r_buf r) ->
  ring_mask r (u64 (r_start r + i)) = idx r i.
Proof.
  intros [(E & _)|(P & H1 & H2)] N Hi; [rewrite E in N; cbn in N; lia|].
  pose proof (pow2_range _ P). unfold ring_mask. rewrite u64_small by lia. rewrite mask_mod by (auto; lia).
  rewrite mod_idx by lia. reflexivity.
Qed.

Lemma bread_ok b i n : 0 <= i -> 0 <= n -> i + n <= zlen b -> bread b i n = Ok (zslice b i n).
Proof. intros. unfold bread. replace (_ && _) with true by lia. reflexivity. Qed.

Lemma zslice_len {A} (l : list A) i n : 0 <= i -> 0 <= n -> i + n <= zlen l -> zlen (zslice l i n) = n.
Proof. intros. unfold zslice. rewrite firstn_length, skipn_length. lia. Qed.

(* The two ways to read n bytes from the front. *)
Definition front (r : ring) (n : Z) : list (option Z) :=
  if n <=? zlen (r_buf r) - r_start r then zslice (r_buf r) (r_start r) n
  else zslice (r_buf r) (r_start r) (zlen (r_buf r) - r_start r)
       ++ zslice (r_buf r) 0 (n - (zlen (r_buf r) - r_start r)).

Lemma zslice_spec {A} (l : list A) i n j : 0 <= i -> 0 <= n -> i + n <= zlen l ->
  znth (zslice l i n) j = if (0 <=? j) && (j <? n) then znth l (i + j) else None.
Proof.
  intros Hi Hn H. destruct (Z.leb_spec 0 j); cbn [andb].
  - destruct (Z.ltb_spec j n).
    + unfold znth, zslice. replace (j <? 0) with false by lia. replace (i + j <? 0) with false by lia.
      rewrite nth_error_firstn, nth_error_skipn. replace (Z.to_nat j <? Z.to_nat n)%nat with true by (symmetry; apply Nat.ltb_lt; lia).
      f_equal. lia.
    + apply znth_ge. rewrite zslice_len by lia. lia.
  - apply znth_neg. lia.
Qed.

Lemma front_q r q n : rep r q -> 0 <= n <= r_used r -> 0 < r_used r -> front r n = map Some (firstn (Z.to_nat n) q).
Proof.
  intros (W & L & R) Hn Hp. destruct (wf_bounds _ W) as (B1 & B2 & B3 & B4 & B5). specialize (B5 ltac:(lia)).
  apply znth_ext'. intros i. rewrite znth_map.
  destruct (Z.ltb_spec i 0) as [Hi|Hi]; [rewrite !znth_neg by lia; reflexivity|].
  destruct (Z.leb_spec n i) as [Hi2|Hi2].
  { rewrite (znth_ge (firstn _ _)) by (rewrite firstn_length; lia). apply znth_ge. unfold front.
    destruct (Z.leb_spec n (zlen (r_buf r) - r_start r)).
    - rewrite zslice_len; lia.
    - rewrite app_length, Nat2Z.inj_add, !zslice_len; lia. }
  rewrite znth_firstn. replace (i <? Z.of_nat (Z.to_nat n)) with true by lia.
  rewrite <- R by lia. unfold front, idx.
  destruct (Z.leb_spec n (zlen (r_buf r) - r_start r)).
  - rewrite zslice_spec by lia. replace (_ && _) with true by lia. replace (_ <? _) with true by lia. reflexivity.
  - rewrite znth_app, zslice_len by lia. destruct (Z.ltb_spec (r_start r + i) (zlen (r_buf r))).
    + replace (i <? _) with true by lia. rewrite zslice_spec by lia. replace (_ && _) with true by lia. reflexivity.
    + replace (i <? _) with false by lia. rewrite zslice_spec by lia. replace (_ && _) with true by lia. f_equal. lia.
Qed.

Lemma peek_ok r q : rep r q -> exists v, ring_peek r = Ok v /\ concat v = map Some q /\ (v = [] <-> q = []).
Proof.
  intros R. pose proof R as (W & L & _). destruct (wf_bounds _ W) as (B1 & B2 & B3 & B4 & B5). unfold ring_peek.
  destruct (Z.eqb_spec (r_used r) 0) as [E|E].
  { exists []. destruct q; [|cbn in L; lia]. split; [reflexivity|]. split; [reflexivity|tauto]. }
  specialize (B5 ltac:(lia)). pose proof (front_q r q (r_used r) R ltac:(lia) ltac:(lia)) as F.
  rewrite firstn_all2 in F by lia. unfold front in F. rewrite u64_small by lia.
  assert (q <> []) by (destruct q; [cbn in L; lia|discriminate]).
  destruct (Z.leb_spec (r_start r + r_used r) (zlen (r_buf r))).
  - rewrite bread_ok by lia. eexists. split; [reflexivity|]. cbn [concat]. rewrite app_nil_r, <- F.
    replace (_ <=? _) with true by lia. split; [reflexivity|split; [discriminate|tauto]].
  - rewrite !u64_small by lia. rewrite !bread_ok by lia. eexists. split; [reflexivity|]. cbn [concat].
    rewrite app_nil_r, <- F. replace (_ <=? _) with false by lia. split; [reflexivity|split; [discriminate|tauto]].
Qed.

Lemma copy_ok r q n : rep r q -> 0 <= n -> ring_copy r n = Ok (map Some (firstn (Z.to_nat n) q)).
Proof.
  intros R Hn. pose proof R as (W & L & _). destruct (wf_bounds _ W) as (B1 & B2 & B3 & B4 & B5). unfold ring_copy.
  set (m := if r_used r <? n then r_used r else n).
  assert (Hm : 0 <= m <= r_used r) by (unfold m; destruct (Z.ltb_spec (r_used r) n); lia).
  assert (E : firstn (Z.to_nat n) q = firstn (Z.to_nat m) q).
  { unfold m. destruct (Z.ltb_spec (r_used r) n); [rewrite !firstn_all2 by lia|]; reflexivity. }
  rewrite E. clearbody m. clear E. destruct (Z.ltb_spec 0 m).
  - specialize (B5 ltac:(lia)). rewrite <- (front_q r q m R) by lia. unfold front. rewrite u64_small by lia.
    destruct (_ <=? _) eqn:E; rewrite !bread_ok by lia; reflexivity.
  - replace m with 0 by lia. reflexivity.
Qed.

Lemma flush_ok r q : rep r q -> rep (ring_flush r) [].
Proof.
  intros (W & L & _). split; [|split; [reflexivity|cbn; lia]]. destruct W as [(E & _)|(P & H1 & H2)].
  - left. cbn. rewrite E. auto.
  - right. cbn. split; [exact P|lia].
Qed.

Lemma pull_ok r q n : rep r q -> 0 <= n -> rep (ring_pull r n) (skipn (Z.to_nat n) q).
Proof.
  intros R Hn. pose proof R as (W & L & A). destruct (wf_bounds _ W) as (B1 & B2 & B3 & B4 & B5). unfold ring_pull.
  set (m := if r_used r <? n then r_used r else n).
  assert (Hm : 0 <= m <= r_used r) by (unfold m; destruct (Z.ltb_spec (r_used r) n); lia).
  assert (E : skipn (Z.to_nat n) q = skipn (Z.to_nat m) q).
  { unfold m. destruct (Z.ltb_spec (r_used r) n); [rewrite !skipn_all2 by lia|]; reflexivity. }
  rewrite E. clearbody m. clear E. rewrite (u64_small (r_used r - m)) by lia.
  destruct (Z.eq_dec (zlen (r_buf r)) 0) as [Z0|Z0].
  - assert (r_buf r = []) by (destruct (r_buf r); [reflexivity|cbn in Z0; lia]).
    destruct W as [(_ & S0 & U0)|(P & H1 & H2)]; [|lia]. unfold ring_mask. rewrite H in *. rewrite S0, U0 in *.
    replace m with 0 by lia. split; [left; cbn; auto|]. cbn [r_used]. split; [|cbn; lia].
    change (Z.to_nat 0) with 0%nat. cbn [skipn]. lia.
  - rewrite ring_mask_idx by (auto; lia). destruct W as [(E & _)|(P & H1 & H2)]; [rewrite E in Z0; cbn in Z0; lia|].
    split.
    { unfold idx. destruct (Z.eq_dec (r_used r) 0); right; cbn [r_buf r_start r_used]; (split; [exact P|]); destruct (_ <? _) eqn:?; lia. }
    cbn [r_used r_buf]. split; [rewrite skipn_length; lia|]. intros i Hi. rewrite znth_skipn by lia.
    replace (i + Z.of_nat (Z.to_nat m)) with (m + i) by lia.
    rewrite <- A by lia. f_equal. unfold idx; cbn [r_start r_buf].
    destruct (r_start r + m <? zlen (r_buf r)) eqn:E1, (r_start r + (m + i) <? zlen (r_buf r)) eqn:E2;
    match goal with |- (if ?b then _ else _) = _ => destruct b eqn:? end; lia.
Qed.

Lemma resize_ok r q n : rep r q -> pow2 n -> r_used r <= n -> exists r', ring_resize r n = Ok r' /\ rep r' q /\ zlen (r_buf r') = n.
Proof.
  intros R P Hn. pose proof R as (W & L & A). destruct (wf_bounds _ W) as (B1 & B2 & B3 & B4 & B5).
  pose proof (pow2_range _ P). unfold ring_resize. cbv zeta.
  set (buf := repeat (@None Z) (Z.to_nat n)). assert (Lb : zlen buf = n) by (unfold buf; rewrite repeat_length; lia).
  clearbody buf.
  assert (K : exists buf', (if 0 <? r_used r
     then if r_used r <=? u64 (zlen (r_buf r) - r_start r)
       then do a <- bread (r_buf r) (r_start r) (r_used r); zcopy buf 0 a
       else do a <- bread (r_buf r) (r_start r) (u64 (zlen (r_buf r) - r_start r));
         do buf1 <- zcopy buf 0 a;
         do b <- bread (r_buf r) 0 (u64 (r_used r - u64 (zlen (r_buf r) - r_start r)));
         zcopy buf1 (u64 (zlen (r_buf r) - r_start r)) b
     else Ok buf) = Ok buf' /\ zlen buf' = n /\ forall i, 0 <= i < r_used r -> znth buf' i = option_map Some (znth q i)).
  { destruct (Z.ltb_spec 0 (r_used r)).
    - specialize (B5 ltac:(lia)). rewrite (u64_small (zlen (r_buf r) - r_start r)) by lia.
      pose proof (front_q r q (r_used r) R ltac:(lia) ltac:(lia)) as F. rewrite firstn_all2 in F by lia. unfold front in F.
      destruct (Z.leb_spec (r_used r) (zlen (r_buf r) - r_start r)).
      + rewrite bread_ok by lia. cbn [bind]. rewrite F. rewrite zcopy_ok by (rewrite ?map_length; lia).
        eexists. split; [reflexivity|]. split; [rewrite length_zput; rewrite ?map_length; lia|].
        intros i Hi. rewrite znth_zput by (rewrite ?map_length; lia). rewrite map_length.
        replace (_ && _) with true by lia. rewrite znth_map, Z.sub_0_r. reflexivity.
      + rewrite (u64_small (r_used r - _)) by lia.
        set (l := zlen (r_buf r) - r_start r) in *. rewrite !bread_ok by lia. cbn [bind].
        assert (La : zlen (zslice (r_buf r) (r_start r) l) = l) by (apply zslice_len; lia).
        assert (Lc : zlen (zslice (r_buf r) 0 (r_used r - l)) = r_used r - l) by (apply zslice_len; lia).
        rewrite zcopy_ok by lia. cbn [bind].
        rewrite zcopy_ok by (rewrite ?length_zput; lia). eexists. split; [reflexivity|].
        split; [rewrite !length_zput; rewrite ?length_zput; lia|].
        intros i Hi. rewrite <- (znth_map Some), <- F. rewrite znth_app, La.
        rewrite znth_zput by (rewrite ?length_zput; lia). rewrite znth_zput by lia. rewrite La, Lc.
        destruct (Z.ltb_spec i l).
        * replace (_ && _) with false by lia. replace (_ && _) with true by lia. f_equal. lia.
        * replace (_ && _) with true by lia. reflexivity.
    - exists buf. split; [reflexivity|]. split; [lia|]. intros; lia. }
  destruct K as (buf' & -> & L' & A'). cbn [bind]. eexists. split; [reflexivity|]. cbn [r_buf]. split; [|exact L'].
  split; [right; cbn [r_buf r_start r_used]; rewrite L'; split; [exact P|lia]|]. split; [exact L|].
  intros i Hi. cbn [r_buf r_used] in *. rewrite <- A' by lia. f_equal. unfold idx. cbn [r_start r_buf]. rewrite L'. replace (_ <? _) with true by lia. lia.
Qed.

Lemma align_ok u : 2 <= u <= 9223372036854775808 -> exists n, align_power2 u = Ok n /\ pow2 n /\ u <= n.
Proof.
  intros H. unfold align_power2. replace (_ || _) with false by lia. eexists. split; [reflexivity|].
  assert (0 <= Z.log2 (u - 1)) by apply Z.log2_nonneg.
  assert (Z.log2 (u - 1) <= 62). { assert (Z.log2 (u - 1) < 63); [|lia]. apply Z.log2_lt_pow2; lia. }
  split; [exists (Z.log2 (u - 1) + 1); lia|].
  destruct (Z.log2_spec (u - 1) ltac:(lia)). rewrite <- Z.add_1_r in *. lia.
Qed.

(* Result of growing: room for add more bytes, or no memory and nothing changed. *)
Lemma grow_ok mem r q add : rep r q -> 0 < add -> r_used r + add <= 9223372036854775808 ->
  exists r' e, ring_grow mem r add = Ok (r', e) /\ rep r' q /\
    ((e = 0 /\ r_used r' + add <= zlen (r_buf r')) \/ (e = -12 /\ r' = r /\ mem = false)).
Proof.
  intros R Ha Hb. pose proof R as (W & L & A). destruct (wf_bounds _ W) as (B1 & B2 & B3 & B4 & B5). unfold ring_grow.
  rewrite (u64_small (zlen (r_buf r) - _)) by lia. destruct (Z.leb_spec add (zlen (r_buf r) - r_used r)).
  { exists r, 0. split; [reflexivity|]. split; [exact R|]. left. lia. }
  rewrite u64_small by lia. cbv zeta. replace (r_used r + add <=? r_used r) with false by lia.
  destruct (align_ok (if r_used r + add <? 4096 then 4096 else r_used r + add)) as (n & -> & P & Hn);
    [destruct (_ <? _) eqn:?; lia|]. cbn [bind].
  assert (r_used r + add <= n) by (destruct (_ <? _) eqn:? in Hn; lia).
  replace (n =? 0) with false by lia. destruct mem.
  - destruct (resize_ok r q n R P ltac:(lia)) as (r' & -> & R' & Ln). cbn [bind]. exists r', 0.
    split; [reflexivity|]. split; [exact R'|]. left. split; [reflexivity|]. destruct R' as (_ & L' & _). lia.
  - exists r, (-12). split; [reflexivity|]. split; [exact R|]. right; auto.
Qed.

Lemma push_ok mem r q d : rep r q -> zlen q + zlen d <= 9223372036854775808 ->
  exists r' e, ring_push mem r d = Ok (r', e) /\
    ((e = 0 /\ rep r' (q ++ d)) \/ (e = -12 /\ r' = r /\ mem = false)).
Proof.
  intros R Hb. unfold ring_push. cbv zeta. destruct (Z.eqb_spec (zlen d) 0) as [E|E].
  { exists r, 0. split; [reflexivity|]. left. destruct d; [|cbn in E; lia]. rewrite app_nil_r. auto. }
  assert (Lq : zlen q = r_used r) by apply R.
  destruct (grow_ok mem r q (zlen d) R ltac:(lia) ltac:(lia)) as (r1 & e & -> & R1 & [(-> & Hs)|(-> & -> & ->)]); cbn [bind].
  2: { exists r, (-12). split; [reflexivity|]. right; auto. }
  replace (0 <? 0) with false by reflexivity.
  match goal with |- exists r' e, ?X = _ /\ _ => cut (exists r', X = Ok (r', 0) /\ rep r' (q ++ d)) end.
  { intros (r' & E1 & E2). exists r', 0. auto. }
  clear R Lq r. rename r1 into r, R1 into R.
  pose proof R as (W & L & A). destruct (wf_bounds _ W) as (B1 & B2 & B3 & B4 & B5).
  rewrite ring_mask_idx by (auto; lia).
  assert (ST : r_start r < zlen (r_buf r)).
  { destruct W as [(E1 & _)|(P & H1 & H2)]; [rewrite E1 in Hs; cbn in Hs; lia|]. lia. }
  assert (I2 : 0 <= idx r (r_used r) < zlen (r_buf r)).
  { unfold idx; destruct (_ <? _) eqn:?; lia. }
  rewrite !(u64_small (zlen (r_buf r) - _)) by lia. rewrite !(u64_small (r_used r + _)) by lia.
  set (p := idx r (r_used r)) in *.
  assert (Hp : p = idx r (r_used r)) by reflexivity. clearbody p.
  assert (K : exists buf', (if zlen d <=? zlen (r_buf r) - p then zcopy (r_buf r) p (map Some d)
      else do b1 <- zcopy (r_buf r) p (zslice (map Some d) 0 (zlen (r_buf r) - p));
        zcopy b1 0 (zslice (map Some d) (zlen (r_buf r) - p) (zlen d - (zlen (r_buf r) - p)))) = Ok buf' /\
      zlen buf' = zlen (r_buf r) /\
      forall j, 0 <= j < zlen (r_buf r) -> znth buf' j =
        (if (p <=? j) && (j <? p + zlen d) then option_map Some (znth d (j - p))
         else if j + zlen (r_buf r) <? p + zlen d then option_map Some (znth d (j + zlen (r_buf r) - p))
         else znth (r_buf r) j)).
  { assert (Lm : zlen (map Some d) = zlen d) by (rewrite map_length; lia).
    destruct (Z.leb_spec (zlen d) (zlen (r_buf r) - p)).
    - rewrite zcopy_ok by lia. eexists. split; [reflexivity|]. split; [rewrite length_zput; lia|].
      intros j Hj. rewrite znth_zput by lia. rewrite Lm. rewrite znth_map.
      destruct ((p <=? j) && (j <? p + zlen d)) eqn:E1; [reflexivity|]. replace (_ <? _) with false by lia. reflexivity.
    - assert (La : zlen (zslice (map Some d) 0 (zlen (r_buf r) - p)) = zlen (r_buf r) - p) by (apply zslice_len; lia).
      assert (Lb : zlen (zslice (map Some d) (zlen (r_buf r) - p) (zlen d - (zlen (r_buf r) - p))) = zlen d - (zlen (r_buf r) - p))
        by (apply zslice_len; lia).
      rewrite zcopy_ok by lia. cbn [bind]. rewrite zcopy_ok by (rewrite ?length_zput; lia).
      eexists. split; [reflexivity|]. split; [rewrite !length_zput; rewrite ?length_zput; lia|].
      intros j Hj. rewrite znth_zput by (rewrite ?length_zput; lia). rewrite znth_zput by lia. rewrite La, Lb.
      rewrite !zslice_spec by lia. rewrite !znth_map.
      destruct ((p <=? j) && (j <? p + zlen d)) eqn:E1.
      + replace (_ && _) with false by lia. replace (_ && _) with true by lia. replace (_ && _) with true by lia.
        f_equal; f_equal; lia.
      + destruct (j + zlen (r_buf r) <? p + zlen d) eqn:E2.
        * replace (_ && _) with true by lia. replace (_ && _) with true by lia. f_equal; f_equal; lia.
        * replace (_ && _) with false by lia. replace (_ && _) with false by lia. reflexivity. }
  destruct K as (buf' & -> & L' & A'). cbn [bind]. eexists. split; [reflexivity|].
  split.
  { right. cbn [r_buf r_start r_used]. rewrite L'. destruct W as [(E1 & _)|(P & H1 & H2)]; [rewrite E1 in Hs; cbn in Hs; lia|].
    split; [exact P|lia]. }
  cbn [r_used r_buf]. split; [rewrite app_length; lia|]. intros i Hi.
  unfold idx. cbn [r_start r_buf]. rewrite L'. rewrite A' by (destruct (_ <? _) eqn:?; lia). rewrite znth_app, L.
  unfold idx in Hp.
  destruct (Z.ltb_spec i (r_used r)).
  - rewrite <- A by lia. unfold idx.
    destruct (Z.ltb_spec (r_start r + i) (zlen (r_buf r))), (Z.ltb_spec (r_start r + r_used r) (zlen (r_buf r)));
      (replace (_ && _) with false by lia); (replace (_ <? _) with false by lia); reflexivity.
  - destruct (Z.ltb_spec (r_start r + i) (zlen (r_buf r))), (Z.ltb_spec (r_start r + r_used r) (zlen (r_buf r))); try lia.
    + replace (_ && _) with true by lia. f_equal; f_equal; lia.
    + replace (_ && _) with false by lia. replace (_ <? _) with true by lia. f_equal; f_equal; lia.
    + replace (_ && _) with true by lia. f_equal; f_equal; lia.
Qed.

Lemma rep0 : rep ring_zero [].
Proof. split; [left; auto|]. split; [reflexivity|cbn; lia]. Qed.

Lemma ring_pushed_nonneg ops : 0 <= ring_pushed ops.
Proof. induction ops as [|o l IH]; [cbn; lia|]. destruct o; cbn [ring_pushed fold_right]; fold (ring_pushed l); lia. Qed.
Lemma pty_pushed_nonneg ops : 0 <= pty_pushed ops.
Proof. induction ops as [|o l IH]; [cbn; lia|]. destruct o; cbn [pty_pushed fold_right]; fold (pty_pushed l); lia. Qed.

Lemma ring_fifo ops : forall r q, rep r q -> Forall ring_args ops -> zlen q + ring_pushed ops <= MEM_MAX ->
  exists r' obs q', ring_run r ops = Ok (r', obs) /\ fifo q ops obs q' /\ rep r' q'.
Proof.
  induction ops as [|o ops IH]; intros r q R A B.
  { exists r, [], q. split; [reflexivity|]. split; [constructor|exact R]. }
  inversion A as [|? ? A1 A2]; subst. unfold MEM_MAX in *. cbn [ring_run]. destruct o as [mem d|n| |n|]; cbn [ring_step ring_pushed fold_right] in *;
    fold (ring_pushed ops) in B.
  - pose proof (ring_pushed_nonneg ops).
    destruct (push_ok mem r q d R ltac:(lia)) as (r1 & e & -> & [(-> & R1)|(-> & -> & ->)]); cbn [bind fst snd].
    + destruct (IH r1 (q ++ d) R1 A2 ltac:(rewrite app_length; lia)) as (r' & obs & q' & -> & F & R').
      cbn [bind fst snd]. eexists _, _, q'. split; [reflexivity|]. split; [constructor; exact F|exact R'].
    + destruct (IH r q R A2 ltac:(lia)) as (r' & obs & q' & -> & F & R').
      cbn [bind fst snd]. eexists _, _, q'. split; [reflexivity|]. split; [constructor; exact F|exact R'].
  - cbn [bind fst snd]. destruct (IH _ _ (pull_ok r q n R A1) A2) as (r' & obs & q' & -> & F & R'); [rewrite skipn_length; lia|].
    cbn [bind fst snd]. eexists _, _, q'. split; [reflexivity|]. split; [constructor; exact F|exact R'].
  - destruct (peek_ok r q R) as (v & -> & Ev & _). cbn [bind fst snd]. rewrite Ev.
    destruct (IH r q R A2 ltac:(lia)) as (r' & obs & q' & -> & F & R').
    cbn [bind fst snd]. eexists _, _, q'. split; [reflexivity|]. split; [constructor; exact F|exact R'].
  - rewrite (copy_ok r q n R A1). cbn [bind fst snd].
    destruct (IH r q R A2 ltac:(lia)) as (r' & obs & q' & -> & F & R').
    cbn [bind fst snd]. eexists _, _, q'. split; [reflexivity|]. split; [constructor; exact F|exact R'].
  - cbn [bind fst snd]. destruct (IH _ [] (flush_ok r q R) A2) as (r' & obs & q' & -> & F & R'); [cbn [length]; lia|].
    cbn [bind fst snd]. eexists _, _, q'. split; [reflexivity|]. split; [constructor; exact F|exact R'].
Qed.

Lemma ring_fifo0 ops : Forall ring_args ops -> ring_pushed ops <= MEM_MAX ->
  exists r obs q, ring_run ring_zero ops = Ok (r, obs) /\ fifo [] ops obs q /\ zlen q = r_used r.
Proof.
  intros A B. destruct (ring_fifo ops ring_zero [] rep0 A) as (r & obs & q & E & F & R); [cbn [length]; lia|].
  exists r, obs, q. split; [exact E|]. split; [exact F|apply R].
Qed.

(* Delivery: in any run the bytes pulled, then the content, are the bytes pushed. *)
Lemma write_loop_ok ks : forall r q sent, rep r q ->
  Forall (fun k => match k with KTake n => 0 < n | _ => True end) ks ->
  exists r' q' s' e, pty_write_loop r ks sent = Ok (r', sent ++ map Some s', e) /\ rep r' q' /\ s' ++ q' = q.
Proof.
  induction ks as [|k ks IH]; intros r q sent R A; cbn [pty_write_loop].
  { eexists r, q, [], _. cbn [map app]. rewrite app_nil_r. split; [reflexivity|]. split; [exact R|reflexivity]. }
  inversion A as [|? ? A1 A2]; subst. destruct (peek_ok r q R) as (v & -> & Ev & _). cbn [bind].
  assert (NOTHING : forall e : Z, exists r' q' s' e', Ok (r, sent, e) = Ok (r', sent ++ map Some s', e') /\ rep r' q' /\ s' ++ q' = q).
  { intros e. exists r, q, [], e. cbn [map app]. rewrite app_nil_r. split; [reflexivity|]. split; [exact R|reflexivity]. }
  destruct v as [|c v]; [apply NOTHING|]. destruct k as [n| |e]; [|apply NOTHING|apply NOTHING].
  destruct (IH (ring_pull r n) (skipn (Z.to_nat n) q) (sent ++ firstn (Z.to_nat n) (concat (c :: v)))) as (r' & q' & s' & e & -> & R' & E');
    [apply pull_ok; [exact R|lia]|exact A2|].
  rewrite Ev. exists r', q', (firstn (Z.to_nat n) q ++ s'), e. split.
  { rewrite map_app, <- app_assoc, firstn_map. reflexivity. }
  split; [exact R'|]. rewrite <- app_assoc, E'. apply firstn_skipn.
Qed.

Lemma pty_ok ops : forall p q, rep (y_out p) q -> Forall pty_args ops -> zlen q + pty_pushed ops <= MEM_MAX ->
  exists p' q' s cs, pty_run p ops = Ok p' /\ rep (y_out p') q' /\
    y_sent p' = y_sent p ++ map Some s /\ y_codes p' = y_codes p ++ cs /\
    s ++ q' = q ++ accepted ops cs /\ Forall (fun c => c = 0 \/ c = -12) cs.
Proof.
  induction ops as [|o ops IH]; intros p q R A B.
  { exists p, q, [], []. cbn [pty_run accepted map app]. rewrite !app_nil_r. repeat match goal with |- _ /\ _ => split end; auto. }
  inversion A as [|? ? A1 A2]; subst. unfold MEM_MAX in *. cbn [pty_run].
  pose proof (pty_pushed_nonneg ops).
  destruct o as [mem d|k1 k2]; cbn [pty_step pty_pushed fold_right] in *; fold (pty_pushed ops) in B.
  - destruct (push_ok mem (y_out p) q d R ltac:(lia)) as (r1 & e & -> & [(-> & R1)|(-> & -> & ->)]); cbn [bind fst snd].
    + destruct (IH (mkPty r1 (y_sent p) (y_codes p ++ [0])) (q ++ d) R1 A2 ltac:(rewrite app_length; lia)) as (p' & q' & s & cs & -> & R' & E1 & E2 & E3 & E4).
      exists p', q', s, (0 :: cs). split; [reflexivity|]. split; [exact R'|]. cbn [y_sent y_codes] in *.
      split; [exact E1|]. split; [rewrite E2, <- app_assoc; reflexivity|]. split; [|constructor; auto].
      rewrite E3. cbn [accepted]. change (0 =? 0) with true. rewrite app_assoc. reflexivity.
    + destruct (IH (mkPty (y_out p) (y_sent p) (y_codes p ++ [-12])) q R A2 ltac:(lia)) as (p' & q' & s & cs & -> & R' & E1 & E2 & E3 & E4).
      exists p', q', s, (-12 :: cs). split; [reflexivity|]. split; [exact R'|]. cbn [y_sent y_codes] in *.
      split; [exact E1|]. split; [rewrite E2, <- app_assoc; reflexivity|]. split; [|constructor; auto].
      rewrite E3. cbn [accepted]. change (-12 =? 0) with false. reflexivity.
  - unfold pty_write. destruct (write_loop_ok [k1; k2] (y_out p) q [] R) as (r' & q1 & s1 & e & -> & R1 & E).
    { destruct A1. repeat constructor; auto. }
    cbn [bind fst snd app]. subst q.
    destruct (IH (mkPty r' (y_sent p ++ map Some s1) (y_codes p)) q1 R1 A2) as (p' & q' & s & cs & -> & R' & E1 & E2 & E3 & E4);
      [rewrite app_length in B; lia|].
    exists p', q', (s1 ++ s), cs. split; [reflexivity|]. split; [exact R'|]. cbn [y_sent y_codes] in *.
    split; [rewrite E1, map_app, app_assoc; reflexivity|]. split; [exact E2|]. split; [|exact E4].
    cbn [accepted]. rewrite <- !app_assoc, E3. reflexivity.
Qed.

Lemma pty_delivery ops : Forall pty_args ops -> pty_pushed ops <= MEM_MAX ->
  exists p q, pty_run pty0 ops = Ok p /\ zlen q = r_used (y_out p) /\
    y_sent p ++ map Some q = map Some (accepted ops (y_codes p)) /\
    Forall (fun c => c = 0 \/ c = -12) (y_codes p).
Proof.
  intros A B. destruct (pty_ok ops pty0 [] rep0 A) as (p & q & s & cs & E & R & E1 & E2 & E3 & E4); [cbn [length]; lia|].
  cbn [pty0 y_sent y_codes app] in *. exists p, q. split; [exact E|]. split; [apply R|]. rewrite E1, E2, <- map_app, E3. auto.
Qed.
