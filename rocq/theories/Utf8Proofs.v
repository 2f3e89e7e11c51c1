From Verif Require Import Base BaseProofs Utf8 Utf8Spec.

Lemma land_ones_mod x n : 0 <= n -> Z.land x (2 ^ n - 1) = x mod 2 ^ n.
Proof. intros H. rewrite <- Z.land_ones by lia. f_equal. rewrite Z.ones_equiv. lia. Qed.
Lemma land_7 x : Z.land x 0x07 = x mod 8.   Proof. apply (land_ones_mod x 3); lia. Qed.
Lemma land_f x : Z.land x 0x0f = x mod 16.  Proof. apply (land_ones_mod x 4); lia. Qed.
Lemma land_1f x : Z.land x 0x1f = x mod 32. Proof. apply (land_ones_mod x 5); lia. Qed.
Lemma land_3f x : Z.land x 0x3f = x mod 64. Proof. apply (land_ones_mod x 6); lia. Qed.
Lemma land_7f x : Z.land x 0x7f = x mod 128. Proof. apply (land_ones_mod x 7); lia. Qed.
Lemma land_ffff x : Z.land x 0xffff = x mod 65536. Proof. apply (land_ones_mod x 16); lia. Qed.

(* Disjoint or is addition. *)
Lemma lor_add a b n : 0 <= n -> 0 <= b < 2 ^ n -> (2 ^ n | a) -> Z.lor a b = a + b.
Proof.
  intros Hn Hb [k ->].
  assert (Hhi : forall i, n <= i -> Z.testbit b i = false).
  { intros i H. destruct (Z.eq_dec b 0) as [->|Hb0]; [apply Z.bits_0|].
    apply Z.bits_above_log2; [lia|]. apply Z.log2_lt_pow2; [lia|].
    eapply Z.lt_le_trans; [apply Hb|]. apply Z.pow_le_mono_r; lia. }
  rewrite Z.add_nocarry_lxor.
  - apply Z.bits_inj'; intros i Hi. rewrite Z.lor_spec, Z.lxor_spec.
    destruct (Z_lt_le_dec i n) as [H|H].
    + rewrite Z.mul_pow2_bits_low by lia. destruct (Z.testbit b i); reflexivity.
    + rewrite Hhi by lia. destruct (Z.testbit _ i); reflexivity.
  - apply Z.bits_inj'; intros i Hi. rewrite Z.land_spec, Z.bits_0.
    destruct (Z_lt_le_dec i n) as [H|H].
    + rewrite Z.mul_pow2_bits_low by lia. reflexivity.
    + rewrite Hhi by lia. apply andb_false_r.
Qed.

Lemma shl_mul x n : 0 <= n -> Z.shiftl x n = x * 2 ^ n.
Proof. intros; now apply Z.shiftl_mul_pow2. Qed.
Lemma shr_div x n : 0 <= n -> Z.shiftr x n = x / 2 ^ n.
Proof. intros; now apply Z.shiftr_div_pow2. Qed.

(* The encoder in plain arithmetic. *)
Lemma encode_spec g :
  0 <= g < 2 ^ 32 ->
  ucs4_to_utf8 g =
    (if ((0xd800 <=? g) && (g <=? 0xdfff)) || (0x10ffff <? g)
        || (g mod 65536 =? 0xffff) || (g mod 65536 =? 0xfffe)
        || ((0xfdd0 <=? g) && (g <=? 0xfdef)) then [] else utf8 g).
Proof.
  intros Hg. unfold ucs4_to_utf8, utf8. rewrite !land_ffff.
  destruct ((0xd800 <=? g) && (g <=? 0xdfff)) eqn:E1; cbn [orb]; [reflexivity|].
  destruct ((0x10ffff <? g) || (g mod 65536 =? 65535) || (g mod 65536 =? 65534)) eqn:E2;
    cbn [orb]; [reflexivity|].
  destruct ((0xfdd0 <=? g) && (g <=? 0xfdef)) eqn:E3; [reflexivity|].
  rewrite !land_7f, !land_3f, !land_1f, !land_f, !land_7, !shr_div by lia.
  change (Z.shiftl 1 7) with 128. change (Z.shiftl 1 (5 + 6)) with 2048.
  change (Z.shiftl 1 (4 + 6 + 6)) with 65536. change (Z.shiftl 1 (3 + 6 + 6 + 6)) with 2097152.
  change (2 ^ 6) with 64. change (2 ^ 12) with 4096. change (2 ^ 18) with 262144.
  rewrite !(lor_add 0xc0 _ 5), !(lor_add 0xe0 _ 4), !(lor_add 0xf0 _ 3), !(lor_add 0x80 _ 6)
    by first [lia | now (exists 6) | now (exists 14) | now (exists 30) | now (exists 2)].
  destruct (g <? 128) eqn:A1; [repeat first [lia | f_equal]|].
  destruct (g <? 2048) eqn:A2; [repeat first [lia | f_equal]|].
  destruct (g <? 65536) eqn:A3; [repeat first [lia | f_equal]|].
  destruct (g <? 2097152) eqn:A4; [repeat first [lia | f_equal]|lia].
Qed.

Definition brange : list Z := map Z.of_nat (seq 0 256).
Lemma brange_in b : byte b -> In b brange.
Proof.
  intros H. unfold brange. apply in_map_iff. exists (Z.to_nat b). split; [unfold byte in H; lia|].
  apply in_seq. unfold byte in H; lia.
Qed.

(* What the masks in tsm_utf8_mach_feed compute, for both char signednesses. *)
Definition byte_facts (sg : bool) (b : Z) : bool :=
  let c := char_to_u32 sg b in
  (Z.land c 0x3F =? b mod 64) && (Z.land c 0x1F =? b mod 32) && (Z.land c 0x0F =? b mod 16)
  && (Z.land c 0x07 =? b mod 8)
  && eqb (Z.land c 0xC0 =? 0x80) ((128 <=? b) && (b <? 192))
  && eqb (Z.land c 0x80 =? 0) (b <? 128)
  && eqb (Z.land c 0xE0 =? 0xC0) ((192 <=? b) && (b <? 224))
  && eqb (Z.land c 0xF0 =? 0xE0) ((224 <=? b) && (b <? 240))
  && eqb (Z.land c 0xF8 =? 0xF0) ((240 <=? b) && (b <? 248))
  && eqb ((c =? 0xC0) || (c =? 0xC1)) (negb sg && ((b =? 192) || (b =? 193)))
  && ((128 <=? b) || (c =? b)).

Lemma byte_facts_all : forallb (fun b => byte_facts true b && byte_facts false b) brange = true.
Proof. vm_compute. reflexivity. Qed.

Lemma byte_facts_ok sg b : byte b -> byte_facts sg b = true.
Proof.
  intros H. pose proof byte_facts_all as A. rewrite forallb_forall in A.
  specialize (A b (brange_in b H)). apply andb_prop in A as [A1 A2]. destruct sg; auto.
Qed.

(* The decoder step in plain arithmetic. *)
Definition is_cont (b : Z) : bool := (128 <=? b) && (b <? 192).
Definition feed_arith (sg : bool) (m : umach) (b : Z) : umach :=
  match u_state m with
  | UStart | UAccept | UReject =>
    if negb sg && ((b =? 192) || (b =? 193)) then mkU UReject (u_ch m)
    else if b <? 128 then mkU UAccept b
    else if is_cont b then mkU UStart (u_ch m)
    else if b <? 224 then mkU UExpect1 ((b - 192) * 64)
    else if b <? 240 then mkU UExpect2 ((b - 224) * 4096)
    else if b <? 248 then mkU UExpect3 ((b - 240) * 262144)
    else mkU UReject (u_ch m)
  | UExpect3 => mkU (if is_cont b then UExpect2 else UReject)
                    (Z.lor (u_ch m) (b mod 64 * 4096))
  | UExpect2 => mkU (if is_cont b then UExpect1 else UReject)
                    (Z.lor (u_ch m) (b mod 64 * 64))
  | UExpect1 => mkU (if is_cont b then UAccept else UReject)
                    (Z.lor (u_ch m) (b mod 64))
  end.

Lemma feed_arith_ok sg m b : byte b -> umach_feed sg m b = feed_arith sg m b.
Proof.
  intros Hb. pose proof (byte_facts_ok sg b Hb) as F. unfold byte_facts in F.
  set (c := char_to_u32 sg b) in *.
  rewrite !andb_true_iff in F.
  destruct F as ((((((((((F1 & F2) & F3) & F4) & F5) & F6) & F7) & F8) & F9) & F10) & F11).
  apply Z.eqb_eq in F1, F2, F3, F4. apply eqb_prop in F5, F6, F7, F8, F9, F10.
  unfold umach_feed, feed_arith. fold c.
  rewrite F10, F5, F6, F7, F8, F9, F1, F2, F3, F4, !shl_mul by lia.
  change (2 ^ 6) with 64. change (2 ^ 12) with 4096. change (2 ^ 18) with 262144.
  fold (is_cont b).
  unfold byte in Hb.
  destruct (u_state m); auto.
  all: destruct (negb sg && ((b =? 192) || (b =? 193))) eqn:E0; auto.
  all: destruct (b <? 128) eqn:E1; [f_equal; lia|].
  all: destruct (is_cont b) eqn:E2; auto.
  all: unfold is_cont in E2.
  all: destruct ((192 <=? b) && (b <? 224)) eqn:E3; destruct (b <? 224) eqn:E3'; try lia; [f_equal; lia|].
  all: destruct ((224 <=? b) && (b <? 240)) eqn:E4; destruct (b <? 240) eqn:E4'; try lia; [f_equal; lia|].
  all: destruct ((240 <=? b) && (b <? 248)) eqn:E5; destruct (b <? 248) eqn:E5'; try lia; [f_equal; lia|].
  all: reflexivity.
Qed.

(* Decoder states with no pending multi-byte sequence. *)
Definition idle (m : umach) : Prop :=
  match u_state m with UStart | UAccept | UReject => True | _ => False end.

Ltac zcase :=
  match goal with |- context [if ?c then _ else _] => destruct c eqn:?; try lia end.

Lemma feed_ascii sg m b : idle m -> 0 <= b < 128 -> umach_feed sg m b = mkU UAccept b.
Proof.
  intros Hi Hb. rewrite feed_arith_ok by (unfold byte; lia).
  destruct m as [st ch]; unfold idle, feed_arith, is_cont in *; cbn in *.
  destruct st; try contradiction; repeat zcase; reflexivity.
Qed.

Lemma feed_lead2 sg m b : idle m -> 194 <= b < 224 -> umach_feed sg m b = mkU UExpect1 ((b - 192) * 64).
Proof.
  intros Hi Hb. rewrite feed_arith_ok by (unfold byte; lia).
  destruct m as [st ch]; unfold idle, feed_arith, is_cont in *; cbn in *.
  destruct st; try contradiction; repeat zcase; reflexivity.
Qed.
Lemma feed_lead3 sg m b : idle m -> 224 <= b < 240 -> umach_feed sg m b = mkU UExpect2 ((b - 224) * 4096).
Proof.
  intros Hi Hb. rewrite feed_arith_ok by (unfold byte; lia).
  destruct m as [st ch]; unfold idle, feed_arith, is_cont in *; cbn in *.
  destruct st; try contradiction; repeat zcase; reflexivity.
Qed.
Lemma feed_lead4 sg m b : idle m -> 240 <= b < 248 -> umach_feed sg m b = mkU UExpect3 ((b - 240) * 262144).
Proof.
  intros Hi Hb. rewrite feed_arith_ok by (unfold byte; lia).
  destruct m as [st ch]; unfold idle, feed_arith, is_cont in *; cbn in *.
  destruct st; try contradiction; repeat zcase; reflexivity.
Qed.

Lemma feed_cont3 sg h b : 0 <= h -> cont b ->
  umach_feed sg (mkU UExpect3 (h * 262144)) b = mkU UExpect2 ((h * 64 + (b - 128)) * 4096).
Proof.
  unfold cont. intros Hh Hb. rewrite feed_arith_ok by (unfold byte; lia).
  unfold feed_arith, is_cont; cbn [u_state u_ch]. zcase. f_equal.
  rewrite (lor_add _ _ 18); [lia|lia| |exists h; lia]. change (2 ^ 18) with 262144. lia.
Qed.
Lemma feed_cont2 sg h b : 0 <= h -> cont b ->
  umach_feed sg (mkU UExpect2 (h * 4096)) b = mkU UExpect1 ((h * 64 + (b - 128)) * 64).
Proof.
  unfold cont. intros Hh Hb. rewrite feed_arith_ok by (unfold byte; lia).
  unfold feed_arith, is_cont; cbn [u_state u_ch]. zcase. f_equal.
  rewrite (lor_add _ _ 12); [lia|lia| |exists h; lia]. change (2 ^ 12) with 4096. lia.
Qed.
Lemma feed_cont1 sg h b : 0 <= h -> cont b ->
  umach_feed sg (mkU UExpect1 (h * 64)) b = mkU UAccept (h * 64 + (b - 128)).
Proof.
  unfold cont. intros Hh Hb. rewrite feed_arith_ok by (unfold byte; lia).
  unfold feed_arith, is_cont; cbn [u_state u_ch]. zcase. f_equal.
  rewrite (lor_add _ _ 6); [lia|lia| |exists h; lia]. change (2 ^ 6) with 64. lia.
Qed.

Lemma idle_accept cp : idle (mkU UAccept cp).
Proof. exact I. Qed.

(* One well-formed sequence. *)
Lemma run_utf8 sg m cp :
  idle m -> 0 <= cp <= 0x10FFFF ->
  umach_run sg m (utf8 cp)
  = (mkU UAccept cp, repeat None (length (utf8 cp) - 1) ++ [Some cp]).
Proof.
  intros Hi Hcp. unfold utf8.
  destruct (cp <? 0x80) eqn:E1; [|destruct (cp <? 0x800) eqn:E2; [|destruct (cp <? 0x10000) eqn:E3]].
  - cbn [umach_run length Nat.sub repeat app]. rewrite feed_ascii by (auto; lia). reflexivity.
  - cbn [umach_run length Nat.sub repeat app]. rewrite (feed_lead2 sg m) by (auto; lia).
    rewrite feed_cont1 by (unfold cont; lia). cbn [umach_out u_state umach_get u_ch].
    replace ((192 + cp / 64 - 192) * 64 + (128 + cp mod 64 - 128)) with cp by lia. reflexivity.
  - cbn [umach_run length Nat.sub repeat app]. rewrite (feed_lead3 sg m) by (auto; lia).
    rewrite (feed_cont2 sg _ (128 + cp / 64 mod 64)) by (unfold cont; lia). rewrite feed_cont1 by (unfold cont; lia).
    cbn [umach_out u_state umach_get u_ch].
    match goal with |- context [mkU UAccept ?x] => replace x with cp by lia end. reflexivity.
  - cbn [umach_run length Nat.sub repeat app]. rewrite (feed_lead4 sg m) by (auto; lia).
    rewrite (feed_cont3 sg _ (128 + cp / 4096 mod 64)) by (unfold cont; lia).
    rewrite (feed_cont2 sg _ (128 + cp / 64 mod 64)) by (unfold cont; lia).
    rewrite feed_cont1 by (unfold cont; lia).
    cbn [umach_out u_state umach_get u_ch].
    match goal with |- context [mkU UAccept ?x] => replace x with cp by lia end. reflexivity.
Qed.

Lemma umach_run_app sg m a b :
  umach_run sg m (a ++ b) =
  let '(m1, o1) := umach_run sg m a in let '(m2, o2) := umach_run sg m1 b in (m2, o1 ++ o2).
Proof.
  revert m; induction a as [|x xs IH]; intros m; cbn [umach_run app].
  - destruct (umach_run sg m b); reflexivity.
  - rewrite IH. destruct (umach_run sg (umach_feed sg m x) xs) as [m1 o1].
    destruct (umach_run sg m1 b) as [m2 o2]. reflexivity.
Qed.

Lemma somes_app {A} (a b : list (option A)) : somes (a ++ b) = somes a ++ somes b.
Proof. induction a as [|[x|] xs IH]; cbn; [reflexivity|now rewrite IH|exact IH]. Qed.
Lemma somes_repeat_None {A} n : somes (repeat (@None A) n) = [].
Proof. induction n; cbn; auto. Qed.

Lemma decode_text sg m cps :
  idle m -> Forall (fun cp => 0 <= cp <= 0x10FFFF) cps ->
  idle (fst (umach_run sg m (utf8_text cps))) /\ umach_decode sg m (utf8_text cps) = cps.
Proof.
  intros Hi H; revert m Hi; induction H as [|cp cps Hcp H IH]; intros m Hi.
  - split; [exact Hi|reflexivity].
  - unfold umach_decode, utf8_text in *. cbn [flat_map]. rewrite umach_run_app, run_utf8 by auto.
    destruct (IH (mkU UAccept cp) (idle_accept cp)) as [I1 I2].
    destruct (umach_run sg (mkU UAccept cp) (flat_map utf8 cps)) as [m2 o2]. cbn [fst snd] in *.
    split; [exact I1|]. rewrite !somes_app, somes_repeat_None. cbn. now rewrite I2.
Qed.

(* Encodable code points. *)
Lemma encodable_iff g : 0 <= g < 2 ^ 32 ->
  (ucs4_to_utf8 g <> [] <-> scalar g /\ ~ nonchar g).
Proof.
  intros Hg. rewrite encode_spec by auto. unfold scalar, nonchar.
  match goal with |- context [if ?c then _ else _] => destruct c eqn:E end.
  - split; [congruence|]. intros [H1 H2]. lia.
  - split; [intros _; lia|]. intros _. unfold utf8. repeat zcase; discriminate.
Qed.

Lemma encode_is_utf8 g : 0 <= g < 2 ^ 32 -> ucs4_to_utf8 g <> [] -> ucs4_to_utf8 g = utf8 g.
Proof.
  intros Hg. rewrite encode_spec by auto.
  match goal with |- context [if ?c then _ else _] => destruct c eqn:E end; congruence.
Qed.

Lemma encode_none g : 0 <= g < 2 ^ 32 -> ~ (scalar g /\ ~ nonchar g) -> ucs4_to_utf8 g = [].
Proof.
  intros Hg Hn. destruct (ucs4_to_utf8 g) eqn:E; auto.
  exfalso; apply Hn. apply encodable_iff; auto. rewrite E; discriminate.
Qed.

Lemma round_trip_one sg m g :
  0 <= g < 2 ^ 32 -> ucs4_to_utf8 g <> [] -> idle m ->
  exists n m', umach_run sg m (ucs4_to_utf8 g) = (m', repeat None n ++ [Some g])
            /\ length (ucs4_to_utf8 g) = S n /\ idle m'.
Proof.
  intros Hg Hne Hi. pose proof (proj1 (encodable_iff g Hg) Hne) as [[Hs _] _].
  rewrite (encode_is_utf8 g) by auto. rewrite run_utf8 by auto.
  exists (length (utf8 g) - 1)%nat, (mkU UAccept g). split; [reflexivity|].
  split; [|exact I]. unfold utf8. repeat zcase; reflexivity.
Qed.

Lemma round_trip_text sg m gs :
  idle m -> Forall (fun g => 0 <= g < 2 ^ 32 /\ ucs4_to_utf8 g <> []) gs ->
  umach_decode sg m (flat_map ucs4_to_utf8 gs) = gs
  /\ idle (fst (umach_run sg m (flat_map ucs4_to_utf8 gs))).
Proof.
  intros Hi H.
  assert (E : flat_map ucs4_to_utf8 gs = utf8_text gs).
  { unfold utf8_text. induction H as [|g gs [H1 H2] H IH]; cbn; [reflexivity|].
    now rewrite encode_is_utf8, IH by auto. }
  rewrite E. apply and_comm, decode_text; auto.
  eapply Forall_impl; [|exact H]. intros g [H1 H2].
  pose proof (proj1 (encodable_iff g H1) H2) as [[Hs _] _]. exact Hs.
Qed.

(* Bounds on pending state. *)
Definition ubound (m : umach) : Prop :=
  match u_state m with
  | UStart | UReject => True
  | UAccept => 0 <= u_ch m < 2 ^ 21
  | UExpect3 => exists h, u_ch m = h * 262144 /\ 0 <= h < 8
  | UExpect2 => exists h, u_ch m = h * 4096 /\ 0 <= h < 512
  | UExpect1 => exists h, u_ch m = h * 64 /\ 0 <= h < 32768
  end.

Lemma feed_bound sg m b : byte b -> ubound m -> ubound (umach_feed sg m b).
Proof.
  intros Hb Hm. pose proof Hb as Hb'. unfold byte in Hb'.
  destruct m as [st ch]. unfold ubound in Hm; cbn in Hm.
  destruct (is_cont b) eqn:Ec.
  - assert (Hc : cont b) by (unfold is_cont, cont in *; lia). unfold cont in Hc.
    destruct st.
    + rewrite feed_arith_ok by auto. cbn. rewrite Ec. unfold is_cont in Ec. repeat zcase; exact I.
    + rewrite feed_arith_ok by auto. cbn. rewrite Ec. unfold is_cont in Ec. repeat zcase; exact I.
    + rewrite feed_arith_ok by auto. cbn. rewrite Ec. unfold is_cont in Ec. repeat zcase; exact I.
    + destruct Hm as (h & -> & Hh). rewrite feed_cont1 by (unfold cont; lia).
      unfold ubound; cbn [u_state u_ch]. lia.
    + destruct Hm as (h & -> & Hh). rewrite feed_cont2 by (unfold cont; lia).
      unfold ubound; cbn [u_state u_ch]. eexists; split; [reflexivity|lia].
    + destruct Hm as (h & -> & Hh). rewrite feed_cont3 by (unfold cont; lia).
      unfold ubound; cbn [u_state u_ch]. eexists; split; [reflexivity|lia].
  - rewrite feed_arith_ok by auto. unfold feed_arith; cbn [u_state u_ch]. rewrite Ec.
    unfold is_cont in Ec.
    destruct st; try exact I;
      repeat (zcase; [unfold ubound; cbn [u_state u_ch];
                      first [exact I | lia | eexists; split; [reflexivity|lia]] |]); exact I.
Qed.

Lemma run_bound sg m bs m' os :
  bytes bs -> ubound m -> umach_run sg m bs = (m', os) ->
  ubound m' /\ length os = length bs
  /\ Forall (fun o => match o with Some v => 0 <= v < 2 ^ 21 | None => True end) os.
Proof.
  intros Hbs; revert m m' os; induction Hbs as [|b bs Hb Hbs IH]; intros m m' os Hm E.
  - cbn in E. inversion E; subst. auto.
  - cbn [umach_run] in E. destruct (umach_run sg (umach_feed sg m b) bs) as [m2 o2] eqn:E2.
    inversion E; subst. destruct (IH _ _ _ (feed_bound sg m b Hb Hm) E2) as (I1 & I2 & I3).
    split; [exact I1|]. split; [cbn; now rewrite I2|]. constructor; [|exact I3].
    pose proof (feed_bound sg m b Hb Hm) as B. unfold umach_out, umach_get, ubound in *.
    destruct (u_state (umach_feed sg m b)); auto. lia.
Qed.

(* Resynchronisation. *)
Lemma feed_lead_pending sg m b :
  ~ idle m -> byte b -> ~ cont b -> exists ch, umach_feed sg m b = mkU UReject ch.
Proof.
  intros Hi Hb Hc. rewrite feed_arith_ok by auto.
  destruct m as [st ch]; unfold idle, feed_arith in *; cbn in *.
  assert (Ec : is_cont b = false) by (unfold is_cont, cont in *; lia). rewrite Ec.
  destruct st; try tauto; eexists; reflexivity.
Qed.

Lemma feed_stray sg m b : idle m -> cont b -> exists ch, umach_feed sg m b = mkU UStart ch.
Proof.
  intros Hi Hc. unfold cont in Hc. rewrite feed_arith_ok by (unfold byte; lia).
  destruct m as [st ch]; unfold idle, feed_arith in *; cbn in *.
  assert (Ec : is_cont b = true) by (unfold is_cont in *; lia). rewrite Ec.
  destruct st; try tauto; repeat zcase; eexists; reflexivity.
Qed.

Lemma run_strays sg m cs : idle m -> Forall cont cs ->
  idle (fst (umach_run sg m cs)) /\ snd (umach_run sg m cs) = repeat None (length cs).
Proof.
  intros Hi H; revert m Hi; induction H as [|c cs Hc H IH]; intros m Hi; [split; auto|].
  cbn [umach_run]. destruct (feed_stray sg m c Hi Hc) as [ch E]. rewrite E.
  destruct (IH (mkU UStart ch) I) as [I1 I2].
  destruct (umach_run sg (mkU UStart ch) cs) as [m2 o2]. cbn in *. split; [exact I1|]. now rewrite I2.
Qed.

Lemma utf8_shape cp : 0 <= cp <= 0x10FFFF ->
  exists b cs, utf8 cp = b :: cs /\ byte b /\ ~ cont b /\ Forall cont cs.
Proof.
  intros H. unfold utf8. repeat zcase; eexists; eexists; (split; [reflexivity|]); unfold byte, cont;
    (split; [lia|]); (split; [lia|]); repeat constructor; unfold cont; lia.
Qed.

Lemma resync sg m cp cps :
  0 <= cp <= 0x10FFFF -> Forall (fun c => 0 <= c <= 0x10FFFF) cps ->
  exists o, (o = cp \/ o = 0xFFFD) /\ umach_decode sg m (utf8 cp ++ utf8_text cps) = o :: cps.
Proof.
  intros Hcp Hcps.
  assert (Dec : idle m \/ ~ idle m) by (destruct m as [[] ch]; cbn; auto).
  destruct Dec as [Hi|Hi].
  - exists cp. split; [auto|]. apply (decode_text sg m (cp :: cps)); auto.
  - exists 0xFFFD. split; [auto|].
    destruct (utf8_shape cp Hcp) as (b & cs & E & Hb & Hnc & Hcs). rewrite E.
    destruct (feed_lead_pending sg m b Hi Hb Hnc) as [ch Ef].
    unfold umach_decode. cbn [app umach_run]. rewrite Ef.
    rewrite umach_run_app.
    destruct (run_strays sg (mkU UReject ch) cs I Hcs) as [I1 I2].
    destruct (umach_run sg (mkU UReject ch) cs) as [m1 o1]. cbn [fst snd] in *.
    destruct (decode_text sg m1 cps I1 Hcps) as [_ D]. unfold umach_decode in D.
    destruct (umach_run sg m1 (utf8_text cps)) as [m2 o2]. cbn [fst snd] in *.
    cbn [umach_out u_state umach_get somes]. rewrite somes_app, I2, somes_repeat_None, D. reflexivity.
Qed.

(* Everything reported other than U+FFFD stems from a structurally complete
   sequence ending at the byte after which it was reported. *)
Definition pend (m : umach) (w : list Z) : Prop :=
  match u_state m with
  | UExpect1 =>
    (exists a, w = [a] /\ 192 <= a < 224 /\ u_ch m = (a - 192) * 64) \/
    (exists a b, w = [a; b] /\ 224 <= a < 240 /\ cont b /\ u_ch m = ((a - 224) * 64 + (b - 128)) * 64) \/
    (exists a b c, w = [a; b; c] /\ 240 <= a < 248 /\ cont b /\ cont c /\
       u_ch m = (((a - 240) * 64 + (b - 128)) * 64 + (c - 128)) * 64)
  | UExpect2 =>
    (exists a, w = [a] /\ 224 <= a < 240 /\ u_ch m = (a - 224) * 4096) \/
    (exists a b, w = [a; b] /\ 240 <= a < 248 /\ cont b /\ u_ch m = ((a - 240) * 64 + (b - 128)) * 4096)
  | UExpect3 => exists a, w = [a] /\ 240 <= a < 248 /\ u_ch m = (a - 240) * 262144
  | UAccept => structural w (u_ch m)
  | _ => True
  end.

Definition ends_with (l w : list Z) : Prop := exists p, l = p ++ w.

Lemma pend_feed sg m hist b w :
  byte b -> ends_with hist w -> pend m w ->
  exists w', ends_with (hist ++ [b]) w' /\ pend (umach_feed sg m b) w'.
Proof.
  intros Hb [p Hp] Hm. pose proof Hb as Hb'. unfold byte in Hb'.
  destruct m as [st ch].
  assert (Hidle : idle (mkU st ch) ->
    exists w', ends_with (hist ++ [b]) w' /\ pend (umach_feed sg (mkU st ch) b) w').
  { intros Hi. exists [b]. split; [exists hist; reflexivity|].
    rewrite feed_arith_ok by auto. unfold feed_arith, is_cont.
    cbn [u_state u_ch]. unfold idle in Hi; cbn in Hi.
    destruct st; try contradiction; unfold pend;
    repeat (match goal with |- context [if ?c then _ else _] => destruct c eqn:? end;
            cbn [u_state u_ch]; try exact I;
            try (constructor; lia); try (left; exists b; repeat split; lia);
            try (exists b; repeat split; lia)). }
  destruct st; try (apply Hidle; exact I); unfold pend in Hm; cbn [u_state u_ch] in Hm.
  all: destruct (is_cont b) eqn:Ec;
    [assert (Hc : cont b) by (unfold is_cont, cont in *; lia)|];
    [exists (w ++ [b]); split; [exists p; now rewrite Hp, app_assoc|] |
     exists [b]; split; [exists hist; reflexivity|];
       rewrite feed_arith_ok by auto; unfold feed_arith; cbn [u_state u_ch]; rewrite Ec; exact I].
  - destruct Hm as [(a & -> & Ha & ->)|[(a & c & -> & Ha & Hc1 & ->)|(a & c & d & -> & Ha & Hc1 & Hc2 & ->)]];
      unfold cont in *; (rewrite feed_cont1 by (unfold cont; lia)); cbn [pend u_state u_ch app]; unfold pend; cbn [u_state u_ch].
    + apply St2; unfold cont; lia.
    + replace (((a - 224) * 64 + (c - 128)) * 64 + (b - 128))
        with ((a - 0xE0) * 4096 + (c - 0x80) * 64 + (b - 0x80)) by lia. apply St3; unfold cont; lia.
    + replace ((((a - 240) * 64 + (c - 128)) * 64 + (d - 128)) * 64 + (b - 128))
        with ((a - 0xF0) * 262144 + (c - 0x80) * 4096 + (d - 0x80) * 64 + (b - 0x80)) by lia.
      apply St4; unfold cont; lia.
  - destruct Hm as [(a & -> & Ha & ->)|(a & c & -> & Ha & Hc1 & ->)];
      unfold cont in *; (rewrite feed_cont2 by (unfold cont; lia)); unfold pend; cbn [u_state u_ch app].
    + right; left. exists a, b. unfold cont. repeat split; lia.
    + right; right. exists a, c, b. unfold cont. repeat split; lia.
  - destruct Hm as (a & -> & Ha & ->).
      unfold cont in *; (rewrite feed_cont3 by (unfold cont; lia)); unfold pend; cbn [u_state u_ch app].
    right. exists a, b. unfold cont. repeat split; lia.
Qed.

Lemma run_pend sg bs : bytes bs -> forall m hist w,
  ends_with hist w -> pend m w ->
  exists w', ends_with (hist ++ bs) w' /\ pend (fst (umach_run sg m bs)) w'.
Proof.
  induction 1 as [|b bs Hb Hbs IH]; intros m hist w Hw Hm.
  - exists w. rewrite app_nil_r. auto.
  - destruct (pend_feed sg m hist b w Hb Hw Hm) as (w1 & Hw1 & Hm1).
    destruct (IH _ (hist ++ [b]) w1 Hw1 Hm1) as (w2 & Hw2 & Hm2).
    exists w2. rewrite <- app_assoc in Hw2. split; [exact Hw2|].
    cbn [umach_run]. destruct (umach_run sg (umach_feed sg m b) bs); exact Hm2.
Qed.

Lemma accepted_structural sg bs b v :
  bytes (bs ++ [b]) ->
  umach_out (fst (umach_run sg umach_new (bs ++ [b]))) = Some v -> v <> 0xFFFD ->
  exists p w, bs ++ [b] = p ++ w /\ structural w v.
Proof.
  intros Hb Ho Hv.
  destruct (run_pend sg (bs ++ [b]) Hb umach_new [] []) as (w & [p Hp] & Hm); [now exists []|exact I|].
  cbn [app] in Hp. exists p, w. split; [exact Hp|].
  unfold umach_out, umach_get, pend in *.
  destruct (u_state (fst (umach_run sg umach_new (bs ++ [b])))); try discriminate; inversion Ho; subst; try congruence.
Qed.

(* Prefix freedom of encodings. *)
Lemma cons_inj {A} (a b : A) l m : a :: l = b :: m -> a = b /\ l = m.
Proof. intros H; inversion H; auto. Qed.

Lemma utf8_prefix_free g h x y :
  0 <= g <= 0x10FFFF -> 0 <= h <= 0x10FFFF -> utf8 g ++ x = utf8 h ++ y -> g = h /\ x = y.
Proof.
  intros Hg Hh E. unfold utf8 in E.
  destruct (g <? 0x80) eqn:A1; [|destruct (g <? 0x800) eqn:A2; [|destruct (g <? 0x10000) eqn:A3]];
  (destruct (h <? 0x80) eqn:B1; [|destruct (h <? 0x800) eqn:B2; [|destruct (h <? 0x10000) eqn:B3]]);
  cbn [app] in E;
  repeat (apply cons_inj in E; let H := fresh "H" in destruct E as [H E]; try (exfalso; lia));
  (split; [lia|assumption]).
Qed.

Lemma alloc_loop_ok cap cs buf :
  zlen buf + 4 * zlen cs <= cap ->
  Forall (fun g => 0 <= g < 2 ^ 32) cs ->
  utf8_alloc_loop cap cs buf = Ok (buf ++ flat_map ucs4_to_utf8 cs).
Proof.
  intros Hc H; revert buf Hc; induction H as [|c cs Hr H IH]; intros buf Hc; cbn [utf8_alloc_loop flat_map].
  - now rewrite app_nil_r.
  - assert (L : zlen (ucs4_to_utf8 c) <= 4).
    { rewrite encode_spec by auto. zcase; [cbn; lia|]. unfold utf8. repeat zcase; cbn; lia. }
    cbn [length] in Hc. destruct (_ <=? _) eqn:E; [|lia].
    rewrite IH by (rewrite app_length; lia). now rewrite app_assoc.
Qed.

Lemma structural_utf8 w v cp : structural w v -> well_formed w cp -> cp = v.
Proof.
  intros Hs [[Hc Hd] Hw]. unfold utf8 in Hw.
  destruct Hs; unfold cont in *;
  destruct (cp <? 0x80) eqn:A1; [|destruct (cp <? 0x800) eqn:A2; [|destruct (cp <? 0x10000) eqn:A3]
  | |destruct (cp <? 0x800) eqn:A2; [|destruct (cp <? 0x10000) eqn:A3]
  | |destruct (cp <? 0x800) eqn:A2; [|destruct (cp <? 0x10000) eqn:A3]
  | |destruct (cp <? 0x800) eqn:A2; [|destruct (cp <? 0x10000) eqn:A3]];
  repeat (apply cons_inj in Hw; let H := fresh "H" in destruct Hw as [H Hw]; try discriminate Hw); try lia.
Qed.

Lemma accepted_structural_exact sg bs b v :
  bytes (bs ++ [b]) ->
  umach_out (fst (umach_run sg umach_new (bs ++ [b]))) = Some v -> v <> 0xFFFD ->
  exists p w, bs ++ [b] = p ++ w /\ structural w v /\ (forall cp, well_formed w cp -> cp = v).
Proof.
  intros Hb Ho Hv. destruct (accepted_structural sg bs b v Hb Ho Hv) as (p & w & E & Hs).
  exists p, w. repeat split; auto. intros cp Hw. exact (structural_utf8 w v cp Hs Hw).
Qed.

Lemma encode_exact g : 0 <= g < 2 ^ 32 ->
  (scalar g /\ ~ nonchar g -> ucs4_to_utf8 g = utf8 g /\ 1 <= zlen (ucs4_to_utf8 g) <= 4) /\
  (~ (scalar g /\ ~ nonchar g) -> ucs4_to_utf8 g = []).
Proof.
  intros Hg. split; [|now apply encode_none].
  intros H. apply encodable_iff in H; [|exact Hg].
  rewrite (encode_is_utf8 g Hg H). split; [reflexivity|].
  unfold utf8. repeat zcase; cbn [length]; lia.
Qed.

Lemma encode_prefix_free g h x :
  0 <= g < 2 ^ 32 -> 0 <= h < 2 ^ 32 -> ucs4_to_utf8 g <> [] -> ucs4_to_utf8 h <> [] ->
  ucs4_to_utf8 g ++ x = ucs4_to_utf8 h -> g = h /\ x = [].
Proof.
  intros Hg Hh Ng Nh E.
  pose proof (proj1 (encodable_iff g Hg) Ng) as [[Rg _] _].
  pose proof (proj1 (encodable_iff h Hh) Nh) as [[Rh _] _].
  rewrite (encode_is_utf8 g Hg Ng), (encode_is_utf8 h Hh Nh), <- (app_nil_r (utf8 h)) in E.
  exact (utf8_prefix_free g h x [] Rg Rh E).
Qed.

Lemma alloc_ok cs :
  Forall (fun g => 0 <= g < 2 ^ 32) cs ->
  ucs4_to_utf8_alloc cs =
  Ok (match flat_map ucs4_to_utf8 cs with [] => None | l => Some l end).
Proof.
  intros H. unfold ucs4_to_utf8_alloc. rewrite alloc_loop_ok by (auto; cbn [length]; lia).
  cbn [bind app]. destruct (flat_map ucs4_to_utf8 cs); reflexivity.
Qed.

Lemma run_bounded : forall sg bs,
  bytes bs ->
  length (snd (umach_run sg umach_new bs)) = length bs /\
  Forall (fun o => match o with Some v => 0 <= v < 2 ^ 21 | None => True end)
         (snd (umach_run sg umach_new bs)).
Proof.
  intros sg bs Hb. destruct (umach_run sg umach_new bs) as [m' os] eqn:E.
  exact (proj2 (run_bound sg umach_new bs m' os Hb I E)).
Qed.

Lemma resync_any : forall sg garbage cp cps,
  scalar cp -> Forall scalar cps ->
  exists o, (o = cp \/ o = 0xFFFD) /\
    umach_decode sg umach_new (garbage ++ utf8 cp ++ utf8_text cps)
    = umach_decode sg umach_new garbage ++ o :: cps.
Proof.
  intros sg garbage cp cps [Hcp _] Hcps.
  destruct (resync sg (fst (umach_run sg umach_new garbage)) cp cps) as (o & Ho & E); [exact Hcp| |].
  { eapply Forall_impl; [|exact Hcps]. intros a [Ha _]. exact Ha. }
  exists o. split; [exact Ho|]. unfold umach_decode in *.
  rewrite umach_run_app. destruct (umach_run sg umach_new garbage) as [m1 o1].
  cbn [fst] in E. destruct (umach_run sg m1 (utf8 cp ++ utf8_text cps)) as [m2 o2].
  cbn [snd] in *. rewrite somes_app. now rewrite E.
Qed.

(* The full claim of C03. *)
Definition only_well_formed (sg : bool) : Prop :=
  forall bs b v, bytes (bs ++ [b]) ->
  umach_out (fst (umach_run sg umach_new (bs ++ [b]))) = Some v -> v <> 0xFFFD ->
  exists p w, bs ++ [b] = p ++ w /\ well_formed w v.

Lemma only_well_formed_false : ~ only_well_formed true /\ ~ only_well_formed false.
Proof.
  split.
  - (* C1 81 is accepted as 'A' when char is signed *)
    intros H. destruct (H [0xC1] 0x81 0x41) as (p & w & E & _ & Hw).
    + repeat constructor; unfold byte; lia.
    + vm_compute; reflexivity.
    + discriminate.
    + assert (L : w = [0x41]) by (rewrite Hw; reflexivity). subst w. rewrite L in E.
      destruct p as [|x [|y [|z p]]]; discriminate E.
  - (* E0 81 81 is accepted as 'A' always *)
    intros H. destruct (H [0xE0; 0x81] 0x81 0x41) as (p & w & E & _ & Hw).
    + repeat constructor; unfold byte; lia.
    + vm_compute; reflexivity.
    + discriminate.
    + assert (L : w = [0x41]) by (rewrite Hw; reflexivity). subst w. rewrite L in E.
      destruct p as [|x [|y [|z [|t p]]]]; discriminate E.
Qed.
