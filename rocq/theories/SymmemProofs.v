(* Proofs about Symmem.v: the symbol table in memory refines the one of Symbol.v. *)
From Verif Require Import Base BaseProofs Symbol SymbolProofs Ring Array SharedSpec ArrayProofs Htable HtableSpec HtableProofs Symmem SymmemSpec.
From Coq Require Import Permutation.

(* -- strings ---------------------------------------------------------------------------------------------------- *)
Definition texty (s : list Z) : Prop := Forall (fun c => 0 <= c <= UCS4_MAX) s.
Definition TERM : Z := UCS4_MAX + 1.
Lemma text_ok s : texty s -> text_of (s ++ [TERM]) = Ok s.
Proof.
  induction 1 as [|c s H _ IH]; [reflexivity|]. cbn [app text_of]. replace (UCS4_MAX <? c) with false by lia. now rewrite IH.
Qed.
Lemma hash_ok s : texty s -> forall v, exists h, hash_from v (s ++ [TERM]) = Ok h.
Proof.
  induction 1 as [|c s H _ IH]; intros v; [exists v; reflexivity|]. cbn [app hash_from]. replace (UCS4_MAX <? c) with false by lia. apply IH.
Qed.
Lemma cmp_ok s : texty s -> forall s', texty s' -> cmp_ucs4 (s ++ [TERM]) (s' ++ [TERM]) = Ok (str_eqb s s').
Proof.
  assert (X : (UCS4_MAX <? TERM) = true) by reflexivity.
  induction 1 as [|c s H _ IH]; intros s' H'.
  - destruct H' as [|c' s' H1 _]; cbn [app cmp_ucs4 str_eqb]; rewrite X; [reflexivity|].
    replace (UCS4_MAX <? c') with false by lia. cbn [andb]. replace (TERM =? c') with false by (unfold TERM; lia). reflexivity.
  - destruct H' as [|c' s' H1 H2]; cbn [app cmp_ucs4 str_eqb]; replace (UCS4_MAX <? c) with false by lia; cbn [andb].
    + replace (c =? TERM) with false by (unfold TERM; lia). reflexivity.
    + destruct (c =? c'); cbn [negb andb]; [now apply IH|reflexivity].
Qed.
Lemma cmp_hash v1 : forall v2, cmp_ucs4 v1 v2 = Ok true -> forall x, hash_from x v1 = hash_from x v2.
Proof.
  induction v1 as [|a v1 IH]; intros [|b v2] H x; try discriminate. cbn [cmp_ucs4] in H. cbn [hash_from].
  destruct (Z.ltb_spec UCS4_MAX a), (Z.ltb_spec UCS4_MAX b); cbn [andb] in H; try reflexivity;
    destruct (Z.eqb_spec a b) as [->|]; cbn [negb] in H; try discriminate; try lia.
  now apply IH.
Qed.

(* -- blocks ------------------------------------------------------------------------------------------------------ *)
Lemma block_in m b w : NoDup (map fst m) -> In (b, w) m -> block_at m b = Some w.
Proof.
  induction m as [|[b' w'] m IH]; cbn; [tauto|]. intros N [E|I].
  - inversion E; subst. now rewrite Z.eqb_refl.
  - inversion N; subst. destruct (Z.eqb_spec b' b) as [->|]; [|auto]. exfalso. apply H1. now apply (in_map fst) in I.
Qed.
Lemma block_some m b w : block_at m b = Some w -> In (b, w) m.
Proof.
  induction m as [|[b' w'] m IH]; cbn; [discriminate|]. destruct (Z.eqb_spec b' b) as [->|]; [|auto]. intros E. inversion E. auto.
Qed.
Lemma free_not m b : ~ In b (map fst m) -> free_block m b = Ub.
Proof.
  induction m as [|[b' w'] m IH]; cbn; [reflexivity|]. intros N. destruct (Z.eqb_spec b' b) as [->|]; [tauto|]. now rewrite IH by tauto.
Qed.
Lemma free_in m b : In b (map fst m) -> exists w m', free_block m b = Ok m' /\ Permutation m ((b, w) :: m').
Proof.
  induction m as [|[b' w'] m IH]; cbn; [tauto|]. intros I. destruct (Z.eqb_spec b' b) as [->|N].
  - exists w', m. auto.
  - destruct IH as (w & m' & -> & P); [tauto|]. cbn [bind]. exists w, ((b', w') :: m'). split; [reflexivity|].
    eapply Permutation_trans; [apply perm_skip, P|apply perm_swap].
Qed.
Definition key_of (x : Z * list Z) : Z := fst x + 4.
Lemma free_all ps : forall m, Permutation ps (map key_of m) -> free_keys m ps = Ok [].
Proof.
  induction ps as [|p ps IH]; intros m P.
  - apply Permutation_nil in P. destruct m; [reflexivity|discriminate].
  - assert (I : In (p - 4) (map fst m)).
    { assert (I : In p (map key_of m)) by (eapply Permutation_in; [exact P|left; reflexivity]). apply in_map_iff in I as (x & E & I). unfold key_of in E.
      replace (p - 4) with (fst x) by lia. now apply in_map. }
    destruct (free_in _ _ I) as (w & m' & E & Q). cbn [free_keys]. rewrite E. cbn [bind]. apply IH.
    apply (Permutation_map key_of) in Q. cbn [map] in Q. unfold key_of in Q at 2. cbn [fst] in Q. replace (p - 4 + 4) with p in Q by lia.
    eapply Permutation_cons_inv. eapply Permutation_trans; [exact P|exact Q].
Qed.

(* -- the hash table does not care how objects it does not hold would be hashed -------------------------------------- *)
Lemma rep_rehash r r' k ht bag : rep r k ht bag -> (forall p, In p bag -> r p = r' p) -> rep r' k ht bag.
Proof.
  intros [H|(T & D & LM & PM & EL & R)] E; [left; exact H|]. right. exists T. split; [|auto]. destruct D as [SH TB LN EN CH].
  assert (A : forall i, 0 <= i < zlen T -> entry_valid (at_slot T i) = true -> r (raw_ptr ht (at_slot T i)) = r' (raw_ptr ht (at_slot T i))).
  { intros i Hi V. apply E. apply (Permutation_in _ (Permutation_sym PM)). now apply held_in. }
  constructor; auto.
  - intros i Hi. destruct (EN i Hi) as [N V]. split; [exact N|]. intros W. destruct (V W) as (O & L & X). split; [exact O|]. split; [exact L|].
    unfold enc in *. now rewrite <- (A i Hi W).
  - intros i Hi V d. unfold ehome. rewrite <- (A i Hi V). exact (CH i Hi V d).
Qed.

(* -- the relation ---------------------------------------------------------------------------------------------------- *)
Definition entry_words (x : list Z * Z) : list Z := snd x :: fst x ++ [TERM].
Record srep (k : Z) (t : symmem) (T : symtab) : Prop := mkSR {
  sr_inv : sym_inv T;
  sr_next : sm_next t = t_next T;
  sr_mem : map snd (sm_mem t) = map entry_words (t_syms T);
  sr_text : Forall (fun x => texty (fst x)) (t_syms T);
  sr_ht : rep (key_hash (sm_mem t)) k (sm_ht t) (map key_of (sm_mem t));
  sr_bases : NoDup (map fst (sm_mem t));
  sr_pos : Forall (fun x => 0 < key_of x) (sm_mem t);
  sr_idx : arep (2 ^ 32) (sm_index t) (0 :: rev (map key_of (sm_mem t)));
  sr_esz : v_esz (sm_index t) = 8
}.
Lemma sr_len k t T : srep k t T -> zlen (sm_mem t) = zlen (t_syms T).
Proof. intros R. pose proof (f_equal (@length _) (sr_mem _ _ _ R)) as E. rewrite !map_length in E. lia. Qed.

Lemma new_is : symmem_new = Ok (mkSM (UCS4_MAX + 2) (mkV [Some 0; None; None; None] 1 8) ht_init []).
Proof. reflexivity. Qed.
Lemma srep_new k t : symmem_new = Ok t -> srep k t symtab_new.
Proof.
  intros E. rewrite new_is in E. assert (X : t = mkSM (UCS4_MAX + 2) (mkV [Some 0; None; None; None] 1 8) ht_init []) by congruence. clear E. subst t.
  constructor; cbn [sm_next sm_mem sm_ht sm_index map rev]; try reflexivity; try constructor; try apply sym_inv_new; auto.
  unfold arep. cbn [v_len v_data length]. repeat match goal with |- _ /\ _ => split end; try lia.
  intros i Hi. assert (i = 0) by lia. subst i. reflexivity.
Qed.

Lemma in_block k t T s i : srep k t T -> In (s, i) (t_syms T) -> exists b, In (b, i :: s ++ [TERM]) (sm_mem t).
Proof.
  intros R I. apply (in_map entry_words) in I. rewrite <- (sr_mem _ _ _ R) in I. apply in_map_iff in I as ([b w] & E & I). cbn in E. subst w. eauto.
Qed.
Lemma block_entry k t T b w : srep k t T -> In (b, w) (sm_mem t) -> exists s i, w = i :: s ++ [TERM] /\ In (s, i) (t_syms T) /\ texty s.
Proof.
  intros R I. apply (in_map snd) in I. rewrite (sr_mem _ _ _ R) in I. apply in_map_iff in I as ([s i] & E & I). cbn in E. exists s, i. split; [auto|]. split; [exact I|].
  pose proof (sr_text _ _ _ R) as F. rewrite Forall_forall in F. exact (F _ I).
Qed.
Lemma key_words_in k t T b w : srep k t T -> In (b, w) (sm_mem t) -> key_words (sm_mem t) (b + 4) = Some (tl w).
Proof.
  intros R I. destruct (block_entry _ _ _ _ _ R I) as (s & i & -> & _). unfold key_words. replace (b + 4 - 4) with b by lia. rewrite (block_in _ _ _ (sr_bases _ _ _ R) I). reflexivity.
Qed.

Lemma readable_all k t T : srep k t T -> keys_readable (sm_mem t) (sm_ht t) = true.
Proof.
  intros R. unfold keys_readable. apply forallb_forall. intros p I. apply (Permutation_in _ (rep_visited _ _ _ _ (sr_ht _ _ _ R))) in I.
  apply in_map_iff in I as ([b w] & <- & I). unfold key_of. cbn [fst]. unfold readable. rewrite (key_words_in _ _ _ _ _ R I).
  destruct (block_entry _ _ _ _ _ R I) as (s & i & -> & _ & X). cbn [tl]. now rewrite text_ok.
Qed.

(* -- reading ------------------------------------------------------------------------------------------------------------ *)
Lemma get_ok k t T sym : srep k t T -> 0 <= sym < 2 ^ 32 -> sm_get t sym = Ok (symbol_get T sym) /\ texty (symbol_get T sym).
Proof.
  intros R Hs. unfold sm_get, symbol_get. destruct (Z.leb_spec sym UCS4_MAX) as [L|G].
  { split; [reflexivity|]. constructor; [lia|constructor]. }
  assert (U : u32 (sym - (UCS4_MAX + 1)) = sym - (UCS4_MAX + 1)) by (apply u32_small; unfold UCS4_MAX in *; lia). rewrite U. clear U.
  set (idx := sym - (UCS4_MAX + 1)). assert (I0 : 0 <= idx) by (unfold idx; lia). clearbody idx.
  assert (D : texty [0]) by (constructor; [unfold UCS4_MAX; lia|constructor]).
  destruct (sr_inv _ _ _ R) as (_ & _ & IX & _). rewrite IX. pose proof (sr_idx _ _ _ R) as (LL & LD & _ & AT).
  assert (LN : v_len (sm_index t) = 1 + zlen (t_syms T)). { rewrite <- LL. cbn [length]. rewrite rev_length, map_length. pose proof (sr_len _ _ _ R). lia. }
  assert (LI : zlen (None :: map Some (interned T)) = 1 + zlen (t_syms T)). { cbn [length]. unfold interned. rewrite map_length, rev_length, map_length. lia. }
  destruct (Z.leb_spec (v_len (sm_index t)) idx) as [O|O].
  { cbn [bind]. change (0 =? 0) with true. cbv iota. rewrite znth_ge by lia. auto. }
  unfold array_at, zget. rewrite AT by lia. rewrite !znth_cons by lia. destruct (Z.eqb_spec idx 0) as [->|Nz].
  { cbn [option_map bind]. change (0 =? 0) with true. auto. }
  rewrite <- map_rev, !znth_map. unfold interned. rewrite <- map_rev, znth_map.
  pose proof (f_equal (@rev _) (sr_mem _ _ _ R)) as RM. rewrite <- !map_rev in RM.
  pose proof (f_equal (fun l => znth l (idx - 1)) RM) as E. cbv beta in E. rewrite !znth_map in E.
  destruct (znth_some (rev (sm_mem t)) (idx - 1)) as ([b w] & ME). { rewrite rev_length. pose proof (sr_len _ _ _ R). lia. }
  rewrite ME in *. cbn [option_map] in *. destruct (znth (rev (t_syms T)) (idx - 1)) as [[s i]|]; [|discriminate]. cbn [option_map snd fst] in *.
  apply znth_In, in_rev in ME. unfold key_of. cbn [fst bind].
  assert (P0 : b + 4 =? 0 = false). { pose proof (sr_pos _ _ _ R) as F. rewrite Forall_forall in F. specialize (F _ ME). unfold key_of in F. cbn [fst] in F. lia. }
  rewrite P0, (key_words_in _ _ _ _ _ R ME). destruct (block_entry _ _ _ _ _ R ME) as (s' & i' & -> & _ & X).
  assert (W : i' :: s' ++ [TERM] = entry_words (s, i)) by congruence. unfold entry_words in W. cbn [fst snd] in W.
  assert (s' = s). { apply (app_inv_tail [TERM]). congruence. } subst s'. cbn [tl]. split; [now apply text_ok|exact X].
Qed.

(* -- appending ------------------------------------------------------------------------------------------------------------ *)
Definition grow_ok (g : grants) : Prop := g_calloc g = true /\ g_realloc g = true.
Lemma u32_next T : sym_inv T -> zlen (t_syms T) < 3 * 2 ^ 28 -> u32 (t_next T + 1) = t_next T + 1.
Proof. intros (E & _) H. apply u32_small. rewrite E. unfold UCS4_MAX. lia. Qed.

(* The two calls that put a new key in place. *)
Definition placed (t : symmem) (g : grants) (b h : Z) (m : store) : res (symmem * Z) :=
  do r <- htable_add (key_hash m) (g_calloc g) (sm_ht t) h (b + 4);
  if negb (fst r) then Ub
  else
    do a <- array_push (g_realloc g) (sm_index t) (b + 4);
    if snd a =? 0 then Ok (mkSM (sm_next t + 1) (fst a) (snd r) m, sm_next t + 1) else Ub.
Lemma append_cases k t T sym u g : 1 <= k < 64 -> srep k t T -> 0 <= sym < 2 ^ 32 -> 0 <= u < 2 ^ 32 -> zlen (t_syms T) < 3 * 2 ^ 28 ->
  match g_malloc g with Some b => forall s, sm_get t sym = Ok s -> new_block k (sm_mem t) (zlen s + 3) b | None => True end ->
  (fst (symbol_append T sym u) = T /\ sm_append t sym u g = Ok (t, snd (symbol_append T sym u))) \/
  (exists key, texty key /\ symbol_append T sym u = (mkT (t_next T + 1) (t_index T ++ [Some key]) ((key, t_next T + 1) :: t_syms T), t_next T + 1) /\
    match g_malloc g with
    | None => sm_append t sym u g = Ok (t, sym)
    | Some b => let m := (b, (t_next T + 1) :: key ++ [TERM]) :: sm_mem t in
      okp k (b + 4) /\ ~ In b (map fst (sm_mem t)) /\ rep (key_hash m) k (sm_ht t) (map key_of (sm_mem t)) /\
      sm_append t sym u g = placed t g b (key_hash m (b + 4)) m
    end).
Proof.
  intros Hk R Hs Hu Hn Hb. destruct (get_ok k t T sym R Hs) as [G TX]. unfold sm_append, symbol_append.
  destruct (Z.ltb_spec UCS4_MAX u) as [|U]; [left; auto|].
  rewrite G. cbn [bind]. destruct (Z.leb_spec UCS4_MAXLEN (zlen (symbol_get T sym))) as [|L]; [left; auto|].
  cbv zeta. set (s := symbol_get T sym) in *. set (key := s ++ [u]).
  assert (TK : texty key). { apply Forall_app. split; [exact TX|]. constructor; [lia|constructor]. }
  assert (BK : s ++ [u; UCS4_MAX + 1] = key ++ [TERM]) by (unfold key; rewrite <- app_assoc; reflexivity). rewrite BK.
  assert (LB : zlen (key ++ [TERM]) = zlen s + 2) by (unfold key; rewrite !app_length; cbn [length]; lia).
  replace (UCS4_MAXLEN + 1 <? zlen (key ++ [TERM])) with false by (unfold UCS4_MAXLEN in *; lia).
  rewrite (readable_all k t T R). cbn [negb]. destruct (hash_ok key TK 5381) as (h & HH). fold (hash_ucs4 (key ++ [TERM])) in HH. rewrite HH. cbn [bind].
  destruct (rep_search _ _ _ _ (key_cmp (sm_mem t) (key ++ [TERM])) h (sr_ht _ _ _ R)) as (f & -> & F).
  { intros q C. unfold key_cmp in C. unfold key_hash. destruct (key_words (sm_mem t) q) as [w|]; [|discriminate].
    destruct (cmp_ucs4 (key ++ [TERM]) w) as [[|]|] eqn:CE; try discriminate. unfold hash_ucs4 in *. rewrite <- (cmp_hash _ _ CE), HH. reflexivity. }
  assert (CMP : forall b w, In (b, w) (sm_mem t) -> exists s' i, w = i :: s' ++ [TERM] /\ In (s', i) (t_syms T) /\ key_cmp (sm_mem t) (key ++ [TERM]) (b + 4) = str_eqb key s').
  { intros b w I. destruct (block_entry _ _ _ _ _ R I) as (s' & i & E & I' & X). exists s', i. split; [exact E|]. split; [exact I'|].
    unfold key_cmp. rewrite (key_words_in _ _ _ _ _ R I), E. cbn [tl]. now rewrite cmp_ok. }
  pose proof (sr_inv _ _ _ R) as SI. pose proof SI as (_ & _ & _ & ND & _).
  cbn [bind]. destruct f as [[off q]|].
  - (* found *)
    destruct F as (I & C & _). apply in_map_iff in I as ([b w] & <- & I). unfold key_of in *. cbn [fst] in *. destruct (CMP b w I) as (s' & i & E & I' & C').
    rewrite C' in C. apply str_eqb_eq in C. subst s'. left. rewrite (lookup_in _ _ _ ND I'). cbn [fst snd].
    unfold key_id. replace (b + 4 - 4) with b by lia. rewrite (block_in _ _ _ (sr_bases _ _ _ R) I), E. cbn [bind]. auto.
  - (* new *)
    destruct (syms_lookup (t_syms T) key) as [v|] eqn:LK.
    { exfalso. apply lookup_some in LK. destruct (in_block _ _ _ _ _ R LK) as (b & I). destruct (CMP b _ I) as (s' & i & E & _ & C').
      assert (s' = key). { apply (app_inv_tail [TERM]). congruence. } subst s'.
      assert (X : key_cmp (sm_mem t) (key ++ [TERM]) (b + 4) = false). { apply F. apply in_map_iff. exists (b, v :: key ++ [TERM]). auto. }
      rewrite X in C'. assert (str_eqb key key = true) by now apply str_eqb_eq. congruence. }
    right. exists key. split; [exact TK|].
    unfold placed. rewrite (sr_next _ _ _ R), (u32_next T SI Hn). replace (t_next T + 1 <=? t_next T) with false by lia. split; [reflexivity|].
    destruct (g_malloc g) as [b|]; [|reflexivity]. specialize (Hb _ G). destruct Hb as [BR BA]. cbv zeta.
    assert (NB : ~ In b (map fst (sm_mem t)) /\ ~ In (b + 4) (map fst (sm_mem t))).
    { split; intros I; apply in_map_iff in I as (x & E & I); rewrite Forall_forall in BA; specialize (BA x I); unfold apart in BA;
        destruct x as [b' w']; cbn [fst snd] in *; subst; destruct (block_entry _ _ _ _ _ R I) as (s' & i & -> & _); cbn [length] in BA; lia. }
    destruct NB as [NB NB4]. set (m := (b, (t_next T + 1) :: key ++ [TERM]) :: sm_mem t).
    assert (FU : forall n a ht, append_fails n a ht m (b + 4) sym = Ub).
    { intros n a ht. unfold append_fails. rewrite free_not; [reflexivity|]. cbn [m map fst]. intros [E|I]; [lia|]. exact (NB4 I). }
    assert (KH : key_hash m (b + 4) = h). { unfold key_hash, key_words. replace (b + 4 - 4) with b by lia. cbn [m block_at]. rewrite Z.eqb_refl, HH. reflexivity. }
    split; [exact BR|]. split; [exact NB|]. split.
    { apply (rep_rehash _ _ _ _ _ (sr_ht _ _ _ R)). intros p I. apply in_map_iff in I as ([b' w'] & <- & I). unfold key_of. cbn [fst].
      unfold key_hash, key_words. replace (b' + 4 - 4) with b' by lia. cbn [m block_at]. destruct (Z.eqb_spec b b') as [->|]; [|reflexivity].
      exfalso. apply NB. now apply (in_map fst) in I. }
    rewrite KH. destruct (htable_add _ _ _ _ _) as [[ins ht']|]; [|reflexivity]. cbn [bind fst snd]. destruct ins; cbn [negb]; [|apply FU].
    destruct (array_push _ _ _) as [[a' c]|]; [|reflexivity]. cbn [bind fst snd]. destruct (c =? 0); [reflexivity|].
    destruct (ht_search ht' _ h) as [f|]; [|reflexivity]. cbn [bind].
    destruct (match f with Some (off, _) => htable_delval ht' off | None => Ok ht' end); [|reflexivity]. cbn [bind]. apply FU.
Qed.

Lemma append_ok k t T sym u g : 1 <= k < 64 -> srep k t T -> 0 <= sym < 2 ^ 32 -> 0 <= u < 2 ^ 32 -> zlen (t_syms T) < 3 * 2 ^ 28 ->
  match g_malloc g with Some b => forall s, sm_get t sym = Ok s -> new_block k (sm_mem t) (zlen s + 3) b | None => True end ->
  (sm_append t sym u g = Ub /\ ~ grow_ok g) \/
  exists t', sm_append t sym u g = Ok (t', snd (symbol_append_or (has_room g) T sym u)) /\ srep k t' (fst (symbol_append_or (has_room g) T sym u)).
Proof.
  intros Hk R Hs Hu Hn Hb. pose proof (sr_inv _ _ _ R) as SI. pose proof (sym_inv_append T sym u (next_nonneg _ SI) SI) as SI'. unfold symbol_append_or, has_room.
  destruct (append_cases k t T sym u g Hk R Hs Hu Hn Hb) as [[E ->]|(key & TK & E & C)].
  { right. exists t. rewrite E, Z.eqb_refl. destruct (symbol_append T sym u) as [T1 s1]. cbn [fst snd] in *. subst T1. destruct (g_malloc g); auto. }
  rewrite E in *. cbn [fst snd t_next] in *. destruct (g_malloc g) as [b|].
  2:{ right. exists t. replace (t_next T + 1 =? t_next T) with false by lia. auto. }
  cbv zeta in C. set (m := (b, (t_next T + 1) :: key ++ [TERM]) :: sm_mem t) in *. destruct C as (BR & NB & RM & ->). unfold placed. rewrite (sr_next _ _ _ R).
  assert (LM : zlen (map key_of (sm_mem t)) + 1 <= 3 * 2 ^ 28). { rewrite map_length, (sr_len _ _ _ R). lia. }
  destruct (insert_ok (key_hash m) k (sm_ht t) _ (g_calloc g) (b + 4) Hk RM BR LM) as (ins & ht' & EI & RI). rewrite EI. cbn [bind fst snd].
  destruct ins; cbn [negb].
  2:{ left. split; [reflexivity|]. intros [X _]. destruct RI as [RI _]. congruence. }
  destruct (apush_ok (2 ^ 32) (g_realloc g) (sm_index t) _ (b + 4) (sr_idx _ _ _ R)) as (a' & c & -> & E8 & AP); [rewrite (sr_esz _ _ _ R); lia..|].
  cbn [bind fst snd]. destruct AP as [(-> & AP)|(-> & GR & ->)].
  2:{ left. split; [reflexivity|]. intros [_ X]. congruence. }
  change (0 =? 0) with true. cbv iota. right. eexists. split; [reflexivity|].
  assert (LV : v_len (sm_index t) <= 3 * 2 ^ 28 + 1).
  { pose proof (sr_idx _ _ _ R) as (LL & _). cbn [length] in LL. rewrite rev_length, map_length in LL. pose proof (sr_len _ _ _ R). lia. }
  constructor; cbn [sm_next sm_mem sm_ht sm_index fst snd].
  * exact SI'.
  * reflexivity.
  * cbn [m map snd t_syms]. f_equal. apply (sr_mem _ _ _ R).
  * constructor; [exact TK|apply (sr_text _ _ _ R)].
  * exact RI.
  * cbn [m map fst]. constructor; [exact NB|apply (sr_bases _ _ _ R)].
  * constructor; [|apply (sr_pos _ _ _ R)]. unfold key_of. cbn [fst]. assert (0 < 2 ^ k) by (apply Z.pow_pos_nonneg; lia). unfold okp in BR. lia.
  * cbn [m map rev]. unfold key_of at 2. cbn [fst]. replace (Z.max _ _) with (2 ^ 32) in AP by lia. exact AP.
  * rewrite E8. apply (sr_esz _ _ _ R).
Qed.

Lemma append_or_len room T sym u : zlen (t_syms (fst (symbol_append_or room T sym u))) <= zlen (t_syms T) + 1.
Proof.
  assert (A : zlen (t_syms (fst (symbol_append T sym u))) <= zlen (t_syms T) + 1).
  { unfold symbol_append. destruct (_ <? _); [cbn [fst]; lia|]. destruct (_ <=? _); [cbn [fst]; lia|]. cbv zeta. destruct (syms_lookup _ _); [cbn [fst]; lia|].
    destruct (_ <=? _); cbn [fst t_syms length]; lia. }
  unfold symbol_append_or. destruct room; [exact A|]. destruct (_ =? _); [exact A|cbn [fst]; lia].
Qed.

Lemma run_ok k : 1 <= k < 64 -> forall l t T, srep k t T -> served k t l -> zlen (t_syms T) + zlen l <= 3 * 2 ^ 28 ->
  (sm_run t l = Ub /\ ~ tables_grow l) \/
  exists t', sm_run t l = Ok (t', snd (symbol_session T l)) /\ srep k t' (fst (symbol_session T l)).
Proof.
  intros Hk. induction l as [|[[sym u] g] l IH]; intros t T R Sv Ln.
  { right. exists t. auto. }
  destruct Sv as (Hs & Hu & Hm & Nx). cbn [sm_run symbol_session length] in *. pose proof (append_or_len (has_room g) T sym u) as AL.
  destruct (append_ok k t T sym u g Hk R Hs Hu ltac:(lia) Hm) as [[-> N]|(t1 & E & R1)].
  - left. split; [reflexivity|]. intros X. inversion X as [|? ? X1 _]; subst. exact (N X1).
  - rewrite E. cbn [bind fst snd]. destruct (symbol_append_or (has_room g) T sym u) as [T1 s1]. cbn [fst snd] in *.
    destruct (IH t1 T1 R1 (Nx _ _ E) ltac:(lia)) as [[-> N]|(t' & -> & R')].
    + left. split; [reflexivity|]. intros X. inversion X; subst. auto.
    + right. exists t'. cbn [bind fst snd]. auto.
Qed.
Lemma unref_ok k t T : srep k t T -> sm_unref t = Ok [].
Proof. intros R. apply free_all. exact (rep_visited _ _ _ _ (sr_ht _ _ _ R)). Qed.
