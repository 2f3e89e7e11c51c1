(* Lemmas about the vocabulary of Base.v. *)
From Verif Require Import Base.

Lemma u32_small z : 0 <= z < 4294967296 -> u32 z = z.
Proof. intros H; unfold u32; apply Z.mod_small; lia. Qed.
Lemma u32_range z : 0 <= u32 z < 4294967296.
Proof. unfold u32; lia. Qed.
Lemma u64_small z : 0 <= z < 18446744073709551616 -> u64 z = z.
Proof. intros H; unfold u64; apply Z.mod_small; lia. Qed.
Lemma u64_range z : 0 <= u64 z < 18446744073709551616.
Proof. unfold u64; lia. Qed.
Lemma i32_small z : -2147483648 <= z < 2147483648 -> i32 z = z.
Proof. intros H; unfold i32; rewrite Z.mod_small; lia. Qed.

Lemma znth_neg {A} (l : list A) i : i < 0 -> znth l i = None.
Proof. intros H; unfold znth; destruct (i <? 0) eqn:E; [reflexivity|lia]. Qed.

Lemma znth_pos {A} (l : list A) i : 0 <= i -> znth l i = nth_error l (Z.to_nat i).
Proof. intros H; unfold znth; destruct (i <? 0) eqn:E; [lia|reflexivity]. Qed.

Lemma znth_of_nat {A} (l : list A) n : znth l (Z.of_nat n) = nth_error l n.
Proof. rewrite znth_pos by lia. now rewrite Nat2Z.id. Qed.

Lemma znth_ge {A} (l : list A) i : zlen l <= i -> znth l i = None.
Proof.
  intros H. rewrite znth_pos by lia. apply nth_error_None. lia.
Qed.

Lemma znth_some {A} (l : list A) i : 0 <= i < zlen l -> exists x, znth l i = Some x.
Proof.
  intros H. rewrite znth_pos by lia.
  destruct (nth_error l (Z.to_nat i)) eqn:E; [eauto|].
  apply nth_error_None in E. lia.
Qed.

Lemma znth_Some_range {A} (l : list A) i x : znth l i = Some x -> 0 <= i < zlen l.
Proof.
  intros H. destruct (Z_lt_le_dec i 0) as [Hn|Hn].
  - rewrite znth_neg in H by lia; discriminate.
  - destruct (Z_lt_le_dec i (zlen l)); [lia|]. rewrite znth_ge in H by lia; discriminate.
Qed.

Lemma znth_None_range {A} (l : list A) i : znth l i = None -> i < 0 \/ zlen l <= i.
Proof.
  intros H. destruct (Z_lt_le_dec i 0) as [Hn|Hn]; [lia|].
  destruct (Z_lt_le_dec i (zlen l)); [|lia].
  destruct (znth_some l i) as [x Hx]; [lia|congruence].
Qed.

Lemma znth_ext {A} (l l' : list A) :
  zlen l = zlen l' -> (forall i, 0 <= i < zlen l -> znth l i = znth l' i) -> l = l'.
Proof.
  intros Hlen H.
  revert l' Hlen H. induction l as [|x xs IH]; intros [|y ys] Hlen H; cbn [length] in *; try lia; auto.
  f_equal.
  - specialize (H 0). rewrite !znth_pos in H by lia. cbn in H.
    assert (Some x = Some y) by (apply H; lia). congruence.
  - apply IH; [lia|]. intros i Hi. specialize (H (i + 1)).
    rewrite !znth_pos in H by lia. rewrite !znth_pos by lia.
    replace (Z.to_nat (i + 1)) with (S (Z.to_nat i)) in H by lia. apply H; lia.
Qed.

Lemma znth_ext' {A} (l l' : list A) : (forall i, znth l i = znth l' i) -> l = l'.
Proof.
  intros H. apply znth_ext; auto.
  destruct (Z_lt_le_dec (zlen l) (zlen l')) as [Hl|Hl].
  - destruct (znth_some l' (zlen l)) as [x Hx]; [lia|].
    rewrite <- H, znth_ge in Hx by lia. discriminate.
  - destruct (Z_lt_le_dec (zlen l') (zlen l)) as [Hl'|Hl']; [|lia].
    destruct (znth_some l (zlen l')) as [x Hx]; [lia|].
    rewrite H, znth_ge in Hx by lia. discriminate.
Qed.

Lemma znth_nil {A} i : znth (@nil A) i = None.
Proof. unfold znth. destruct (i <? 0); [reflexivity|]. now destruct (Z.to_nat i). Qed.

Lemma znth_cons {A} (x : A) l i : 0 <= i -> znth (x :: l) i = if i =? 0 then Some x else znth l (i - 1).
Proof.
  intros Hi. rewrite znth_pos by lia. destruct (i =? 0) eqn:E.
  - replace i with 0 by lia. reflexivity.
  - rewrite znth_pos by lia. replace (Z.to_nat i) with (S (Z.to_nat (i - 1))) by lia. reflexivity.
Qed.

Lemma znth_app {A} (l l' : list A) i :
  znth (l ++ l') i = if i <? zlen l then znth l i else znth l' (i - zlen l).
Proof.
  destruct (Z_lt_le_dec i 0) as [Hn|Hn].
  - rewrite !(znth_neg _ i) by lia. destruct (i <? zlen l) eqn:E; [reflexivity|lia].
  - destruct (i <? zlen l) eqn:E; rewrite !znth_pos by lia.
    + apply nth_error_app1; lia.
    + rewrite nth_error_app2 by lia. f_equal. lia.
Qed.

Lemma znth_map {A B} (f : A -> B) l i : znth (map f l) i = option_map f (znth l i).
Proof. unfold znth. destruct (i <? 0); [reflexivity|]. apply nth_error_map. Qed.

Lemma length_mapi_from {A B} (f : Z -> A -> B) l k : length (mapi_from k f l) = length l.
Proof. revert k; induction l as [|x xs IH]; intros k; cbn; [reflexivity|now rewrite IH]. Qed.
Lemma length_mapi {A B} (f : Z -> A -> B) l : length (mapi f l) = length l.
Proof. apply length_mapi_from. Qed.

Lemma nth_error_mapi_from {A B} (f : Z -> A -> B) l k n :
  nth_error (mapi_from k f l) n = option_map (f (k + Z.of_nat n)) (nth_error l n).
Proof.
  revert k n; induction l as [|x xs IH]; intros k [|n]; cbn [mapi_from nth_error option_map]; auto.
  - f_equal. f_equal. lia.
  - rewrite IH. destruct (nth_error xs n); cbn [option_map]; [|reflexivity]. do 2 f_equal. lia.
Qed.

Lemma znth_mapi {A B} (f : Z -> A -> B) l i : znth (mapi f l) i = option_map (f i) (znth l i).
Proof.
  unfold znth, mapi. destruct (i <? 0) eqn:E; [reflexivity|].
  rewrite nth_error_mapi_from. do 2 f_equal. lia.
Qed.

Lemma length_zupd {A} (l : list A) i f : length (zupd l i f) = length l.
Proof. apply length_mapi. Qed.
Lemma znth_zupd {A} (l : list A) i f j :
  znth (zupd l i f) j = if j =? i then option_map f (znth l j) else znth l j.
Proof.
  unfold zupd. rewrite znth_mapi. destruct (znth l j); cbn; destruct (j =? i); reflexivity.
Qed.

Lemma zmod_ok {A} (l : list A) i f : 0 <= i < zlen l -> zmod l i f = Ok (zupd l i f).
Proof.
  intros H; unfold zmod. destruct ((0 <=? i) && (i <? zlen l)) eqn:E; [reflexivity|lia].
Qed.

Lemma zget_ok {A} (l : list A) i x : znth l i = Some x -> zget l i = Ok x.
Proof. intros H; unfold zget; now rewrite H. Qed.

Lemma length_zslice {A} (l : list A) i n :
  length (zslice l i n) = Nat.min (Z.to_nat n) (length l - Z.to_nat i).
Proof. unfold zslice. now rewrite firstn_length, skipn_length. Qed.

Lemma nth_error_firstn {A} (l : list A) n i :
  nth_error (firstn n l) i = if (i <? n)%nat then nth_error l i else None.
Proof.
  revert n i; induction l as [|x xs IH]; intros [|n] [|i]; cbn [firstn nth_error]; auto.
  - destruct (S i <? S n)%nat; reflexivity.
  - rewrite IH. reflexivity.
Qed.

Lemma nth_error_skipn {A} (l : list A) n i : nth_error (skipn n l) i = nth_error l (n + i).
Proof.
  revert l; induction n as [|n IH]; intros [|x xs]; cbn; auto. now destruct i.
Qed.

Lemma znth_firstn {A} (l : list A) n i :
  znth (firstn n l) i = if i <? Z.of_nat n then znth l i else None.
Proof.
  unfold znth. destruct (i <? 0) eqn:E; [destruct (i <? Z.of_nat n); reflexivity|].
  rewrite nth_error_firstn.
  destruct (Z.to_nat i <? n)%nat eqn:E1; destruct (i <? Z.of_nat n) eqn:E2; auto; lia.
Qed.

Lemma znth_skipn {A} (l : list A) n i :
  0 <= i -> znth (skipn n l) i = znth l (i + Z.of_nat n).
Proof.
  intros H. rewrite !znth_pos by lia. rewrite nth_error_skipn. f_equal. lia.
Qed.

Lemma znth_zslice {A} (l : list A) i n j :
  0 <= i -> 0 <= j -> znth (zslice l i n) j = if j <? n then znth l (i + j) else None.
Proof.
  intros Hi Hj. unfold zslice. rewrite znth_firstn.
  destruct (j <? Z.of_nat (Z.to_nat n)) eqn:E1; destruct (j <? n) eqn:E2; try lia; auto.
  rewrite znth_skipn by lia. f_equal. lia.
Qed.

Lemma length_zput {A} (l : list A) i v :
  0 <= i -> i + zlen v <= zlen l -> length (zput l i v) = length l.
Proof.
  intros H1 H2. unfold zput. rewrite !app_length, firstn_length, skipn_length. lia.
Qed.

Lemma znth_zput {A} (l : list A) i v j :
  0 <= i -> i + zlen v <= zlen l ->
  znth (zput l i v) j =
    if (i <=? j) && (j <? i + zlen v) then znth v (j - i) else znth l j.
Proof.
  intros H1 H2. destruct (Z_lt_le_dec j 0) as [Hn|Hn].
  { rewrite !(znth_neg _ j) by lia. destruct ((i <=? j) && (j <? i + zlen v)) eqn:E; [lia|reflexivity]. }
  unfold zput. rewrite !znth_app, !firstn_length.
  destruct (j <? Z.of_nat (Nat.min (Z.to_nat i) (length l))) eqn:E1.
  - rewrite znth_firstn. destruct (j <? Z.of_nat (Z.to_nat i)) eqn:E2; [|lia].
    destruct ((i <=? j) && (j <? i + zlen v)) eqn:E3; [lia|reflexivity].
  - replace (Z.of_nat (Nat.min (Z.to_nat i) (length l))) with i by lia.
    destruct (j - i <? zlen v) eqn:E2; destruct ((i <=? j) && (j <? i + zlen v)) eqn:E3; try lia; auto.
    rewrite znth_skipn by lia. f_equal. lia.
Qed.

Lemma zcopy_ok {A} (l : list A) i v :
  0 <= i -> i + zlen v <= zlen l -> zcopy l i v = Ok (zput l i v).
Proof.
  intros H1 H2; unfold zcopy. destruct ((0 <=? i) && (i + zlen v <=? zlen l)) eqn:E; [reflexivity|lia].
Qed.

Lemma zmove_ok {A} (l : list A) dst src n :
  0 <= dst -> 0 <= src -> 0 <= n -> dst + n <= zlen l -> src + n <= zlen l ->
  zmove l dst src n = Ok (zput l dst (zslice l src n)).
Proof.
  intros; unfold zmove.
  destruct ((0 <=? dst) && (0 <=? src) && (0 <=? n) && (dst + n <=? zlen l) && (src + n <=? zlen l)) eqn:E;
    [reflexivity|lia].
Qed.

Lemma znth_move {A} (l : list A) dst src n j :
  0 <= dst -> 0 <= src -> 0 <= n -> dst + n <= zlen l -> src + n <= zlen l ->
  znth (zput l dst (zslice l src n)) j =
    if (dst <=? j) && (j <? dst + n) then znth l (j - dst + src) else znth l j.
Proof.
  intros. assert (Hl : zlen (zslice l src n) = n) by (rewrite length_zslice; lia).
  rewrite znth_zput by lia. rewrite Hl.
  destruct ((dst <=? j) && (j <? dst + n)) eqn:E; [|reflexivity].
  rewrite znth_zslice by lia. destruct (j - dst <? n) eqn:E2; [|lia]. f_equal; lia.
Qed.

Lemma length_move {A} (l : list A) dst src n :
  0 <= dst -> 0 <= src -> 0 <= n -> dst + n <= zlen l -> src + n <= zlen l ->
  length (zput l dst (zslice l src n)) = length l.
Proof. intros. apply length_zput; rewrite ?length_zslice; lia. Qed.

Lemma bind_ok {A B} (a : A) (f : A -> res B) : bind (Ok a) f = f a.
Proof. reflexivity. Qed.

Lemma bind_Ok_inv {A B} (x : res A) (f : A -> res B) b :
  bind x f = Ok b -> exists a, x = Ok a /\ f a = Ok b.
Proof. destruct x; cbn; [eauto|discriminate]. Qed.

Lemma for_n_S {S} n i (body : Z -> S -> res S) s :
  for_n (Datatypes.S n) i body s = do s' <- body i s; for_n n (i + 1) body s'.
Proof. reflexivity. Qed.

Lemma forz_nil {S} a b (body : Z -> S -> res S) s : b <= a -> forz a b body s = Ok s.
Proof. intros H; unfold forz. replace (Z.to_nat (b - a)) with O by lia. reflexivity. Qed.

Lemma forz_step {S} a b (body : Z -> S -> res S) s :
  a < b -> forz a b body s = do s' <- body a s; forz (a + 1) b body s'.
Proof.
  intros H; unfold forz. replace (Z.to_nat (b - a)) with (Datatypes.S (Z.to_nat (b - (a + 1)))) by lia.
  reflexivity.
Qed.

(* Invariant rule for counted loops. *)
Lemma forz_inv {S} (P : Z -> S -> Prop) a b body s :
  a <= b -> P a s ->
  (forall i s, a <= i < b -> P i s -> exists s', body i s = Ok s' /\ P (i + 1) s') ->
  exists s', forz a b body s = Ok s' /\ P b s'.
Proof.
  intros Hab H0 Hstep.
  remember (Z.to_nat (b - a)) as n eqn:Hn.
  revert a s Hab H0 Hstep Hn. induction n as [|n IH]; intros a s Hab H0 Hstep Hn.
  - exists s. rewrite forz_nil by lia. split; [reflexivity|]. now replace b with a by lia.
  - rewrite forz_step by lia. destruct (Hstep a s) as (s1 & E & H1); [lia|auto|].
    rewrite E; cbn [bind]. apply IH; [lia|auto| |lia]. intros; apply Hstep; [lia|auto].
Qed.

(* The loop  for (i = a; i < b; ++i) arr[i] = f(i, arr[i]). *)
Lemma forz_zupd {A} (f : Z -> A -> A) a b (l : list A) :
  0 <= a -> b <= zlen l ->
  forz a b (fun i l => zmod l i (f i)) l
  = Ok (mapi (fun i x => if (a <=? i) && (i <? b) then f i x else x) l).
Proof.
  intros Ha Hb. destruct (Z_lt_le_dec a b) as [Hab|Hab].
  2:{ rewrite forz_nil by lia. f_equal. symmetry. apply znth_ext; rewrite ?length_mapi; auto.
      intros i Hi. rewrite znth_mapi. destruct (znth l i); cbn; auto.
      destruct ((a <=? i) && (i <? b)) eqn:E; [lia|reflexivity]. }
  destruct (forz_inv (fun k l' => l' = mapi (fun i x => if (a <=? i) && (i <? k) then f i x else x) l)
              a b (fun i l => zmod l i (f i)) l) as (s' & E & H).
  - lia.
  - apply znth_ext; rewrite ?length_mapi; auto.
    intros i Hi. rewrite znth_mapi. destruct (znth l i); cbn; auto.
    destruct ((a <=? i) && (i <? a)) eqn:E; [lia|reflexivity].
  - intros i l' Hi ->. eexists; split; [apply zmod_ok; rewrite length_mapi; lia|].
    apply znth_ext; rewrite ?length_zupd, ?length_mapi; auto.
    intros j Hj. rewrite znth_zupd, !znth_mapi.
    destruct (znth l j); cbn; [|destruct (j =? i); reflexivity].
    destruct (j =? i) eqn:E.
    + replace j with i by lia.
      destruct ((a <=? i) && (i <? i)) eqn:E1; [lia|].
      destruct ((a <=? i) && (i <? i + 1)) eqn:E2; [reflexivity|lia].
    + destruct ((a <=? j) && (j <? i)) eqn:E1; destruct ((a <=? j) && (j <? i + 1)) eqn:E2; auto; lia.
  - rewrite E, H. reflexivity.
Qed.

Lemma Forall_znth {A} (P : A -> Prop) l :
  Forall P l <-> forall i x, znth l i = Some x -> P x.
Proof.
  split.
  - intros H i x Hx. rewrite Forall_forall in H. apply H.
    unfold znth in Hx. destruct (i <? 0); [discriminate|]. eapply nth_error_In; eauto.
  - intros H. apply Forall_forall. intros x Hx. apply In_nth_error in Hx as [n Hn].
    apply (H (Z.of_nat n)). now rewrite znth_of_nat.
Qed.

Lemma znth_In {A} (l : list A) i x : znth l i = Some x -> In x l.
Proof. unfold znth. destruct (i <? 0); [discriminate|]. apply nth_error_In. Qed.

Lemma In_znth {A} (l : list A) x : In x l -> exists i, znth l i = Some x.
Proof. intros H. apply In_nth_error in H as [n Hn]. exists (Z.of_nat n). now rewrite znth_of_nat. Qed.

Lemma znth_repeat {A} (x : A) n i :
  znth (repeat x n) i = if (0 <=? i) && (i <? Z.of_nat n) then Some x else None.
Proof.
  destruct ((0 <=? i) && (i <? Z.of_nat n)) eqn:E.
  - rewrite znth_pos by lia. destruct (nth_error (repeat x n) (Z.to_nat i)) eqn:E1.
    + apply nth_error_In in E1. apply repeat_spec in E1. congruence.
    + apply nth_error_None in E1. rewrite repeat_length in E1. lia.
  - destruct (Z_lt_le_dec i 0); [now apply znth_neg|]. apply znth_ge. rewrite repeat_length; lia.
Qed.

Lemma zmodm_ok {A} (l : list A) i f x x' :
  znth l i = Some x -> f x = Ok x' -> zmodm l i f = Ok (zupd l i (fun _ => x')).
Proof. intros H1 H2. unfold zmodm. rewrite (zget_ok _ _ _ H1). cbn [bind]. now rewrite H2. Qed.

Lemma zupd_const {A} (l : list A) i x f :
  znth l i = Some x -> zupd l i (fun _ => f x) = zupd l i f.
Proof.
  intros H. apply znth_ext'. intros j. rewrite !znth_zupd.
  destruct (j =? i) eqn:E; [|reflexivity]. assert (j = i) by lia. subst. now rewrite H.
Qed.

Lemma zupd_out {A} (l : list A) i f : ~ (0 <= i < zlen l) -> zupd l i f = l.
Proof.
  intros H. apply znth_ext'. intros j. rewrite !znth_zupd.
  destruct (j =? i) eqn:E; [|reflexivity]. assert (j = i) by lia. subst.
  destruct (znth l i) eqn:E1; [|reflexivity]. apply znth_Some_range in E1. lia.
Qed.

(* A loop of element updates that all succeed. *)
Lemma forz_zmodm {A} (f : Z -> A -> res A) (g : Z -> A -> A) a b (l : list A) :
  0 <= a -> b <= zlen l ->
  (forall i x, a <= i < b -> znth l i = Some x -> f i x = Ok (g i x)) ->
  forz a b (fun i l => zmodm l i (f i)) l
  = Ok (mapi (fun i x => if (a <=? i) && (i <? b) then g i x else x) l).
Proof.
  intros Ha Hb Hf. destruct (Z_lt_le_dec a b) as [Hab|Hab].
  2:{ rewrite forz_nil by lia. f_equal. apply znth_ext'. intros i. rewrite znth_mapi.
      destruct (znth l i); cbn [option_map]; auto.
      destruct ((a <=? i) && (i <? b)) eqn:E; [lia|reflexivity]. }
  destruct (forz_inv (fun k l' => l' = mapi (fun i x => if (a <=? i) && (i <? k) then g i x else x) l)
              a b (fun i l => zmodm l i (f i)) l) as (l' & E & H); [lia| | |].
  - apply znth_ext'. intros i. rewrite znth_mapi.
    destruct (znth l i); cbn [option_map]; auto.
    destruct ((a <=? i) && (i <? a)) eqn:E; [lia|reflexivity].
  - intros i l' Hi ->. destruct (znth_some l i) as [x Hx]; [lia|].
    exists (mapi (fun i0 x => if (a <=? i0) && (i0 <? i + 1) then g i0 x else x) l).
    split; [|reflexivity].
    assert (Hn : znth (mapi (fun i0 x => if (a <=? i0) && (i0 <? i) then g i0 x else x) l) i = Some x).
    { rewrite znth_mapi, Hx. cbn [option_map]. destruct ((a <=? i) && (i <? i)) eqn:E; [lia|reflexivity]. }
    rewrite (zmodm_ok _ _ _ x (g i x)); [|exact Hn|apply Hf; [lia|exact Hx]].
    f_equal. apply znth_ext'. intros j. rewrite znth_zupd, !znth_mapi.
    destruct (j =? i) eqn:Ej.
    + assert (j = i) by lia. subst j. rewrite Hx. cbn [option_map].
      destruct ((a <=? i) && (i <? i + 1)) eqn:E; [reflexivity|lia].
    + destruct (znth l j); cbn [option_map]; auto.
      destruct ((a <=? j) && (j <? i)) eqn:E1; destruct ((a <=? j) && (j <? i + 1)) eqn:E2; auto; lia.
  - rewrite E. now rewrite H.
Qed.

Lemma mapi_id {A} (f : Z -> A -> A) l : (forall i x, znth l i = Some x -> f i x = x) -> mapi f l = l.
Proof.
  intros H. apply znth_ext'. intros i. rewrite znth_mapi. destruct (znth l i) eqn:E; cbn; [|reflexivity].
  now rewrite H.
Qed.

Lemma mapi_ext {A B} (f g : Z -> A -> B) l :
  (forall i x, znth l i = Some x -> f i x = g i x) -> mapi f l = mapi g l.
Proof.
  intros H. apply znth_ext'. intros i. rewrite !znth_mapi. destruct (znth l i) eqn:E; cbn; [|reflexivity].
  now rewrite H.
Qed.

Lemma Forall_mapi {A B} (P : B -> Prop) (f : Z -> A -> B) l :
  (forall i x, znth l i = Some x -> P (f i x)) -> Forall P (mapi f l).
Proof.
  intros H. apply Forall_znth. intros i x. rewrite znth_mapi.
  destruct (znth l i) eqn:E; cbn; [|discriminate]. intros E1; inversion E1; subst. eauto.
Qed.

Lemma Forall_zupd {A} (P : A -> Prop) l i f :
  Forall P l -> (forall x, znth l i = Some x -> P (f x)) -> Forall P (zupd l i f).
Proof.
  intros H1 H2. rewrite Forall_znth in H1. apply Forall_mapi. intros j x Hx.
  destruct (j =? i) eqn:E; [|eauto]. assert (j = i) by lia. subst. eauto.
Qed.

Lemma Forall_get {A} (P : A -> Prop) l i x : Forall P l -> znth l i = Some x -> P x.
Proof. intros H E. rewrite Forall_znth in H. eauto. Qed.
