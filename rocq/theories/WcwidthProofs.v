From Verif Require Import Base BaseProofs Wcwidth.

(* Independent reading of the tables: membership in some interval. *)
Definition in_intervals (t : list (Z * Z)) (c : Z) : Prop :=
  exists a b, In (a, b) t /\ a <= c <= b.

Fixpoint sortedb (t : list (Z * Z)) : bool :=
  match t with
  | [] => true
  | (a, b) :: t' => (a <=? b) && match t' with [] => true | (a', _) :: _ => b <? a' end && sortedb t'
  end.

Lemma sortedb_nth t : sortedb t = true ->
  forall i j a b a' b', i < j -> znth t i = Some (a, b) -> znth t j = Some (a', b') -> a <= b /\ b < a' /\ a' <= b'.
Proof.
  induction t as [|[x y] t IH]; intros Hs i j a b a' b' Hij Hi Hj.
  - rewrite znth_nil in Hi; discriminate.
  - cbn [sortedb] in Hs. rewrite !andb_true_iff in Hs. destruct Hs as [[H1 H2] H3].
    pose proof (znth_Some_range _ _ _ Hi) as Ri. pose proof (znth_Some_range _ _ _ Hj) as Rj.
    rewrite znth_cons in Hi, Hj by lia.
    destruct (j =? 0) eqn:Ej; [lia|].
    destruct (i =? 0) eqn:Ei.
    + inversion Hi; subst. destruct t as [|[x' y'] t']; [rewrite znth_nil in Hj; discriminate|].
      destruct (Z.eq_dec j 1) as [->|Hj1].
      * rewrite znth_cons in Hj by lia. cbn in Hj. inversion Hj; subst.
        cbn [sortedb] in H3. lia.
      * specialize (IH H3 0 (j - 1) x' y' a' b').
        assert (x' <= y' /\ y' < a' /\ a' <= b') by (apply IH; auto; lia). lia.
    + eapply (IH H3 (i - 1) (j - 1)); eauto; lia.
Qed.

Lemma sortedb_self t : sortedb t = true -> forall i a b, znth t i = Some (a, b) -> a <= b.
Proof.
  induction t as [|[x y] t IH]; intros Hs i a b Hi.
  - rewrite znth_nil in Hi; discriminate.
  - cbn [sortedb] in Hs. rewrite !andb_true_iff in Hs. destruct Hs as [[H1 H2] H3].
    pose proof (znth_Some_range _ _ _ Hi) as Ri. rewrite znth_cons in Hi by lia.
    destruct (i =? 0); [inversion Hi; subst; lia|]. eapply IH; eauto.
Qed.

Lemma intable_loop_ok t c : sortedb t = true ->
  forall fuel bot top,
  0 <= bot -> top < zlen t -> top - bot < Z.of_nat fuel ->
  exists r, intable_loop fuel t c bot top = Ok r /\
    (r = true <-> exists i a b, bot <= i <= top /\ znth t i = Some (a, b) /\ a <= c <= b).
Proof.
  intros Hs. induction fuel as [|fuel IH]; intros bot top Hb Ht Hf.
  - exists false. cbn. destruct (bot <=? top) eqn:E; [lia|]. split; [reflexivity|].
    split; [discriminate|]. intros (i & a & b & H & _). lia.
  - cbn [intable_loop]. destruct (bot <=? top) eqn:E.
    + set (mid := Z.quot (bot + top) 2).
      assert (Hm : bot <= mid <= top).
      { unfold mid. rewrite Z.quot_div_nonneg by lia. lia. }
      destruct (znth_some t mid) as [[a b] Hab]; [lia|].
      rewrite (zget_ok _ _ _ Hab). cbn [bind fst snd].
      destruct (b <? c) eqn:E1; [|destruct (c <? a) eqn:E2].
      * destruct (IH (mid + 1) top) as (r & Er & Hr); [lia|lia|lia|].
        exists r. split; [exact Er|]. rewrite Hr. split.
        -- intros (i & a' & b' & Hi & Hn & Hc). exists i, a', b'. repeat split; auto; lia.
        -- intros (i & a' & b' & Hi & Hn & Hc). exists i, a', b'. repeat split; auto; try lia.
           destruct (Z_lt_le_dec i (mid + 1)) as [Hlt|]; [|lia]. exfalso.
           destruct (Z.eq_dec i mid) as [->|Hne]; [rewrite Hab in Hn; inversion Hn; subst; lia|].
           pose proof (sortedb_nth t Hs i mid a' b' a b ltac:(lia) Hn Hab). lia.
      * destruct (IH bot (mid - 1)) as (r & Er & Hr); [lia|lia|lia|].
        exists r. split; [exact Er|]. rewrite Hr. split.
        -- intros (i & a' & b' & Hi & Hn & Hc). exists i, a', b'. repeat split; auto; lia.
        -- intros (i & a' & b' & Hi & Hn & Hc). exists i, a', b'. repeat split; auto; try lia.
           destruct (Z_lt_le_dec (mid - 1) i) as [Hlt|]; [|lia]. exfalso.
           destruct (Z.eq_dec i mid) as [->|Hne]; [rewrite Hab in Hn; inversion Hn; subst; lia|].
           pose proof (sortedb_nth t Hs mid i a b a' b' ltac:(lia) Hab Hn). lia.
      * exists true. split; [reflexivity|]. split; [intros _|reflexivity].
        exists mid, a, b. repeat split; auto; lia.
    + exists false. split; [reflexivity|]. split; [discriminate|].
      intros (i & a & b & H & _). lia.
Qed.

Lemma intable_ok t c : t <> [] -> sortedb t = true ->
  exists r, intable t c = Ok r /\ (r = true <-> in_intervals t c).
Proof.
  intros Hne Hs. unfold intable.
  destruct (znth_some t 0) as [[a0 b0] H0].
  { destruct t; [congruence|cbn [length]; lia]. }
  rewrite (zget_ok _ _ _ H0). cbn [bind fst].
  destruct (c <? a0) eqn:E.
  - exists false. split; [reflexivity|]. split; [discriminate|].
    intros (a & b & Hin & Hc). exfalso. apply In_znth in Hin as [i Hi].
    pose proof (znth_Some_range _ _ _ Hi). pose proof (sortedb_self t Hs 0 _ _ H0).
    destruct (Z.eq_dec i 0) as [->|]; [rewrite H0 in Hi; inversion Hi; subst; lia|].
    pose proof (sortedb_nth t Hs 0 i a0 b0 a b ltac:(lia) H0 Hi). lia.
  - destruct (intable_loop_ok t c Hs (length t) 0 (zlen t - 1)) as (r & Er & Hr); try lia.
    exists r. split; [exact Er|]. rewrite Hr. split.
    + intros (i & a & b & _ & Hn & Hc). exists a, b. split; [eapply znth_In; eauto|auto].
    + intros (a & b & Hin & Hc). apply In_znth in Hin as [i Hi].
      pose proof (znth_Some_range _ _ _ Hi). exists i, a, b. repeat split; auto; lia.
Qed.

Lemma zero_sorted : sortedb ZERO_WIDTH = true.
Proof. vm_compute. reflexivity. Qed.
Lemma wide_sorted : sortedb WIDE_EASTASIAN = true.
Proof. vm_compute. reflexivity. Qed.

(* Characters that occupy no column: controls, invisible formatting characters,
   zero-width table members. *)
Definition no_column (c : Z) : Prop :=
  c < 32 \/ 0x7F <= c < 0xA0
  \/ c = 0x34F \/ 0x200B <= c <= 0x200F \/ 0x2028 <= c <= 0x202E \/ 0x2060 <= c <= 0x2063
  \/ in_intervals ZERO_WIDTH c.

Lemma width_ok c :
  exists w, ucs4_get_width c = Ok w /\
    (no_column (i32 c) -> w = 0) /\
    (~ no_column (i32 c) -> in_intervals WIDE_EASTASIAN (i32 c) -> w = 2) /\
    (~ no_column (i32 c) -> ~ in_intervals WIDE_EASTASIAN (i32 c) -> w = 1) /\
    0 <= w <= 2.
Proof.
  unfold ucs4_get_width, wcwidth. set (x := i32 c).
  destruct (intable_ok ZERO_WIDTH x) as (rz & Ez & Hz); [discriminate|apply zero_sorted|].
  destruct (intable_ok WIDE_EASTASIAN x) as (rw & Ew & Hw); [discriminate|apply wide_sorted|].
  match goal with |- context [if ?b then Ok 0 else _] => destruct b eqn:E1 end.
  { exists 0. cbn [bind]. split; [reflexivity|]. unfold no_column.
    repeat split; try lia; intros; exfalso; match goal with H : ~ _ |- _ => apply H end; lia. }
  match goal with |- context [if ?b then Ok (-1) else _] => destruct b eqn:E2 end.
  { exists 0. cbn [bind]. split; [reflexivity|]. unfold no_column.
    repeat split; try lia; intros; exfalso; match goal with H : ~ _ |- _ => apply H end; lia. }
  rewrite Ez. cbn [bind]. destruct rz.
  { exists 0. split; [reflexivity|]. unfold no_column.
    repeat split; try lia; intros; exfalso; match goal with H : ~ _ |- _ => apply H end; tauto. }
  rewrite Ew. cbn [bind].
  assert (Hz' : ~ in_intervals ZERO_WIDTH x) by (rewrite <- Hz; discriminate).
  assert (Hn : ~ no_column x).
  { unfold no_column. intros [H|[H|[H|[H|[H|[H|H]]]]]]; try lia; tauto. }
  destruct rw.
  - exists 2. split; [reflexivity|]. repeat split; intros; try tauto; try lia.
  - exists 1. split; [reflexivity|]. repeat split; intros; try tauto; try lia.
Qed.
