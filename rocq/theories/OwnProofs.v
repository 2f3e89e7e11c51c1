(* Proofs about Own.v: the scrollback list. *)
From Verif Require Import Base BaseProofs Screen Own OwnSpec.
From Coq Require Import Permutation.

(* -- the heap --------------------------------------------------------------------------------------------------- *)
Definition dom (h : heap) : list Z := map fst h.
Lemma hget_some h p : In p (dom h) -> exists o, hget h p = Ok o.
Proof.
  induction h as [|[a o] h IH]; cbn; [tauto|]. intros [E|I]; destruct (Z.eqb_spec a p); eauto. contradiction.
Qed.
Lemma hget_in h p o : hget h p = Ok o -> In p (dom h).
Proof. induction h as [|[a o'] h IH]; cbn; [discriminate|]. destruct (Z.eqb_spec a p); auto. Qed.
Lemma hset_ok h p f o : hget h p = Ok o -> exists h', hset h p f = Ok h' /\ dom h' = dom h /\ forall q, hget h' q = if q =? p then Ok (f o) else hget h q.
Proof.
  induction h as [|[a o'] h IH]; cbn; [discriminate|]. destruct (Z.eqb_spec a p) as [->|N]; intros E.
  - eexists. split; [reflexivity|]. split; [reflexivity|]. intros q. cbn [hget]. destruct (Z.eqb_spec p q) as [->|]; [rewrite Z.eqb_refl; congruence|].
    destruct (Z.eqb_spec q p); [congruence|reflexivity].
  - destruct (IH E) as (h' & -> & D & G). cbn [bind]. eexists. split; [reflexivity|]. split; [cbn; now f_equal|]. intros q. cbn [hget]. rewrite G.
    destruct (Z.eqb_spec a q), (Z.eqb_spec q p); try reflexivity. congruence.
Qed.
Lemma hfree_ok h p : NoDup (dom h) -> In p (dom h) -> exists h', hfree h p = Ok h' /\ Permutation (dom h) (p :: dom h') /\ forall q, q <> p -> hget h' q = hget h q.
Proof.
  induction h as [|[a o'] h IH]; cbn; [tauto|]. intros N I. inversion N as [|? ? N1 N2]; subst. destruct (Z.eqb_spec a p) as [->|Ne].
  - exists h. split; [reflexivity|]. split; [apply Permutation_refl|]. intros q Q. destruct (Z.eqb_spec p q); [congruence|reflexivity].
  - destruct IH as (h' & -> & D & G); [assumption|tauto|]. cbn [bind]. eexists. split; [reflexivity|]. split.
    + cbn [dom map fst]. eapply Permutation_trans; [apply perm_skip, D|apply perm_swap].
    + intros q Q. cbn [hget]. now rewrite (G q Q).
Qed.
Lemma hnew_get h p q : hget (hnew h p) q = if q =? p then Ok (mkO 0 0) else hget h q.
Proof. unfold hnew. cbn [hget]. now rewrite Z.eqb_sym. Qed.

(* -- the list ------------------------------------------------------------------------------------------------------- *)
Fixpoint dll (h : heap) (prev : Z) (L : list Z) : Prop :=
  match L with
  | [] => True
  | x :: r => hget h x = Ok (mkO prev (hd 0 r)) /\ dll h x r
  end.
Lemma dll_frame h h' L : forall prev, dll h prev L -> (forall x, In x L -> hget h' x = hget h x) -> dll h' prev L.
Proof. induction L as [|x L IH]; cbn; [auto|]. intros prev [E D] F. split; [rewrite F by auto; exact E|]. apply IH; auto. Qed.
Lemma last_cons (x : Z) (A : list Z) (prev : Z) : last (x :: A) prev = last A x.
Proof.
  destruct A as [|y A]; [reflexivity|]. cbn [last]. revert y. induction A as [|z A IH]; intros y; [reflexivity|]. cbn [last] in *. apply IH.
Qed.
Lemma dll_mid h A : forall prev a B, dll h prev (A ++ a :: B) -> hget h a = Ok (mkO (last A prev) (hd 0 B)).
Proof.
  induction A as [|x A IH]; intros prev a B D; cbn [app dll] in D; destruct D as [E D]; [exact E|]. now rewrite (IH x a B D), last_cons.
Qed.
Lemma dll_suffix h A : forall prev B, dll h prev (A ++ B) -> dll h (last A prev) B.
Proof. induction A as [|x A IH]; intros prev B D; [exact D|]. cbn [app dll] in D. rewrite last_cons. apply IH. apply D. Qed.
Lemma hd_in (B : list Z) : B = [] /\ hd 0 B = 0 \/ In (hd 0 B) B.
Proof. destruct B; cbn; auto. Qed.
Lemma last_in (A : list Z) d : A = [] /\ last A d = d \/ In (last A d) A.
Proof.
  induction A as [|x A IH]; [auto|]. right. rewrite last_cons. destruct A as [|y A]; [left; reflexivity|]. right. rewrite last_cons. clear IH.
  revert y. induction A as [|z A IH]; intros y; [left; reflexivity|]. rewrite last_cons. right. apply IH.
Qed.
Lemma last_snoc (A : list Z) x d : last (A ++ [x]) d = x.
Proof. apply last_last. Qed.
(* Appending. *)
Lemma dll_snoc h h' L x : forall prev, dll h prev L -> NoDup (L ++ [x]) ->
  hget h' x = Ok (mkO (last L prev) 0) ->
  (forall q, In q L -> hget h' q = if q =? last L prev then (do o <- hget h q; Ok (with_next x o)) else hget h q) -> dll h' prev (L ++ [x]).
Proof.
  induction L as [|a L IH]; intros prev D N X F; cbn [app dll] in *.
  - cbn [last hd] in *. auto.
  - destruct D as [E D]. inversion N as [|? ? N1 N2]; subst. rewrite last_cons in *. split.
    + rewrite (F a) by (left; reflexivity). rewrite E. cbn [bind with_next o_prev o_next]. destruct L as [|b L].
      * cbn [last app hd]. rewrite Z.eqb_refl. reflexivity.
      * destruct (Z.eqb_spec a (last (b :: L) a)) as [Q|]; [|reflexivity]. exfalso. apply N1. apply in_or_app. left. rewrite Q.
        destruct (last_in (b :: L) a) as [[? _]|I]; [discriminate|exact I].
    + apply IH; [exact D|exact N2|exact X|]. intros q Q. apply F. right. exact Q.
Qed.

(* -- the walks -------------------------------------------------------------------------------------------------------- *)
Lemma dll_forward h L : forall prev, dll h prev L -> forward h (hd 0 L) L.
Proof. induction L as [|x L IH]; intros prev D; cbn in *; [reflexivity|]. destruct D as [E D]. split; [reflexivity|]. eexists. split; [exact E|]. exact (IH _ D). Qed.
Lemma dll_backward h L : dll h 0 L -> backward h (last L 0) (rev L).
Proof.
  intros D. rewrite <- (app_nil_r L) in D. revert D. generalize (@nil Z) as B. induction L as [|x L IH] using rev_ind; intros B D; [reflexivity|].
  rewrite rev_app_distr, last_snoc. cbn [rev app backward]. split; [reflexivity|]. rewrite <- app_assoc in D. cbn [app] in D.
  eexists. split; [exact (dll_mid _ _ _ _ _ D)|]. cbn [o_prev]. exact (IH _ D).
Qed.

(* -- the invariant ------------------------------------------------------------------------------------------------------ *)
(* live: the lines alive that are not in the scrollback. *)
Record inv (w : own) (live L : list Z) : Prop := mkInv {
  iv_pm : Permutation (dom (w_heap w)) (live ++ L);
  iv_nd : NoDup (live ++ L);
  iv_null : ~ In 0 (live ++ L);
  iv_dll : dll (w_heap w) 0 L;
  iv_first : w_first w = hd 0 L;
  iv_last : w_last w = last L 0;
  iv_count : w_count w = zlen L;
  iv_max : zlen L <= w_max w < 2 ^ 32;
  iv_pos : null_or_in (w_pos w) L;
  iv_sel : w_sela w = true -> null_or_in (fst (w_sel1 w)) L /\ null_or_in (fst (w_sel2 w)) L
}.
Lemma iv_dom w live L : inv w live L -> NoDup (dom (w_heap w)).
Proof. intros I. apply (Permutation_NoDup (Permutation_sym (iv_pm _ _ _ I))). apply (iv_nd _ _ _ I). Qed.
Lemma iv_in w live L p : inv w live L -> In p (live ++ L) -> exists o, hget (w_heap w) p = Ok o.
Proof. intros I P. apply hget_some. apply (Permutation_in _ (Permutation_sym (iv_pm _ _ _ I)) P). Qed.
Lemma inv_perm w live live' L : inv w live L -> Permutation live live' -> inv w live' L.
Proof.
  intros I P. assert (Q : Permutation (live ++ L) (live' ++ L)) by now apply Permutation_app_tail.
  destruct I. constructor; auto.
  - eapply Permutation_trans; eauto.
  - eapply Permutation_NoDup; eauto.
  - intros X. apply iv_null0. apply (Permutation_in _ (Permutation_sym Q) X).
Qed.
Lemma inv_well w L : inv w (w_main w ++ w_alt w) L -> zlen (w_main w) = zlen (w_alt w) -> well w L.
Proof.
  intros I E. destruct I. rewrite <- app_assoc in *. constructor; auto.
  - intros X. apply iv_null0. apply (Permutation_in _ iv_pm0 X).
  - rewrite iv_first0. apply (dll_forward _ _ 0), iv_dll0.
  - rewrite iv_last0. now apply dll_backward.
Qed.

(* -- taking the first out ------------------------------------------------------------------------------------------------- *)
Lemma nd_right {A} (l l' : list A) : NoDup (l ++ l') -> NoDup l'.
Proof. induction l as [|x l IH]; cbn; [auto|]. intros N. inversion N. auto. Qed.
Lemma unlink_ok w live x L : inv w live (x :: L) -> exists h,
  unlink_first w = Ok (put_list w (hd 0 L) (last L 0) (zlen L) h) /\ dom h = dom (w_heap w) /\ dll h 0 L /\
  (forall q, ~ In q L -> hget h q = hget (w_heap w) q).
Proof.
  intros I. destruct (iv_dll _ _ _ I) as [E D]. unfold unlink_first. rewrite (iv_first _ _ _ I), (iv_count _ _ _ I), (iv_last _ _ _ I). cbn [hd].
  pose proof (iv_max _ _ _ I) as MX. cbn [length] in MX.
  assert (C : u32 (zlen (x :: L) - 1) = zlen L) by (cbn [length]; rewrite u32_small; lia). rewrite C. rewrite E. cbn [bind o_next].
  assert (ND : NoDup (x :: L)) by exact (nd_right _ _ (iv_nd _ _ _ I)).
  destruct L as [|y L].
  - cbn [hd last]. change (0 =? 0) with true. cbv iota. exists (w_heap w). cbn [dll]. auto.
  - cbn [hd]. assert (Y0 : y <> 0). { intros ->. apply (iv_null _ _ _ I). apply in_or_app. right. right. left. reflexivity. }
    replace (y =? 0) with false by lia. destruct D as [EY D]. destruct (hset_ok (w_heap w) y (with_prev 0) _ EY) as (h & -> & DH & G). cbn [bind].
    exists h. rewrite !last_cons. split; [reflexivity|]. split; [exact DH|]. split.
    + cbn [dll]. rewrite G, Z.eqb_refl. split; [reflexivity|]. apply (dll_frame (w_heap w)); [exact D|]. intros q Q. rewrite G.
      destruct (Z.eqb_spec q y) as [->|]; [|reflexivity]. exfalso. inversion ND as [|? ? _ N2]; subst. inversion N2; contradiction.
    + intros q Q. rewrite G. destruct (Z.eqb_spec q y) as [->|]; [|reflexivity]. exfalso. apply Q. left. reflexivity.
Qed.
Lemma forget_heap w p : w_heap (forget w p) = w_heap w.
Proof. unfold forget. destruct (w_sela w); reflexivity. Qed.
Lemma forget_rest w p : w_main (forget w p) = w_main w /\ w_alt (forget w p) = w_alt w /\ w_act (forget w p) = w_act w /\ w_first (forget w p) = w_first w /\
  w_last (forget w p) = w_last w /\ w_count (forget w p) = w_count w /\ w_max (forget w p) = w_max w /\ w_pos (forget w p) = w_pos w /\ w_sela (forget w p) = w_sela w.
Proof. unfold forget. destruct (w_sela w) eqn:E; cbn; rewrite ?E; auto 10. Qed.
Lemma forget_sel w x L : (w_sela w = true -> null_or_in (fst (w_sel1 w)) (x :: L) /\ null_or_in (fst (w_sel2 w)) (x :: L)) ->
  w_sela (forget w x) = true -> null_or_in (fst (w_sel1 (forget w x))) L /\ null_or_in (fst (w_sel2 (forget w x))) L.
Proof.
  intros H A. unfold forget in *. destruct (w_sela w) eqn:E; [|congruence]. specialize (H eq_refl). cbn [put_sel w_sel1 w_sel2].
  assert (X : forall e, null_or_in (fst e) (x :: L) -> null_or_in (fst (forget_end x e)) L).
  { intros e [Z0|[Q|I]]; unfold forget_end; destruct (Z.eqb_spec (fst e) x); cbn [fst]; unfold null_or_in; auto. exfalso; auto. }
  split; apply X; apply H.
Qed.
Definition same_rows (w w' : own) : Prop := w_main w' = w_main w /\ w_alt w' = w_alt w /\ w_act w' = w_act w /\ w_max w' = w_max w.

(* The list without its first line x, whose object is freed; the view is on p. *)
Lemma drop_first w w1 live x L p : inv w live (x :: L) -> unlink_first w = Ok w1 ->
  exists w2, free_line (forget (put_pos w1 p) x) x = Ok w2 /\ inv (put_pos w2 0) live L /\ same_rows w w2 /\ w_pos w2 = p.
Proof.
  intros I U. destruct (unlink_ok w live x L I) as (h & E & DH & D & F). assert (W1 : w1 = put_list w (hd 0 L) (last L 0) (zlen L) h) by congruence. clear U E.
  unfold free_line. rewrite forget_heap. cbn [put_pos w_heap]. rewrite W1. cbn [put_list w_heap].
  assert (NX : NoDup (live ++ x :: L)) by apply (iv_nd _ _ _ I). pose proof (NoDup_remove _ _ _ NX) as [N1 N2].
  destruct (hfree_ok h x) as (h' & -> & PH & G).
  { rewrite DH. exact (iv_dom _ _ _ I). } { rewrite DH. apply (Permutation_in _ (Permutation_sym (iv_pm _ _ _ I))). apply in_or_app. right. left. reflexivity. }
  cbn [bind]. eexists. split; [reflexivity|].
  set (wf := forget (put_pos (put_list w (hd 0 L) (last L 0) (zlen L) h) p) x). destruct (forget_rest (put_pos (put_list w (hd 0 L) (last L 0) (zlen L) h) p) x) as (R1 & R2 & R3 & R4 & R5 & R6 & R7 & R8 & R9).
  fold wf in R1, R2, R3, R4, R5, R6, R7, R8, R9. cbn [put_pos put_list w_main w_alt w_act w_first w_last w_count w_max w_pos w_sela] in *.
  pose proof (iv_max _ _ _ I) as MX. cbn [length] in MX.
  split; [|split; [unfold same_rows; cbn; auto|exact R8]].
  constructor; cbn [put_pos put_heap w_heap w_first w_last w_count w_max w_pos w_sela w_sel1 w_sel2]; rewrite ?R4, ?R5, ?R6, ?R7, ?R8; auto; try lia.
  - apply (Permutation_cons_inv (a := x)). eapply Permutation_trans; [symmetry; exact PH|]. rewrite DH. eapply Permutation_trans; [exact (iv_pm _ _ _ I)|].
    symmetry. apply Permutation_middle.
  - intros X. apply (iv_null _ _ _ I). apply in_app_or in X. apply in_or_app. cbn [In]. tauto.
  - apply (dll_frame h); [exact D|]. intros q Q. apply G. intros ->. apply N2. apply in_or_app. auto.
  - left. reflexivity.
  - apply (forget_sel _ x L). cbn [put_pos put_list w_sela w_sel1 w_sel2]. exact (iv_sel _ _ _ I).
Qed.
Lemma put_pos_twice w a b : put_pos (put_pos w a) b = put_pos w b.
Proof. reflexivity. Qed.
Lemma put_pos_same w : put_pos w (w_pos w) = w.
Proof. now destruct w. Qed.
Lemma inv_pos w live L p : inv w live L -> null_or_in p L -> inv (put_pos w p) live L.
Proof. intros [] P. now constructor. Qed.
Lemma inv_sel w live L e1 e2 b : inv w live L -> (b = true -> null_or_in (fst e1) L /\ null_or_in (fst e2) L) -> inv (put_sel w b e1 e2) live L.
Proof. intros [] P. now constructor. Qed.
Lemma null_or_in_in p L L' : null_or_in p L -> (forall x, In x L -> In x L') -> null_or_in p L'.
Proof. intros [Z0|I] H; [left|right]; auto. Qed.

Lemma next_in w live L p : inv w live L -> In p L -> exists o, hget (w_heap w) p = Ok o /\ null_or_in (o_next o) L /\ null_or_in (o_prev o) L.
Proof.
  intros I P. destruct (in_split _ _ P) as (A & B & ->). pose proof (dll_mid _ _ _ _ _ (iv_dll _ _ _ I)) as E. eexists. split; [exact E|]. cbn [o_next o_prev]. split.
  - destruct (hd_in B) as [[_ ->]|Q]; [left; reflexivity|right; apply in_or_app; right; right; exact Q].
  - destruct (last_in A 0) as [[_ ->]|Q]; [left; reflexivity|right; apply in_or_app; left; exact Q].
Qed.

(* -- appending ------------------------------------------------------------------------------------------------------------ *)
Lemma append_ok w live x L : inv (put_pos w 0) (x :: live) L -> zlen L + 1 <= w_max w -> null_or_in (w_pos w) (L ++ [x]) ->
  exists w', append_line w x = Ok w' /\ inv w' live (L ++ [x]) /\ same_rows w w'.
Proof.
  intros I MX P. unfold append_line. pose proof (iv_last _ _ _ I) as EL. pose proof (iv_count _ _ _ I) as EC. pose proof (iv_first _ _ _ I) as EF.
  pose proof (iv_max _ _ _ I) as MM. cbn [put_pos w_last w_count w_first w_max] in EL, EC, EF, MM.
  destruct (iv_in _ _ _ x I) as [ox OX]; [left; reflexivity|]. cbn [put_pos w_heap] in OX.
  destruct (hset_ok (w_heap w) x (fun _ => mkO (w_last w) 0) _ OX) as (h1 & -> & D1 & G1). cbn [bind].
  assert (CNT : u32 (w_count w + 1) = zlen (L ++ [x])) by (rewrite app_length; cbn [length]; rewrite u32_small; lia).
  pose proof (iv_nd _ _ _ I) as ND. cbn [app] in ND. assert (PL : Permutation (x :: live ++ L) (live ++ L ++ [x])).
  { rewrite app_assoc. apply Permutation_cons_append. }
  assert (ND' : NoDup (live ++ L ++ [x])) by exact (Permutation_NoDup PL ND).
  assert (NDL : NoDup (L ++ [x])) by exact (nd_right _ _ ND').
  assert (XL : ~ In x L). { intros Q. inversion ND as [|? ? N1 _]; subst. apply N1. apply in_or_app. auto. }
  assert (GEN : forall h2, dom h2 = dom (w_heap w) -> hget h2 x = Ok (mkO (last L 0) 0) ->
    (forall q, In q L -> hget h2 q = if q =? last L 0 then (do o <- hget (w_heap w) q; Ok (with_next x o)) else hget (w_heap w) q) ->
    inv (put_list w (hd 0 (L ++ [x])) x (zlen (L ++ [x])) h2) live (L ++ [x])).
  { intros h2 DD HX HQ. constructor; cbn [put_list w_heap w_first w_last w_count w_max w_pos w_sela w_sel1 w_sel2]; auto.
    - rewrite DD. eapply Permutation_trans; [exact (iv_pm _ _ _ I)|exact PL].
    - intros Q. apply (iv_null _ _ _ I). apply (Permutation_in _ (Permutation_sym PL) Q).
    - apply (dll_snoc (w_heap w)); auto. exact (iv_dll _ _ _ I).
    - now rewrite last_snoc.
    - rewrite app_length. cbn [length]. lia.
    - intros A. destruct (iv_sel _ _ _ I A) as [S1 S2]. split; [apply (null_or_in_in _ _ _ S1)|apply (null_or_in_in _ _ _ S2)]; intros z Z; apply in_or_app; auto. }
  rewrite EL in *. destruct L as [|a L].
  - cbn [last]. change (0 =? 0) with true. cbv iota. rewrite CNT. eexists. split; [reflexivity|]. split; [|unfold same_rows; cbn; auto].
    apply (GEN h1); [exact D1|now rewrite G1, Z.eqb_refl|]. intros q [].
  - assert (IL : In (last (a :: L) 0) (a :: L)). { destruct (last_in (a :: L) 0) as [[? _]|Q]; [discriminate|exact Q]. }
    assert (L0 : last (a :: L) 0 <> 0). { intros Q. rewrite Q in IL. apply (iv_null _ _ _ I). right. apply in_or_app. auto. }
    assert (LX : last (a :: L) 0 <> x) by congruence.
    destruct (iv_in _ _ _ (last (a :: L) 0) I) as [ol OL]; [right; apply in_or_app; auto|]. cbn [put_pos w_heap] in OL.
    replace (last (a :: L) 0 =? 0) with false by lia.
    destruct (hset_ok h1 (last (a :: L) 0) (with_next x) ol) as (h2 & -> & D2 & G2). { rewrite G1. now replace (last (a :: L) 0 =? x) with false by lia. }
    cbn [bind]. eexists. split; [reflexivity|]. rewrite CNT, EF. split; [|unfold same_rows; cbn; auto]. apply (GEN h2).
    + congruence.
    + rewrite G2, G1. replace (x =? last (a :: L) 0) with false by lia. now rewrite Z.eqb_refl.
    + intros q Q. rewrite G2, G1. destruct (Z.eqb_spec q (last (a :: L) 0)) as [->|]; [now rewrite OL|]. destruct (Z.eqb_spec q x) as [->|]; [contradiction|reflexivity].
Qed.
Lemma evict_ok fixed line w live x L : inv w live (x :: L) -> exists w2,
  evict fixed line w = Ok w2 /\ inv (put_pos w2 0) live L /\ same_rows w w2 /\ null_or_in (w_pos w2) (L ++ [line]).
Proof.
  intros I. destruct (unlink_ok w live x L I) as (h & U & DH & D & F). unfold evict. rewrite U. cbn [bind]. set (w1 := put_list w (hd 0 L) (last L 0) (zlen L) h) in *.
  rewrite (iv_first _ _ _ I). cbn [hd]. change (w_pos w1) with (w_pos w). change (w_heap w1) with h.
  assert (GEN : forall p, null_or_in p (L ++ [line]) -> exists w2, free_line (forget (put_pos w1 p) x) x = Ok w2 /\ inv (put_pos w2 0) live L /\ same_rows w w2 /\ null_or_in (w_pos w2) (L ++ [line])).
  { intros p P. destruct (drop_first w w1 live x L p I U) as (w2 & E & I2 & R & Q). exists w2. rewrite Q. auto. }
  assert (W1 : w1 = put_pos w1 (w_pos w)) by reflexivity.
  destruct (Z.eqb_spec (w_pos w) 0) as [P0|PN]; [cbn [bind]; rewrite W1; apply GEN; left; exact P0|].
  assert (IP : In (w_pos w) (x :: L)) by (destruct (iv_pos _ _ _ I); [contradiction|assumption]).
  assert (NX : forall o, hget h (w_pos w) = Ok o -> null_or_in (o_next o) L).
  { intros o O. destruct IP as [IP|IP].
    - rewrite <- IP, F in O.
      + destruct (iv_dll _ _ _ I) as [E _]. rewrite E in O. assert (X : o = mkO 0 (hd 0 L)) by congruence. rewrite X. cbn [o_next].
        destruct (hd_in L) as [[_ ->]|Q]; [left; reflexivity|right; exact Q].
      + pose proof (nd_right _ _ (iv_nd _ _ _ I)) as N. inversion N; assumption.
    - destruct (in_split _ _ IP) as (A & B & EQ). rewrite EQ in D. pose proof (dll_mid _ _ _ _ _ D) as E. rewrite E in O. assert (X : o = mkO (last A 0) (hd 0 B)) by congruence. rewrite X. cbn [o_next].
      destruct (hd_in B) as [[_ ->]|Q]; [left; reflexivity|right; rewrite EQ; apply in_or_app; right; right; exact Q]. }
  destruct ((w_pos w =? x) || negb fixed) eqn:C.
  - destruct (hget_some h (w_pos w)) as [o O]. { rewrite DH. apply (Permutation_in _ (Permutation_sym (iv_pm _ _ _ I))). apply in_or_app. auto. }
    rewrite O. cbn [bind]. apply GEN. specialize (NX o O). destruct (Z.eqb_spec (o_next o) 0) as [Q|Q].
    + right. apply in_or_app. right. left. reflexivity.
    + apply (null_or_in_in _ _ _ NX). intros z Z. apply in_or_app. auto.
  - cbn [bind]. rewrite W1. apply GEN. destruct IP as [IP|IP]; [rewrite IP, Z.eqb_refl in C; discriminate|]. right. apply in_or_app. auto.
Qed.
Lemma free_ok w live x L : inv w (x :: live) L -> exists w', free_line (forget w x) x = Ok w' /\ inv w' live L /\ same_rows w w'.
Proof.
  intros I. unfold free_line. rewrite forget_heap. pose proof (iv_nd _ _ _ I) as ND. cbn [app] in ND. inversion ND as [|? ? N1 N2]; subst.
  destruct (hfree_ok (w_heap w) x) as (h' & -> & PH & G). { exact (iv_dom _ _ _ I). } { apply (Permutation_in _ (Permutation_sym (iv_pm _ _ _ I))). left. reflexivity. }
  cbn [bind]. eexists. split; [reflexivity|]. destruct (forget_rest w x) as (R1 & R2 & R3 & R4 & R5 & R6 & R7 & R8 & R9).
  assert (SL : w_sela w = true -> null_or_in (fst (w_sel1 w)) (x :: L) /\ null_or_in (fst (w_sel2 w)) (x :: L)).
  { intros A. destruct (iv_sel _ _ _ I A) as [S1 S2]. split; [apply (null_or_in_in _ _ _ S1)|apply (null_or_in_in _ _ _ S2)]; intros z Z; right; exact Z. }
  pose proof (forget_sel w x L SL) as FS.
  split; [|unfold same_rows; cbn; auto]. destruct I.
  constructor; cbn [put_heap w_heap w_first w_last w_count w_max w_pos w_sela w_sel1 w_sel2]; rewrite ?R4, ?R5, ?R6, ?R7, ?R8; auto.
  - apply (Permutation_cons_inv (a := x)). eapply Permutation_trans; [symmetry; exact PH|exact iv_pm0].
  - intros Q. apply iv_null0. right. exact Q.
  - apply (dll_frame (w_heap w)); [exact iv_dll0|]. intros q Q. apply G. intros ->. apply N1. apply in_or_app. auto.
Qed.

(* -- link_to_scrollback ------------------------------------------------------------------------------------------------------- *)
Lemma youngest_all m l : zlen l <= m -> youngest m l = l.
Proof. intros H. unfold youngest. now replace (length l - Z.to_nat m)%nat with O by lia. Qed.
Lemma youngest_zero l : youngest 0 l = [].
Proof. unfold youngest. apply skipn_all2. lia. Qed.
Lemma link_ok fixed w live x L : inv w (x :: live) L -> exists w', link_line fixed w x = Ok w' /\ inv w' live (youngest (w_max w) (L ++ [x])) /\ same_rows w w'.
Proof.
  intros I. unfold link_line. pose proof (iv_max _ _ _ I) as MX. destruct (Z.eqb_spec (w_max w) 0) as [M0|M0].
  - rewrite M0, youngest_zero. destruct L as [|a L]; [|exfalso; cbn [length] in MX; lia]. exact (free_ok w live x [] I).
  - rewrite (iv_count _ _ _ I). destruct (Z.leb_spec (w_max w) (zlen L)) as [F|F].
    + destruct L as [|a L]; [exfalso; cbn [length] in *; lia|]. cbn [length] in MX, F. destruct (evict_ok fixed x w _ a L I) as (w2 & -> & I2 & R2 & P2). cbn [bind].
      destruct R2 as (A1 & A2 & A3 & A4). destruct (append_ok w2 live x L I2) as (w3 & -> & I3 & R3); [lia|exact P2|]. exists w3. split; [reflexivity|]. split.
      * replace (youngest (w_max w) ((a :: L) ++ [x])) with (L ++ [x]); [exact I3|]. unfold youngest. cbn [app length]. rewrite app_length. cbn [length].
        replace (S (length L + 1) - Z.to_nat (w_max w))%nat with 1%nat by lia. reflexivity.
      * destruct R3 as (B1 & B2 & B3 & B4). unfold same_rows. repeat match goal with |- _ /\ _ => split end; congruence.
    + cbn [bind]. destruct (append_ok w live x L) as (w3 & -> & I3 & R3).
      * apply inv_pos; [exact I|left; reflexivity].
      * lia.
      * apply (null_or_in_in _ _ _ (iv_pos _ _ _ I)). intros z Z. apply in_or_app. auto.
      * exists w3. split; [reflexivity|]. split; [|exact R3]. rewrite youngest_all; [exact I3|]. rewrite app_length. cbn [length]. lia.
Qed.
Lemma skipn_app_le {A} (l l' : list A) n : (n <= length l)%nat -> skipn n (l ++ l') = skipn n l ++ l'.
Proof. intros H. rewrite skipn_app. now replace (n - length l)%nat with O by lia. Qed.
Lemma skipn_twice {A} n : forall k (l : list A), skipn n (skipn k l) = skipn (k + n) l.
Proof. induction k as [|k IH]; intros l; [reflexivity|]. destruct l; [now rewrite !skipn_nil|]. cbn [skipn Nat.add]. apply IH. Qed.
Lemma youngest_twice m A B : youngest m (youngest m A ++ B) = youngest m (A ++ B).
Proof.
  unfold youngest at 2. destruct (Nat.le_gt_cases (length A) (Z.to_nat m)) as [H|H].
  - now replace (length A - Z.to_nat m)%nat with O by lia.
  - unfold youngest. rewrite !app_length, skipn_length. destruct (Nat.le_gt_cases (length A + length B - Z.to_nat m) (length A)) as [K|K].
    + rewrite (skipn_app_le A B) by lia. rewrite skipn_app_le by (rewrite skipn_length; lia). rewrite skipn_twice. f_equal. f_equal. lia.
    + rewrite !skipn_app, !skipn_length. rewrite (skipn_all2 (skipn _ A)) by (rewrite skipn_length; lia). rewrite (skipn_all2 (n := length A + length B - Z.to_nat m) A) by lia. cbn [app]. f_equal. lia.
Qed.
