(* Proofs about Own.v: the buffers. *)
From Verif Require Import Base BaseProofs Screen Own OwnSpec OwnProofs.
From Coq Require Import Permutation.

(* -- from the description to the invariant ------------------------------------------------------------------------- *)
Lemma forward_split h A : forall p x B, forward h p (A ++ x :: B) -> exists o, hget h x = Ok o /\ o_next o = hd 0 B.
Proof.
  induction A as [|a A IH]; intros p x B F; cbn [app forward] in F; destruct F as (E & o & O & F).
  - exists o. split; [exact O|]. destruct B; cbn [forward] in F; [exact F|apply F].
  - exact (IH _ _ _ F).
Qed.
Lemma backward_split h A : forall p x B, backward h p (A ++ x :: B) -> exists o, hget h x = Ok o /\ o_prev o = hd 0 B.
Proof.
  induction A as [|a A IH]; intros p x B F; cbn [app backward] in F; destruct F as (E & o & O & F).
  - exists o. split; [exact O|]. destruct B; cbn [backward] in F; [exact F|apply F].
  - exact (IH _ _ _ F).
Qed.
Lemma hd_rev (A : list Z) : hd 0 (rev A) = last A 0.
Proof. induction A as [|x A IH] using rev_ind; [reflexivity|]. rewrite rev_app_distr, last_snoc. reflexivity. Qed.
Lemma dll_points h B : forall A, (forall A' x B', A ++ B = A' ++ x :: B' -> hget h x = Ok (mkO (last A' 0) (hd 0 B'))) -> dll h (last A 0) B.
Proof.
  induction B as [|x B IH]; intros A H; cbn [dll]; [exact Coq.Init.Logic.I|]. split; [exact (H A x B eq_refl)|].
  rewrite <- (last_snoc A x 0). apply IH. intros A' y B' E. apply H. rewrite <- E, <- app_assoc. reflexivity.
Qed.
Lemma well_inv w L : well w L -> inv w (w_main w ++ w_alt w) L.
Proof.
  intros W. destruct W. constructor; rewrite <- ?app_assoc; auto.
  - intros Q. apply wl_null. apply (Permutation_in _ (Permutation_sym wl_alive) Q).
  - apply (dll_points _ _ []). cbn [app]. intros A' x B' E. rewrite E in wl_forward, wl_backward.
    destruct (forward_split _ _ _ _ _ wl_forward) as (o & O & N). rewrite rev_app_distr in wl_backward. cbn [rev] in wl_backward. rewrite <- app_assoc in wl_backward.
    destruct (backward_split _ _ _ _ _ wl_backward) as (o' & O' & P). rewrite hd_rev in P. assert (Q : o' = o) by congruence. rewrite Q in P. rewrite O.
    destruct o as [op on]; cbn [o_prev o_next] in *. congruence.
  - destruct L; cbn [forward hd] in *; [exact wl_forward|apply wl_forward].
  - rewrite <- hd_rev. destruct (rev L); cbn [backward hd] in *; [exact wl_backward|apply wl_backward].
Qed.

(* -- the two buffers ------------------------------------------------------------------------------------------------- *)
Definition w_other (w : own) : list Z := if w_act w then w_main w else w_alt w.
Lemma live_rows w : Permutation (w_main w ++ w_alt w) (w_other w ++ w_rows w).
Proof. unfold w_other, w_rows. destruct (w_act w); [apply Permutation_refl|apply Permutation_app_comm]. Qed.
(* The rows become ls. *)
Definition rows_to (w w' : own) (ls : list Z) : Prop := w_rows w' = ls /\ w_other w' = w_other w /\ w_act w' = w_act w /\ w_max w' = w_max w.
Lemma put_rows_to w ls : rows_to w (put_rows w ls) ls.
Proof. unfold rows_to, w_rows, w_other, put_rows. cbn. destruct (w_act w); auto. Qed.
Lemma inv_rows w w' live L : inv w live L -> w_heap w' = w_heap w -> w_first w' = w_first w -> w_last w' = w_last w -> w_count w' = w_count w -> w_max w' = w_max w ->
  w_pos w' = w_pos w -> w_sela w' = w_sela w -> w_sel1 w' = w_sel1 w -> w_sel2 w' = w_sel2 w -> inv w' live L.
Proof. intros [] E1 E2 E3 E4 E5 E6 E7 E8 E9. constructor; rewrite ?E1, ?E2, ?E3, ?E4, ?E5, ?E6, ?E7, ?E8, ?E9; auto. Qed.
Lemma inv_put_rows w live L ls : inv w live L -> inv (put_rows w ls) live L.
Proof. intros I. apply (inv_rows w); auto. Qed.
Lemma same_rows_rows w w' : same_rows w w' -> w_rows w' = w_rows w /\ w_other w' = w_other w /\ w_act w' = w_act w /\ w_max w' = w_max w.
Proof. unfold w_rows, w_other. intros (-> & -> & -> & ->). auto. Qed.
Lemma region_split (l : list Z) top n : 0 <= top -> 0 <= n -> top + n <= zlen l -> exists A R B, l = A ++ R ++ B /\ zlen A = top /\ zlen R = n.
Proof.
  intros T N H. exists (firstn (Z.to_nat top) l), (firstn (Z.to_nat n) (skipn (Z.to_nat top) l)), (skipn (Z.to_nat n) (skipn (Z.to_nat top) l)).
  rewrite !firstn_skipn. split; [reflexivity|]. rewrite !firstn_length, skipn_length. lia.
Qed.
Lemma zput_mid (A X B v : list Z) i : zlen A = i -> length v = length X -> zput (A ++ X ++ B) i v = A ++ v ++ B.
Proof.
  intros HA HV. unfold zput. replace (Z.to_nat i) with (length A) by lia. rewrite firstn_app, Nat.sub_diag, firstn_O, firstn_all, app_nil_r.
  f_equal. f_equal. rewrite app_assoc, HV, <- app_length. rewrite skipn_app, skipn_all, Nat.sub_diag. reflexivity.
Qed.
Lemma zslice_mid (A X B : list Z) i n : zlen A = i -> zlen X = n -> zslice (A ++ X ++ B) i n = X.
Proof.
  intros HA HX. unfold zslice. replace (Z.to_nat i) with (length A) by lia. replace (Z.to_nat n) with (length X) by lia.
  rewrite skipn_app, skipn_all, Nat.sub_diag. cbn [app skipn]. rewrite firstn_app, firstn_all, Nat.sub_diag, firstn_O. apply app_nil_r.
Qed.
(* Rows [R1 ++ R2] after A move up, with C at the end. *)
Lemma move_up (A R1 R2 B C : list Z) mt num max : zlen A = mt -> zlen R1 = num -> zlen (R1 ++ R2) = max -> length C = length R1 ->
  (do ls <- (if num <? max then zmove (A ++ (R1 ++ R2) ++ B) mt (mt + num) (max - num) else Ok (A ++ (R1 ++ R2) ++ B)); zcopy ls (mt + (max - num)) C) = Ok (A ++ (R2 ++ C) ++ B).
Proof.
  intros HA H1 HM HC. rewrite app_length in HM. assert (E : forall X Y : list Z, zlen X = zlen (R1 ++ R2) -> X = R2 ++ Y -> length Y = length R1 -> zcopy (A ++ X ++ B) (mt + (max - num)) C = Ok (A ++ (R2 ++ C) ++ B)).
  { intros X Y HX EX HY. rewrite zcopy_ok; [|lia|rewrite !app_length in *; lia]. subst X. rewrite <- (app_assoc R2 Y B), (app_assoc A R2).
    rewrite (zput_mid (A ++ R2) Y B C); [|rewrite app_length; lia|congruence]. now rewrite <- !app_assoc. }
  destruct (Z.ltb_spec num max) as [LT|GE].
  - rewrite zmove_ok; try (rewrite ?app_length; lia). cbn [bind].
    assert (SL : zslice (A ++ (R1 ++ R2) ++ B) (mt + num) (max - num) = R2).
    { rewrite <- (app_assoc R1 R2 B), (app_assoc A R1). apply zslice_mid; [rewrite app_length; lia|lia]. }
    rewrite SL. set (Y := skipn (length R2) (R1 ++ R2)).
    assert (EQ : A ++ (R1 ++ R2) ++ B = A ++ firstn (length R2) (R1 ++ R2) ++ (Y ++ B)). { f_equal. unfold Y. now rewrite app_assoc, firstn_skipn. }
    rewrite EQ. rewrite zput_mid; [|lia|rewrite firstn_length, app_length; lia]. rewrite (app_assoc R2 Y B). apply (E _ Y); [|reflexivity|].
    + unfold Y. rewrite app_length, skipn_length, !app_length. lia.
    + unfold Y. rewrite skipn_length, app_length. lia.
  - cbn [bind]. assert (R2 = []) by (destruct R2; [reflexivity|cbn [length] in *; lia]). subst R2. apply (E _ R1); [reflexivity|now rewrite app_nil_r|reflexivity].
Qed.
(* Rows [R1 ++ R2] after A move down, with C at the start. *)
Lemma move_down (A R1 R2 B C : list Z) mt num max : zlen A = mt -> zlen R2 = num -> zlen (R1 ++ R2) = max -> length C = length R2 ->
  (do ls <- (if num <? max then zmove (A ++ (R1 ++ R2) ++ B) (mt + num) mt (max - num) else Ok (A ++ (R1 ++ R2) ++ B)); zcopy ls mt C) = Ok (A ++ (C ++ R1) ++ B).
Proof.
  intros HA H1 HM HC. rewrite app_length in HM. assert (E : forall Y : list Z, length Y = length R2 -> zcopy (A ++ (Y ++ R1) ++ B) mt C = Ok (A ++ (C ++ R1) ++ B)).
  { intros Y HY. rewrite zcopy_ok; [|lia|rewrite !app_length in *; lia]. rewrite <- !(app_assoc _ R1 B). rewrite zput_mid; [reflexivity|lia|congruence]. }
  destruct (Z.ltb_spec num max) as [LT|GE].
  - rewrite zmove_ok; try (rewrite ?app_length; lia). cbn [bind].
    assert (SL : zslice (A ++ (R1 ++ R2) ++ B) mt (max - num) = R1).
    { rewrite <- (app_assoc R1 R2 B). apply zslice_mid; lia. }
    rewrite SL. set (Y := firstn (length R2) (R1 ++ R2)).
    assert (EQ : A ++ (R1 ++ R2) ++ B = (A ++ Y) ++ skipn (length R2) (R1 ++ R2) ++ B). { rewrite <- (app_assoc A Y). f_equal. unfold Y. now rewrite app_assoc, firstn_skipn. }
    rewrite EQ. assert (LY : length Y = length R2) by (unfold Y; rewrite firstn_length, app_length; lia). rewrite zput_mid; [|rewrite app_length; lia|rewrite skipn_length, app_length; lia].
    rewrite <- (app_assoc A Y), (app_assoc Y R1 B). now apply E.
  - cbn [bind]. assert (R1 = []) by (destruct R1; [reflexivity|cbn [length] in *; lia]). subst R1. cbn [app]. specialize (E R2 eq_refl). rewrite !app_nil_r in E. now rewrite app_nil_r.
Qed.
Lemma zget_mid (A B : list Z) x i : zlen A = i -> zget (A ++ x :: B) i = Ok x.
Proof. intros E. apply zget_ok. unfold znth. replace (i <? 0) with false by lia. replace (Z.to_nat i) with (length A) by lia. rewrite nth_error_app2, Nat.sub_diag by lia. reflexivity. Qed.

(* -- scrolling up ------------------------------------------------------------------------------------------------------ *)
Lemma exchanged_snoc_keep R C G x : exchanged R C G -> exchanged (R ++ [x]) (C ++ [x]) G.
Proof. induction 1; cbn [app]; repeat constructor; assumption. Qed.
Lemma exchanged_snoc_new R C G x p : exchanged R C G -> exchanged (R ++ [x]) (C ++ [p]) (G ++ [x]).
Proof. induction 1; cbn [app]; repeat constructor; assumption. Qed.
Lemma exchanged_app R C G : exchanged R C G -> forall R' C' G', exchanged R' C' G' -> exchanged (R ++ R') (C ++ C') (G ++ G').
Proof. induction 1; cbn [app]; intros; try constructor; auto. Qed.
Lemma exchanged_length R C G : exchanged R C G -> length C = length R.
Proof. induction 1; cbn [length]; congruence. Qed.
Lemma inv_new w live L p : inv w live L -> 0 < p -> ~ In p (map fst (w_heap w)) -> inv (put_heap w (hnew (w_heap w) p)) (p :: live) L.
Proof.
  intros I P N. assert (NP : ~ In p (live ++ L)). { intros Q. apply N. apply (Permutation_in _ (Permutation_sym (iv_pm _ _ _ I)) Q). } destruct I.
  constructor; cbn [put_heap w_heap w_first w_last w_count w_max w_pos w_sela w_sel1 w_sel2]; auto.
  - cbn [hnew dom map fst app]. apply perm_skip. exact iv_pm.
  - cbn [app]. constructor; assumption.
  - cbn [app In]. intros [Q|Q]; [lia|auto].
  - apply (dll_frame (w_heap w)); [exact iv_dll|]. intros q Q. rewrite hnew_get. destruct (Z.eqb_spec q p) as [->|]; [|reflexivity]. exfalso. apply NP. apply in_or_app. auto.
Qed.
Lemma skipn_S_cons {A} n (l : list A) x r : skipn n l = x :: r -> skipn (S n) l = r.
Proof. revert l. induction n as [|n IH]; intros l E; [cbn in E; now rewrite E|]. destruct l; [discriminate|]. cbn [skipn] in *. exact (IH _ E). Qed.
Lemma firstn_S_cons {A} n (l : list A) x r : skipn n l = x :: r -> firstn (S n) l = firstn n l ++ [x].
Proof. revert l. induction n as [|n IH]; intros l E; [cbn in E; now rewrite E|]. destruct l; [discriminate|]. cbn [skipn] in E. change (firstn (S (S n)) (a :: l)) with (a :: firstn (S n) l). rewrite (IH _ E). reflexivity. Qed.
Lemma skipn_cons_len {A} n (l : list A) : (n < length l)%nat -> exists x r, skipn n l = x :: r.
Proof. intros H. destruct (skipn n l) as [|x r] eqn:E; [|eauto]. pose proof (skipn_length n l) as Q. rewrite E in Q. cbn [length] in Q. lia. Qed.

Lemma up_rows_ok alt fixed al k w L A R B mt num : inv w (w_main w ++ w_alt w) L -> w_rows w = A ++ R ++ B -> zlen A = mt -> 0 <= num <= zlen R -> fair al ->
  exists w' C G, forz 0 num (up_row alt fixed al k mt) (w, []) = Ok (w', C) /\ exchanged (firstn (Z.to_nat num) R) C G /\ ((alt = true -> G = []) /\ (alt = false -> plenty al -> G = firstn (Z.to_nat num) R)) /\ same_rows w w' /\
    inv w' (w_other w ++ A ++ (skipn (Z.to_nat num) R ++ C) ++ B) (youngest (w_max w) (L ++ G)).
Proof.
  intros I ER HA HN FA.
  destruct (forz_inv (fun i st => exists G, exchanged (firstn (Z.to_nat i) R) (snd st) G /\ ((alt = true -> G = []) /\ (alt = false -> plenty al -> G = firstn (Z.to_nat i) R)) /\ same_rows w (fst st) /\
     inv (fst st) (w_other w ++ A ++ (skipn (Z.to_nat i) R ++ snd st) ++ B) (youngest (w_max w) (L ++ G))) 0 num (up_row alt fixed al k mt) (w, [])) as ([w' C] & E & G & X1 & X2 & X3 & X4).
  - lia.
  - exists []. cbn [fst snd]. change (Z.to_nat 0) with O. rewrite firstn_O, !app_nil_r. split; [constructor|]. split; [split; auto|]. split; [unfold same_rows; auto 10|].
    rewrite youngest_all by exact (proj1 (iv_max _ _ _ I)). cbn [skipn]. rewrite <- ER. exact (inv_perm _ _ _ _ I (live_rows w)).
  - intros i [wi Ci] HI (G & X1 & X2 & X3 & X4). cbn [fst snd] in *. unfold up_row.
    destruct (same_rows_rows _ _ X3) as (SR & SO & SA & SM).
    destruct (skipn_cons_len (Z.to_nat i) R) as (x & r & EX); [lia|]. replace (Z.to_nat (i + 1)) with (S (Z.to_nat i)) by lia.
    rewrite (skipn_S_cons _ _ _ _ EX), (firstn_S_cons _ _ _ _ EX). rewrite EX in X4.
    assert (GX : zget (w_rows w) (mt + i) = Ok x).
    { rewrite ER. rewrite <- (firstn_skipn (Z.to_nat i) R), EX. rewrite <- app_assoc, app_assoc. apply zget_mid. rewrite app_length, firstn_length. lia. }
    assert (KEEP : (alt = false -> plenty al -> False) -> exists s', (do l <- zget (w_rows wi) (mt + i); do o <- hget (w_heap wi) l; Ok (wi, Ci ++ [l])) = Ok s' /\ exists G0, exchanged (firstn (Z.to_nat i) R ++ [x]) (snd s') G0 /\
      ((alt = true -> G0 = []) /\ (alt = false -> plenty al -> G0 = firstn (Z.to_nat i) R ++ [x])) /\ same_rows w (fst s') /\ inv (fst s') (w_other w ++ A ++ (r ++ snd s') ++ B) (youngest (w_max w) (L ++ G0))).
    { intros NP. rewrite SR, GX. cbn [bind]. destruct (iv_in _ _ _ x X4) as [o O].
      { apply in_or_app. left. apply in_or_app. right. apply in_or_app. right. left. reflexivity. }
      rewrite O. cbn [bind]. eexists. split; [reflexivity|]. cbn [fst snd]. exists G. split; [now apply exchanged_snoc_keep|]. split; [split; [apply X2|intros a1 a2; destruct (NP a1 a2)]|]. split; [exact X3|].
      apply (inv_perm _ _ _ _ X4). apply Permutation_app_head, Permutation_app_head, Permutation_app_tail. rewrite app_assoc. cbn [app]. apply Permutation_cons_append. }
    destruct alt; [apply KEEP; discriminate|]. destruct (al (k + i) (w_heap wi)) as [p|] eqn:AL; [|apply KEEP; intros _ PL; exact (PL _ _ AL)]. clear KEEP. destruct (FA _ _ _ AL) as [P0 PN].
    change (w_rows (put_heap wi (hnew (w_heap wi) p))) with (w_rows wi). rewrite SR, GX. cbn [bind].
    assert (I1 := inv_new _ _ _ p X4 P0 PN).
    assert (PM : Permutation (p :: w_other w ++ A ++ ((x :: r) ++ Ci) ++ B) (x :: w_other w ++ A ++ (r ++ Ci ++ [p]) ++ B)).
    { rewrite (app_assoc r), <- !(app_assoc _ _ B). cbn [app]. rewrite !(app_assoc (w_other w) A). eapply Permutation_trans; [apply perm_skip; symmetry; apply Permutation_middle|].
      eapply Permutation_trans; [apply perm_swap|]. apply perm_skip. rewrite !app_assoc. apply Permutation_middle. }
    destruct (link_ok fixed _ _ x _ (inv_perm _ _ _ _ I1 PM)) as (w2 & -> & I2 & R2). cbn [bind put_heap w_max] in *. rewrite SM, youngest_twice, <- (app_assoc L G) in I2.
    eexists. split; [reflexivity|]. cbn [fst snd]. exists (G ++ [x]). split; [now apply exchanged_snoc_new|]. split; [split; [discriminate|intros a1 a2; now rewrite (proj2 X2 a1 a2)]|].
    split; [|exact I2]. destruct X3 as (Y1 & Y2 & Y3 & Y4). destruct R2 as (Z1 & Z2 & Z3 & Z4). cbn [put_heap w_main w_alt w_act w_max] in *. unfold same_rows. repeat match goal with |- _ /\ _ => split end; congruence.
  - exists w', C, G. auto.
Qed.
Lemma back_to_ok w live L y A : forall n B y0, inv w live L -> L = A ++ B -> y = last A 0 -> (length A < n)%nat -> exists l, back_to n (w_heap w) y y0 = Ok l /\ null_or_in l L.
Proof.
  revert y. induction A as [|x A IH] using rev_ind; intros y n B y0 I E -> H; (destruct n as [|n]; [lia|]); cbn [back_to].
  - cbn [last]. change (0 =? 0) with true. cbv iota. exists 0. split; [reflexivity|left; reflexivity].
  - rewrite last_snoc. destruct (Z.eqb_spec x 0); [eexists; split; [reflexivity|left; reflexivity]|]. rewrite <- app_assoc in E. cbn [app] in E.
    destruct (y0 + 1 <? 0); [|exists x; split; [reflexivity|right; rewrite E; apply in_or_app; right; left; reflexivity]].
    pose proof (iv_dll _ _ _ I) as D. rewrite E in D. rewrite (dll_mid _ _ _ _ _ D). cbn [bind o_prev]. apply (IH _ n (x :: B)); auto. rewrite app_length in H. cbn [length] in H. lia.
Qed.
Lemma heap_len w live L : inv w live L -> (length L <= length (w_heap w))%nat.
Proof. intros I. pose proof (Permutation_length (iv_pm _ _ _ I)) as E. unfold dom in E. rewrite map_length, app_length in E. lia. Qed.
Lemma end_up_ok w live L num e : inv w live L -> null_or_in (fst e) L -> exists e', end_up w num e = Ok e' /\ null_or_in (fst e') L.
Proof.
  intros I N. unfold end_up. destruct ((fst e =? 0) && (0 <=? snd e)); [|eauto]. cbv zeta. destruct (i32 (snd e - num) <? 0).
  - destruct (back_to_ok w live L (w_last w) L (S (S (length (w_heap w)))) [] (i32 (snd e - num)) I) as (l & -> & P).
    + now rewrite app_nil_r. + exact (iv_last _ _ _ I). + pose proof (heap_len _ _ _ I). lia.
    + cbn [bind]. eexists. split; [reflexivity|exact P].
  - eexists. split; [reflexivity|]. left. reflexivity.
Qed.
Lemma rows_to_live w w' ls : rows_to w w' ls -> Permutation (w_other w ++ ls) (w_main w' ++ w_alt w').
Proof. intros (<- & <- & _). symmetry. apply live_rows. Qed.
Lemma up_chunk_ok alt fixed al k w L A R B mt max num : inv w (w_main w ++ w_alt w) L -> w_rows w = A ++ R ++ B -> zlen A = mt -> zlen R = max -> 0 <= num <= max -> fair al ->
  exists w' C G, up_chunk alt fixed al k mt max num w = Ok w' /\ exchanged (firstn (Z.to_nat num) R) C G /\ ((alt = true -> G = []) /\ (alt = false -> plenty al -> G = firstn (Z.to_nat num) R)) /\
    rows_to w w' (A ++ (skipn (Z.to_nat num) R ++ C) ++ B) /\ inv w' (w_main w' ++ w_alt w') (youngest (w_max w) (L ++ G)).
Proof.
  intros I ER HA HR HN FA. destruct (up_rows_ok alt fixed al k w L A R B mt num I ER HA) as (w1 & C & G & E & X1 & X2 & X3 & X4); [lia|exact FA|].
  unfold up_chunk. rewrite E. cbn [bind]. destruct (same_rows_rows _ _ X3) as (SR & SO & SA & SM). rewrite SR, ER.
  pose proof (exchanged_length _ _ _ X1) as LC. rewrite firstn_length in LC.
  pose proof (move_up A (firstn (Z.to_nat num) R) (skipn (Z.to_nat num) R) B C mt num max) as MV. rewrite firstn_skipn in MV.
  specialize (MV HA ltac:(rewrite firstn_length; lia) HR ltac:(rewrite firstn_length; lia)).
  destruct (if num <? max then zmove (A ++ R ++ B) mt (mt + num) (max - num) else Ok (A ++ R ++ B)) as [ls|]; [|discriminate]. cbn [bind] in *. rewrite MV. cbn [bind].
  set (ls' := A ++ (skipn (Z.to_nat num) R ++ C) ++ B) in *. set (w2 := put_rows w1 ls').
  assert (RT : rows_to w w2 ls'). { destruct (put_rows_to w1 ls') as (Q1 & Q2 & Q3 & Q4). unfold rows_to. fold w2 in Q1, Q2, Q3, Q4. repeat match goal with |- _ /\ _ => split end; congruence. }
  assert (I2 : inv w2 (w_main w2 ++ w_alt w2) (youngest (w_max w) (L ++ G))). { apply (inv_perm _ (w_other w ++ ls')); [|exact (rows_to_live _ _ _ RT)]. now apply inv_put_rows. }
  change (w_sela w1) with (w_sela w2).
  destruct (w_sela w2) eqn:SE.
  - destruct (iv_sel _ _ _ I2 SE) as [S1 S2]. destruct (end_up_ok _ _ _ num (w_sel1 w2) I2 S1) as (a & -> & N1). cbn [bind].
    destruct (end_up_ok _ _ _ num (w_sel2 w2) I2 S2) as (b & -> & N2). cbn [bind]. exists (put_sel w2 true a b), C, G. split; [reflexivity|].
    split; [exact X1|]. split; [exact X2|]. split; [exact RT|]. apply (inv_sel w2); auto.
  - exists w2, C, G. auto.
Qed.
Lemma up_rec_ok fuel : forall alt fixed al k w L A R B mt mb num, inv w (w_main w ++ w_alt w) L -> w_rows w = A ++ R ++ B -> zlen A = mt -> zlen R = mb + 1 - mt -> 0 <= num -> fair al ->
  Z.min num (mb + 1 - mt) / 128 <= Z.of_nat fuel ->
  exists w' C G, up_rec fuel alt fixed al k mt mb num w = Ok w' /\ exchanged (firstn (Z.to_nat (Z.min num (mb + 1 - mt))) R) C G /\ ((alt = true -> G = []) /\ (alt = false -> plenty al -> G = firstn (Z.to_nat (Z.min num (mb + 1 - mt))) R)) /\
    rows_to w w' (A ++ (skipn (Z.to_nat (Z.min num (mb + 1 - mt))) R ++ C) ++ B) /\ inv w' (w_main w' ++ w_alt w') (youngest (w_max w) (L ++ G)).
Proof.
  induction fuel as [|fuel IH]; intros alt fixed al k w L A R B mt mb num I ER HA HR HN FA HF; cbn [up_rec]; destruct (Z.eqb_spec num 0) as [Z0|NZ].
  1,3: subst num; exists w, [], []; replace (Z.to_nat (Z.min 0 (mb + 1 - mt))) with O by lia; rewrite firstn_O, !app_nil_r; cbn [skipn];
       rewrite (youngest_all _ _ (proj1 (iv_max _ _ _ I))); repeat match goal with |- _ /\ _ => split end; auto; [constructor|unfold rows_to; auto].
  all: cbv zeta; assert (EN : (if mb + 1 - mt <? num then mb + 1 - mt else num) = Z.min num (mb + 1 - mt)) by (destruct (Z.ltb_spec (mb + 1 - mt) num); lia); rewrite EN; set (n := Z.min num (mb + 1 - mt)) in *.
  - replace (128 <? n) with false by lia. apply up_chunk_ok; auto. lia.
  - destruct (Z.ltb_spec 128 n) as [BIG|SM]; [|apply up_chunk_ok; auto; lia].
    destruct (up_chunk_ok alt fixed al k w L A R B mt (mb + 1 - mt) 128 I ER HA HR) as (w1 & C1 & G1 & -> & X1 & X2 & X3 & X4); [lia|exact FA|]. cbn [bind].
    pose proof (exchanged_length _ _ _ X1) as LC. rewrite firstn_length in LC. change (Z.to_nat 128) with 128%nat in *.
    destruct (IH alt fixed al (k + 128) w1 _ A (skipn 128 R ++ C1) B mt mb (n - 128) X4) as (w2 & C2 & G2 & -> & Y1 & Y2 & Y3 & Y4); auto; try lia.
    { apply X3. } { rewrite app_length, skipn_length. lia. }
    replace (Z.min (n - 128) (mb + 1 - mt)) with (n - 128) in * by lia.
    assert (LE : (Z.to_nat (n - 128) <= length (skipn 128 R))%nat) by (rewrite skipn_length; lia).
    rewrite firstn_app in Y1. replace (Z.to_nat (n - 128) - length (skipn 128 R))%nat with O in Y1 by lia. rewrite firstn_O, app_nil_r in Y1.
    rewrite (skipn_app_le _ _ _ LE), skipn_twice in Y3. destruct X3 as (Q1 & Q2 & Q3 & Q4). rewrite Q4, youngest_twice, <- (app_assoc L G1) in Y4.
    assert (FN : firstn 128 R ++ firstn (Z.to_nat (n - 128)) (skipn 128 R) = firstn (Z.to_nat n) R).
    { rewrite <- (firstn_skipn 128 R) at 3. rewrite firstn_app, firstn_length, firstn_firstn. f_equal; f_equal; lia. }
    rewrite firstn_app in Y2. replace (Z.to_nat (n - 128) - length (skipn 128 R))%nat with O in Y2 by lia. rewrite firstn_O, app_nil_r in Y2.
    exists w2, (C1 ++ C2), (G1 ++ G2). split; [reflexivity|]. split.
    + rewrite <- FN. now apply exchanged_app.
    + split; [split; [intros a; rewrite (proj1 X2 a), (proj1 Y2 a); reflexivity|intros a1 a2; rewrite (proj2 X2 a1 a2), (proj2 Y2 a1 a2); exact FN]|]. split; [|exact Y4]. destruct Y3 as (V1 & V2 & V3 & V4). unfold rows_to. rewrite V1, V2, V3, V4, Q2, Q3, Q4.
      replace (128 + Z.to_nat (n - 128))%nat with (Z.to_nat n) by lia. rewrite (app_assoc (skipn (Z.to_nat n) R) C1 C2). auto.
Qed.

(* -- scrolling down, inserting and deleting ------------------------------------------------------------------------------ *)
Lemma take_rows_ok w live L idx num : inv w live L -> 0 <= num -> (forall i, 0 <= i < num -> exists x, znth (w_rows w) (idx i) = Some x /\ In x (live ++ L)) ->
  exists C, take_rows w idx num = Ok C /\ zlen C = num /\ forall i, 0 <= i < num -> znth C i = znth (w_rows w) (idx i).
Proof.
  intros I HN H. unfold take_rows.
  destruct (forz_inv (fun i C => zlen C = i /\ forall j, 0 <= j < i -> znth C j = znth (w_rows w) (idx j)) 0 num
    (fun i cache => do l <- zget (w_rows w) (idx i); do o <- hget (w_heap w) l; Ok (cache ++ [l])) []) as (C & E & L1 & L2); [lia| | |exists C; auto].
  - split; [reflexivity|]. intros; lia.
  - intros i C HI [L1 L2]. destruct (H i HI) as (x & X & IN). rewrite (zget_ok _ _ _ X). cbn [bind]. destruct (iv_in _ _ _ _ I IN) as [o ->]. cbn [bind].
    eexists. split; [reflexivity|]. split; [rewrite app_length; cbn [length]; lia|]. intros j HJ. rewrite znth_app. destruct (Z.ltb_spec j (zlen C)); [apply L2; lia|].
    replace j with i by lia. replace (i - zlen C) with 0 by lia. now rewrite X.
Qed.
Lemma rev_at (l : list Z) : forall i, 0 <= i < zlen l -> znth (rev l) i = znth l (zlen l - 1 - i).
Proof.
  induction l as [|x l IH] using rev_ind; intros i H; [cbn [length] in H; lia|]. rewrite rev_app_distr. cbn [rev app]. rewrite app_length in *. cbn [length] in *. rewrite znth_cons by lia. rewrite znth_app.
  destruct (Z.eqb_spec i 0) as [->|].
  - replace (Z.of_nat (length l + 1) - 1 - 0 <? zlen l) with false by lia. now replace (Z.of_nat (length l + 1) - 1 - 0 - zlen l) with 0 by lia.
  - replace (Z.of_nat (length l + 1) - 1 - i <? zlen l) with true by lia. rewrite IH by lia. f_equal. lia.
Qed.
Lemma znth_mid (A X B : list Z) i : zlen A <= i < zlen A + zlen X -> znth (A ++ X ++ B) i = znth X (i - zlen A).
Proof. intros H. rewrite znth_app. replace (i <? zlen A) with false by lia. rewrite znth_app. now replace (i - zlen A <? zlen X) with true by lia. Qed.
Lemma rows_alive w L x : inv w (w_main w ++ w_alt w) L -> In x (w_rows w) -> In x ((w_main w ++ w_alt w) ++ L).
Proof. intros I H. apply in_or_app. left. apply in_or_app. unfold w_rows in H. destruct (w_act w); auto. Qed.
Lemma znth_is (l : list Z) i : 0 <= i < zlen l -> exists x, znth l i = Some x /\ In x l.
Proof. intros H. destruct (znth_some l i H) as [x X]. exists x. split; [exact X|]. exact (znth_In _ _ _ X). Qed.
Lemma take_last w L A R1 R2 B mb num : inv w (w_main w ++ w_alt w) L -> w_rows w = A ++ (R1 ++ R2) ++ B -> zlen R2 = num -> mb + 1 = zlen A + zlen (R1 ++ R2) ->
  take_rows w (fun i => mb - i) num = Ok (rev R2).
Proof.
  intros I ER HN HM. rewrite app_length in HM. destruct (take_rows_ok w _ L (fun i => mb - i) num I) as (C & -> & LC & E); [lia| |].
  - intros i HI. destruct (znth_is (w_rows w) (mb - i)) as (x & X & IN). { rewrite ER, !app_length. lia. } exists x. split; [exact X|]. now apply rows_alive.
  - f_equal. apply znth_ext; [rewrite rev_length; lia|]. intros i HI. rewrite E by lia. rewrite rev_at by lia. rewrite ER, <- (app_assoc R1), (app_assoc A R1). rewrite znth_mid by (rewrite app_length; lia).
    rewrite app_length. f_equal. lia.
Qed.
Lemma take_first w L A R1 R2 B cy num : inv w (w_main w ++ w_alt w) L -> w_rows w = A ++ (R1 ++ R2) ++ B -> zlen R1 = num -> cy = zlen A ->
  take_rows w (fun i => cy + i) num = Ok R1.
Proof.
  intros I ER HN HM. destruct (take_rows_ok w _ L (fun i => cy + i) num I) as (C & -> & LC & E); [lia| |].
  - intros i HI. destruct (znth_is (w_rows w) (cy + i)) as (x & X & IN). { rewrite ER, !app_length. lia. } exists x. split; [exact X|]. now apply rows_alive.
  - f_equal. apply znth_ext; [lia|]. intros i HI. rewrite E by lia. rewrite ER, <- (app_assoc R1). rewrite znth_mid by lia. f_equal. lia.
Qed.
Lemma inv_rows_to w ls L : inv w (w_main w ++ w_alt w) L -> Permutation (w_rows w) ls -> inv (put_rows w ls) (w_main (put_rows w ls) ++ w_alt (put_rows w ls)) L.
Proof.
  intros I P. apply (inv_perm _ (w_main w ++ w_alt w)); [now apply inv_put_rows|]. eapply Permutation_trans; [apply live_rows|].
  eapply Permutation_trans; [|exact (rows_to_live _ _ _ (put_rows_to w ls))]. now apply Permutation_app_head.
Qed.
Lemma perm_region (A R R' B : list Z) : Permutation R R' -> Permutation (A ++ R ++ B) (A ++ R' ++ B).
Proof. intros P. now apply Permutation_app_head, Permutation_app_tail. Qed.
Lemma end_down_null num e L : null_or_in (fst e) L -> null_or_in (fst (end_down num e)) L.
Proof. intros H. unfold end_down. destruct ((fst e =? 0) && (0 <=? snd e)); [left; reflexivity|exact H]. Qed.
Lemma down_chunk_ok w L A R B mt mb max num : inv w (w_main w ++ w_alt w) L -> w_rows w = A ++ R ++ B -> zlen A = mt -> zlen R = max -> mb + 1 - mt = max -> 0 <= num <= max ->
  exists w', down_chunk mt mb max num w = Ok w' /\ rows_to w w' (A ++ (rev (skipn (Z.to_nat (max - num)) R) ++ firstn (Z.to_nat (max - num)) R) ++ B) /\ inv w' (w_main w' ++ w_alt w') L.
Proof.
  intros I ER HA HR HM HN. unfold down_chunk. set (R1 := firstn (Z.to_nat (max - num)) R). set (R2 := skipn (Z.to_nat (max - num)) R).
  assert (ES : R = R1 ++ R2) by (symmetry; apply firstn_skipn). assert (L2 : zlen R2 = num) by (unfold R2; rewrite skipn_length; lia).
  rewrite ES in ER, HR. rewrite (take_last w L A R1 R2 B mb num I ER L2) by lia. cbn [bind]. rewrite ER.
  pose proof (move_down A R1 R2 B (rev R2) mt num max HA L2 HR (rev_length R2)) as MV.
  destruct (if num <? max then zmove (A ++ (R1 ++ R2) ++ B) (mt + num) mt (max - num) else Ok (A ++ (R1 ++ R2) ++ B)) as [ls|]; [|discriminate]. cbn [bind] in *. rewrite MV. cbn [bind].
  set (ls' := A ++ (rev R2 ++ R1) ++ B). set (w2 := put_rows w ls').
  assert (I2 : inv w2 (w_main w2 ++ w_alt w2) L).
  { apply inv_rows_to; [exact I|]. rewrite ER. apply perm_region. eapply Permutation_trans; [apply Permutation_app_comm|]. apply Permutation_app_tail, Permutation_rev. }
  pose proof (put_rows_to w ls') as RT. fold w2 in RT.
  change (w_sela w) with (w_sela w2). destruct (w_sela w2) eqn:SE; [|exists w2; auto].
  destruct (iv_sel _ _ _ I2 SE) as [S1 S2]. eexists. split; [reflexivity|]. split; [exact RT|]. apply (inv_sel w2); [exact I2|]. intros _. split; now apply end_down_null.
Qed.
Lemma down_rec_ok fuel : forall w L A R B mt mb num, inv w (w_main w ++ w_alt w) L -> w_rows w = A ++ R ++ B -> zlen A = mt -> zlen R = mb + 1 - mt -> 0 <= num ->
  Z.min num (mb + 1 - mt) / 128 <= Z.of_nat fuel -> let n := Z.to_nat (mb + 1 - mt - Z.min num (mb + 1 - mt)) in
  exists w' C, down_rec fuel mt mb num w = Ok w' /\ Permutation C (skipn n R) /\ rows_to w w' (A ++ (C ++ firstn n R) ++ B) /\ inv w' (w_main w' ++ w_alt w') L.
Proof.
  induction fuel as [|fuel IH]; intros w L A R B mt mb num I ER HA HR HN HF; cbv zeta; cbn [down_rec]; destruct (Z.eqb_spec num 0) as [Z0|NZ].
  1,3: subst num; exists w, []; rewrite skipn_all2, firstn_all2 by lia; repeat match goal with |- _ /\ _ => split end; auto; [unfold rows_to; auto].
  all: cbv zeta; assert (EN : (if mb + 1 - mt <? num then mb + 1 - mt else num) = Z.min num (mb + 1 - mt)) by (destruct (Z.ltb_spec (mb + 1 - mt) num); lia); rewrite EN; set (n := Z.min num (mb + 1 - mt)) in *.
  - replace (128 <? n) with false by lia. destruct (down_chunk_ok w L A R B mt mb (mb + 1 - mt) n I ER HA HR eq_refl) as (w' & E & RT & I'); [lia|]. exists w'. eexists. split; [exact E|]. split; [|split; [exact RT|exact I']].
    symmetry. apply Permutation_rev.
  - destruct (Z.ltb_spec 128 n) as [BIG|SM].
    + destruct (down_chunk_ok w L A R B mt mb (mb + 1 - mt) 128 I ER HA HR eq_refl) as (w1 & -> & RT & I1); [lia|]. cbn [bind]. set (k := Z.to_nat (mb + 1 - mt - 128)) in *. set (C1 := rev (skipn k R)) in *.
      assert (LK : zlen C1 = 128) by (unfold C1, k; rewrite rev_length, skipn_length; lia).
      destruct (IH w1 L A (C1 ++ firstn k R) B mt mb (n - 128) I1) as (w2 & C2 & -> & P2 & RT2 & I2); auto; try lia.
      { apply RT. } { rewrite app_length, firstn_length. unfold k. lia. }
      replace (Z.min (n - 128) (mb + 1 - mt)) with (n - 128) in * by lia.
      set (j := Z.to_nat (mb + 1 - mt - (n - 128))) in *. set (m := Z.to_nat (mb + 1 - mt - n)).
      assert (J : (j = length C1 + m)%nat) by (unfold j, m; lia).
      rewrite firstn_app, firstn_all2 in RT2 by lia. rewrite skipn_app, skipn_all2 in P2 by lia. cbn [app] in P2. replace (j - length C1)%nat with m in * by lia.
      rewrite firstn_firstn in RT2. replace (Nat.min m k) with m in RT2 by (unfold m, k; lia).
      exists w2, (C2 ++ C1). split; [reflexivity|]. split.
      * eapply Permutation_trans; [apply Permutation_app; [exact P2|symmetry; apply Permutation_rev]|].
        replace (skipn m R) with (skipn m (firstn k R) ++ skipn k R); [apply Permutation_refl|]. rewrite <- (firstn_skipn k R) at 3. rewrite skipn_app_le; [reflexivity|]. rewrite firstn_length. unfold m, k. lia.
      * split; [|exact I2]. destruct RT as (Q1 & Q2 & Q3 & Q4). destruct RT2 as (V1 & V2 & V3 & V4). unfold rows_to. rewrite V1, V2, V3, V4, Q2, Q3, Q4. rewrite (app_assoc C2 C1). auto.
    + destruct (down_chunk_ok w L A R B mt mb (mb + 1 - mt) n I ER HA HR eq_refl) as (w' & E & RT & I'); [lia|]. exists w'. eexists. split; [exact E|]. split; [|split; [exact RT|exact I']].
      symmetry. apply Permutation_rev.
Qed.
Lemma ins_ok w L A R B mb cy num : inv w (w_main w ++ w_alt w) L -> w_rows w = A ++ R ++ B -> zlen A = cy -> zlen R = mb + 1 - cy -> 0 <= num -> let n := Z.to_nat (mb + 1 - cy - Z.min num (mb + 1 - cy)) in
  exists w' C, ins_rows mb cy num w = Ok w' /\ Permutation C (skipn n R) /\ rows_to w w' (A ++ (C ++ firstn n R) ++ B) /\ inv w' (w_main w' ++ w_alt w') L.
Proof.
  intros I ER HA HR HN n. unfold ins_rows. cbv zeta. replace (mb - cy + 1) with (mb + 1 - cy) by lia.
  assert (EN : (if mb + 1 - cy <? num then mb + 1 - cy else num) = Z.min num (mb + 1 - cy)) by (destruct (Z.ltb_spec (mb + 1 - cy) num); lia). rewrite EN. set (k := Z.min num (mb + 1 - cy)) in *.
  set (R1 := firstn n R). set (R2 := skipn n R). assert (ES : R = R1 ++ R2) by (symmetry; apply firstn_skipn). assert (L2 : zlen R2 = k) by (unfold R2, n; rewrite skipn_length; lia).
  rewrite ES in ER, HR. rewrite (take_last w L A R1 R2 B mb k I ER L2) by lia. cbn [bind].
  destruct (Z.ltb_spec k (mb + 1 - cy)) as [LT|GE].
  - pose proof (move_down A R1 R2 B (rev R2) cy k (mb + 1 - cy) HA L2 HR (rev_length R2)) as MV. replace (k <? mb + 1 - cy) with true in MV by lia. rewrite ER.
    destruct (zmove (A ++ (R1 ++ R2) ++ B) (cy + k) cy (mb + 1 - cy - k)) as [ls|]; [|discriminate]. cbn [bind] in *. rewrite MV. cbn [bind].
    eexists. exists (rev R2). split; [reflexivity|]. split; [symmetry; apply Permutation_rev|]. split; [apply put_rows_to|].
    apply inv_rows_to; [exact I|]. rewrite ER. apply perm_region. eapply Permutation_trans; [apply Permutation_app_comm|]. apply Permutation_app_tail, Permutation_rev.
  - exists w, R2. split; [reflexivity|]. split; [apply Permutation_refl|]. assert (E1 : R1 = []). { rewrite app_length in HR. destruct R1; [reflexivity|cbn [length] in HR; lia]. }
    split; [|exact I]. unfold rows_to. rewrite ER, E1, app_nil_r. auto.
Qed.
Lemma del_ok w L A R B mb cy num : inv w (w_main w ++ w_alt w) L -> w_rows w = A ++ R ++ B -> zlen A = cy -> zlen R = mb + 1 - cy -> 0 <= num -> let n := Z.to_nat (Z.min num (mb + 1 - cy)) in
  exists w', del_rows mb cy num w = Ok w' /\ rows_to w w' (A ++ (skipn n R ++ firstn n R) ++ B) /\ inv w' (w_main w' ++ w_alt w') L.
Proof.
  intros I ER HA HR HN n. unfold del_rows. cbv zeta. replace (mb - cy + 1) with (mb + 1 - cy) by lia.
  assert (EN : (if mb + 1 - cy <? num then mb + 1 - cy else num) = Z.min num (mb + 1 - cy)) by (destruct (Z.ltb_spec (mb + 1 - cy) num); lia). rewrite EN. set (k := Z.min num (mb + 1 - cy)) in *.
  set (R1 := firstn n R). set (R2 := skipn n R). assert (ES : R = R1 ++ R2) by (symmetry; apply firstn_skipn). assert (L1 : zlen R1 = k) by (unfold R1, n; rewrite firstn_length; lia).
  rewrite ES in ER, HR. rewrite (take_first w L A R1 R2 B cy k I ER L1) by lia. cbn [bind].
  destruct (Z.ltb_spec k (mb + 1 - cy)) as [LT|GE].
  - pose proof (move_up A R1 R2 B R1 cy k (mb + 1 - cy) HA L1 HR eq_refl) as MV. replace (k <? mb + 1 - cy) with true in MV by lia. rewrite ER.
    destruct (zmove (A ++ (R1 ++ R2) ++ B) cy (cy + k) (mb + 1 - cy - k)) as [ls|]; [|discriminate]. cbn [bind] in *. rewrite MV. cbn [bind].
    eexists. split; [reflexivity|]. split; [apply put_rows_to|].
    apply inv_rows_to; [exact I|]. rewrite ER. apply perm_region. apply Permutation_app_comm.
  - exists w. split; [reflexivity|]. assert (E2 : R2 = []). { rewrite app_length in HR. destruct R2; [reflexivity|cbn [length] in HR; lia]. }
    split; [|exact I]. unfold rows_to. rewrite ER, E2, app_nil_r. auto.
Qed.

(* -- more rows --------------------------------------------------------------------------------------------------------------- *)
Lemma grow_rows_ok n : forall al k w L, inv w (w_main w ++ w_alt w) L -> fair al -> exists w' b ms als, grow_rows n al k w = Ok (w', b) /\ w_main w' = w_main w ++ ms /\ w_alt w' = w_alt w ++ als /\
  length ms = length als /\ ((length ms <= n)%nat /\ (plenty al -> length ms = n)) /\ w_act w' = w_act w /\ w_max w' = w_max w /\ inv w' (w_main w' ++ w_alt w') L.
Proof.
  induction n as [|n IH]; intros al k w L I FA; cbn [grow_rows].
  - exists w, true, [], []. rewrite !app_nil_r. cbn [length]. auto 12.
  - assert (SAME : forall h, (plenty al -> False) -> inv (put_heap w h) (w_main w ++ w_alt w) L -> exists w' b ms als, Ok (put_heap w h, false) = Ok (w', b) /\ w_main w' = w_main w ++ ms /\ w_alt w' = w_alt w ++ als /\
      length ms = length als /\ ((length ms <= S n)%nat /\ (plenty al -> length ms = S n)) /\ w_act w' = w_act w /\ w_max w' = w_max w /\ inv w' (w_main w' ++ w_alt w') L).
    { intros h NP IH'. exists (put_heap w h), false, [], []. rewrite !app_nil_r. cbn [length]. repeat match goal with |- _ /\ _ => split end; auto; [lia|]. intros PL. destruct (NP PL). }
    destruct (al k (w_heap w)) as [p|] eqn:AP.
    + destruct (FA _ _ _ AP) as [P0 PN]. pose proof (inv_new _ _ _ p I P0 PN) as I1. destruct (al (k + 1) (hnew (w_heap w) p)) as [q|] eqn:AQ.
      * destruct (FA _ _ _ AQ) as [Q0 QN]. pose proof (inv_new _ _ _ q I1 Q0 QN) as I2. cbn [put_heap w_heap] in I2.
        destruct (IH al (k + 2) (mkW (w_main w ++ [p]) (w_alt w ++ [q]) (w_act w) (w_first w) (w_last w) (w_count w) (w_max w) (w_pos w)
             (w_sela w) (w_sel1 w) (w_sel2 w) (hnew (hnew (w_heap w) p) q)) L) as (w' & b & ms & als & E & M1 & M2 & M3 & (M4 & M4') & M5 & M6 & M7); [|exact FA|].
        { cbn [w_main w_alt]. apply (inv_perm _ (q :: p :: w_main w ++ w_alt w)); [apply (inv_rows (put_heap (put_heap w (hnew (w_heap w) p)) (hnew (hnew (w_heap w) p) q))); auto|].
          eapply Permutation_trans; [apply perm_swap|]. rewrite <- app_assoc. cbn [app]. eapply Permutation_trans; [|apply Permutation_middle]. apply perm_skip. rewrite app_assoc. apply Permutation_cons_append. }
        exists w', b, (p :: ms), (q :: als). cbn [w_main w_alt w_act w_max] in *. rewrite <- app_assoc in M1, M2. cbn [app length] in *. repeat match goal with |- _ /\ _ => split end; auto; try lia.
      * destruct (free_ok _ _ p _ I1) as (w2 & E & _ & _). unfold free_line in E. rewrite forget_heap in E. cbn [put_heap w_heap] in E. cbn [hnew hfree] in *. rewrite Z.eqb_refl. cbn [bind]. apply SAME; [intros PL; exact (PL _ _ AQ)|].
        apply (inv_rows w); auto.
    + assert (W : put_heap w (w_heap w) = w) by now destruct w. specialize (SAME (w_heap w)). rewrite W in SAME. exact (SAME (fun PL => PL _ _ AP) I).
Qed.
Lemma touch_all_ok h ps : (forall p, In p ps -> exists o, hget h p = Ok o) -> touch_all h ps = Ok tt.
Proof. induction ps as [|p ps IH]; intros H; [reflexivity|]. cbn [touch_all]. destruct (H p) as [o ->]; [left; reflexivity|]. cbn [bind]. apply IH. intros; apply H; right; assumption. Qed.
Lemma grow_ok y arrays al w L : inv w (w_main w ++ w_alt w) L -> fair al -> exists w' ms als, grow y arrays al w = Ok w' /\ w_main w' = w_main w ++ ms /\ w_alt w' = w_alt w ++ als /\
  length ms = length als /\ (zlen (w_main w') <= Z.max y (zlen (w_main w)) /\ (arrays = true -> plenty al -> zlen (w_main w') = Z.max y (zlen (w_main w)))) /\ w_act w' = w_act w /\ w_max w' = w_max w /\ inv w' (w_main w' ++ w_alt w') L.
Proof.
  intros I FA. unfold grow.
  assert (GEN : exists w' b ms als, (if zlen (w_main w) <? y then if arrays then grow_rows (Z.to_nat (y - zlen (w_main w))) al 0 w else Ok (w, false) else Ok (w, true)) = Ok (w', b) /\ w_main w' = w_main w ++ ms /\ w_alt w' = w_alt w ++ als /\
    length ms = length als /\ (zlen (w_main w') <= Z.max y (zlen (w_main w)) /\ (arrays = true -> plenty al -> zlen (w_main w') = Z.max y (zlen (w_main w)))) /\ w_act w' = w_act w /\ w_max w' = w_max w /\ inv w' (w_main w' ++ w_alt w') L).
  { assert (SAME : forall b : bool, (arrays = true -> y <= zlen (w_main w)) -> exists w' b0 ms als, Ok (w, b) = Ok (w', b0) /\ w_main w' = w_main w ++ ms /\ w_alt w' = w_alt w ++ als /\
      length ms = length als /\ (zlen (w_main w') <= Z.max y (zlen (w_main w)) /\ (arrays = true -> plenty al -> zlen (w_main w') = Z.max y (zlen (w_main w)))) /\ w_act w' = w_act w /\ w_max w' = w_max w /\ inv w' (w_main w' ++ w_alt w') L).
    { intros b LE. exists w, b, [], []. rewrite !app_nil_r. repeat match goal with |- _ /\ _ => split end; auto; [lia|]. intros a _. specialize (LE a). lia. }
    destruct (Z.ltb_spec (zlen (w_main w)) y) as [LT|GE]; [|apply SAME; intros _; exact GE]. destruct arrays; [|apply SAME; discriminate].
    destruct (grow_rows_ok (Z.to_nat (y - zlen (w_main w))) al 0 w L I FA) as (w' & b & ms & als & E & M1 & M2 & M3 & (M4 & M4') & M5 & M6 & M7).
    exists w', b, ms, als. repeat match goal with |- _ /\ _ => split end; auto; rewrite M1, app_length; [lia|]. intros _ PL. rewrite (M4' PL). lia. }
  destruct GEN as (w' & b & ms & als & -> & M1 & M2 & M3 & M4 & M5 & M6 & M7). cbn [bind]. exists w', ms, als. split; [|auto 10].
  destruct b; [|reflexivity]. rewrite touch_all_ok; [reflexivity|]. intros p P. apply (iv_in _ _ _ _ M7). apply in_or_app. auto.
Qed.

(* -- the scrollback calls ------------------------------------------------------------------------------------------------------- *)
Lemma trim_ok n : forall w live L, inv w live L -> (n <= length L)%nat -> exists w', trim n w = Ok w' /\ inv w' live (skipn n L) /\ same_rows w w'.
Proof.
  induction n as [|n IH]; intros w live L I H; cbn [trim]; [exists w; cbn [skipn]; unfold same_rows; auto 10|]. destruct L as [|x L]; [cbn [length] in H; lia|].
  destruct (unlink_ok w live x L I) as (h & U & _). rewrite U. cbn [bind]. rewrite (iv_first _ _ _ I). cbn [hd]. set (w1 := put_list w (hd 0 L) (last L 0) (zlen L) h) in *.
  change (w_pos w1) with (w_pos w). change (w_first w1) with (hd 0 L).
  assert (W2 : exists p, (if w_pos w =? x then put_pos w1 (hd 0 L) else w1) = put_pos w1 p /\ null_or_in p L).
  { destruct (Z.eqb_spec (w_pos w) x) as [E|N].
    - exists (hd 0 L). split; [reflexivity|]. destruct (hd_in L) as [[_ ->]|Q]; [left; reflexivity|right; exact Q].
    - exists (w_pos w). split; [reflexivity|]. destruct (iv_pos _ _ _ I) as [Z0|[Q|Q]]; [left; exact Z0|congruence|right; exact Q]. }
  destruct W2 as (p & -> & P). destruct (drop_first w w1 live x L p I U) as (w2 & -> & I2 & R2 & Q2). cbn [bind].
  assert (I3 : inv w2 live L). { rewrite <- (put_pos_same w2), Q2. rewrite <- (put_pos_twice w2 0). now apply inv_pos. }
  destruct (IH w2 live L I3) as (w3 & -> & I4 & R4); [cbn [length] in H; lia|]. exists w3. split; [reflexivity|]. split; [exact I4|].
  destruct R2 as (A1 & A2 & A3 & A4). destruct R4 as (B1 & B2 & B3 & B4). unfold same_rows. repeat match goal with |- _ /\ _ => split end; congruence.
Qed.
Lemma max_ok m w live L : inv w live L -> 0 <= m < 2 ^ 32 -> exists w', max_sb m w = Ok w' /\ inv w' live (youngest m L) /\ w_main w' = w_main w /\ w_alt w' = w_alt w /\ w_act w' = w_act w /\ w_max w' = m.
Proof.
  intros I HM. unfold max_sb. rewrite (iv_count _ _ _ I). replace (Z.to_nat (zlen L - m)) with (length L - Z.to_nat m)%nat by lia.
  destruct (trim_ok (length L - Z.to_nat m) w live L I) as (w1 & -> & I1 & R1); [lia|]. cbn [bind]. eexists. split; [reflexivity|]. destruct R1 as (A1 & A2 & A3 & A4).
  split; [|cbn; auto]. fold (youngest m L) in I1. destruct I1. constructor; cbn [put_max w_heap w_first w_last w_count w_max w_pos w_sela w_sel1 w_sel2]; auto.
  unfold youngest. rewrite skipn_length. lia.
Qed.
Lemma free_list_ok L : forall n h prev, dll h prev L -> NoDup (dom h) -> NoDup L -> ~ In 0 L -> (length L < n)%nat -> exists h', free_list n h (hd 0 L) = Ok h' /\ Permutation (dom h) (L ++ dom h').
Proof.
  induction L as [|x L IH]; intros n h prev D ND NL N0 H; (destruct n as [|n]; [cbn [length] in H; lia|]); cbn [free_list hd].
  - change (0 =? 0) with true. cbv iota. exists h. split; [reflexivity|apply Permutation_refl].
  - destruct (Z.eqb_spec x 0) as [->|X0]; [exfalso; apply N0; left; reflexivity|]. destruct D as [E D]. rewrite E. cbn [bind o_next].
    destruct (hfree_ok h x ND (hget_in _ _ _ E)) as (h1 & -> & P & G). cbn [bind]. inversion NL as [|? ? N1 N2]; subst.
    destruct (IH n h1 x) as (h2 & -> & P2).
    + apply (dll_frame h); [exact D|]. intros q Q. apply G. intros ->. contradiction.
    + apply (Permutation_NoDup P) in ND. inversion ND; assumption.
    + exact N2. + intros Q. apply N0. right. exact Q. + cbn [length] in H. lia.
    + exists h2. split; [reflexivity|]. eapply Permutation_trans; [exact P|]. cbn [app]. now apply perm_skip.
Qed.
Lemma clear_ok w live L : inv w live L -> exists w', clear_list w = Ok w' /\ inv w' live [] /\ same_rows w w'.
Proof.
  intros I. unfold clear_list. rewrite (iv_first _ _ _ I). destruct (free_list_ok L (S (length (w_heap w))) (w_heap w) 0) as (h & -> & P).
  - exact (iv_dll _ _ _ I). - exact (iv_dom _ _ _ I). - exact (nd_right _ _ (iv_nd _ _ _ I)). - intros Q. apply (iv_null _ _ _ I). apply in_or_app. auto. - pose proof (heap_len _ _ _ I). lia.
  - cbn [bind]. set (w1 := put_pos (put_list w 0 0 0 h) 0).
    assert (X : forall b e1 e2, (b = true -> fst e1 = 0 /\ fst e2 = 0) -> inv (put_sel w1 b e1 e2) live []).
    { intros b e1 e2 Hb. assert (PL : Permutation (dom h) live). { apply (Permutation_app_inv_l L). eapply Permutation_trans; [symmetry; exact P|]. eapply Permutation_trans; [exact (iv_pm _ _ _ I)|apply Permutation_app_comm]. }
      pose proof (iv_max _ _ _ I) as MX. pose proof (iv_nd _ _ _ I) as ND. pose proof (iv_null _ _ _ I) as NN.
      constructor; cbn [w1 put_sel put_pos put_list w_heap w_first w_last w_count w_max w_pos w_sela w_sel1 w_sel2]; rewrite ?app_nil_r; auto.
      - apply (Permutation_NoDup PL). pose proof (iv_dom _ _ _ I) as N1. apply (Permutation_NoDup P) in N1. exact (nd_right _ _ N1).
      - intros Q. apply NN. apply in_or_app. auto.
      - exact Coq.Init.Logic.I.
      - cbn [length]. lia.
      - left. reflexivity.
      - intros b'. destruct (Hb b'). split; left; assumption. }
    destruct (w_sela w1) eqn:SE.
    + eexists. split; [reflexivity|]. split; [|unfold same_rows; cbn; auto]. apply X. intros _. split; unfold clear_end; destruct (Z.eqb_spec (fst (w_sel1 w1)) 0), (Z.eqb_spec (fst (w_sel2 w1)) 0); auto.
    + exists w1. split; [reflexivity|]. split; [|unfold same_rows; cbn; auto]. assert (W : w1 = put_sel w1 false (w_sel1 w1) (w_sel2 w1)) by (rewrite <- SE; now destruct w1). rewrite W. apply X. discriminate.
Qed.
Lemma view_up_ok n : forall w live L, inv w live L -> exists w', view_up n w = Ok w' /\ inv w' live L /\ same_rows w w'.
Proof.
  induction n as [|n IH]; intros w live L I; cbn [view_up]; [exists w; unfold same_rows; auto 10|].
  assert (ST : forall p, null_or_in p L -> exists w', view_up n (put_pos w p) = Ok w' /\ inv w' live L /\ same_rows w w'). { intros p P. exact (IH (put_pos w p) live L (inv_pos _ _ _ _ I P)). }
  assert (KP : exists w', Ok w = Ok w' /\ inv w' live L /\ same_rows w w') by (exists w; unfold same_rows; auto 10).
  destruct (Z.eqb_spec (w_pos w) 0) as [P0|PN].
  - destruct (Z.eqb_spec (w_last w) 0); [exact KP|]. apply ST. rewrite (iv_last _ _ _ I). destruct (last_in L 0) as [[_ ->]|Q]; [left; reflexivity|right; exact Q].
  - destruct (iv_pos _ _ _ I) as [?|IP]; [contradiction|]. destruct (next_in _ _ _ _ I IP) as (o & -> & _ & PV). cbn [bind]. destruct (o_prev o =? 0); [exact KP|now apply ST].
Qed.
Lemma view_down_ok n : forall w live L, inv w live L -> exists w', view_down n w = Ok w' /\ inv w' live L /\ same_rows w w'.
Proof.
  induction n as [|n IH]; intros w live L I; cbn [view_down]; [exists w; unfold same_rows; auto 10|].
  destruct (Z.eqb_spec (w_pos w) 0) as [P0|PN]; [exists w; unfold same_rows; auto 10|]. destruct (iv_pos _ _ _ I) as [?|IP]; [contradiction|].
  destruct (next_in _ _ _ _ I IP) as (o & -> & NX & _). cbn [bind]. exact (IH (put_pos w (o_next o)) live L (inv_pos _ _ _ _ I NX)).
Qed.
Lemma sel_find_ok h B : forall n A y, dll h 0 (A ++ B) -> (length B < n)%nat -> exists e, sel_find n h (hd 0 B) y = Ok e /\ null_or_in (fst e) B.
Proof.
  induction B as [|x B IH]; intros n A y D H; (destruct n as [|n]; [cbn [length] in H; lia|]); cbn [sel_find hd].
  - rewrite Z.eqb_refl, orb_true_r. eexists. split; [reflexivity|left; reflexivity].
  - destruct ((y =? 0) || (x =? 0)); [eexists; split; [reflexivity|right; left; reflexivity]|]. rewrite (dll_mid _ _ _ _ _ D). cbn [bind o_next].
    destruct (IH n (A ++ [x]) (y - 1)) as (e & E & N). { rewrite <- app_assoc. exact D. } { cbn [length] in H. lia. }
    exists e. split; [exact E|]. apply (null_or_in_in _ _ _ N). intros z Z. right. exact Z.
Qed.
Lemma find_end_ok w live L y : inv w live L -> exists e, find_end w y = Ok e /\ null_or_in (fst e) L.
Proof.
  intros I. unfold find_end. pose proof (heap_len _ _ _ I) as HL. destruct (iv_pos _ _ _ I) as [P0|IP].
  - rewrite P0. cbn [sel_find]. rewrite Z.eqb_refl, orb_true_r. cbn [bind]. eexists. split; [reflexivity|left; reflexivity].
  - destruct (in_split _ _ IP) as (A & B & E). destruct (sel_find_ok (w_heap w) (w_pos w :: B) (S (S (length (w_heap w)))) A (u32 y)) as (e & EQ & N).
    + rewrite <- E. exact (iv_dll _ _ _ I). + rewrite E, app_length in HL. lia.
    + match goal with |- context [sel_find ?a ?b ?c ?d] => assert (X : sel_find a b c d = Ok e) by exact EQ; rewrite X end. cbn [bind]. eexists. split; [reflexivity|]. apply (null_or_in_in _ _ _ N). intros z Z. rewrite E. apply in_or_app. auto.
Qed.
Lemma draw_ok w L n : inv w (w_main w ++ w_alt w) L -> forall iter k, null_or_in iter L -> 0 <= k -> k + Z.of_nat n <= zlen (w_rows w) -> exists r, draw_rows n w iter k = Ok r.
Proof.
  intros I. induction n as [|n IH]; intros iter k N K0 K; cbn [draw_rows]; [eauto|]. destruct (Z.eqb_spec iter 0) as [I0|IN].
  - destruct (znth_is (w_rows w) k) as (x & X & XI); [lia|]. rewrite (zget_ok _ _ _ X). cbn [bind]. destruct (iv_in _ _ _ x I) as [o ->]; [now apply rows_alive|]. cbn [bind].
    destruct (IH 0 (k + 1)) as [r ->]; [left; reflexivity|lia|lia|]. cbn [bind]. eauto.
  - destruct N as [?|IP]; [contradiction|]. destruct (next_in _ _ _ _ I IP) as (o & -> & NX & _). cbn [bind]. destruct (IH (o_next o) k NX) as [r ->]; [lia|lia|]. cbn [bind]. eauto.
Qed.
Lemma touch_sel_ok w live L : inv w live L -> touch_sel w = Ok tt.
Proof.
  intros I. unfold touch_sel. destruct (w_sela w) eqn:SE; [|reflexivity]. destruct (iv_sel _ _ _ I SE) as [S1 S2].
  assert (X : forall e, null_or_in (fst e) L -> touch_end w e = Ok tt).
  { intros e N. unfold touch_end. destruct (Z.eqb_spec (fst e) 0); [reflexivity|]. destruct N as [?|IN]; [contradiction|]. destruct (next_in _ _ _ _ I IN) as (o & -> & _). reflexivity. }
  rewrite (X _ S1). cbn [bind]. now apply X.
Qed.

(* -- the end ---------------------------------------------------------------------------------------------------------------------- *)
Lemma free_pairs_ok ms : forall als h L, length ms = length als -> NoDup (dom h) -> Permutation (dom h) ((ms ++ als) ++ L) -> exists h', free_pairs h ms als = Ok h' /\ Permutation (dom h') L /\
  forall q, ~ In q (ms ++ als) -> hget h' q = hget h q.
Proof.
  induction ms as [|p ms IH]; intros als h L EL ND P; (destruct als as [|q als]; try discriminate EL); cbn [free_pairs]; [exists h; auto|].
  assert (P' : Permutation ((p :: ms ++ q :: als) ++ L) (p :: q :: (ms ++ als) ++ L)). { cbn [app]. apply perm_skip. rewrite <- !app_assoc. cbn [app]. symmetry. apply Permutation_middle. }
  pose proof (Permutation_trans P P') as P1.
  destruct (hfree_ok h p ND) as (h1 & -> & Q1 & G1). { apply (Permutation_in _ (Permutation_sym P1)). left. reflexivity. } cbn [bind].
  pose proof (Permutation_cons_inv (Permutation_trans (Permutation_sym Q1) P1)) as P2. assert (ND1 : NoDup (dom h1)). { apply (Permutation_NoDup Q1) in ND. inversion ND; assumption. }
  destruct (hfree_ok h1 q ND1) as (h2 & -> & Q2 & G2). { apply (Permutation_in _ (Permutation_sym P2)). left. reflexivity. } cbn [bind].
  pose proof (Permutation_cons_inv (Permutation_trans (Permutation_sym Q2) P2)) as P3. assert (ND2 : NoDup (dom h2)). { apply (Permutation_NoDup Q2) in ND1. inversion ND1; assumption. }
  destruct (IH als h2 L) as (h3 & E & P4 & G3); [cbn [length] in EL; congruence|exact ND2|exact P3|]. exists h3. split; [exact E|]. split; [exact P4|].
  intros z Z. rewrite G3, G2, G1; [reflexivity| | |].
  - intros ->. apply Z. left. reflexivity.
  - intros ->. apply Z. right. apply in_or_app. right. left. reflexivity.
  - intros Q. apply Z. right. apply in_app_or in Q. apply in_or_app. cbn [In]. tauto.
Qed.
Lemma destroy_ok w L : well w L -> destroy w = Ok [].
Proof.
  intros W. pose proof (well_inv _ _ W) as I. unfold destroy.
  destruct (free_pairs_ok (w_main w) (w_alt w) (w_heap w) L) as (h & -> & P & G); [pose proof (wl_pairs _ _ W); lia|exact (iv_dom _ _ _ I)|exact (iv_pm _ _ _ I)|]. cbn [bind].
  pose proof (iv_nd _ _ _ I) as ND.
  assert (I2 : inv (put_heap w h) [] L).
  { pose proof (iv_null _ _ _ I) as NN. destruct I. constructor; cbn [put_heap w_heap w_first w_last w_count w_max w_pos w_sela w_sel1 w_sel2 app]; auto.
    - exact (nd_right _ _ ND).
    - intros Q. apply NN. apply in_or_app. auto.
    - apply (dll_frame (w_heap w)); [exact iv_dll|]. intros q Q. apply G. intros Z. clear - ND Q Z. induction (w_main w ++ w_alt w) as [|a l IH]; [exact Z|]. cbn [app] in ND. inversion ND as [|? ? N1 N2]; subst.
      destruct Z as [->|Z]; [apply N1; apply in_or_app; auto|auto]. }
  destruct (clear_ok _ _ _ I2) as (w' & -> & I3 & _). cbn [bind]. pose proof (iv_pm _ _ _ I3) as P3. cbn [app] in P3. apply Permutation_sym, Permutation_nil in P3. destruct (w_heap w'); [reflexivity|discriminate].
Qed.
