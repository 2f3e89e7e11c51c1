(* Theorems about Own.v in the words of OwnSpec.v. *)
From Verif Require Import Base BaseProofs Screen Own OwnSpec OwnProofs OwnRows.
From Coq Require Import Permutation.

Lemma rows_len w sb : well w sb -> zlen (w_rows w) = zlen (w_main w).
Proof. intros W. pose proof (wl_pairs _ _ W). unfold w_rows. destruct (w_act w); congruence. Qed.
Lemma rows_to_region w w' sb A R R' B top n (P : list Z -> list Z -> Prop) : well w sb -> w_rows w = A ++ R ++ B -> zlen A = top -> zlen R = n -> P R R' -> rows_to w w' (A ++ R' ++ B) -> length R' = length R ->
  region_becomes w w' top n P /\ zlen (w_main w') = zlen (w_alt w').
Proof.
  intros W ER HA HR HP (Q1 & Q2 & Q3 & Q4) HL. pose proof (wl_pairs _ _ W) as WP. split.
  - exists A, R, R', B. unfold w_other in Q2. rewrite Q3 in Q2. repeat match goal with |- _ /\ _ => split end; auto. destruct (w_act w); exact Q2.
  - assert (LL : zlen (w_rows w') = zlen (w_rows w)) by (rewrite Q1, ER, !app_length; lia). unfold w_rows, w_other in *. rewrite Q3 in *. destruct (w_act w); congruence.
Qed.
Lemma well_of w w' sb : inv w' (w_main w' ++ w_alt w') sb -> zlen (w_main w) = zlen (w_alt w) -> same_rows w w' -> well w' sb.
Proof. intros I E (A1 & A2 & _). apply inv_well; [exact I|congruence]. Qed.
Theorem step_well w sb o : well w sb -> in_range w o -> exists w' sb', wstep w o = Ok w' /\ well w' sb' /\ handled w sb o w' sb'.
Proof.
  intros W H. pose proof (well_inv _ _ W) as I. pose proof (wl_pairs _ _ W) as WP. pose proof (rows_len _ _ W) as RL.
  assert (SAME : forall w' : own, inv w' (w_main w ++ w_alt w) sb -> same_rows w w' -> well w' sb).
  { intros w' I' R. apply (well_of w); auto. destruct R as (-> & -> & _). exact I'. }
  destruct o as [y|alt fixed mt mb num al|mt mb num|mb cy num|mb cy num|y arrays al|m| |n|n| |b|y|y| |n]; cbn [in_range wstep] in *.
  - destruct (znth_is (w_rows w) y) as (x & X & XI); [lia|]. rewrite (zget_ok _ _ _ X). cbn [bind]. destruct (iv_in _ _ _ x I) as [o ->]; [now apply rows_alive|]. cbn [bind].
    exists w, sb. unfold handled, buffers_same. auto 10.
  - destruct H as (H1 & H2 & H3 & FA). destruct (region_split (w_rows w) mt (mb + 1 - mt)) as (A & R & B & ER & HA & HR); [lia|lia|lia|].
    destruct (up_rec_ok (up_fuel mt mb num) alt fixed al 0 w sb A R B mt mb num I ER HA HR H3 FA) as (w' & C & G & -> & X1 & X2 & X3 & X4).
    { unfold up_fuel. assert (0 <= Z.min num (mb + 1 - mt) / 128) by (apply Z.div_pos; lia). lia. }
    pose proof (exchanged_length _ _ _ X1) as LC. rewrite firstn_length in LC.
    destruct (rows_to_region w w' sb A R (skipn (Z.to_nat (Z.min num (mb + 1 - mt))) R ++ C) B mt (mb + 1 - mt)
      (fun R R' => let n := Z.to_nat (Z.min num (mb + 1 - mt)) in exists C, exchanged (firstn n R) C G /\ R' = skipn n R ++ C /\ (alt = false -> plenty al -> G = firstn n R)) W ER HA HR) as [RB LE].
    + exists C. split; [exact X1|]. split; [reflexivity|apply X2]. + exact X3. + rewrite app_length, skipn_length. lia.
    + exists w', (youngest (w_max w) (sb ++ G)). split; [reflexivity|]. split; [now apply inv_well|]. split; [apply X3|]. exists G. split; [exact RB|]. split; [apply X2|reflexivity].
  - destruct H as (H1 & H2 & H3). destruct (region_split (w_rows w) mt (mb + 1 - mt)) as (A & R & B & ER & HA & HR); [lia|lia|lia|].
    destruct (down_rec_ok (up_fuel mt mb num) w sb A R B mt mb num I ER HA HR H3) as (w' & C & -> & X1 & X3 & X4).
    { unfold up_fuel. assert (0 <= Z.min num (mb + 1 - mt) / 128) by (apply Z.div_pos; lia). lia. }
    pose proof (Permutation_length X1) as LC. rewrite skipn_length in LC.
    destruct (rows_to_region w w' sb A R (C ++ firstn (Z.to_nat (mb + 1 - mt - Z.min num (mb + 1 - mt))) R) B mt (mb + 1 - mt)
      (fun R R' => let n := Z.to_nat (mb + 1 - mt - Z.min num (mb + 1 - mt)) in exists C, Permutation C (skipn n R) /\ R' = C ++ firstn n R) W ER HA HR) as [RB LE].
    + exists C. auto. + exact X3. + rewrite app_length, firstn_length. lia.
    + exists w', sb. split; [reflexivity|]. split; [now apply inv_well|]. split; [apply X3|]. auto.
  - destruct H as (H1 & H2 & H3). destruct (region_split (w_rows w) cy (mb + 1 - cy)) as (A & R & B & ER & HA & HR); [lia|lia|lia|].
    destruct (ins_ok w sb A R B mb cy num I ER HA HR H3) as (w' & C & -> & X1 & X3 & X4).
    pose proof (Permutation_length X1) as LC. rewrite skipn_length in LC.
    destruct (rows_to_region w w' sb A R (C ++ firstn (Z.to_nat (mb + 1 - cy - Z.min num (mb + 1 - cy))) R) B cy (mb + 1 - cy)
      (fun R R' => let n := Z.to_nat (mb + 1 - cy - Z.min num (mb + 1 - cy)) in exists C, Permutation C (skipn n R) /\ R' = C ++ firstn n R) W ER HA HR) as [RB LE].
    + exists C. auto. + exact X3. + rewrite app_length, firstn_length. lia.
    + exists w', sb. split; [reflexivity|]. split; [now apply inv_well|]. split; [apply X3|]. auto.
  - destruct H as (H1 & H2 & H3). destruct (region_split (w_rows w) cy (mb + 1 - cy)) as (A & R & B & ER & HA & HR); [lia|lia|lia|].
    destruct (del_ok w sb A R B mb cy num I ER HA HR H3) as (w' & -> & X3 & X4).
    destruct (rows_to_region w w' sb A R (skipn (Z.to_nat (Z.min num (mb + 1 - cy))) R ++ firstn (Z.to_nat (Z.min num (mb + 1 - cy))) R) B cy (mb + 1 - cy)
      (fun R R' => let n := Z.to_nat (Z.min num (mb + 1 - cy)) in R' = skipn n R ++ firstn n R) W ER HA HR) as [RB LE].
    + reflexivity. + exact X3. + rewrite app_length, skipn_length, firstn_length. lia.
    + exists w', sb. split; [reflexivity|]. split; [now apply inv_well|]. split; [apply X3|]. auto.
  - destruct (grow_ok y arrays al w sb I H) as (w' & ms & als & -> & M1 & M2 & M3 & M4 & M5 & M6 & M7). exists w', sb. split; [reflexivity|]. split.
    + apply inv_well; [exact M7|]. rewrite M1, M2, !app_length. lia.
    + split; [exact M6|]. exists ms, als. destruct M4. auto 10.
  - destruct (max_ok m w _ sb I H) as (w' & -> & I' & E1 & E2 & E3 & E4). exists w', (youngest m sb). split; [reflexivity|]. split.
    + apply inv_well; [rewrite E1, E2; exact I'|congruence].
    + split; [exact E4|]. unfold buffers_same. auto.
  - destruct (clear_ok w _ sb I) as (w' & -> & I' & E1 & E2 & E3 & E4). exists w', []. split; [reflexivity|]. split.
    + apply inv_well; [rewrite E1, E2; exact I'|congruence].
    + split; [exact E4|]. unfold buffers_same. auto.
  - destruct (view_up_ok (Z.to_nat n) w _ sb I) as (w' & -> & I' & R). exists w', sb. split; [reflexivity|]. split; [now apply SAME|]. destruct R as (E1 & E2 & E3 & E4). split; [exact E4|]. unfold buffers_same. auto.
  - destruct (view_down_ok (Z.to_nat n) w _ sb I) as (w' & -> & I' & R). exists w', sb. split; [reflexivity|]. split; [now apply SAME|]. destruct R as (E1 & E2 & E3 & E4). split; [exact E4|]. unfold buffers_same. auto.
  - exists (put_pos w 0), sb. split; [reflexivity|]. split; [apply SAME; [apply inv_pos; [exact I|left; reflexivity]|unfold same_rows; auto 10]|]. split; [reflexivity|]. unfold buffers_same. auto 10.
  - exists (put_act w b), sb. split; [reflexivity|]. split; [apply inv_well; [apply (inv_rows w); auto|exact WP]|]. split; [reflexivity|]. cbn. auto 10.
  - destruct (find_end_ok w _ sb y I) as (e & -> & N). cbn [bind]. eexists. exists sb. split; [reflexivity|]. split; [apply SAME; [apply inv_sel; auto|unfold same_rows; auto 10]|]. split; [reflexivity|]. unfold buffers_same. auto 10.
  - destruct (w_sela w) eqn:SE.
    + destruct (find_end_ok w _ sb y I) as (e & -> & N). cbn [bind]. eexists. exists sb. split; [reflexivity|].
      split; [apply SAME; [apply inv_sel; [exact I|]; intros _; destruct (iv_sel _ _ _ I SE); auto|unfold same_rows; auto 10]|]. split; [reflexivity|]. unfold buffers_same. auto 10.
    + exists w, sb. unfold handled, buffers_same. auto 10.
  - exists (put_sel w false (w_sel1 w) (w_sel2 w)), sb. split; [reflexivity|]. split; [apply SAME; [apply inv_sel; [exact I|discriminate]|unfold same_rows; auto 10]|]. split; [reflexivity|]. unfold buffers_same. auto 10.
  - rewrite (touch_sel_ok _ _ _ I). cbn [bind]. destruct (draw_ok w sb (Z.to_nat n) I (w_pos w) 0 (iv_pos _ _ _ I)) as [r ->]; [lia|lia|]. cbn [bind]. exists w, sb. unfold handled, buffers_same. auto 10.
Qed.
Lemma run_well_from os : forall w sb, well w sb -> proper w os -> exists w' sb', wrun w os = Ok w' /\ well w' sb'.
Proof.
  induction os as [|o os IH]; intros w sb W P; cbn [wrun]; [eauto|]. destruct P as [P1 P2]. destruct (step_well w sb o W P1) as (w1 & sb1 & E & W1 & _). rewrite E. cbn [bind].
  exact (IH w1 sb1 W1 (P2 w1 E)).
Qed.
Lemma new_well : well own_new [].
Proof.
  constructor; cbn; auto; try lia.
  - constructor. - left. reflexivity.
Qed.
Theorem run_well os : proper own_new os -> exists w sb, wrun own_new os = Ok w /\ well w sb /\ destroy w = Ok [].
Proof. intros P. destruct (run_well_from os own_new [] new_well P) as (w & sb & E & W). exists w, sb. split; [exact E|]. split; [exact W|]. exact (destroy_ok _ _ W). Qed.
