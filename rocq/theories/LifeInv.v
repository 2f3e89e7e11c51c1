(* Lemmas about Life.v, concluded: what holds after every history. *)
From Verif Require Import Base BaseProofs Life LifeSpec LifeProofs LifeScr LifeCalls LifeThms.
From Coq Require Import Permutation.

Definition hc (h : list handle) (x : handle) : Z := Z.of_nat (count_occ handle_eq_dec h x).
Definition nv (V : list gvte) (p : Z) : Z := Z.of_nat (count_occ Z.eq_dec (map (fun v => t_con (vt v)) V) p).
Definition all (S : list gscr) (V : list gvte) : mem := flat_map scells S ++ flat_map vcells V.
Record inv (w : world) (h : list handle) (S : list gscr) (V : list gvte) : Prop := mkInv {
  i_mem : hw w (all S V);
  i_wf : forall g, In g S -> wf g;
  i_sref : forall g, In g S -> r_ref (gs g) = hc h (HScr (gp g)) + nv V (gp g) /\ 0 < r_ref (gs g);
  i_vref : forall v, In v V -> t_ref (vt v) = hc h (HVte (vp v)) /\ 0 < t_ref (vt v);
  i_con : forall v, In v V -> exists g, In g S /\ gp g = t_con (vt v);
  i_hs : forall p, 0 < hc h (HScr p) -> exists g, In g S /\ gp g = p;
  i_hv : forall p, 0 < hc h (HVte p) -> exists v, In v V /\ vp v = p
}.

Lemma all_s : forall g S V, all (g :: S) V = scells g ++ all S V.
Proof. intros. unfold all. cbn [flat_map]. rewrite app_assoc. reflexivity. Qed.
Lemma all_v : forall v S V, Permutation (all S (v :: V)) (vcells v ++ all S V).
Proof. intros. unfold all. cbn [flat_map]. perm. Qed.
Lemma hc_cons : forall x h y, hc (x :: h) y = (if handle_eq_dec x y then 1 else 0) + hc h y.
Proof. intros. unfold hc. cbn [count_occ]. destruct (handle_eq_dec x y); lia. Qed.
Lemma hc_back : forall x h y, In x h -> hc (give_back x h) y = hc h y - (if handle_eq_dec x y then 1 else 0).
Proof.
  intros x h y. induction h as [|z r IH]; intro I; [destruct I|]. cbn [give_back]. rewrite hc_cons. destruct (handle_eq_dec x z) as [->|N].
  - lia.
  - destruct I as [->|I]; [contradiction|]. rewrite hc_cons, (IH I). lia.
Qed.
Lemma hc_in : forall h x, In x h <-> 0 < hc h x.
Proof. intros. unfold hc. rewrite (count_occ_In handle_eq_dec). lia. Qed.
Lemma hc_nonneg : forall h x, 0 <= hc h x.
Proof. intros. unfold hc. lia. Qed.
Lemma hc_le : forall h x, hc h x <= zlen h.
Proof. intros. unfold hc. pose proof (count_occ_bound handle_eq_dec x h). lia. Qed.
Lemma nv_cons : forall v V p, nv (v :: V) p = (if t_con (vt v) =? p then 1 else 0) + nv V p.
Proof. intros. unfold nv. cbn [map count_occ]. destruct (Z.eq_dec (t_con (vt v)) p) as [->|N]; [rewrite Z.eqb_refl; lia|]. destruct (t_con (vt v) =? p) eqn:E; lia. Qed.
Lemma nv_in : forall V p, 0 < nv V p -> exists v, In v V /\ t_con (vt v) = p.
Proof.
  intros V p H. unfold nv in H. assert (I : In p (map (fun v => t_con (vt v)) V)) by (apply (count_occ_In Z.eq_dec); lia).
  apply in_map_iff in I. destruct I as (v & E & I). exists v. auto.
Qed.
Lemma nv_pos : forall v V, In v V -> 0 < nv V (t_con (vt v)).
Proof.
  intros v V I. unfold nv. assert (J : In (t_con (vt v)) (map (fun v => t_con (vt v)) V)) by (apply in_map_iff; exists v; auto).
  apply (count_occ_In Z.eq_dec) in J. lia.
Qed.
Lemma nv_nonneg : forall V p, 0 <= nv V p.
Proof. intros. unfold nv. lia. Qed.
Lemma nv_le : forall V p, nv V p <= zlen V.
Proof. intros. unfold nv. pose proof (count_occ_bound Z.eq_dec p (map (fun v => t_con (vt v)) V)). rewrite map_length in *. lia. Qed.
Lemma nv_perm : forall V V' p, Permutation V V' -> nv V p = nv V' p.
Proof. intros V V' p P. unfold nv. f_equal. apply (Permutation_count_occ Z.eq_dec). apply Permutation_map. exact P. Qed.

Lemma perm_all : forall S S' V V', Permutation S S' -> Permutation V V' -> Permutation (all S V) (all S' V').
Proof. intros. unfold all. apply Permutation_app; apply Permutation_flat_map; assumption. Qed.
Lemma inv_perm : forall w h S V S' V', Permutation S S' -> Permutation V V' -> inv w h S V -> inv w h S' V'.
Proof.
  intros w h S V S' V' PS PV [M W RS RV C HS HV].
  assert (IS : forall g, In g S' -> In g S) by (intros g I; apply (Permutation_in _ (Permutation_sym PS) I)).
  assert (IV : forall v, In v V' -> In v V) by (intros v I; apply (Permutation_in _ (Permutation_sym PV) I)).
  constructor.
  - eapply hw_perm; [exact M|]. apply perm_all; assumption.
  - auto.
  - intros g I. rewrite <- (nv_perm V V') by exact PV. auto.
  - auto.
  - intros v I. destruct (C v (IV v I)) as (g & J & E). exists g. split; [apply (Permutation_in _ PS J)|exact E].
  - intros p L. destruct (HS p L) as (g & J & E). exists g. split; [apply (Permutation_in _ PS J)|exact E].
  - intros p L. destruct (HV p L) as (g & J & E). exists g. split; [apply (Permutation_in _ PV J)|exact E].
Qed.
Lemma focus : forall {A} (x : A) l, In x l -> exists l', Permutation l (x :: l').
Proof. intros A x l I. destruct (in_split _ _ I) as (a & b & ->). exists (a ++ b). apply Permutation_sym, Permutation_middle. Qed.
Lemma focus_s : forall w h S V p, inv w h S V -> In (HScr p) h -> exists g S', gp g = p /\ inv w h (g :: S') V.
Proof.
  intros w h S V p I L. destruct (i_hs _ _ _ _ I p) as (g & J & E); [apply hc_in; exact L|]. destruct (focus g S J) as (S' & P).
  exists g, S'. split; [exact E|]. eapply inv_perm; [exact P|apply Permutation_refl|exact I].
Qed.
Lemma focus_v : forall w h S V p, inv w h S V -> In (HVte p) h ->
  exists v g S' V', vp v = p /\ gp g = t_con (vt v) /\ inv w h (g :: S') (v :: V').
Proof.
  intros w h S V p I L. destruct (i_hv _ _ _ _ I p) as (v & J & E); [apply hc_in; exact L|]. destruct (i_con _ _ _ _ I v J) as (g & K & Eg).
  destruct (focus v V J) as (V' & PV). destruct (focus g S K) as (S' & PS). exists v, g, S', V'. split; [exact E|]. split; [exact Eg|].
  eapply inv_perm; [exact PS|exact PV|exact I].
Qed.
(* Objects are at different addresses. *)
Lemma key_fresh : forall w p o F q o', hw w ((p, o) :: F) -> In (q, o') F -> q <> p.
Proof.
  intros w p o F q o' (P & N & _) I E. subst q. apply (Permutation_NoDup (Permutation_map fst P)) in N. cbn in N. inversion N as [|? ? NI _]; subst.
  apply NI. apply in_map_iff. exists (p, o'). auto.
Qed.
Lemma in_all_s : forall g S V, In g S -> In (gp g, Scr (gs g)) (all S V).
Proof. intros g S V I. unfold all. apply in_or_app. left. apply in_flat_map. exists g. split; [exact I|left; reflexivity]. Qed.
Lemma in_all_v : forall v S V, In v V -> In (vp v, Vte (vt v)) (all S V).
Proof. intros v S V I. unfold all. apply in_or_app. right. apply in_flat_map. exists v. split; [exact I|left; reflexivity]. Qed.
Lemma other_s : forall w g S V, hw w (all (g :: S) V) -> forall g', In g' S -> gp g' <> gp g.
Proof.
  intros w g S V H g' I. rewrite all_s, scells_eq in H. cbn [app] in H.
  apply (key_fresh _ _ _ _ _ (Scr (gs g')) H). apply in_or_app. right. apply in_all_s. exact I.
Qed.
Lemma other_v : forall w v S V, hw w (all S (v :: V)) -> forall v', In v' V -> vp v' <> vp v.
Proof.
  intros w v S V H v' I. assert (K : hw w (vcells v ++ all S V)) by (eapply hw_perm; [exact H|apply all_v]). unfold vcells in K. cbn [app] in K.
  apply (key_fresh _ _ _ _ _ (Vte (vt v')) K). right. apply in_or_app. right. apply in_all_v. exact I.
Qed.
Lemma distinct_v : forall w V S, hw w (all S V) -> NoDup (map vp V).
Proof.
  intros w V. induction V as [|v V IH]; intros S H; cbn [map]; constructor.
  - intro I. apply in_map_iff in I. destruct I as (v' & E & I). exact (other_v w v S V H v' I E).
  - assert (K : hw w (all S V ++ vcells v)) by (eapply hw_perm; [exact H|]; eapply Permutation_trans; [apply all_v|apply Permutation_app_comm]).
    clear - K. destruct K as (P & N & _). apply (Permutation_NoDup (Permutation_map fst P)) in N. rewrite map_app in N.
    assert (N1 : NoDup (map fst (all S V))).
    { clear P. revert N. generalize (map fst (all S V)). intro l. induction l; intro N; [constructor|]. inversion N; subst. constructor; [|auto]. intro J. apply H1. apply in_or_app. auto. }
    unfold all in N1. rewrite map_app in N1.
    assert (N2 : NoDup (map fst (flat_map vcells V))).
    { revert N1. generalize (map fst (flat_map scells S)). intro l. induction l; intro N1; [exact N1|]. inversion N1; auto. }
    clear - N2. induction V as [|v V IH]; cbn [map]; constructor.
    + intro I. apply in_map_iff in I. destruct I as (v' & E & I). cbn [flat_map] in N2. unfold vcells at 1 in N2. cbn in N2. inversion N2 as [|? ? NI _]; subst. apply NI. right.
      rewrite map_app. apply in_or_app. right. apply in_map_iff. exists (vp v', Vte (vt v')). split; [exact E|]. apply in_flat_map. exists v'. split; [exact I|left; reflexivity].
    + apply IH. cbn [flat_map] in N2. rewrite map_app in N2. revert N2. generalize (map fst (vcells v)). intro l. induction l; intro N2; [exact N2|]. inversion N2; auto.
Qed.
Lemma few_v : forall w h S V, inv w h S V -> zlen V <= zlen h.
Proof.
  intros w h S V I. assert (L : (length (map (fun v => HVte (vp v)) V) <= length h)%nat).
  { apply NoDup_incl_length.
    - pose proof (distinct_v w V S (i_mem _ _ _ _ I)) as N. rewrite <- (map_map vp HVte). apply FinFun.Injective_map_NoDup; [|exact N]. intros a b E. congruence.
    - intros x J. apply in_map_iff in J. destruct J as (v & <- & J). apply hc_in. destruct (i_vref _ _ _ _ I v J). lia. }
  rewrite map_length in L. lia.
Qed.
Lemma ref_small : forall w h S V, inv w h S V -> zlen h < 2 ^ 62 ->
  (forall g, In g S -> 0 < r_ref (gs g) < 2 ^ 64 - 1) /\ (forall v, In v V -> 0 < t_ref (vt v) < 2 ^ 64 - 1).
Proof.
  intros w h S V I L. pose proof (few_v w h S V I) as F. split.
  - intros g J. destruct (i_sref _ _ _ _ I g J) as (E & P). pose proof (hc_le h (HScr (gp g))). pose proof (nv_le V (gp g)). lia.
  - intros v J. destruct (i_vref _ _ _ _ I v J) as (E & P). pose proof (hc_le h (HVte (vp v))). lia.
Qed.

(* The blocks change, the objects do not. *)
Lemma inv_same : forall w w' h S V, inv w h S V -> hw w' (all S V) -> inv w' h S V.
Proof. intros w w' h S V [M W RS RV C HS HV] H. constructor; assumption. Qed.
Lemma inv_kept : forall w w' h g g' S V, inv w h (g :: S) V -> hw w' (scells g' ++ all S V) -> wf g' -> kept g g' -> inv w' h (g' :: S) V.
Proof.
  intros w w' h g g' S V [M W RS RV C HS HV] H W' (Ep & Er). constructor.
  - rewrite all_s. exact H.
  - intros x [<-|I]; [exact W'|]. apply W. right. exact I.
  - intros x [<-|I]; [rewrite Ep, Er; apply RS; left; reflexivity|]. apply RS. right. exact I.
  - exact RV.
  - intros v I. destruct (C v I) as (x & [<-|J] & E); [exists g'; split; [left; reflexivity|congruence]|exists x; split; [right; exact J|exact E]].
  - intros p L. destruct (HS p L) as (x & [<-|J] & E); [exists g'; split; [left; reflexivity|congruence]|exists x; split; [right; exact J|exact E]].
  - exact HV.
Qed.
Lemma heq_s : forall p q, (if handle_eq_dec (HScr p) (HScr q) then 1 else 0) = (if p =? q then 1 else 0).
Proof. intros p q. destruct (handle_eq_dec (HScr p) (HScr q)) as [E|E]; destruct (p =? q) eqn:K; try reflexivity; [injection E; lia|]. exfalso. apply E. f_equal. lia. Qed.
Lemma heq_v : forall p q, (if handle_eq_dec (HVte p) (HVte q) then 1 else 0) = (if p =? q then 1 else 0).
Proof. intros p q. destruct (handle_eq_dec (HVte p) (HVte q)) as [E|E]; destruct (p =? q) eqn:K; try reflexivity; [injection E; lia|]. exfalso. apply E. f_equal. lia. Qed.
Lemma heq_sv : forall p q, (if handle_eq_dec (HScr p) (HVte q) then 1 else 0) = 0.
Proof. intros p q. destruct (handle_eq_dec (HScr p) (HVte q)) as [E|E]; [discriminate E|reflexivity]. Qed.
Lemma heq_vs : forall p q, (if handle_eq_dec (HVte p) (HScr q) then 1 else 0) = 0.
Proof. intros p q. destruct (handle_eq_dec (HVte p) (HScr q)) as [E|E]; [discriminate E|reflexivity]. Qed.

(* A screen's counter and the references to it change together: h' and V' differ
   from h and V in nothing but the references to it. *)
Lemma inv_ref : forall w w' h h' g n S V, inv w h (g :: S) V ->
  hw w' (scells (with_ref g n) ++ all S V) -> n = hc h' (HScr (gp g)) + nv V (gp g) -> 0 < n ->
  (forall q, q <> gp g -> hc h' (HScr q) = hc h (HScr q)) -> (forall q, hc h' (HVte q) = hc h (HVte q)) ->
  inv w' h' (with_ref g n :: S) V.
Proof.
  intros w w' h h' g n S V [M W RS RV C HS HV] H En Pn Es Ev. pose proof (other_s w g S V M) as O. constructor.
  - rewrite all_s. exact H.
  - intros x [<-|I]; [apply with_ref_wf; apply W; left; reflexivity|]. apply W. right. exact I.
  - intros x [<-|I]; [cbn; split; [exact En|exact Pn]|]. rewrite Es by (apply O; exact I). apply RS. right. exact I.
  - intros v I. rewrite Ev. apply RV. exact I.
  - intros v I. destruct (C v I) as (x & [<-|J] & E); [exists (with_ref g n); split; [left; reflexivity|exact E]|exists x; split; [right; exact J|exact E]].
  - intros p L. destruct (Z.eq_dec p (gp g)) as [->|N]; [exists (with_ref g n); split; [left; reflexivity|reflexivity]|].
    rewrite Es in L by exact N. destruct (HS p L) as (x & [<-|J] & E); [congruence|exists x; split; [right; exact J|exact E]].
  - intros p L. rewrite Ev in L. exact (HV p L).
Qed.
(* A screen is gone. *)
Lemma inv_gone : forall w w' h h' g S V, inv w h (g :: S) V ->
  hw w' (all S V) -> hc h' (HScr (gp g)) = 0 -> nv V (gp g) = 0 ->
  (forall q, q <> gp g -> hc h' (HScr q) = hc h (HScr q)) -> (forall q, hc h' (HVte q) = hc h (HVte q)) ->
  inv w' h' S V.
Proof.
  intros w w' h h' g S V [M W RS RV C HS HV] H E0 N0 Es Ev. pose proof (other_s w g S V M) as O. constructor.
  - exact H.
  - intros x I. apply W. right. exact I.
  - intros x I. rewrite Es by (apply O; exact I). apply RS. right. exact I.
  - intros v I. rewrite Ev. apply RV. exact I.
  - intros v I. destruct (C v I) as (x & [<-|J] & E); [|exists x; auto]. exfalso.
    pose proof (nv_pos v V I). rewrite <- E in *. lia.
  - intros p L. destruct (Z.eq_dec p (gp g)) as [->|N]; [lia|]. rewrite Es in L by exact N. destruct (HS p L) as (x & [<-|J] & E); [congruence|exists x; auto].
  - intros p L. rewrite Ev in L. exact (HV p L).
Qed.

(* A terminal changes and the references to it with it. *)
Lemma inv_vte : forall w w' h h' S v v' V, inv w h S (v :: V) -> hw w' (all S (v' :: V)) ->
  vp v' = vp v -> t_con (vt v') = t_con (vt v) -> t_ref (vt v') = hc h' (HVte (vp v)) -> 0 < t_ref (vt v') ->
  (forall q, hc h' (HScr q) = hc h (HScr q)) -> (forall q, q <> vp v -> hc h' (HVte q) = hc h (HVte q)) ->
  inv w' h' S (v' :: V).
Proof.
  intros w w' h h' S v v' V [M W RS RV C HS HV] H Ep Ec Er Pr Es Ev. pose proof (other_v w v S V M) as OV. constructor.
  - exact H.
  - exact W.
  - intros g I. rewrite Es. specialize (RS g I). rewrite nv_cons in *. rewrite Ec. exact RS.
  - intros x [<-|I]; [rewrite Ep; auto|]. rewrite Ev by (apply OV; exact I). apply RV. right. exact I.
  - intros x [<-|I]; [rewrite Ec; apply C; left; reflexivity|]. apply C. right. exact I.
  - intros p L. rewrite Es in L. exact (HS p L).
  - intros p L. destruct (Z.eq_dec p (vp v)) as [->|N]; [exists v'; split; [left; reflexivity|exact Ep]|].
    rewrite Ev in L by exact N. destruct (HV p L) as (x & [<-|J] & E); [congruence|exists x; split; [right; exact J|exact E]].
Qed.
(* A terminal is gone, and its reference to its screen. *)
Lemma inv_vgone : forall w w' h h' g S v V, inv w h (g :: S) (v :: V) -> gp g = t_con (vt v) ->
  hw w' (scells (with_ref g (r_ref (gs g) - 1)) ++ all S V) -> 1 < r_ref (gs g) -> hc h' (HVte (vp v)) = 0 ->
  (forall q, hc h' (HScr q) = hc h (HScr q)) -> (forall q, q <> vp v -> hc h' (HVte q) = hc h (HVte q)) ->
  inv w' h' (with_ref g (r_ref (gs g) - 1) :: S) V.
Proof.
  intros w w' h h' g S v V [M W RS RV C HS HV] Eg H Pr E0 Es Ev. pose proof (other_v w v _ V M) as OV. pose proof (other_s w g S _ M) as O.
  set (g' := with_ref g (r_ref (gs g) - 1)) in *. constructor.
  - rewrite all_s. exact H.
  - intros x [<-|I]; [apply with_ref_wf; apply W; left; reflexivity|]. apply W. right. exact I.
  - intros x [<-|I]; rewrite Es.
    + destruct (RS g ltac:(left; reflexivity)) as (R1 & R2). rewrite nv_cons, <- Eg, Z.eqb_refl in R1. unfold g'. cbn [with_ref gs gp set_ref r_ref]. lia.
    + destruct (RS x ltac:(right; exact I)) as (R1 & R2). rewrite nv_cons in R1. destruct (t_con (vt v) =? gp x) eqn:K; [exfalso; apply (O x I); lia|]. lia.
  - intros x I. rewrite Ev by (apply OV; exact I). apply RV. right. exact I.
  - intros x I. destruct (C x ltac:(right; exact I)) as (y & [<-|J] & E); [exists g'; split; [left; reflexivity|exact E]|exists y; split; [right; exact J|exact E]].
  - intros p L. rewrite Es in L. destruct (HS p L) as (y & [<-|J] & E); [exists g'; split; [left; reflexivity|exact E]|exists y; split; [right; exact J|exact E]].
  - intros p L. destruct (Z.eq_dec p (vp v)) as [->|N]; [lia|]. rewrite Ev in L by exact N. destruct (HV p L) as (x & [<-|J] & E); [congruence|exists x; auto].
Qed.
Lemma inv_both_gone : forall w w' h h' g S v V, inv w h (g :: S) (v :: V) -> gp g = t_con (vt v) ->
  hw w' (all S V) -> r_ref (gs g) = 1 -> hc h' (HVte (vp v)) = 0 ->
  (forall q, hc h' (HScr q) = hc h (HScr q)) -> (forall q, q <> vp v -> hc h' (HVte q) = hc h (HVte q)) ->
  inv w' h' S V.
Proof.
  intros w w' h h' g S v V [M W RS RV C HS HV] Eg H Pr E0 Es Ev. pose proof (other_v w v _ V M) as OV. pose proof (other_s w g S _ M) as O.
  destruct (RS g ltac:(left; reflexivity)) as (G1 & G2). rewrite nv_cons, <- Eg, Z.eqb_refl in G1.
  pose proof (hc_nonneg h (HScr (gp g))). pose proof (nv_nonneg V (gp g)). constructor.
  - exact H.
  - intros x I. apply W. right. exact I.
  - intros x I. rewrite Es. destruct (RS x ltac:(right; exact I)) as (R1 & R2). rewrite nv_cons in R1. destruct (t_con (vt v) =? gp x) eqn:K; [exfalso; apply (O x I); lia|]. lia.
  - intros x I. rewrite Ev by (apply OV; exact I). apply RV. right. exact I.
  - intros x I. destruct (C x ltac:(right; exact I)) as (y & [<-|J] & E); [|exists y; auto]. exfalso. pose proof (nv_pos x V I). rewrite <- E in *. lia.
  - intros p L. rewrite Es in L. destruct (HS p L) as (y & [<-|J] & E); [subst p; lia|exists y; auto].
  - intros p L. destruct (Z.eq_dec p (vp v)) as [->|N]; [lia|]. rewrite Ev in L by exact N. destruct (HV p L) as (x & [<-|J] & E); [congruence|exists x; auto].
Qed.

Section Alloc.
Variable al : allocator.
Hypothesis Fair : fair al.

Lemma new_scr : forall w h S V, inv w h S V -> exists w' p, scr_new al w = Ok (w', p) /\
  ((p = 0 /\ hw w' (all S V) /\ ~ plenty al) \/ (0 < p /\ exists g, inv w' (HScr p :: h) (g :: S) V)).
Proof.
  intros w h S V I. destruct (scr_new_ok al Fair w _ (i_mem _ _ _ _ I)) as (w' & p & E & [(-> & H & Np)|(Hp & g & Eg & H & Wg & Rg)]).
  { exists w', 0. split; [exact E|]. left. auto. }
  exists w', p. split; [exact E|]. right. split; [exact Hp|]. exists g. destruct I as [M W RS RV C HS HV]. rewrite <- all_s in H.
  pose proof (other_s w' g S V H) as O. subst p.
  assert (H0 : hc h (HScr (gp g)) = 0).
  { pose proof (hc_nonneg h (HScr (gp g))). destruct (Z.eq_dec (hc h (HScr (gp g))) 0) as [K|K]; [exact K|]. destruct (HS (gp g)) as (x & J & Ex); [lia|].
    exfalso. exact (O x J Ex). }
  assert (N0 : nv V (gp g) = 0).
  { pose proof (nv_nonneg V (gp g)). destruct (Z.eq_dec (nv V (gp g)) 0) as [K|K]; [exact K|]. destruct (nv_in V (gp g)) as (v & J & Ev); [lia|].
    destruct (C v J) as (x & L & Ex). exfalso. apply (O x L). congruence. }
  constructor.
  - exact H.
  - intros x [<-|J]; [exact Wg|auto].
  - intros x [<-|J]; rewrite hc_cons, heq_s; [rewrite Z.eqb_refl; lia|]. destruct (gp g =? gp x) eqn:K; [exfalso; apply (O x J); lia|]. destruct (RS x J). lia.
  - intros v J. rewrite hc_cons, heq_sv. exact (RV v J).
  - intros v J. destruct (C v J) as (x & L & Ex). exists x. split; [right; exact L|exact Ex].
  - intros q L. rewrite hc_cons, heq_s in L. destruct (gp g =? q) eqn:K; [exists g; split; [left; reflexivity|lia]|].
    destruct (HS q L) as (x & J & Ex). exists x. split; [right; exact J|exact Ex].
  - intros q L. rewrite hc_cons, heq_sv in L. exact (HV q L).
Qed.
Lemma new_vte : forall w h S V p, inv w h S V -> zlen h < 2 ^ 62 -> In (HScr p) h -> exists w' v, vte_new al w p = Ok (w', v) /\
  ((v = 0 /\ hw w' (all S V) /\ ~ plenty al) \/ (0 < v /\ exists S' V', inv w' (HVte v :: h) S' V')).
Proof.
  intros w h S V p I0 L Hp. pose proof I0 as I1. destruct (i_hs _ _ _ _ I0 p) as (g & J & Eg); [apply hc_in; exact Hp|]. subst p.
  destruct (focus g S J) as (S' & P). assert (I : inv w h (g :: S') V) by (eapply inv_perm; [exact P|apply Permutation_refl|exact I0]).
  pose proof (proj1 (ref_small w h _ V I L) g ltac:(left; reflexivity)) as R. pose proof (i_mem _ _ _ _ I) as M0. rewrite all_s in M0.
  destruct (vte_new_ok al Fair g w _ M0 ltac:(lia)) as (w' & v & E & [(-> & H & Np)|(Hv & t & Et & Ec & H)]).
  { exists w', 0. split; [exact E|]. left. split; [reflexivity|]. split; [|exact Np]. eapply hw_perm; [exact H|]. rewrite <- all_s.
    apply perm_all; [apply Permutation_sym; exact P|apply Permutation_refl]. }
  exists w', v. split; [exact E|]. right. split; [exact Hv|]. exists (with_ref g (r_ref (gs g) + 1) :: S'), (mkGV v t :: V).
  destruct I as [M W RS RV C HS HV]. pose proof (other_s w g S' V M) as O.
  assert (H' : hw w' (all (with_ref g (r_ref (gs g) + 1) :: S') (mkGV v t :: V))).
  { eapply hw_perm; [|apply Permutation_sym; apply all_v]. rewrite all_s. exact H. }
  pose proof (other_v w' (mkGV v t) _ V H') as OV. cbn [vp] in OV.
  assert (H0 : hc h (HVte v) = 0).
  { pose proof (hc_nonneg h (HVte v)). destruct (Z.eq_dec (hc h (HVte v)) 0) as [K|K]; [exact K|]. destruct (HV v) as (x & K2 & Ex); [lia|].
    exfalso. exact (OV x K2 Ex). }
  constructor.
  - exact H'.
  - intros x [<-|K]; [apply with_ref_wf; apply W; left; reflexivity|]. apply W. right. exact K.
  - intros x [<-|K]; rewrite hc_cons, heq_vs, nv_cons; cbn [vt gp with_ref gs set_ref r_ref]; rewrite Ec.
    + rewrite Z.eqb_refl. destruct (RS g ltac:(left; reflexivity)). lia.
    + destruct (gp g =? gp x) eqn:K2; [exfalso; apply (O x K); lia|]. destruct (RS x ltac:(right; exact K)). lia.
  - intros x [<-|K]; rewrite hc_cons, heq_v; cbn [vt vp].
    + rewrite Z.eqb_refl. lia.
    + destruct (v =? vp x) eqn:K2; [exfalso; apply (OV x K); lia|]. exact (RV x K).
  - intros x [<-|K]; cbn [vt].
    + exists (with_ref g (r_ref (gs g) + 1)). split; [left; reflexivity|]. cbn. congruence.
    + destruct (C x K) as (y & [<-|K2] & Ey); [exists (with_ref g (r_ref (gs g) + 1)); split; [left; reflexivity|exact Ey]|exists y; split; [right; exact K2|exact Ey]].
  - intros q Lq. rewrite hc_cons, heq_vs in Lq. destruct (HS q Lq) as (y & [<-|K2] & Ey); [exists (with_ref g (r_ref (gs g) + 1)); split; [left; reflexivity|exact Ey]|exists y; split; [right; exact K2|exact Ey]].
  - intros q Lq. rewrite hc_cons, heq_v in Lq. destruct (v =? q) eqn:K; [exists (mkGV v t); split; [left; reflexivity|cbn; lia]|].
    destruct (HV q Lq) as (y & K2 & Ey). exists y. split; [right; exact K2|exact Ey].
Qed.

(* The counts after one more or one less reference. *)
Lemma more_s : forall p h, hc (HScr p :: h) (HScr p) = hc h (HScr p) + 1 /\ (forall q, q <> p -> hc (HScr p :: h) (HScr q) = hc h (HScr q)) /\
  (forall q, hc (HScr p :: h) (HVte q) = hc h (HVte q)).
Proof.
  intros p h. split; [rewrite hc_cons, heq_s, Z.eqb_refl; lia|]. split; intros q; [intro N|]; rewrite hc_cons, ?heq_s, ?heq_sv; [|reflexivity].
  destruct (p =? q) eqn:E; [exfalso; apply N; lia|reflexivity].
Qed.
Lemma more_v : forall p h, hc (HVte p :: h) (HVte p) = hc h (HVte p) + 1 /\ (forall q, q <> p -> hc (HVte p :: h) (HVte q) = hc h (HVte q)) /\
  (forall q, hc (HVte p :: h) (HScr q) = hc h (HScr q)).
Proof.
  intros p h. split; [rewrite hc_cons, heq_v, Z.eqb_refl; lia|]. split; intros q; [intro N|]; rewrite hc_cons, ?heq_v, ?heq_vs; [|reflexivity].
  destruct (p =? q) eqn:E; [exfalso; apply N; lia|reflexivity].
Qed.
Lemma less_s : forall p h, In (HScr p) h -> hc (give_back (HScr p) h) (HScr p) = hc h (HScr p) - 1 /\
  (forall q, q <> p -> hc (give_back (HScr p) h) (HScr q) = hc h (HScr q)) /\ (forall q, hc (give_back (HScr p) h) (HVte q) = hc h (HVte q)).
Proof.
  intros p h I. split; [rewrite hc_back, heq_s, Z.eqb_refl by exact I; lia|]. split; intros q; [intro N|]; rewrite hc_back, ?heq_s, ?heq_sv by exact I; [|lia].
  destruct (p =? q) eqn:E; [exfalso; apply N; lia|lia].
Qed.
Lemma less_v : forall p h, In (HVte p) h -> hc (give_back (HVte p) h) (HVte p) = hc h (HVte p) - 1 /\
  (forall q, q <> p -> hc (give_back (HVte p) h) (HVte q) = hc h (HVte q)) /\ (forall q, hc (give_back (HVte p) h) (HScr q) = hc h (HScr q)).
Proof.
  intros p h I. split; [rewrite hc_back, heq_v, Z.eqb_refl by exact I; lia|]. split; intros q; [intro N|]; rewrite hc_back, ?heq_v, ?heq_vs by exact I; [|lia].
  destruct (p =? q) eqn:E; [exfalso; apply N; lia|lia].
Qed.

Lemma all_v_hw : forall w v S V, hw w (all S (v :: V)) <-> hw w (vcells v ++ all S V).
Proof. intros. split; intro H; eapply hw_perm; try exact H; [apply all_v|apply Permutation_sym, all_v]. Qed.
Lemma all_vs_hw : forall w v g S V, hw w (all (g :: S) (v :: V)) <-> hw w (vcells v ++ scells g ++ all S V).
Proof. intros. rewrite all_v_hw, all_s. reflexivity. Qed.

Lemma lstep_inv : forall w h S V c, inv w h S V -> may h c ->
  exists w' got S' V', lstep al w c = Ok (w', got) /\ inv w' (held h c got) S' V'.
Proof.
  intros w h S V c I (L & Mc). destruct c as [|p|p|p x y|p top n|p m|p|p b|p|v|v|custom given v]; cbn [lstep held] in *.
  - destruct (new_scr w h S V I) as (w' & p & -> & [(-> & H & _)|(Hp & g & H)]).
    + exists w', 0, S, V. split; [reflexivity|]. eapply inv_same; eassumption.
    + exists w', p, (g :: S), V. split; [reflexivity|]. destruct (p =? 0) eqn:E; [lia|exact H].
  - destruct (focus_s w h S V p I Mc) as (g & S' & <- & I'). pose proof (proj1 (ref_small w h _ V I' L) g ltac:(left; reflexivity)) as R.
    pose proof (i_mem _ _ _ _ I') as M. rewrite all_s in M. destruct (scr_ref_ok g w _ M ltac:(lia)) as (w' & -> & H). cbn [bind].
    exists w', 0. do 2 eexists. split; [reflexivity|]. destruct (more_s (gp g) h) as (A & B & C). destruct (i_sref _ _ _ _ I' g ltac:(left; reflexivity)).
    eapply inv_ref; [exact I'|exact H|lia|lia|exact B|exact C].
  - destruct (focus_s w h S V p I Mc) as (g & S' & <- & I'). pose proof (proj1 (ref_small w h _ V I' L) g ltac:(left; reflexivity)) as R.
    pose proof (i_mem _ _ _ _ I') as M. rewrite all_s in M.
    destruct (less_s (gp g) h Mc) as (A & B & C). destruct (i_sref _ _ _ _ I' g ltac:(left; reflexivity)) as (G1 & G2).
    pose proof (hc_nonneg (give_back (HScr (gp g)) h) (HScr (gp g))). pose proof (nv_nonneg V (gp g)).
    destruct (scr_unref_ok g w _ M (i_wf _ _ _ _ I' g ltac:(left; reflexivity)) ltac:(lia)) as (w' & -> & [(R1 & H1)|(R1 & H1)]); cbn [bind]; exists w', 0; do 2 eexists; (split; [reflexivity|]).
    + eapply inv_gone; [exact I'|exact H1|lia|lia|exact B|exact C].
    + eapply inv_ref; [exact I'|exact H1|lia|lia|exact B|exact C].
  - destruct Mc as (Mc & Hx & Hy). destruct (focus_s w h S V p I Mc) as (g & S' & <- & I'). pose proof (i_mem _ _ _ _ I') as M. rewrite all_s in M.
    destruct (scr_resize_ok al Fair g x y w _ M (i_wf _ _ _ _ I' g ltac:(left; reflexivity)) ltac:(lia) ltac:(lia)) as (w' & b & g' & -> & H & Wg & K & _). cbn [bind fst].
    exists w', 0. do 2 eexists. split; [reflexivity|]. eapply inv_kept; eassumption.
  - destruct (focus_s w h S V p I Mc) as (g & S' & <- & I'). pose proof (i_mem _ _ _ _ I') as M. rewrite all_s in M.
    pose proof (i_wf _ _ _ _ I' g ltac:(left; reflexivity)) as Wg. rewrite (rd_scr_ok w g _ M). cbn [bind].
    destruct ((0 <=? top) && (0 <=? n) && (top + n <=? r_sy (gs g))) eqn:E; [|exists w, 0; do 2 eexists; split; [reflexivity|exact I']].
    pose proof (wf_sy g Wg).
    destruct (scroll_ok al Fair g top n w _ M Wg ltac:(lia) ltac:(lia) ltac:(lia)) as (w' & g' & -> & H' & W' & K & _). cbn [bind].
    exists w', 0. do 2 eexists. split; [reflexivity|]. eapply inv_kept; [exact I'|exact H'|exact W'|apply kept_same; exact K].
  - destruct Mc as (Mc & Hm). destruct (focus_s w h S V p I Mc) as (g & S' & <- & I'). pose proof (i_mem _ _ _ _ I') as M. rewrite all_s in M.
    destruct (max_sb_ok g m w _ M (i_wf _ _ _ _ I' g ltac:(left; reflexivity)) ltac:(lia)) as (w' & g' & -> & H' & W' & K). cbn [bind].
    exists w', 0. do 2 eexists. split; [reflexivity|]. eapply inv_kept; [exact I'|exact H'|exact W'|apply kept_same; exact K].
  - destruct (focus_s w h S V p I Mc) as (g & S' & <- & I'). pose proof (i_mem _ _ _ _ I') as M. rewrite all_s in M.
    destruct (clear_sb_ok g w _ M (i_wf _ _ _ _ I' g ltac:(left; reflexivity))) as (w' & g' & -> & H' & W' & K). cbn [bind].
    exists w', 0. do 2 eexists. split; [reflexivity|]. eapply inv_kept; [exact I'|exact H'|exact W'|apply kept_same; exact K].
  - destruct (focus_s w h S V p I Mc) as (g & S' & <- & I'). pose proof (i_mem _ _ _ _ I') as M. rewrite all_s in M.
    pose proof (i_wf _ _ _ _ I' g ltac:(left; reflexivity)) as Wg. rewrite (rd_scr_ok w g _ M). cbn [bind].
    destruct (set_scr_ok g (set_altscr (gs g) b) w _ M Wg eq_refl eq_refl eq_refl eq_refl) as (w' & -> & H'). cbn [bind].
    exists w', 0. do 2 eexists. split; [reflexivity|]. eapply inv_kept; [exact I'|exact H'| |split; reflexivity].
    destruct Wg. constructor; assumption.
  - destruct (new_vte w h S V p I L Mc) as (w' & v & -> & [(-> & H & _)|(Hv & S' & V' & H)]).
    + exists w', 0, S, V. split; [reflexivity|]. eapply inv_same; eassumption.
    + exists w', v, S', V'. split; [reflexivity|]. destruct (v =? 0) eqn:E; [lia|exact H].
  - destruct (focus_v w h S V v I Mc) as (x & g & S' & V' & <- & Eg & I'). pose proof (proj2 (ref_small w h _ _ I' L) x ltac:(left; reflexivity)) as R.
    pose proof (i_mem _ _ _ _ I') as M. apply all_v_hw in M. destruct (vte_ref_ok x w _ M ltac:(lia)) as (w' & -> & H). cbn [bind].
    exists w', 0. do 2 eexists. split; [reflexivity|]. destruct (more_v (vp x) h) as (A & B & C). destruct (i_vref _ _ _ _ I' x ltac:(left; reflexivity)).
    eapply (inv_vte w w' h _ _ x (vwith_ref x (t_ref (vt x) + 1)) V'); [exact I'|apply all_v_hw; exact H|reflexivity|reflexivity|cbn; lia|cbn; lia|exact C|exact B].
  - destruct (focus_v w h S V v I Mc) as (x & g & S' & V' & <- & Eg & I').
    pose proof (proj2 (ref_small w h _ _ I' L) x ltac:(left; reflexivity)) as R. pose proof (proj1 (ref_small w h _ _ I' L) g ltac:(left; reflexivity)) as Rg.
    pose proof (i_mem _ _ _ _ I') as M. apply all_vs_hw in M.
    destruct (less_v (vp x) h Mc) as (A & B & C). destruct (i_vref _ _ _ _ I' x ltac:(left; reflexivity)) as (G1 & G2).
    destruct (vte_unref_ok x g w _ M (i_wf _ _ _ _ I' g ltac:(left; reflexivity)) (eq_sym Eg) ltac:(lia) ltac:(lia)) as (w' & -> & [(R1 & H1)|[(R1 & R2 & H1)|(R1 & R2 & H1)]]); cbn [bind];
      exists w', 0; do 2 eexists; (split; [reflexivity|]).
    + eapply (inv_vte w w' h _ _ x (vwith_ref x (t_ref (vt x) - 1)) V'); [exact I'|apply all_vs_hw; exact H1|reflexivity|reflexivity|cbn; lia|cbn; lia|exact C|exact B].
    + eapply inv_both_gone; [exact I'|exact Eg|exact H1|exact R2|lia|exact C|exact B].
    + eapply inv_vgone; [exact I'|exact Eg|exact H1|exact R2|lia|exact C|exact B].
  - destruct (focus_v w h S V v I Mc) as (x & g & S' & V' & <- & Eg & I').
    pose proof (i_mem _ _ _ _ I') as M. apply all_vs_hw in M. destruct (palette_ok al Fair custom given x g w _ M (eq_sym Eg)) as (w' & t & -> & Er & Ec & H). cbn [bind].
    exists w', 0. do 2 eexists. split; [reflexivity|]. destruct (i_vref _ _ _ _ I' x ltac:(left; reflexivity)).
    eapply (inv_vte w w' h h _ x (mkGV (vp x) t) V'); [exact I'|apply all_vs_hw; exact H|reflexivity|exact Ec|cbn; lia|cbn; lia|reflexivity|reflexivity].
Qed.
Lemma history_inv : forall cs w h S V, inv w h S V -> lawful al w h cs ->
  exists w' h' S' V', history al w h cs = Ok (w', h') /\ inv w' h' S' V'.
Proof.
  induction cs as [|c r IH]; intros w h S V I L; cbn [history lawful] in *.
  - exists w, h, S, V. auto.
  - destruct L as (Mc & L). destruct (lstep_inv w h S V c I Mc) as (w1 & got & S1 & V1 & E & I1). rewrite E. cbn [bind fst snd].
    exact (IH _ _ _ _ I1 (L _ _ E)).
Qed.
End Alloc.
