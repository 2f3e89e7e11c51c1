(* Lemmas about Life.v, continued: making screens and terminals, whole histories. *)
From Verif Require Import Base BaseProofs Life LifeSpec LifeProofs LifeScr LifeCalls.
From Coq Require Import Permutation.

(* A terminal with all that belongs to it. *)
Record gvte := mkGV { vp : Z; vt : term }.
Definition vcells (v : gvte) : mem :=
  (vp v, Vte (vt v)) :: (t_mach (vt v), Bytes) :: opt (t_name (vt v)) Bytes ++ opt (t_custom (vt v)) Bytes.
Lemma rd_vte_ok : forall w v F, hw w (vcells v ++ F) -> rd_vte (w_mem w) (vp v) = Ok (vt v).
Proof. intros w v F H. unfold rd_vte. unfold vcells in H. cbn [app] in H. rewrite (rd_hw w _ _ _ H). reflexivity. Qed.
Lemma rd_scr_cell : forall w p s F, hw w ((p, Scr s) :: F) -> rd_scr (w_mem w) p = Ok s.
Proof. intros w p s F H. unfold rd_scr. rewrite (rd_hw w _ _ _ H). reflexivity. Qed.

Lemma scr_ref_ok : forall g w F, hw w (scells g ++ F) -> 0 <= r_ref (gs g) < 2 ^ 64 - 1 ->
  exists w', scr_ref w (gp g) = Ok w' /\ hw w' (scells (with_ref g (r_ref (gs g) + 1)) ++ F).
Proof.
  intros g w F H R. unfold scr_ref. rewrite (rd_scr_ok w g F H). cbn [bind].
  replace (u64 (r_ref (gs g) + 1)) with (r_ref (gs g) + 1) by (unfold u64; rewrite Z.mod_small; lia).
  rewrite scells_eq in H. destruct (wwr_ok w (gp g) _ (Scr (set_ref (gs g) (r_ref (gs g) + 1))) _ H) as (w1 & -> & H1).
  exists w1. split; [reflexivity|exact H1].
Qed.
Definition vwith_ref (v : gvte) (n : Z) : gvte :=
  mkGV (vp v) (mkTerm n (t_con (vt v)) (t_mach (vt v)) (t_name (vt v)) (t_custom (vt v))).
Lemma vte_ref_ok : forall v w F, hw w (vcells v ++ F) -> 0 <= t_ref (vt v) < 2 ^ 64 - 1 ->
  exists w', vte_ref w (vp v) = Ok w' /\ hw w' (vcells (vwith_ref v (t_ref (vt v) + 1)) ++ F).
Proof.
  intros v w F H R. unfold vte_ref. rewrite (rd_vte_ok w v F H). cbn [bind].
  replace (u64 (t_ref (vt v) + 1)) with (t_ref (vt v) + 1) by (unfold u64; rewrite Z.mod_small; lia).
  unfold vcells in H. cbn [app] in H. destruct (wwr_ok w (vp v) _ (Vte (vt (vwith_ref v (t_ref (vt v) + 1)))) _ H) as (w1 & E1 & H1).
  exists w1. split; [exact E1|exact H1].
Qed.
Lemma vte_unref_ok : forall v g w F, hw w (vcells v ++ scells g ++ F) -> wf g -> t_con (vt v) = gp g ->
  0 < t_ref (vt v) < 2 ^ 64 -> 0 < r_ref (gs g) < 2 ^ 64 ->
  exists w', vte_unref w (vp v) = Ok w' /\
    ((1 < t_ref (vt v) /\ hw w' (vcells (vwith_ref v (t_ref (vt v) - 1)) ++ scells g ++ F)) \/
     (t_ref (vt v) = 1 /\ r_ref (gs g) = 1 /\ hw w' F) \/
     (t_ref (vt v) = 1 /\ 1 < r_ref (gs g) /\ hw w' (scells (with_ref g (r_ref (gs g) - 1)) ++ F))).
Proof.
  intros v g w F H W Ec Rv Rg. unfold vte_unref. rewrite (rd_vte_ok w v _ H). cbn [bind]. destruct (t_ref (vt v) =? 0) eqn:E; [lia|].
  replace (u64 (t_ref (vt v) - 1)) with (t_ref (vt v) - 1) by (unfold u64; rewrite Z.mod_small; lia).
  unfold vcells in H. cbn [app] in H. destruct (wwr_ok w (vp v) _ (Vte (vt (vwith_ref v (t_ref (vt v) - 1)))) _ H) as (w1 & E1 & H1).
  unfold vwith_ref in E1. cbn [vt] in E1. rewrite E1. cbn [bind].
  destruct (t_ref (vt v) - 1 =? 0) eqn:E2; cbn [negb].
  2:{ exists w1. split; [reflexivity|]. left. split; [lia|]. exact H1. }
  set (V := (vp v, Vte (vt (vwith_ref v (t_ref (vt v) - 1))))) in *.
  destruct (wfr_opt w1 (t_name (vt v)) Bytes (V :: (t_mach (vt v), Bytes) :: opt (t_custom (vt v)) Bytes ++ scells g ++ F)) as (w2 & -> & H2); [hp H1|]. cbn [bind].
  rewrite Ec. destruct (scr_unref_ok g w2 (V :: (t_mach (vt v), Bytes) :: opt (t_custom (vt v)) Bytes ++ F)) as (w3 & -> & C3); [hp H2|exact W|exact Rg|]. cbn [bind].
  set (X := match r_ref (gs g) =? 1 with true => [] | false => scells (with_ref g (r_ref (gs g) - 1)) end).
  assert (H3 : hw w3 (V :: (t_mach (vt v), Bytes) :: opt (t_custom (vt v)) Bytes ++ X ++ F)).
  { unfold X. destruct C3 as [(K & H3)|(K & H3)]; destruct (r_ref (gs g) =? 1) eqn:E3; try lia; [exact H3|]. hp H3. }
  destruct (wfr_ok w3 (t_mach (vt v)) Bytes (V :: opt (t_custom (vt v)) Bytes ++ X ++ F)) as (w4 & -> & H4); [hp H3|]. cbn [bind].
  destruct (wfr_opt w4 (t_custom (vt v)) Bytes (V :: X ++ F)) as (w5 & -> & H5); [hp H4|]. cbn [bind].
  destruct (wfr_ok w5 (vp v) _ (X ++ F) H5) as (w6 & -> & H6). exists w6. split; [reflexivity|]. right. unfold X in H6.
  destruct (r_ref (gs g) =? 1) eqn:E3; [left|right]; (split; [lia|]; split; [lia|]); exact H6.
Qed.

Section Alloc.
Variable al : allocator.
Hypothesis Fair : fair al.

Lemma scr_new_ok : forall w F, hw w F -> exists w' p, scr_new al w = Ok (w', p) /\
  ((p = 0 /\ hw w' F /\ ~ plenty al) \/ (0 < p /\ exists g, gp g = p /\ hw w' (scells g ++ F) /\ wf g /\ r_ref (gs g) = 1)).
Proof.
  intros w F H. unfold scr_new. set (s0 := mkScr 1 0 0 0 0 0 0 0 [] 0 false).
  destruct (alloc_ok al Fair w (Scr s0) F H) as (w1 & con & -> & [(-> & H1 & Np)|(Hc & H1)]).
  { do 2 eexists. split; [reflexivity|]. left. auto. }
  destruct (con =? 0) eqn:Ec; [lia|].
  destruct (table_new_ok al Fair w1 _ H1) as (w2 & t & -> & [(-> & H2 & Np)|(Ht & i & d & H2)]); cbn [bind fst snd].
  { change (0 =? 0) with true. cbv iota. destruct (scr_give_up_ok (mkGS con s0 0 0 0 0 [] [] []) w2 F) as (w3 & E3 & H3).
    - exact H2.
    - constructor; cbn; try reflexivity; try lia; left; reflexivity.
    - reflexivity.
    - cbn [gp] in E3. rewrite E3. cbn [bind]. do 2 eexists. split; [reflexivity|]. left. auto. }
  destruct (t =? 0) eqn:Et; [lia|]. rewrite (rd_scr_cell w2 con s0 (tcells t i d ++ F)) by hp H2. cbn [bind].
  destruct (wwr_ok w2 con (Scr s0) (Scr (set_tab s0 t)) (tcells t i d ++ F)) as (w3 & -> & H3); [hp H2|]. cbn [bind].
  set (g := mkGS con (set_tab s0 t) i d 0 0 [] [] []).
  assert (Hg : hw w3 (scells g ++ F)).
  { unfold scells, g. cbn [gp gs gi gd gmr gar gms gos gsb]. change (r_tab (set_tab s0 t)) with t. change (r_main (set_tab s0 t)) with 0.
    change (r_alt (set_tab s0 t)) with 0. change (r_ruler (set_tab s0 t)) with 0. change (opt 0 (Ptrs 0 (map gl []))) with (@nil (Z * obj)).
    change (opt 0 Bytes) with (@nil (Z * obj)). hp H3. }
  assert (Wg : wf g) by (constructor; cbn; try reflexivity; try lia; left; reflexivity).
  destruct (scr_resize_ok al Fair g 80 24 w3 F Hg Wg ltac:(lia) ltac:(lia)) as (w4 & b & g' & E4 & H4 & W4 & (K1 & K2) & P4).
  change (gp g) with con in *. rewrite E4. cbn [bind fst snd]. destruct b; cbn [negb].
  - do 2 eexists. split; [reflexivity|]. right. split; [exact Hc|]. exists g'. auto.
  - destruct (P4 eq_refl) as (P5 & P6). destruct (scr_give_up_ok g' w4 F H4 W4 P6) as (w5 & E5 & H5). rewrite K1 in E5. rewrite E5. cbn [bind].
    do 2 eexists. split; [reflexivity|]. left. split; [reflexivity|]. split; [exact H5|]. destruct P5 as [P5|[P5|P5]]; [lia|lia|exact P5].
Qed.
Lemma vte_new_ok : forall g w F, hw w (scells g ++ F) -> 0 <= r_ref (gs g) < 2 ^ 64 - 1 -> exists w' v, vte_new al w (gp g) = Ok (w', v) /\
  ((v = 0 /\ hw w' (scells g ++ F) /\ ~ plenty al) \/
   (0 < v /\ exists t, t_ref t = 1 /\ t_con t = gp g /\ hw w' (vcells (mkGV v t) ++ scells (with_ref g (r_ref (gs g) + 1)) ++ F))).
Proof.
  intros g w F H R. unfold vte_new. destruct (alloc_ok al Fair w (Vte (mkTerm 1 (gp g) 0 0 0)) _ H) as (w1 & v & -> & [(-> & H1 & Np)|(Hv & H1)]).
  { do 2 eexists. split; [reflexivity|]. left. auto. }
  destruct (v =? 0) eqn:Ev; [lia|]. destruct (alloc_ok al Fair w1 Bytes _ H1) as (w2 & u & -> & [(-> & H2 & Np)|(Hu & H2)]).
  { destruct (wwr_ok w2 v _ (Vte (mkTerm 1 (gp g) 0 0 0)) _ H2) as (w3 & -> & H3). cbn [bind]. change (0 =? 0) with true. cbv iota.
    destruct (wfr_ok w3 v _ _ H3) as (w4 & -> & H4). cbn [bind]. do 2 eexists. split; [reflexivity|]. left. auto. }
  set (t := mkTerm 1 (gp g) u 0 0).
  destruct (wwr_ok w2 v (Vte (mkTerm 1 (gp g) 0 0 0)) (Vte t) ((u, Bytes) :: scells g ++ F)) as (w3 & -> & H3); [hp H2|]. cbn [bind].
  destruct (u =? 0) eqn:Eu; [lia|]. rewrite (rd_scr_ok w3 g ((v, Vte t) :: (u, Bytes) :: F)) by hp H3. cbn [bind].
  destruct (scr_ref_ok g w3 ((v, Vte t) :: (u, Bytes) :: F)) as (w4 & -> & H4); [hp H3|exact R|]. cbn [bind].
  do 2 eexists. split; [reflexivity|]. right. split; [exact Hv|]. exists t. split; [reflexivity|]. split; [reflexivity|].
  unfold vcells. cbn [vp vt]. change (t_mach t) with u. change (opt (t_name t) Bytes) with (@nil (Z * obj)). change (opt (t_custom t) Bytes) with (@nil (Z * obj)). hp H4.
Qed.
Lemma palette_ok : forall custom given v g w F, hw w (vcells v ++ scells g ++ F) -> t_con (vt v) = gp g ->
  exists w' t, vte_palette custom given al w (vp v) = Ok w' /\ t_ref t = t_ref (vt v) /\ t_con t = t_con (vt v) /\
    hw w' (vcells (mkGV (vp v) t) ++ scells g ++ F).
Proof.
  intros custom given v g w F H Ec. unfold vte_palette. rewrite (rd_vte_ok w v _ H). cbn [bind].
  assert (A : exists w1 p, (if given then alloc al w Bytes else (w, 0)) = (w1, p) /\
    ((p = 0 /\ hw w1 (vcells v ++ scells g ++ F)) \/ (given = true /\ 0 < p /\ hw w1 ((p, Bytes) :: vcells v ++ scells g ++ F)))).
  { destruct given; [|do 2 eexists; split; [reflexivity|]; left; auto].
    destruct (alloc_ok al Fair w Bytes _ H) as (w1 & p & E1 & [(K & H1 & _)|(K & H1)]); exists w1, p; (split; [exact E1|]); auto. }
  destruct A as (w1 & p & -> & A).
  destruct (given && (p =? 0)) eqn:Eg.
  { exists w1, (vt v). split; [reflexivity|]. split; [reflexivity|]. split; [reflexivity|]. destruct A as [(K & H1)|(K1 & K2 & H1)]; [|lia].
    destruct v; exact H1. }
  assert (H1 : hw w1 (opt p Bytes ++ vcells v ++ scells g ++ F)).
  { destruct A as [(-> & H1)|(_ & K & H1)]; [exact H1|]. rewrite opt_some by lia. exact H1. }
  clear A. unfold vcells in H1.
  set (keep := if custom then t_name (vt v) else t_custom (vt v)).
  destruct (wfr_opt w1 (if custom then t_custom (vt v) else t_name (vt v)) Bytes
    (opt p Bytes ++ (vp v, Vte (vt v)) :: (t_mach (vt v), Bytes) :: opt keep Bytes ++ scells g ++ F)) as (w2 & -> & H2); [unfold keep; destruct custom; hp H1|].
  cbn [bind]. set (t := mkTerm _ _ _ _ _).
  destruct (wwr_ok w2 (vp v) (Vte (vt v)) (Vte t) (opt p Bytes ++ (t_mach (vt v), Bytes) :: opt keep Bytes ++ scells g ++ F)) as (w3 & -> & H3); [hp H2|]. cbn [bind].
  rewrite Ec. rewrite (rd_scr_ok w3 g ((vp v, Vte t) :: opt p Bytes ++ (t_mach (vt v), Bytes) :: opt keep Bytes ++ F)) by hp H3. cbn [bind].
  exists w3, t. split; [reflexivity|]. split; [reflexivity|]. split; [exact Ec|].
  unfold vcells. cbn [vp vt]. change (t_mach t) with (t_mach (vt v)). unfold t, keep in *. destruct custom; cbn [t_name t_custom] in *; hp H3.
Qed.
End Alloc.
