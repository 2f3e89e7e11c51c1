(* Lemmas about Life.v, continued: scrolling, resizing, making and dropping. *)
From Verif Require Import Base BaseProofs Life LifeSpec LifeProofs LifeScr.
From Coq Require Import Permutation.

Lemma set_sb_id : forall s l, r_sb s = l -> set_sb s l = s.
Proof. intros [] l H. cbn in *. subst l. reflexivity. Qed.
Lemma link_sb_ok : forall w con s sb p F, hw w ((con, Scr s) :: lines sb ++ lcells p ++ F) -> r_sb s = map gl sb -> 0 <= r_max s ->
  exists w' sb', link_sb w con (gl p) = Ok w' /\ hw w' ((con, Scr (set_sb s (map gl sb'))) :: lines sb' ++ F).
Proof.
  intros w con s sb p F H Es Hm. unfold link_sb, rd_scr. rewrite (rd_hw w _ _ _ H). cbn [bind]. destruct (r_max s =? 0) eqn:E0.
  - destruct (line_free_ok w p ((con, Scr s) :: lines sb ++ F)) as (w1 & -> & H1); [hp H|]. exists w1, sb. split; [reflexivity|].
    rewrite set_sb_id by exact Es. exact H1.
  - rewrite Es. destruct (r_max s <=? zlen (map gl sb)) eqn:E1.
    + destruct sb as [|old r]; [cbn in E1; lia|]. cbn [map].
      destruct (wwr_ok w con _ (Scr (set_sb s (map gl r ++ [gl p]))) _ H) as (w1 & -> & H1). cbn [bind].
      destruct (line_free_ok w1 old ((con, Scr (set_sb s (map gl r ++ [gl p]))) :: lines r ++ lcells p ++ F)) as (w2 & -> & H2); [hp H1|].
      exists w2, (r ++ [p]). split; [reflexivity|]. rewrite map_app. cbn [map]. hp H2.
    + destruct (wwr_ok w con _ (Scr (set_sb s (map gl sb ++ [gl p]))) _ H) as (w1 & -> & H1).
      exists w1, (sb ++ [p]). split; [reflexivity|]. rewrite map_app. cbn [map]. hp H1.
Qed.
Lemma nth_split3 : forall {A} (l : list A) i, 0 <= i < zlen l -> exists a x b, l = a ++ x :: b /\ zlen a = i.
Proof.
  intros A l i H. destruct (nth_error l (Z.to_nat i)) as [x|] eqn:E.
  - destruct (nth_error_split _ _ E) as (a & b & -> & L). exists a, x, b. split; [reflexivity|]. lia.
  - apply nth_error_None in E. lia.
Qed.
Lemma zget_mid : forall (a : list Z) x b i, zlen a = i -> zget (a ++ x :: b) i = Ok x.
Proof. intros a x b i H. unfold zget. unfold znth. destruct (i <? 0) eqn:E; [lia|]. rewrite nth_error_app2 by lia. replace (Z.to_nat i - length a)%nat with O by lia. reflexivity. Qed.
Lemma zcopy_mid : forall (a : list Z) x b i y, zlen a = i -> zcopy (a ++ x :: b) i [y] = Ok (a ++ y :: b).
Proof.
  intros a x b i y H. unfold zcopy. rewrite app_length. cbn [length].
  replace ((0 <=? i) && (i + Z.of_nat 1 <=? Z.of_nat (length a + S (length b)))) with true by lia.
  f_equal. unfold zput. replace (Z.to_nat i) with (length a) by lia. rewrite firstn_app, Nat.sub_diag, firstn_all. cbn [firstn]. rewrite app_nil_r.
  cbn [length]. rewrite skipn_app. replace (length a + 1 - length a)%nat with 1%nat by lia. rewrite skipn_all2 by lia. reflexivity.
Qed.

Lemma free_buffers_ok : forall g w con s F, wf g -> r_main s = r_main (gs g) -> r_alt s = r_alt (gs g) -> r_num s = r_num (gs g) -> r_ruler s = r_ruler (gs g) ->
  hw w ((con, Scr s) :: frame g ++ F) ->
  exists w', free_buffers w s = Ok w' /\ hw w' ((con, Scr s) :: tcells (r_tab (gs g)) (gi g) (gd g) ++ lines (gsb g) ++ F).
Proof.
  intros g w con s F [Wm Wo Ws Wmn Wan Wy Wx] Em Ea En Er H. unfold frame in H. unfold free_buffers. rewrite Em, Ea, En, Er.
  rewrite (row_ptrs_ok w (r_main (gs g)) (gmr g) (gms g) (r_num (gs g))
    ((con, Scr s) :: tcells (r_tab (gs g)) (gi g) (gd g) ++ opt (r_alt (gs g)) (Ptrs (gar g) (map gl (gos g))) ++
     opt (r_ruler (gs g)) Bytes ++ lines (gms g) ++ lines (gos g) ++ lines (gsb g) ++ F) Wm Wmn) by hp H. cbn [bind].
  rewrite (row_ptrs_ok w (r_alt (gs g)) (gar g) (gos g) (r_num (gs g))
    ((con, Scr s) :: tcells (r_tab (gs g)) (gi g) (gd g) ++ opt (r_main (gs g)) (Ptrs (gmr g) (map gl (gms g))) ++
     opt (r_ruler (gs g)) Bytes ++ lines (gms g) ++ lines (gos g) ++ lines (gsb g) ++ F) Wo Wan) by hp H. cbn [bind].
  destruct (free_rows_ok (gms g) (gos g) w
    (opt (r_main (gs g)) (Ptrs (gmr g) (map gl (gms g))) ++ opt (r_alt (gs g)) (Ptrs (gar g) (map gl (gos g))) ++ opt (r_ruler (gs g)) Bytes ++
     (con, Scr s) :: tcells (r_tab (gs g)) (gi g) (gd g) ++ lines (gsb g) ++ F)) as (w1 & -> & H1); [apply len_of_zlen; lia|hp H|]. cbn [bind].
  destruct (wfr_opt w1 _ _ _ H1) as (w2 & -> & H2). cbn [bind]. destruct (wfr_opt w2 _ _ _ H2) as (w3 & -> & H3). cbn [bind].
  exact (wfr_opt w3 _ _ _ H3).
Qed.
Definition with_ref (g : gscr) (n : Z) : gscr := mkGS (gp g) (set_ref (gs g) n) (gi g) (gd g) (gmr g) (gar g) (gms g) (gos g) (gsb g).
Lemma with_ref_wf : forall g n, wf g -> wf (with_ref g n).
Proof. intros g n [A B C D E G I]. constructor; assumption. Qed.
Lemma scr_unref_ok : forall g w F, hw w (scells g ++ F) -> wf g -> 0 < r_ref (gs g) < 2 ^ 64 ->
  exists w', scr_unref w (gp g) = Ok w' /\
    ((r_ref (gs g) = 1 /\ hw w' F) \/ (1 < r_ref (gs g) /\ hw w' (scells (with_ref g (r_ref (gs g) - 1)) ++ F))).
Proof.
  intros g w F H W R. unfold scr_unref. rewrite (rd_scr_ok w g F H). cbn [bind]. destruct (r_ref (gs g) =? 0) eqn:E; [lia|].
  replace (u64 (r_ref (gs g) - 1)) with (r_ref (gs g) - 1) by (unfold u64; rewrite Z.mod_small; lia).
  rewrite scells_eq in H. destruct (wwr_ok w (gp g) _ (Scr (set_ref (gs g) (r_ref (gs g) - 1))) _ H) as (w1 & -> & H1). cbn [bind].
  destruct (r_ref (gs g) - 1 =? 0) eqn:E1; cbn [negb].
  2:{ exists w1. split; [reflexivity|]. right. split; [lia|]. exact H1. }
  destruct (free_buffers_ok g w1 (gp g) (set_ref (gs g) (r_ref (gs g) - 1)) F W eq_refl eq_refl eq_refl eq_refl H1) as (w2 & -> & H2). cbn [bind].
  destruct (table_unref_ok w2 (r_tab (gs g)) (gi g) (gd g) ((gp g, Scr (set_ref (gs g) (r_ref (gs g) - 1))) :: lines (gsb g) ++ F)) as (w3 & -> & H3); [hp H2|]. cbn [bind].
  unfold clear_sb, rd_scr. rewrite (rd_hw w3 _ _ _ H3). cbn [bind]. change (r_sb (set_ref (gs g) (r_ref (gs g) - 1))) with (r_sb (gs g)).
  rewrite (wf_sb g W). destruct (free_lines_ok (gsb g) w3 ((gp g, Scr (set_ref (gs g) (r_ref (gs g) - 1))) :: F)) as (w4 & -> & H4); [hp H3|]. cbn [bind].
  destruct (wwr_ok w4 (gp g) _ (Scr (set_sb (set_ref (gs g) (r_ref (gs g) - 1)) [])) _ H4) as (w5 & -> & H5). cbn [bind].
  destruct (wfr_ok w5 _ _ _ H5) as (w6 & -> & H6). exists w6. split; [reflexivity|]. left. split; [lia|exact H6].
Qed.
Lemma scr_give_up_ok : forall g w F, hw w (scells g ++ F) -> wf g -> gsb g = [] -> exists w', scr_give_up w (gp g) = Ok w' /\ hw w' F.
Proof.
  intros g w F H W E. unfold scr_give_up. rewrite (rd_scr_ok w g F H). cbn [bind]. rewrite scells_eq in H.
  destruct (free_buffers_ok g w (gp g) (gs g) F W eq_refl eq_refl eq_refl eq_refl H) as (w2 & -> & H2). cbn [bind]. rewrite E in H2.
  destruct (table_unref_ok w2 (r_tab (gs g)) (gi g) (gd g) ((gp g, Scr (gs g)) :: F)) as (w3 & -> & H3); [hp H2|]. cbn [bind].
  exact (wfr_ok w3 _ _ _ H3).
Qed.
Lemma clear_sb_ok : forall g w F, hw w (scells g ++ F) -> wf g ->
  exists w' g', clear_sb w (gp g) = Ok w' /\ hw w' (scells g' ++ F) /\ wf g' /\ same g g'.
Proof.
  intros g w F H W. unfold clear_sb. rewrite (rd_scr_ok w g F H). cbn [bind]. rewrite (wf_sb g W).
  set (R := tcells (r_tab (gs g)) (gi g) (gd g) ++ opt (r_main (gs g)) (Ptrs (gmr g) (map gl (gms g))) ++ opt (r_alt (gs g)) (Ptrs (gar g) (map gl (gos g))) ++
     opt (r_ruler (gs g)) Bytes ++ lines (gms g) ++ lines (gos g)).
  destruct (free_lines_ok (gsb g) w ((gp g, Scr (gs g)) :: R ++ F)) as (w1 & -> & H1); [unfold scells in H; unfold R; hp H|]. cbn [bind].
  destruct (wwr_ok w1 (gp g) _ (Scr (set_sb (gs g) [])) _ H1) as (w2 & -> & H2).
  exists w2, (mkGS (gp g) (set_sb (gs g) []) (gi g) (gd g) (gmr g) (gar g) (gms g) (gos g) []). split; [reflexivity|]. split.
  { unfold scells. cbn [gp gs gi gd gmr gar gms gos gsb]. unfold R in H2. change (r_tab (set_sb (gs g) [])) with (r_tab (gs g)).
    change (r_main (set_sb (gs g) [])) with (r_main (gs g)). change (r_alt (set_sb (gs g) [])) with (r_alt (gs g)). change (r_ruler (set_sb (gs g) [])) with (r_ruler (gs g)).
    hp H2. }
  split; [|unfold same; cbn; auto]. destruct W. constructor; cbn; try assumption. reflexivity.
Qed.
Lemma max_sb_ok : forall g m w F, hw w (scells g ++ F) -> wf g -> 0 <= m ->
  exists w' g', scr_max_sb w (gp g) m = Ok w' /\ hw w' (scells g' ++ F) /\ wf g' /\ same g g'.
Proof.
  intros g m w F H W Hm. unfold scr_max_sb. rewrite (rd_scr_ok w g F H). cbn [bind]. rewrite (wf_sb g W).
  set (k := Z.to_nat (zlen (map gl (gsb g)) - m)). rewrite firstn_map, skipn_map.
  set (R := tcells (r_tab (gs g)) (gi g) (gd g) ++ opt (r_main (gs g)) (Ptrs (gmr g) (map gl (gms g))) ++ opt (r_alt (gs g)) (Ptrs (gar g) (map gl (gos g))) ++
     opt (r_ruler (gs g)) Bytes ++ lines (gms g) ++ lines (gos g)).
  destruct (free_lines_ok (firstn k (gsb g)) w ((gp g, Scr (gs g)) :: R ++ lines (skipn k (gsb g)) ++ F)) as (w1 & -> & H1).
  { unfold scells in H. rewrite <- (firstn_skipn k (gsb g)) in H. unfold R. hp H. }
  cbn [bind]. set (s' := set_max (set_sb (gs g) (map gl (skipn k (gsb g)))) m).
  destruct (wwr_ok w1 (gp g) _ (Scr s') _ H1) as (w2 & -> & H2).
  exists w2, (mkGS (gp g) s' (gi g) (gd g) (gmr g) (gar g) (gms g) (gos g) (skipn k (gsb g))). split; [reflexivity|]. split.
  { unfold scells. cbn [gp gs gi gd gmr gar gms gos gsb]. unfold R in H2. change (r_tab s') with (r_tab (gs g)).
    change (r_main s') with (r_main (gs g)). change (r_alt s') with (r_alt (gs g)). change (r_ruler s') with (r_ruler (gs g)).
    hp H2. }
  split; [|unfold same; cbn; auto]. destruct W. constructor; cbn; try assumption. reflexivity.
Qed.
Lemma set_scr_ok : forall g s' w F, hw w (scells g ++ F) -> wf g ->
  r_tab s' = r_tab (gs g) -> r_main s' = r_main (gs g) -> r_alt s' = r_alt (gs g) -> r_ruler s' = r_ruler (gs g) ->
  exists w', wwr w (gp g) (Scr s') = Ok w' /\ hw w' (scells (mkGS (gp g) s' (gi g) (gd g) (gmr g) (gar g) (gms g) (gos g) (gsb g)) ++ F).
Proof.
  intros g s' w F H W E1 E2 E3 E4. destruct (wwr_ok w (gp g) (Scr (gs g)) (Scr s') _ H) as (w1 & -> & H1). exists w1. split; [reflexivity|].
  unfold scells. cbn [gp gs gi gd gmr gar gms gos gsb]. rewrite E1, E2, E3, E4. exact H1.
Qed.

Section Alloc.
Variable al : allocator.
Hypothesis Fair : fair al.

Lemma scroll_rows_ok : forall n g i w F, hw w (scells g ++ F) -> wf g -> 0 <= i -> i + Z.of_nat n <= r_num (gs g) ->
  exists w' g', scroll_rows n al w (gp g) i = Ok w' /\ hw w' (scells g' ++ F) /\ wf g' /\ same g g' /\ r_num (gs g') = r_num (gs g).
Proof.
  induction n as [|n IH]; intros g i w F H W Hi Hn; cbn [scroll_rows].
  { exists w, g. split; [reflexivity|]. split; [exact H|]. split; [exact W|]. split; [apply same_refl|reflexivity]. }
  rewrite (rd_scr_ok w g F H). cbn [bind].
  destruct (line_new_ok al Fair w (r_sx (gs g)) _ H) as (w1 & l & -> & [(-> & H1 & Np)|(Hl & c & H1)]); cbn [bind snd fst].
  { change (0 =? 0) with true. cbv iota. apply IH; [exact H1|exact W|lia|lia]. }
  destruct (l =? 0) eqn:E; [lia|]. pose proof W as [Wm Wo Ws Wmn Wan Wy Wx].
  destruct (nth_split3 (gms g) i) as (A & p & B & Eg & La); [lia|].
  assert (Nm : r_main (gs g) <> 0) by (destruct Wmn as [K|K]; [rewrite K in Eg; destruct A; discriminate Eg|exact K]).
  set (N := mkGL l c (r_sx (gs g))) in *.
  assert (H1' := H1). unfold scells in H1'. rewrite Eg, (opt_some (r_main (gs g))), map_app in H1' by exact Nm. cbn [map] in H1'.
  set (R := tcells (r_tab (gs g)) (gi g) (gd g) ++ opt (r_alt (gs g)) (Ptrs (gar g) (map gl (gos g))) ++
     opt (r_ruler (gs g)) Bytes ++ lines (gos g)).
  unfold rd_ptrs. rewrite (rd_hw w1 (r_main (gs g)) (Ptrs (gmr g) (map gl A ++ gl p :: map gl B))
    ((gp g, Scr (gs g)) :: R ++ lines A ++ lcells p ++ lines B ++ lines (gsb g) ++ lcells N ++ F)) by (unfold R; hp H1'). cbn [bind fst snd].
  rewrite (zget_mid (map gl A) (gl p) (map gl B) i) by (rewrite map_length; exact La). cbn [bind].
  destruct (link_sb_ok w1 (gp g) (gs g) (gsb g) p
    ((r_main (gs g), Ptrs (gmr g) (map gl A ++ gl p :: map gl B)) :: R ++ lines A ++ lines B ++ lcells N ++ F)) as (w2 & sb' & -> & H2); [unfold R; hp H1'|exact Ws|exact Wx|].
  cbn [bind]. rewrite (zcopy_mid (map gl A) (gl p) (map gl B) i l) by (rewrite map_length; exact La). cbn [bind].
  destruct (wwr_ok w2 (r_main (gs g)) (Ptrs (gmr g) (map gl A ++ gl p :: map gl B)) (Ptrs (gmr g) (map gl A ++ l :: map gl B))
    ((gp g, Scr (set_sb (gs g) (map gl sb'))) :: R ++ lines A ++ lines B ++ lines sb' ++ lcells N ++ F)) as (w3 & -> & H3); [hp H2|]. cbn [bind].
  set (s' := set_sb (gs g) (map gl sb')) in *.
  set (g1 := mkGS (gp g) s' (gi g) (gd g) (gmr g) (gar g) (A ++ N :: B) (gos g) sb').
  destruct (IH g1 (i + 1) w3 F) as (w4 & g2 & E4 & H4 & W4 & S4 & N4).
  - unfold scells, g1. cbn [gp gs gi gd gmr gar gms gos gsb]. change (r_tab s') with (r_tab (gs g)).
    change (r_main s') with (r_main (gs g)). change (r_alt s') with (r_alt (gs g)). change (r_ruler s') with (r_ruler (gs g)).
    rewrite (opt_some (r_main (gs g))), map_app by exact Nm. cbn [map]. change (gl N) with l. unfold R in H3. hp H3.
  - constructor; unfold g1; cbn [gp gs gi gd gmr gar gms gos gsb].
    + change (r_num s') with (r_num (gs g)). rewrite <- Wm, Eg, !app_length. reflexivity.
    + exact Wo.
    + reflexivity.
    + right. exact Nm.
    + exact Wan.
    + exact Wy.
    + exact Wx.
  - lia.
  - change (r_num (gs g1)) with (r_num (gs g)). lia.
  - exists w4, g2. split; [exact E4|]. split; [exact H4|]. split; [exact W4|]. split; [|exact N4].
    eapply same_trans; [|exact S4]. unfold same. cbn. auto.
Qed.
Lemma scroll_ok : forall g top n w F, hw w (scells g ++ F) -> wf g -> 0 <= top -> 0 <= n -> top + n <= r_num (gs g) ->
  exists w' g', scroll al w (gp g) top n = Ok w' /\ hw w' (scells g' ++ F) /\ wf g' /\ same g g' /\ r_num (gs g') = r_num (gs g).
Proof.
  intros g top n w F H W Ht Hn L. unfold scroll. rewrite (rd_scr_ok w g F H). cbn [bind]. destruct (r_altscr (gs g)).
  { exists w, g. split; [reflexivity|]. split; [exact H|]. split; [exact W|]. split; [apply same_refl|reflexivity]. }
  apply scroll_rows_ok; try assumption. lia.
Qed.

(* Resizing. Whatever happens the screen stays one, with all that belongs to it. *)
Definition kept (g g' : gscr) : Prop := gp g' = gp g /\ r_ref (gs g') = r_ref (gs g).
Lemma kept_same : forall g g', same g g' -> kept g g'.
Proof. intros g g' (A & B & _). split; assumption. Qed.
Lemma kept_trans : forall a b c, kept a b -> kept b c -> kept a c.
Proof. unfold kept. intros a b c (A & B) (C & D). split; congruence. Qed.
Lemma scr_resize_ok : forall g x y w F, hw w (scells g ++ F) -> wf g -> 0 <= x -> 0 <= y ->
  exists w' b g', scr_resize al w (gp g) x y = Ok (w', b) /\ hw w' (scells g' ++ F) /\ wf g' /\ kept g g' /\
    (b = false -> (x = 0 \/ y = 0 \/ ~ plenty al) /\ gsb g' = gsb g).
Proof.
  intros g x y w F H W Hx Hy. unfold scr_resize. rewrite (rd_scr_ok w g F H). cbn [bind].
  destruct ((x =? 0) || (y =? 0)) eqn:E0.
  { exists w, false, g. split; [reflexivity|]. split; [exact H|]. split; [exact W|]. split; [split; reflexivity|]. intros _. split; [lia|reflexivity]. }
  destruct ((r_sx (gs g) =? x) && (r_sy (gs g) =? y)) eqn:E1.
  { exists w, true, g. split; [reflexivity|]. split; [exact H|]. split; [exact W|]. split; [split; reflexivity|]. discriminate. }
  destruct (grow_y_ok al Fair g x y w F H W) as (w1 & b1 & g1 & -> & H1 & W1 & S1 & P1 & Q1 & X1 & B1). cbn [bind fst snd].
  destruct b1; cbn [negb].
  2:{ exists w1, false, g1. split; [reflexivity|]. split; [exact H1|]. split; [exact W1|]. split; [apply kept_same; exact S1|]. intros _. split; [right; right; auto|exact B1]. }
  rewrite <- (proj1 S1).
  destruct (grow_x_ok al Fair g1 x w1 F H1 W1) as (w2 & b2 & g2 & -> & H2 & W2 & S2 & P2 & N2 & B2). cbn [bind fst snd].
  assert (S02 : same g g2) by (eapply same_trans; eassumption).
  destruct b2; cbn [negb].
  2:{ exists w2, false, g2. split; [reflexivity|]. split; [exact H2|]. split; [exact W2|]. split; [apply kept_same; exact S02|]. intros _. split; [right; right; auto|congruence]. }
  rewrite <- (proj1 S2). rewrite (rd_scr_ok w2 g2 F H2). cbn [bind].
  pose proof W2 as [Wm Wo Ws Wmn Wan Wy Wx]. pose proof H2 as H2'. unfold scells in H2'.
  rewrite (row_ptrs_ok w2 (r_main (gs g2)) (gmr g2) (gms g2) (r_num (gs g2))
    ((gp g2, Scr (gs g2)) :: tcells (r_tab (gs g2)) (gi g2) (gd g2) ++ opt (r_alt (gs g2)) (Ptrs (gar g2) (map gl (gos g2))) ++
     opt (r_ruler (gs g2)) Bytes ++ lines (gms g2) ++ lines (gos g2) ++ lines (gsb g2) ++ F) Wm Wmn) by hp H2'. cbn [bind].
  rewrite (row_ptrs_ok w2 (r_alt (gs g2)) (gar g2) (gos g2) (r_num (gs g2))
    ((gp g2, Scr (gs g2)) :: tcells (r_tab (gs g2)) (gi g2) (gd g2) ++ opt (r_main (gs g2)) (Ptrs (gmr g2) (map gl (gms g2))) ++
     opt (r_ruler (gs g2)) Bytes ++ lines (gms g2) ++ lines (gos g2) ++ lines (gsb g2) ++ F) Wo Wan) by hp H2'. cbn [bind].
  rewrite <- map_app. rewrite (look_ok (gms g2 ++ gos g2) w2
    ((gp g2, Scr (gs g2)) :: tcells (r_tab (gs g2)) (gi g2) (gd g2) ++ opt (r_main (gs g2)) (Ptrs (gmr g2) (map gl (gms g2))) ++ opt (r_alt (gs g2)) (Ptrs (gar g2) (map gl (gos g2))) ++
     opt (r_ruler (gs g2)) Bytes ++ lines (gsb g2) ++ F)) by hp H2'. cbn [bind].
  destruct (set_scr_ok g2 (set_size (gs g2) x (r_sy (gs g2))) w2 F H2 W2 eq_refl eq_refl eq_refl eq_refl) as (w3 & -> & H3). cbn [bind].
  set (g3 := mkGS (gp g2) (set_size (gs g2) x (r_sy (gs g2))) (gi g2) (gd g2) (gmr g2) (gar g2) (gms g2) (gos g2) (gsb g2)) in *.
  assert (W3 : wf g3) by (constructor; assumption).
  assert (Q2 : y <= r_num (gs g2)) by (rewrite N2; auto).
  assert (K4 : exists w4 g4, (if y <? r_sy (gs g2) then scroll al w3 (gp g2) 0 (r_sy (gs g2) - y) else Ok w3) = Ok w4 /\
    hw w4 (scells g4 ++ F) /\ wf g4 /\ same g3 g4 /\ r_num (gs g4) = r_num (gs g3)).
  { destruct (y <? r_sy (gs g2)) eqn:E4.
    - apply (scroll_ok g3 0 (r_sy (gs g2) - y) w3 F H3 W3); [lia|lia|]. change (r_num (gs g3)) with (r_num (gs g2)). lia.
    - exists w3, g3. split; [reflexivity|]. split; [exact H3|]. split; [exact W3|]. split; [apply same_refl|reflexivity]. }
  destruct K4 as (w4 & g4 & -> & H4 & W4 & S4 & N4). cbn [bind]. change (gp g2) with (gp g3). rewrite <- (proj1 S4).
  rewrite (rd_scr_ok w4 g4 F H4). cbn [bind].
  destruct (set_scr_ok g4 (set_size (gs g4) x y) w4 F H4 W4 eq_refl eq_refl eq_refl eq_refl) as (w5 & -> & H5). cbn [bind].
  eexists w5, true, _. split; [reflexivity|]. split; [exact H5|]. split.
  { destruct W4 as [Vm Vo Vs Vmn Van Vy Vx]. constructor; try assumption. cbn [gs set_size r_sy r_num].
    rewrite N4. change (r_num (gs g3)) with (r_num (gs g2)). lia. }
  split; [|discriminate]. apply kept_trans with g4; [|split; reflexivity]. apply kept_trans with g3; [|apply kept_same; exact S4].
  apply kept_trans with g2; [apply kept_same; exact S02|split; reflexivity].
Qed.
End Alloc.
