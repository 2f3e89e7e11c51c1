(* Lemmas about Life.v, continued: whole screens. *)
From Verif Require Import Base BaseProofs Life LifeSpec LifeProofs.
From Coq Require Import Permutation.

(* A screen with all that belongs to it. *)
Record gscr := mkGS { gp : Z; gs : scr; gi : Z; gd : Z; gmr : Z; gar : Z; gms : list gline; gos : list gline; gsb : list gline }.
Definition scells (g : gscr) : mem :=
  (gp g, Scr (gs g)) :: tcells (r_tab (gs g)) (gi g) (gd g) ++
  opt (r_main (gs g)) (Ptrs (gmr g) (map gl (gms g))) ++ opt (r_alt (gs g)) (Ptrs (gar g) (map gl (gos g))) ++
  opt (r_ruler (gs g)) Bytes ++ lines (gms g) ++ lines (gos g) ++ lines (gsb g).
Record wf (g : gscr) : Prop := mkWf {
  wf_ms : zlen (gms g) = r_num (gs g);
  wf_os : zlen (gos g) = r_num (gs g);
  wf_sb : r_sb (gs g) = map gl (gsb g);
  wf_main : gms g = [] \/ r_main (gs g) <> 0;
  wf_alt : gos g = [] \/ r_alt (gs g) <> 0;
  wf_sy : 0 <= r_sy (gs g) <= r_num (gs g);
  wf_max : 0 <= r_max (gs g)
}.
(* What calls on a screen keep. *)
Definition same (g g' : gscr) : Prop :=
  gp g' = gp g /\ r_ref (gs g') = r_ref (gs g) /\ r_tab (gs g') = r_tab (gs g) /\ r_sy (gs g') = r_sy (gs g).
Lemma same_refl : forall g, same g g.
Proof. intro g. unfold same. auto. Qed.
Lemma same_trans : forall a b c, same a b -> same b c -> same a c.
Proof. unfold same. intros a b c (A & B & C & D) (E & F & G & H). repeat split; congruence. Qed.

Definition frame (g : gscr) : mem :=
  tcells (r_tab (gs g)) (gi g) (gd g) ++
  opt (r_main (gs g)) (Ptrs (gmr g) (map gl (gms g))) ++ opt (r_alt (gs g)) (Ptrs (gar g) (map gl (gos g))) ++
  opt (r_ruler (gs g)) Bytes ++ lines (gms g) ++ lines (gos g) ++ lines (gsb g).
Lemma scells_eq : forall g, scells g = (gp g, Scr (gs g)) :: frame g.
Proof. reflexivity. Qed.
Lemma rd_scr_ok : forall w g F, hw w (scells g ++ F) -> rd_scr (w_mem w) (gp g) = Ok (gs g).
Proof. intros w g F H. unfold rd_scr. rewrite (rd_hw w (gp g) (Scr (gs g)) (frame g ++ F) H). reflexivity. Qed.
Lemma len_of_zlen : forall {A B} (a : list A) (b : list B), zlen a = zlen b -> length a = length b.
Proof. intros A B a b H. apply Nat2Z.inj. exact H. Qed.

Lemma row_ptrs_ok : forall w arr room ls num F, zlen ls = num -> (ls = [] \/ arr <> 0) ->
  hw w (opt arr (Ptrs room (map gl ls)) ++ F) -> row_ptrs (w_mem w) arr num = Ok (map gl ls).
Proof.
  intros w arr room ls num F L Z0 H. unfold row_ptrs. destruct (num =? 0) eqn:E.
  - destruct ls; [reflexivity|]. cbn [length] in L. lia.
  - destruct Z0 as [->|N]; [cbn [length] in L; lia|]. rewrite opt_some in H by exact N.
    unfold rd_ptrs. rewrite (rd_hw w _ _ _ H). cbn [bind snd]. rewrite map_length, L, Z.eqb_refl. reflexivity.
Qed.

Section Alloc.
Variable al : allocator.
Hypothesis Fair : fair al.

Lemma store_ok : forall w arr room l p F, hw w ((arr, Ptrs room l) :: F) -> zlen l < room ->
  exists w', store w arr p = Ok w' /\ hw w' ((arr, Ptrs room (l ++ [p])) :: F).
Proof.
  intros w arr room l p F H R. unfold store, rd_ptrs. rewrite (rd_hw w _ _ _ H). cbn [bind fst snd].
  destruct (zlen l <? room) eqn:E; [|lia]. exact (wwr_ok w _ _ _ _ H).
Qed.
Lemma zlen_map : forall {A B} (f : A -> B) l, zlen (map f l) = zlen l.
Proof. intros. rewrite map_length. reflexivity. Qed.

Lemma grow_rows_ok : forall n g width w F, hw w (scells g ++ F) -> wf g -> r_main (gs g) <> 0 -> r_alt (gs g) <> 0 ->
  r_num (gs g) + Z.of_nat n <= gmr g -> r_num (gs g) + Z.of_nat n <= gar g ->
  exists w' b g', grow_rows n al w (gp g) width = Ok (w', b) /\ hw w' (scells g' ++ F) /\ wf g' /\ same g g' /\
    (b = false -> ~ plenty al) /\ (b = true -> r_num (gs g') = r_num (gs g) + Z.of_nat n) /\ r_sx (gs g') = r_sx (gs g) /\ gsb g' = gsb g.
Proof.
  induction n as [|n IH]; intros g width w F H W Nm Na Rm Ra; cbn [grow_rows].
  { exists w, true, g. split; [reflexivity|]. split; [exact H|]. split; [exact W|]. split; [apply same_refl|]. split; [discriminate|]. split; [intros _; lia|split; reflexivity]. }
  rewrite (rd_scr_ok w g F H). cbn [bind].
  destruct (line_new_ok al Fair w width _ H) as (w1 & l & -> & [(-> & H1 & Np)|(Hl & c & H1)]); cbn [bind snd fst].
  { change (0 =? 0) with true. cbv iota. exists w1, false, g. split; [reflexivity|]. split; [exact H1|]. split; [exact W|]. split; [apply same_refl|].
    split; [intros _; exact Np|]. split; [discriminate|split; reflexivity]. }
  destruct (l =? 0) eqn:E; [lia|].
  destruct (line_new_ok al Fair w1 width _ H1) as (w2 & k & -> & [(-> & H2 & Np)|(Hk & d & H2)]); cbn [bind snd fst].
  { change (0 =? 0) with true. cbv iota. destruct (line_free_ok w2 (mkGL l c width) (scells g ++ F) H2) as (w3 & E3 & H3). cbn [gl] in E3.
    rewrite E3. cbn [bind]. exists w3, false, g. split; [reflexivity|]. split; [exact H3|]. split; [exact W|]. split; [apply same_refl|].
    split; [intros _; exact Np|]. split; [discriminate|split; reflexivity]. }
  destruct (k =? 0) eqn:Ek; [lia|].
  pose proof H2 as H2'. rewrite scells_eq in H2'. unfold frame in H2'. rewrite (opt_some (r_main (gs g))) in H2' by exact Nm.
  rewrite (opt_some (r_alt (gs g))) in H2' by exact Na.
  destruct W as [Wm Wo Ws Wmn Wan Wy Wx].
  destruct (store_ok w2 (r_main (gs g)) (gmr g) (map gl (gms g)) l
    ((gp g, Scr (gs g)) :: (r_alt (gs g), Ptrs (gar g) (map gl (gos g))) :: tcells (r_tab (gs g)) (gi g) (gd g) ++ opt (r_ruler (gs g)) Bytes ++
      lines (gms g) ++ lines (gos g) ++ lines (gsb g) ++ lcells (mkGL l c width) ++ lcells (mkGL k d width) ++ F)) as (w3 & -> & H3);
    [hp H2'|rewrite zlen_map; lia|]. cbn [bind].
  destruct (store_ok w3 (r_alt (gs g)) (gar g) (map gl (gos g)) k
    ((r_main (gs g), Ptrs (gmr g) (map gl (gms g) ++ [l])) :: (gp g, Scr (gs g)) :: tcells (r_tab (gs g)) (gi g) (gd g) ++ opt (r_ruler (gs g)) Bytes ++
      lines (gms g) ++ lines (gos g) ++ lines (gsb g) ++ lcells (mkGL l c width) ++ lcells (mkGL k d width) ++ F)) as (w4 & -> & H4);
    [hp H3|rewrite zlen_map; lia|]. cbn [bind].
  set (s' := set_num (gs g) (r_num (gs g) + 1)).
  destruct (wwr_ok w4 (gp g) (Scr (gs g)) (Scr s')
    ((r_main (gs g), Ptrs (gmr g) (map gl (gms g) ++ [l])) :: (r_alt (gs g), Ptrs (gar g) (map gl (gos g) ++ [k])) :: tcells (r_tab (gs g)) (gi g) (gd g) ++ opt (r_ruler (gs g)) Bytes ++
      lines (gms g) ++ lines (gos g) ++ lines (gsb g) ++ lcells (mkGL l c width) ++ lcells (mkGL k d width) ++ F)) as (w5 & -> & H5);
    [hp H4|]. cbn [bind].
  set (g1 := mkGS (gp g) s' (gi g) (gd g) (gmr g) (gar g) (gms g ++ [mkGL l c width]) (gos g ++ [mkGL k d width]) (gsb g)).
  assert (Hg1 : hw w5 (scells g1 ++ F)).
  { unfold scells, g1. cbn [gp gs gi gd gmr gar gms gos gsb]. change (r_main s') with (r_main (gs g)). change (r_alt s') with (r_alt (gs g)).
    change (r_tab s') with (r_tab (gs g)). change (r_ruler s') with (r_ruler (gs g)).
    rewrite (opt_some (r_main (gs g))) by exact Nm. rewrite (opt_some (r_alt (gs g))) by exact Na. rewrite !map_app. cbn [map gl]. hp H5. }
  assert (W1 : wf g1).
  { constructor; unfold g1; cbn [gp gs gi gd gmr gar gms gos gsb].
    - rewrite app_length. change (r_num s') with (r_num (gs g) + 1). cbn [length]. lia.
    - rewrite app_length. change (r_num s') with (r_num (gs g) + 1). cbn [length]. lia.
    - exact Ws.
    - right. exact Nm.
    - right. exact Na.
    - change (r_num s') with (r_num (gs g) + 1). change (r_sy s') with (r_sy (gs g)). lia.
    - exact Wx. }
  destruct (IH g1 width w5 F Hg1 W1 Nm Na) as (w6 & b & g2 & E6 & H6 & W6 & S6 & P6 & Q6 & X6).
  { change (r_num (gs g1)) with (r_num (gs g) + 1). change (gmr g1) with (gmr g). lia. }
  { change (r_num (gs g1)) with (r_num (gs g) + 1). change (gar g1) with (gar g). lia. }
  exists w6, b, g2. split; [exact E6|]. split; [exact H6|]. split; [exact W6|]. split; [|split; [exact P6|]].
  - eapply same_trans; [|exact S6]. unfold same. cbn. auto.
  - split; [|exact X6]. intro Eb. rewrite (Q6 Eb). change (r_num (gs g1)) with (r_num (gs g) + 1). lia.
Qed.

Lemma realloc_ptrs_ok : forall w p y room ls F, (ls = [] \/ p <> 0) -> hw w (opt p (Ptrs room (map gl ls)) ++ F) ->
  exists w' q, realloc_ptrs al w p y = Ok (w', q) /\
  ((q = 0 /\ hw w' (opt p (Ptrs room (map gl ls)) ++ F) /\ ~ plenty al) \/ (0 < q /\ hw w' ((q, Ptrs y (map gl ls)) :: F))).
Proof.
  intros w p y room ls F Z0 H. unfold realloc_ptrs. destruct (p =? 0) eqn:E.
  - assert (Ep : p = 0) by lia. destruct Z0 as [->|N]; [|lia]. cbn [bind]. exact (resized_ok al Fair w p _ (Ptrs y []) F H).
  - pose proof H as H'. rewrite opt_some in H' by lia. unfold rd_ptrs. rewrite (rd_hw w _ _ _ H'). cbn [bind snd].
    exact (resized_ok al Fair w p _ (Ptrs y (map gl ls)) F H).
Qed.

Lemma grow_y_ok : forall g x y w F, hw w (scells g ++ F) -> wf g ->
  exists w' b g', grow_y al w (gp g) x y = Ok (w', b) /\ hw w' (scells g' ++ F) /\ wf g' /\ same g g' /\
    (b = false -> ~ plenty al) /\ (b = true -> y <= r_num (gs g')) /\ r_sx (gs g') = r_sx (gs g) /\ gsb g' = gsb g.
Proof.
  intros g x y w F H W. unfold grow_y. rewrite (rd_scr_ok w g F H). cbn [bind]. destruct (r_num (gs g) <? y) eqn:Ey.
  2:{ exists w, true, g. split; [reflexivity|]. split; [exact H|]. split; [exact W|]. split; [apply same_refl|]. split; [discriminate|]. split; [intros _; lia|split; reflexivity]. }
  pose proof W as [Wm Wo Ws Wmn Wan Wy Wx]. pose proof H as H0. unfold scells in H0.
  destruct (realloc_ptrs_ok w (r_main (gs g)) y (gmr g) (gms g)
    ((gp g, Scr (gs g)) :: tcells (r_tab (gs g)) (gi g) (gd g) ++ opt (r_alt (gs g)) (Ptrs (gar g) (map gl (gos g))) ++
     opt (r_ruler (gs g)) Bytes ++ lines (gms g) ++ lines (gos g) ++ lines (gsb g) ++ F) Wmn) as (w1 & a & -> & [(-> & H1 & Np)|(Ha & H1)]); [hp H0| |]; cbn [bind fst snd].
  { change (0 =? 0) with true. cbv iota. exists w1, false, g. split; [reflexivity|]. split; [unfold scells; hp H1|]. split; [exact W|]. split; [apply same_refl|].
    split; [intros _; exact Np|]. split; [discriminate|split; reflexivity]. }
  destruct (a =? 0) eqn:Ea; [lia|].
  destruct (wwr_ok w1 (gp g) (Scr (gs g)) (Scr (set_main (gs g) a))
    ((a, Ptrs y (map gl (gms g))) :: tcells (r_tab (gs g)) (gi g) (gd g) ++ opt (r_alt (gs g)) (Ptrs (gar g) (map gl (gos g))) ++
     opt (r_ruler (gs g)) Bytes ++ lines (gms g) ++ lines (gos g) ++ lines (gsb g) ++ F)) as (w2 & -> & H2); [hp H1|]. cbn [bind].
  destruct (realloc_ptrs_ok w2 (r_alt (gs g)) y (gar g) (gos g)
    ((gp g, Scr (set_main (gs g) a)) :: (a, Ptrs y (map gl (gms g))) :: tcells (r_tab (gs g)) (gi g) (gd g) ++
     opt (r_ruler (gs g)) Bytes ++ lines (gms g) ++ lines (gos g) ++ lines (gsb g) ++ F) Wan) as (w3 & b & -> & [(-> & H3 & Np)|(Hb & H3)]); [hp H2| |]; cbn [bind fst snd].
  { change (0 =? 0) with true. cbv iota.
    exists w3, false, (mkGS (gp g) (set_main (gs g) a) (gi g) (gd g) y (gar g) (gms g) (gos g) (gsb g)).
    split; [reflexivity|]. split.
    { unfold scells. cbn [gp gs gi gd gmr gar gms gos gsb set_main r_tab r_main r_alt r_ruler]. rewrite (opt_some a) by lia. hp H3. }
    split; [|split; [unfold same; cbn; auto|split; [intros _; exact Np|split; [discriminate|split; reflexivity]]]].
    constructor; cbn [gp gs gi gd gmr gar gms gos gsb set_main r_tab r_main r_alt r_ruler r_num r_sb r_sy r_max]; try assumption. right. lia. }
  destruct (b =? 0) eqn:Eb; [lia|].
  set (s' := set_alt (set_main (gs g) a) b).
  destruct (wwr_ok w3 (gp g) (Scr (set_main (gs g) a)) (Scr s')
    ((b, Ptrs y (map gl (gos g))) :: (a, Ptrs y (map gl (gms g))) :: tcells (r_tab (gs g)) (gi g) (gd g) ++
     opt (r_ruler (gs g)) Bytes ++ lines (gms g) ++ lines (gos g) ++ lines (gsb g) ++ F)) as (w4 & -> & H4); [hp H3|]. cbn [bind].
  set (g1 := mkGS (gp g) s' (gi g) (gd g) y y (gms g) (gos g) (gsb g)).
  assert (Hg1 : hw w4 (scells g1 ++ F)).
  { unfold scells, g1. cbn [gp gs gi gd gmr gar gms gos gsb]. change (r_main s') with a. change (r_alt s') with b.
    change (r_tab s') with (r_tab (gs g)). change (r_ruler s') with (r_ruler (gs g)). rewrite (opt_some a), (opt_some b) by lia. hp H4. }
  assert (W1 : wf g1).
  { constructor; unfold g1, s'; cbn [gp gs gi gd gmr gar gms gos gsb set_main set_alt r_tab r_main r_alt r_ruler r_num r_sb r_sy r_max]; try assumption; right; lia. }
  destruct (grow_rows_ok (Z.to_nat (y - r_num (gs g))) g1 (if r_sx (gs g) <? x then x else r_sx (gs g)) w4 F Hg1 W1)
    as (w5 & c & g2 & E5 & H5 & W5 & S5 & P5 & Q5 & X5); unfold g1, s'; cbn [gp gs gi gd gmr gar gms gos gsb set_main set_alt r_tab r_main r_alt r_ruler r_num]; try lia.
  exists w5, c, g2. split; [exact E5|]. split; [exact H5|]. split; [exact W5|]. split; [|split; [exact P5|split; [|exact X5]]].
  - eapply same_trans; [|exact S5]. unfold same. cbn. auto.
  - intro Ec. rewrite (Q5 Ec). cbn. lia.
Qed.

Lemma map_gl_len : forall a b, map gl a = map gl b -> zlen a = zlen b.
Proof. intros a b H. rewrite <- (zlen_map gl a), <- (zlen_map gl b), H. reflexivity. Qed.
Lemma map_gl_nil : forall a b (P : Prop), map gl a = map gl b -> b = [] \/ P -> a = [] \/ P.
Proof. intros a b P H [->|K]; [left|right; exact K]. destruct a; [reflexivity|discriminate H]. Qed.

Lemma grow_x_ok : forall g x w F, hw w (scells g ++ F) -> wf g ->
  exists w' b g', grow_x al w (gp g) x = Ok (w', b) /\ hw w' (scells g' ++ F) /\ wf g' /\ same g g' /\
    (b = false -> ~ plenty al) /\ r_num (gs g') = r_num (gs g) /\ gsb g' = gsb g.
Proof.
  intros g x w F H W. unfold grow_x. rewrite (rd_scr_ok w g F H). cbn [bind]. destruct (r_sx (gs g) <? x) eqn:Ex.
  2:{ exists w, true, g. split; [reflexivity|]. split; [exact H|]. split; [exact W|]. split; [apply same_refl|]. split; [discriminate|split; reflexivity]. }
  pose proof W as [Wm Wo Ws Wmn Wan Wy Wx]. pose proof H as H0. unfold scells in H0.
  destruct (resized_ok al Fair w (r_ruler (gs g)) Bytes Bytes
    ((gp g, Scr (gs g)) :: tcells (r_tab (gs g)) (gi g) (gd g) ++ opt (r_main (gs g)) (Ptrs (gmr g) (map gl (gms g))) ++ opt (r_alt (gs g)) (Ptrs (gar g) (map gl (gos g))) ++
     lines (gms g) ++ lines (gos g) ++ lines (gsb g) ++ F)) as (w1 & a & -> & [(-> & H1 & Np)|(Ha & H1)]); [hp H0| |]; cbn [bind fst snd].
  { change (0 =? 0) with true. cbv iota. exists w1, false, g. split; [reflexivity|]. split; [unfold scells; hp H1|]. split; [exact W|]. split; [apply same_refl|].
    split; [intros _; exact Np|split; reflexivity]. }
  destruct (a =? 0) eqn:Ea; [lia|]. set (s' := set_ruler (gs g) a).
  destruct (wwr_ok w1 (gp g) (Scr (gs g)) (Scr s')
    ((a, Bytes) :: tcells (r_tab (gs g)) (gi g) (gd g) ++ opt (r_main (gs g)) (Ptrs (gmr g) (map gl (gms g))) ++ opt (r_alt (gs g)) (Ptrs (gar g) (map gl (gos g))) ++
     lines (gms g) ++ lines (gos g) ++ lines (gsb g) ++ F)) as (w2 & -> & H2); [hp H1|]. cbn [bind].
  rewrite (row_ptrs_ok w2 (r_main (gs g)) (gmr g) (gms g) (r_num (gs g))
    ((gp g, Scr s') :: (a, Bytes) :: tcells (r_tab (gs g)) (gi g) (gd g) ++ opt (r_alt (gs g)) (Ptrs (gar g) (map gl (gos g))) ++
     lines (gms g) ++ lines (gos g) ++ lines (gsb g) ++ F) Wm Wmn) by hp H2. cbn [bind].
  rewrite (row_ptrs_ok w2 (r_alt (gs g)) (gar g) (gos g) (r_num (gs g))
    ((gp g, Scr s') :: (a, Bytes) :: tcells (r_tab (gs g)) (gi g) (gd g) ++ opt (r_main (gs g)) (Ptrs (gmr g) (map gl (gms g))) ++
     lines (gms g) ++ lines (gos g) ++ lines (gsb g) ++ F) Wo Wan) by hp H2. cbn [bind].
  destruct (resize_rows_ok al Fair x (gms g) (gos g) w2
    ((gp g, Scr s') :: (a, Bytes) :: tcells (r_tab (gs g)) (gi g) (gd g) ++ opt (r_main (gs g)) (Ptrs (gmr g) (map gl (gms g))) ++ opt (r_alt (gs g)) (Ptrs (gar g) (map gl (gos g))) ++
     lines (gsb g) ++ F)) as (w3 & b & ms' & os' & -> & H3 & Em & Eo & Np); [apply len_of_zlen; lia|hp H2|].
  exists w3, b, (mkGS (gp g) s' (gi g) (gd g) (gmr g) (gar g) ms' os' (gsb g)). split; [reflexivity|]. split.
  { unfold scells. cbn [gp gs gi gd gmr gar gms gos gsb]. change (r_main s') with (r_main (gs g)). change (r_alt s') with (r_alt (gs g)).
    change (r_tab s') with (r_tab (gs g)). change (r_ruler s') with a. rewrite Em, Eo, (opt_some a) by lia. hp H3. }
  split; [|split; [unfold same; cbn; auto|split; [exact Np|split; reflexivity]]].
  pose proof (map_gl_len _ _ Em). pose proof (map_gl_len _ _ Eo).
  constructor; unfold s'; cbn [gp gs gi gd gmr gar gms gos gsb set_ruler r_tab r_main r_alt r_ruler r_num r_sb r_sy r_max]; try assumption; try lia.
  - exact (map_gl_nil _ _ _ Em Wmn).
  - exact (map_gl_nil _ _ _ Eo Wan).
Qed.
End Alloc.
