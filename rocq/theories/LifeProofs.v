(* Lemmas about Life.v: what each function does to the blocks, as lists up to
   order. *)
From Verif Require Import Base BaseProofs Life LifeSpec.
From Coq Require Import Permutation.

(* Lists up to order, by counting. *)
Definition scr_eq_dec (a b : scr) : {a = b} + {a <> b}.
Proof. decide equality; try apply Z.eq_dec; try apply Bool.bool_dec; apply (list_eq_dec Z.eq_dec). Defined.
Definition obj_eq_dec (a b : obj) : {a = b} + {a <> b}.
Proof.
  decide equality; try apply Z.eq_dec; try apply (list_eq_dec Z.eq_dec); try apply scr_eq_dec.
  decide equality; apply Z.eq_dec.
Defined.
Definition cell_eq_dec (a b : Z * obj) : {a = b} + {a <> b}.
Proof. decide equality; [apply obj_eq_dec|apply Z.eq_dec]. Defined.
Definition cnt (x : Z * obj) (l : mem) : nat := count_occ cell_eq_dec l x.
Definition one (x y : Z * obj) : nat := if cell_eq_dec y x then 1 else 0.
Lemma cnt_cons : forall x y l, cnt x (y :: l) = (one x y + cnt x l)%nat.
Proof. intros x y l. unfold cnt, one. cbn [count_occ]. destruct (cell_eq_dec y x); reflexivity. Qed.
Lemma cnt_app : forall x a b, cnt x (a ++ b) = (cnt x a + cnt x b)%nat.
Proof. intros. apply count_occ_app. Qed.
Lemma cnt_nil : forall x, cnt x [] = O.
Proof. reflexivity. Qed.
Lemma perm_cnt : forall a b, (forall x, cnt x a = cnt x b) -> Permutation a b.
Proof. intros a b H. apply (Permutation_count_occ cell_eq_dec). exact H. Qed.

(* The lines: object, cells, size. *)
Record gline := mkGL { gl : Z; gc : Z; gn : Z }.
Definition lcells (g : gline) : mem := [(gl g, Line (gc g) (gn g)); (gc g, Bytes)].
Definition lines (l : list gline) : mem := flat_map lcells l.
Lemma lines_cons : forall g l, lines (g :: l) = lcells g ++ lines l.
Proof. reflexivity. Qed.
Lemma lines_app : forall a b, lines (a ++ b) = lines a ++ lines b.
Proof. intros. apply flat_map_app. Qed.
Lemma lines_nil : lines [] = [].
Proof. reflexivity. Qed.
Ltac perm := apply perm_cnt; let x := fresh "x" in intro x;
  repeat (rewrite ?lines_cons, ?lines_app, ?lines_nil, ?cnt_app, ?cnt_cons, ?cnt_nil); lia.

Definition holds (m cs : mem) : Prop := Permutation m cs /\ NoDup (map fst m) /\ ~ In 0 (map fst m).
Definition hw (w : world) (cs : mem) : Prop := holds (w_mem w) cs.
Lemma hw_perm : forall w a b, hw w a -> Permutation a b -> hw w b.
Proof. intros w a b (P & N & Z0) Q. split; [|split; assumption]. eapply Permutation_trans; eassumption. Qed.
Ltac hp H := eapply hw_perm; [exact H|perm].

Lemma rd_in : forall m p o, NoDup (map fst m) -> In (p, o) m -> rd m p = Ok o.
Proof.
  induction m as [|[a x] r IH]; intros p o N I; [destruct I|]. cbn [rd]. cbn in N. inversion N as [|? ? NI N']; subst.
  destruct I as [E|I]; [injection E as -> ->; rewrite Z.eqb_refl; reflexivity|].
  destruct (a =? p) eqn:E; [|apply IH; assumption]. exfalso. apply NI. assert (a = p) by lia. subst a.
  apply in_map_iff. exists (p, o). split; [reflexivity|exact I].
Qed.
Lemma rd_hw : forall w p o F, hw w ((p, o) :: F) -> rd (w_mem w) p = Ok o.
Proof. intros w p o F (P & N & _). apply rd_in; [exact N|]. apply (Permutation_in _ (Permutation_sym P)). left. reflexivity. Qed.
Lemma key_hw : forall w p o F, hw w ((p, o) :: F) -> p <> 0.
Proof.
  intros w p o F (P & N & Z0) E. apply Z0. apply in_map_iff. exists (p, o). split; [exact E|].
  apply (Permutation_in _ (Permutation_sym P)). left. reflexivity.
Qed.
Lemma split_at : forall (m : mem) p o F, Permutation m ((p, o) :: F) -> NoDup (map fst m) ->
  exists A B, m = A ++ (p, o) :: B /\ ~ In p (map fst A) /\ Permutation (A ++ B) F.
Proof.
  intros m p o F P N. assert (I : In (p, o) m) by (apply (Permutation_in _ (Permutation_sym P)); left; reflexivity).
  destruct (in_split _ _ I) as (A & B & ->). exists A, B. split; [reflexivity|]. split.
  - intro J. rewrite map_app in N. cbn in N. apply NoDup_remove_2 in N. apply N. apply in_or_app. left. exact J.
  - apply (Permutation_cons_inv (a := (p, o))). eapply Permutation_trans; [apply Permutation_middle|exact P].
Qed.
Lemma wr_split : forall (A B : mem) p o o', ~ In p (map fst A) -> wr (A ++ (p, o) :: B) p o' = Ok (A ++ (p, o') :: B).
Proof.
  induction A as [|[a x] r IH]; intros B p o o' N; cbn [app wr].
  - rewrite Z.eqb_refl. reflexivity.
  - destruct (a =? p) eqn:E; [exfalso; apply N; left; cbn; lia|]. rewrite IH by (intro J; apply N; right; exact J). reflexivity.
Qed.
Lemma drop_split : forall (A B : mem) p o, ~ In p (map fst A) -> drop (A ++ (p, o) :: B) p = Ok (A ++ B).
Proof.
  induction A as [|[a x] r IH]; intros B p o N; cbn [app drop].
  - rewrite Z.eqb_refl. reflexivity.
  - destruct (a =? p) eqn:E; [exfalso; apply N; left; cbn; lia|]. rewrite IH by (intro J; apply N; right; exact J). reflexivity.
Qed.
Lemma wwr_ok : forall w p o o' F, hw w ((p, o) :: F) -> exists w', wwr w p o' = Ok w' /\ hw w' ((p, o') :: F).
Proof.
  intros w p o o' F (P & N & Z0). destruct (split_at _ _ _ _ P N) as (A & B & E & NA & PF). unfold wwr. rewrite E, wr_split by exact NA.
  cbn [bind]. eexists. split; [reflexivity|]. unfold hw, holds. cbn [put w_mem]. rewrite E in N, Z0. split; [|].
  - eapply Permutation_trans; [apply Permutation_sym, Permutation_middle|]. apply perm_skip. exact PF.
  - rewrite map_app in *. cbn in *. split; assumption.
Qed.
Lemma drop_ok : forall m p o F, holds m ((p, o) :: F) -> exists m', drop m p = Ok m' /\ holds m' F.
Proof.
  intros m p o F (P & N & Z0). destruct (split_at _ _ _ _ P N) as (A & B & E & NA & PF). rewrite E, drop_split by exact NA.
  exists (A ++ B). split; [reflexivity|]. rewrite E in N, Z0. split; [exact PF|]. rewrite map_app in *. cbn in *. split.
  - eapply NoDup_remove_1. exact N.
  - intro I. apply Z0. apply in_app_or in I. apply in_or_app. cbn. tauto.
Qed.
Definition opt (p : Z) (o : obj) : mem := if p =? 0 then [] else [(p, o)].
Lemma opt_some : forall p o, p <> 0 -> opt p o = [(p, o)].
Proof. intros p o H. unfold opt. destruct (p =? 0) eqn:E; [lia|reflexivity]. Qed.
Lemma fr_ok : forall m p o F, holds m (opt p o ++ F) -> exists m', fr m p = Ok m' /\ holds m' F.
Proof.
  intros m p o F H. unfold fr, opt in *. destruct (p =? 0); [exists m; split; [reflexivity|exact H]|]. exact (drop_ok _ _ _ _ H).
Qed.
Lemma wfr_opt : forall w p o F, hw w (opt p o ++ F) -> exists w', wfr w p = Ok w' /\ hw w' F.
Proof. intros w p o F H. unfold wfr. destruct (fr_ok _ _ _ _ H) as (m & -> & G). cbn [bind]. eexists. split; [reflexivity|exact G]. Qed.
Lemma wfr_ok : forall w p o F, hw w ((p, o) :: F) -> exists w', wfr w p = Ok w' /\ hw w' F.
Proof. intros w p o F H. apply (wfr_opt w p o F). rewrite opt_some by exact (key_hw _ _ _ _ H). exact H. Qed.

Section Alloc.
Variable al : allocator.
Hypothesis Fair : fair al.

Lemma new_holds : forall m k p o F, al k m = Some p -> holds m F -> 0 < p /\ holds ((p, o) :: m) ((p, o) :: F).
Proof.
  intros m k p o F E (P & N & Z0). destruct (Fair _ _ _ E) as (Hp & Na). split; [exact Hp|]. split; [apply perm_skip; exact P|].
  cbn. split; [constructor; assumption|]. intros [->|I]; [lia|contradiction].
Qed.
Lemma alloc_ok : forall w o F, hw w F -> exists w' p, alloc al w o = (w', p) /\
  ((p = 0 /\ hw w' F /\ ~ plenty al) \/ (0 < p /\ hw w' ((p, o) :: F))).
Proof.
  intros w o F H. unfold alloc. destruct (al (w_tick w) (w_mem w)) as [p|] eqn:E.
  - destruct (new_holds _ _ _ o _ E H) as (Hp & G). do 2 eexists. split; [reflexivity|]. right. split; [exact Hp|exact G].
  - do 2 eexists. split; [reflexivity|]. left. split; [reflexivity|]. split; [exact H|]. intro Pl. exact (Pl _ _ E).
Qed.
Lemma resized_ok : forall w p o o' F, hw w (opt p o ++ F) -> exists w' q, resized al w p o' = Ok (w', q) /\
  ((q = 0 /\ hw w' (opt p o ++ F) /\ ~ plenty al) \/ (0 < q /\ hw w' ((q, o') :: F))).
Proof.
  intros w p o o' F H. unfold resized. destruct (fr_ok _ _ _ _ H) as (m & -> & G). cbn [bind].
  destruct (al (w_tick w) m) as [q|] eqn:E.
  - destruct (new_holds _ _ _ o' _ E G) as (Hp & K). do 2 eexists. split; [reflexivity|]. right. split; [exact Hp|exact K].
  - do 2 eexists. split; [reflexivity|]. left. split; [reflexivity|]. split; [exact H|]. intro Pl. exact (Pl _ _ E).
Qed.

(* Lines. *)
Lemma line_new_ok : forall w n F, hw w F -> exists w' l, line_new al w n = Ok (w', l) /\
  ((l = 0 /\ hw w' F /\ ~ plenty al) \/ (0 < l /\ exists c, hw w' (lcells (mkGL l c n) ++ F))).
Proof.
  intros w n F H. unfold line_new. destruct (alloc_ok w (Line 0 n) F H) as (w1 & l & -> & [(-> & H1 & Np)|(Hl & H1)]).
  { do 2 eexists. split; [reflexivity|]. left. auto. }
  destruct (l =? 0) eqn:E; [lia|]. destruct (alloc_ok w1 Bytes _ H1) as (w2 & c & -> & [(-> & H2 & Np)|(Hc & H2)]).
  - destruct (wwr_ok w2 l _ (Line 0 n) F H2) as (w3 & -> & H3). cbn [bind]. change (0 =? 0) with true. cbv iota.
    destruct (wfr_ok w3 l _ F H3) as (w4 & -> & H4). cbn [bind]. do 2 eexists. split; [reflexivity|]. left. auto.
  - destruct (wwr_ok w2 l (Line 0 n) (Line c n) ((c, Bytes) :: F)) as (w3 & -> & H3); [hp H2|]. cbn [bind].
    destruct (c =? 0) eqn:E2; [lia|]. do 2 eexists. split; [reflexivity|]. right. split; [exact Hl|]. exists c. exact H3.
Qed.
Lemma rd_line_ok : forall w g F, hw w (lcells g ++ F) -> rd_line (w_mem w) (gl g) = Ok (gc g, gn g).
Proof. intros w g F H. unfold rd_line. rewrite (rd_hw w (gl g) (Line (gc g) (gn g)) ((gc g, Bytes) :: F) H). reflexivity. Qed.
Lemma line_free_ok : forall w g F, hw w (lcells g ++ F) -> exists w', line_free w (gl g) = Ok w' /\ hw w' F.
Proof.
  intros w g F H. unfold line_free. rewrite (rd_line_ok w g F H). cbn [bind fst].
  destruct (wfr_ok w (gc g) Bytes ((gl g, Line (gc g) (gn g)) :: F)) as (w1 & -> & H1); [unfold lcells in H; hp H|]. cbn [bind].
  exact (wfr_ok w1 _ _ _ H1).
Qed.
Lemma line_resize_ok : forall w g x F, hw w (lcells g ++ F) -> exists w' b g', line_resize al w (gl g) x = Ok (w', b) /\
  hw w' (lcells g' ++ F) /\ gl g' = gl g /\ (b = false -> ~ plenty al).
Proof.
  intros w g x F H. unfold line_resize. rewrite (rd_line_ok w g F H). cbn [bind fst snd].
  destruct (gn g <? x); [|exists w, true, g; split; [reflexivity|]; split; [exact H|]; split; [reflexivity|discriminate]].
  assert (Hc : gc g <> 0) by (apply (key_hw w (gc g) Bytes ((gl g, Line (gc g) (gn g)) :: F)); unfold lcells in H; hp H).
  destruct (resized_ok w (gc g) Bytes Bytes ((gl g, Line (gc g) (gn g)) :: F)) as (w1 & q & -> & [(-> & H1 & Np)|(Hq & H1)]).
  { rewrite opt_some by exact Hc. unfold lcells in H. hp H. }
  - cbn [bind snd fst]. change (0 =? 0) with true. cbv iota. exists w1, false, g. split; [reflexivity|]. split; [|split; [reflexivity|intros _; exact Np]].
    rewrite opt_some in H1 by exact Hc. unfold lcells. hp H1.
  - cbn [bind snd fst]. destruct (q =? 0) eqn:E; [lia|].
    destruct (wwr_ok w1 (gl g) (Line (gc g) (gn g)) (Line q x) ((q, Bytes) :: F)) as (w2 & -> & H2); [hp H1|]. cbn [bind].
    exists w2, true, (mkGL (gl g) q x). split; [reflexivity|]. split; [exact H2|]. split; [reflexivity|discriminate].
Qed.
Lemma resize_rows_ok : forall x ms os w F, length ms = length os -> hw w (lines ms ++ lines os ++ F) ->
  exists w' b ms' os', resize_rows al w (map gl ms) (map gl os) x = Ok (w', b) /\
    hw w' (lines ms' ++ lines os' ++ F) /\ map gl ms' = map gl ms /\ map gl os' = map gl os /\ (b = false -> ~ plenty al).
Proof.
  intros x ms. induction ms as [|m ms IH]; intros [|o os] w F L H; try discriminate L.
  { exists w, true, [], []. split; [reflexivity|]. split; [exact H|]. split; [reflexivity|]. split; [reflexivity|discriminate]. }
  cbn [map resize_rows]. destruct (line_resize_ok w m x (lines ms ++ lines (o :: os) ++ F)) as (w1 & b & m' & -> & H1 & E1 & N1); [hp H|].
  cbn [bind snd fst]. destruct b; cbn [negb].
  2:{ exists w1, false, (m' :: ms), (o :: os). split; [reflexivity|]. split; [hp H1|]. split; [cbn [map]; rewrite E1; reflexivity|].
      split; [reflexivity|exact N1]. }
  destruct (line_resize_ok w1 o x (lcells m' ++ lines ms ++ lines os ++ F)) as (w2 & b & o' & -> & H2 & E2 & N2); [hp H1|].
  cbn [bind snd fst]. destruct b; cbn [negb].
  2:{ exists w2, false, (m' :: ms), (o' :: os). split; [reflexivity|]. split; [hp H2|]. cbn [map]. rewrite E1, E2. split; [reflexivity|].
      split; [reflexivity|exact N2]. }
  destruct (IH os w2 (lcells m' ++ lcells o' ++ F)) as (w3 & b & ms' & os' & -> & H3 & E3 & E4 & N3); [cbn in L; lia|hp H2|].
  exists w3, b, (m' :: ms'), (o' :: os'). split; [reflexivity|]. split; [hp H3|]. cbn [map]. rewrite E1, E2, E3, E4. auto.
Qed.
Lemma free_lines_ok : forall ls w F, hw w (lines ls ++ F) -> exists w', free_lines w (map gl ls) = Ok w' /\ hw w' F.
Proof.
  induction ls as [|g r IH]; intros w F H; cbn [map free_lines]; [exists w; split; [reflexivity|exact H]|].
  destruct (line_free_ok w g (lines r ++ F)) as (w1 & -> & H1); [hp H|]. cbn [bind]. exact (IH w1 F H1).
Qed.
Lemma free_rows_ok : forall ms os w F, length ms = length os -> hw w (lines ms ++ lines os ++ F) ->
  exists w', free_rows w (map gl ms) (map gl os) = Ok w' /\ hw w' F.
Proof.
  induction ms as [|m ms IH]; intros [|o os] w F L H; try discriminate L; cbn [map free_rows]; [exists w; split; [reflexivity|exact H]|].
  destruct (line_free_ok w m (lines ms ++ lines (o :: os) ++ F)) as (w1 & -> & H1); [hp H|]. cbn [bind].
  destruct (line_free_ok w1 o (lines ms ++ lines os ++ F)) as (w2 & -> & H2); [hp H1|]. cbn [bind].
  apply IH; [cbn in L; lia|exact H2].
Qed.
Lemma look_ok : forall ls w F, hw w (lines ls ++ F) -> look (w_mem w) (map gl ls) = Ok tt.
Proof.
  induction ls as [|g r IH]; intros w F H; cbn [map look]; [reflexivity|].
  rewrite (rd_line_ok w g (lines r ++ F)) by hp H. cbn [bind]. apply (IH w (lcells g ++ F)). hp H.
Qed.

(* The table of symbols. *)
Definition tcells (t i d : Z) : mem := if t =? 0 then [] else [(t, Tab 1 i); (i, Arr d); (d, Bytes)].
Lemma table_new_ok : forall w F, hw w F -> exists w' t, table_new al w = Ok (w', t) /\
  ((t = 0 /\ hw w' F /\ ~ plenty al) \/ (0 < t /\ exists i d, hw w' (tcells t i d ++ F))).
Proof.
  intros w F H. unfold table_new. destruct (alloc_ok w (Tab 1 0) F H) as (w1 & t & -> & [(-> & H1 & Np)|(Ht & H1)]).
  { do 2 eexists. split; [reflexivity|]. left. auto. }
  destruct (t =? 0) eqn:Et; [lia|]. destruct (alloc_ok w1 (Arr 0) _ H1) as (w2 & a & -> & [(-> & H2 & Np)|(Ha & H2)]).
  { change (0 =? 0) with true. cbv iota. destruct (wfr_ok w2 t _ F H2) as (w3 & -> & H3). cbn [bind]. do 2 eexists. split; [reflexivity|]. left. auto. }
  destruct (a =? 0) eqn:Ea; [lia|]. destruct (alloc_ok w2 Bytes _ H2) as (w3 & d & -> & [(-> & H3 & Np)|(Hd & H3)]).
  { destruct (wwr_ok w3 a _ (Arr 0) _ H3) as (w4 & -> & H4). cbn [bind]. change (0 =? 0) with true. cbv iota.
    destruct (wfr_ok w4 a _ _ H4) as (w5 & -> & H5). cbn [bind]. destruct (wfr_ok w5 t _ _ H5) as (w6 & -> & H6). cbn [bind].
    do 2 eexists. split; [reflexivity|]. left. auto. }
  destruct (wwr_ok w3 a (Arr 0) (Arr d) ((d, Bytes) :: (t, Tab 1 0) :: F)) as (w4 & -> & H4); [hp H3|]. cbn [bind].
  destruct (d =? 0) eqn:Ed; [lia|]. destruct (wwr_ok w4 t (Tab 1 0) (Tab 1 a) ((a, Arr d) :: (d, Bytes) :: F)) as (w5 & -> & H5); [hp H4|].
  cbn [bind]. do 2 eexists. split; [reflexivity|]. right. split; [exact Ht|]. exists a, d. unfold tcells. rewrite Et. exact H5.
Qed.
Lemma table_unref_ok : forall w t i d F, hw w (tcells t i d ++ F) -> exists w', table_unref w t = Ok w' /\ hw w' F.
Proof.
  intros w t i d F H. unfold table_unref, tcells in *. destruct (t =? 0); [exists w; split; [reflexivity|exact H]|]. cbn [app] in H.
  rewrite (rd_hw w t _ _ H). cbn [bind]. change (1 =? 0) with false. cbv iota. change (negb (u64 (1 - 1) =? 0)) with false. cbv iota.
  rewrite (rd_hw w i (Arr d) ((t, Tab 1 i) :: (d, Bytes) :: F)) by hp H. cbn [bind].
  destruct (wfr_ok w d Bytes ((i, Arr d) :: (t, Tab 1 i) :: F)) as (w1 & -> & H1); [hp H|]. cbn [bind].
  destruct (wfr_ok w1 i _ _ H1) as (w2 & -> & H2). cbn [bind]. exact (wfr_ok w2 t _ _ H2).
Qed.
End Alloc.
