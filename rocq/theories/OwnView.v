(* The pointers of the view and of the selection follow the ids of Screen.v. *)
From Verif Require Import Base BaseProofs Screen ScreenInv ScreenSb ScreenScroll ScreenSpec ScreenOps ScreenMove ScreenCtl ScreenResize ScreenSafe ScreenHist ScreenThms Own OwnSpec OwnProofs OwnRows OwnThms OwnCalls OwnCallThms.
From Coq Require Import Permutation.

Lemma znth_inj (L : list Z) i j p : NoDup L -> znth L i = Some p -> znth L j = Some p -> i = j.
Proof.
  intros N A B. pose proof (znth_Some_range _ _ _ A). pose proof (znth_Some_range _ _ _ B). unfold znth in *.
  destruct (Z.ltb_spec i 0); [lia|]. destruct (Z.ltb_spec j 0); [lia|]. rewrite <- B in A.
  apply (proj1 (NoDup_nth_error L) N) in A; [lia|]. lia.
Qed.
Lemma znth_split (L : list Z) i p : znth L i = Some p -> exists A B, L = A ++ p :: B /\ zlen A = i.
Proof.
  intros E. pose proof (znth_Some_range _ _ _ E). unfold znth in E. destruct (Z.ltb_spec i 0); [lia|].
  destruct (nth_error_split _ _ E) as (A & B & -> & LA). exists A, B. split; [reflexivity|]. lia.
Qed.
Definition or0 (o : option Z) : Z := match o with Some p => p | None => 0 end.
Lemma hd_znth (B : list Z) : hd 0 B = or0 (znth B 0).
Proof. destruct B; reflexivity. Qed.
Lemma last_znth (A : list Z) : last A 0 = or0 (znth A (zlen A - 1)).
Proof.
  destruct A as [|x A] using rev_ind; [reflexivity|]. rewrite last_snoc, app_length. cbn [length].
  replace (Z.of_nat (length A + 1) - 1) with (zlen A) by lia. rewrite znth_app. replace (zlen A <? zlen A) with false by lia. rewrite Z.sub_diag. reflexivity.
Qed.
Lemma dll_at h L i p : dll h 0 L -> znth L i = Some p -> hget h p = Ok (mkO (or0 (znth L (i - 1))) (or0 (znth L (i + 1)))).
Proof.
  intros D E. destruct (znth_split _ _ _ E) as (A & B & -> & LA). rewrite (dll_mid _ _ _ _ _ D). do 2 f_equal.
  - rewrite last_znth. f_equal. rewrite znth_app. destruct (Z.ltb_spec (i - 1) (zlen A)); [f_equal; lia|lia].
  - rewrite hd_znth. f_equal. rewrite znth_app. replace (i + 1 <? zlen A) with false by lia. replace (i + 1 - zlen A) with 1 by lia. destruct B; reflexivity.
Qed.
Lemma iv_znth w live L i p : inv w live L -> znth L i = Some p -> p <> 0 /\ In p L.
Proof. intros I E. assert (In p L) by (eapply znth_In; eauto). split; [|assumption]. intros ->. apply (iv_null _ _ _ I). apply in_or_app. auto. Qed.
Lemma iv_ndL w live L : inv w live L -> NoDup L.
Proof. intros I. exact (nd_right _ _ (iv_nd _ _ _ I)). Qed.

(* b: the id of the first line of the scrollback. *)
Definition points (b : Z) (L : list Z) (o : option Z) (p : Z) : Prop := match o with None => p = 0 | Some k => znth L (k - b) = Some p end.
Definition points_end (b : Z) (L : list Z) (p : selpos) (e : Z * Z) : Prop := points b L (p_line p) (fst e) /\ snd e = p_y p.
Record follows (s : screen) (w : own) (L : list Z) : Prop := mkFollows {
  fo_len : zlen L = zlen (s_sb s); fo_max : w_max w = s_sbmax s;
  fo_pos : points (first_id s) L (s_sbpos s) (w_pos w);
  fo_sela : w_sela w = s_sela s;
  fo_1 : s_sela s = true -> points_end (first_id s) L (s_sel1 s) (w_sel1 w);
  fo_2 : s_sela s = true -> points_end (first_id s) L (s_sel2 s) (w_sel2 w)
}.
(* -- one line into the scrollback --------------------------------------------------------------------------- *)
Definition pointers (w w' : own) : Prop := w_pos w' = w_pos w /\ w_sela w' = w_sela w /\ w_sel1 w' = w_sel1 w /\ w_sel2 w' = w_sel2 w.
Lemma append_pointers w x w' : append_line w x = Ok w' -> pointers w w'.
Proof.
  unfold append_line. destruct (hset _ _ _) as [h1|]; [|discriminate]. cbn [bind]. destruct (w_last w =? 0).
  - intros E. assert (X : w' = put_list w x x (u32 (w_count w + 1)) h1) by congruence. rewrite X. unfold pointers. auto.
  - destruct (hset h1 _ _) as [h2|]; [|discriminate]. cbn [bind]. intros E. assert (X : w' = put_list w (w_first w) x (u32 (w_count w + 1)) h2) by congruence. rewrite X. unfold pointers. auto.
Qed.
Lemma free_pointers w p w' : free_line w p = Ok w' -> pointers w w'.
Proof. unfold free_line. destruct (hfree _ _) as [h|]; [|discriminate]. cbn [bind]. intros E. assert (X : w' = put_heap w h) by congruence. rewrite X. unfold pointers. auto. Qed.
Lemma forget_pointers w p : w_pos (forget w p) = w_pos w /\ w_sela (forget w p) = w_sela w /\
  w_sel1 (forget w p) = (if w_sela w then forget_end p (w_sel1 w) else w_sel1 w) /\ w_sel2 (forget w p) = (if w_sela w then forget_end p (w_sel2 w) else w_sel2 w).
Proof. unfold forget. destruct (w_sela w) eqn:E; cbn; auto. Qed.
Lemma unlink_pointers w w' : unlink_first w = Ok w' -> pointers w w' /\ forall p o, hget (w_heap w) p = Ok o -> exists o', hget (w_heap w') p = Ok o' /\ o_next o' = o_next o.
Proof.
  unfold unlink_first. destruct (hget (w_heap w) (w_first w)) as [o|]; [|discriminate]. cbn [bind]. destruct (o_next o =? 0).
  - intros E. assert (X : w' = put_list w 0 0 (u32 (w_count w - 1)) (w_heap w)) by congruence. rewrite X. split; [unfold pointers; auto|]. eauto.
  - destruct (hset (w_heap w) (o_next o) (with_prev 0)) as [h|] eqn:H; [|discriminate]. cbn [bind]. intros E. assert (X : w' = put_list w (o_next o) (w_last w) (u32 (w_count w - 1)) h) by congruence. rewrite X. split; [unfold pointers; auto|].
    intros p o1 O1. cbn [put_list w_heap]. destruct (hget (w_heap w) (o_next o)) as [o2|] eqn:O2.
    + destruct (hset_ok _ _ (with_prev 0) _ O2) as (h2 & E2 & _ & G). assert (h2 = h) by congruence. subst h2. rewrite G. destruct (Z.eqb_spec p (o_next o)) as [->|]; [|eauto].
      eexists. split; [reflexivity|]. cbn [with_prev o_next]. congruence.
    + exfalso. clear - H O2. revert h H. induction (w_heap w) as [|[a b] r IH]; intros h H; [discriminate|]. cbn [hset hget] in *. destruct (a =? o_next o); [discriminate|].
      destruct (hset r (o_next o) (with_prev 0)) eqn:Q; [|discriminate]. exact (IH O2 _ eq_refl).
Qed.
Lemma evict_pointers fixed x w live a L w2 i : inv w live (a :: L) -> evict fixed x w = Ok w2 ->
  w_sela w2 = w_sela w /\ w_sel1 w2 = (if w_sela w then forget_end a (w_sel1 w) else w_sel1 w) /\ w_sel2 w2 = (if w_sela w then forget_end a (w_sel2 w) else w_sel2 w) /\
  (w_pos w = 0 -> w_pos w2 = 0) /\
  (znth (a :: L) i = Some (w_pos w) -> znth ((a :: L) ++ [x]) (if (i =? 0) || negb fixed then i + 1 else i) = Some (w_pos w2)).
Proof.
  intros I E. unfold evict in E. destruct (unlink_first w) as [w1|] eqn:U; [|discriminate]. cbn [bind] in E. destruct (unlink_pointers _ _ U) as [(P1 & P2 & P3 & P4) NX].
  rewrite (iv_first _ _ _ I) in E. cbn [hd] in E. rewrite P1 in E.
  set (p2 := if w_pos w =? 0 then Ok w1 else if (w_pos w =? a) || negb fixed then do o <- hget (w_heap w1) (w_pos w); Ok (put_pos w1 (if o_next o =? 0 then x else o_next o)) else Ok w1) in *.
  assert (Q : exists v, p2 = Ok v /\ w_sela v = w_sela w /\ w_sel1 v = w_sel1 w /\ w_sel2 v = w_sel2 w /\ (w_pos w = 0 -> w_pos v = 0) /\
    (znth (a :: L) i = Some (w_pos w) -> znth ((a :: L) ++ [x]) (if (i =? 0) || negb fixed then i + 1 else i) = Some (w_pos v))).
  { unfold p2. destruct (Z.eqb_spec (w_pos w) 0) as [P0|PN].
    - exists w1. repeat match goal with |- _ /\ _ => split end; auto; [congruence|]. intros Z0. destruct (iv_znth _ _ _ _ _ I Z0). contradiction.
    - assert (IP : In (w_pos w) (a :: L)) by (destruct (iv_pos _ _ _ I); [contradiction|assumption]).
      assert (KEEP : forall j, znth (a :: L) j = Some (w_pos w) -> znth ((a :: L) ++ [x]) j = Some (w_pos w)).
      { intros j J. rewrite znth_app. pose proof (znth_Some_range _ _ _ J). replace (j <? zlen (a :: L)) with true by lia. exact J. }
      assert (I0 : znth (a :: L) i = Some (w_pos w) -> (w_pos w =? a) = (i =? 0)).
      { intros J. destruct (Z.eqb_spec (w_pos w) a) as [EA|NA]; destruct (Z.eqb_spec i 0) as [EI|NI]; try reflexivity; exfalso.
        - apply NI. apply (znth_inj (a :: L) i 0 (w_pos w) (iv_ndL _ _ _ I) J). rewrite EA. reflexivity.
        - rewrite EI in J. assert (a = w_pos w) by (change (znth (a :: L) 0) with (Some a) in J; congruence). congruence. }
      destruct ((w_pos w =? a) || negb fixed) eqn:C.
      + destruct (iv_in _ _ _ (w_pos w) I) as [o O]; [apply in_or_app; auto|]. destruct (NX _ _ O) as (o' & O' & ON). rewrite O'. cbn [bind]. rewrite ON. eexists. split; [reflexivity|].
        cbn [put_pos w_sela w_sel1 w_sel2 w_pos]. repeat match goal with |- _ /\ _ => split end; auto; [contradiction|]. intros J. rewrite <- (I0 J), C.
        pose proof (dll_at _ _ _ _ (iv_dll _ _ _ I) J) as G. rewrite G in O. assert (X : o = mkO (or0 (znth (a :: L) (i - 1))) (or0 (znth (a :: L) (i + 1)))) by congruence. rewrite X. cbn [o_next].
        pose proof (znth_Some_range _ _ _ J). rewrite znth_app. destruct (Z.ltb_spec (i + 1) (zlen (a :: L))) as [LT|GE].
        * destruct (znth_some (a :: L) (i + 1)) as [q Q]; [lia|]. rewrite Q. cbn [or0]. destruct (iv_znth _ _ _ _ _ I Q) as [QN _]. replace (q =? 0) with false by lia. reflexivity.
        * rewrite (znth_ge (a :: L) (i + 1)) by lia. cbn [or0]. change (0 =? 0) with true. replace (i + 1 - zlen (a :: L)) with 0 by lia. reflexivity.
      + exists w1. repeat match goal with |- _ /\ _ => split end; auto; [contradiction|]. intros J. rewrite <- (I0 J), C, P1. exact (KEEP i J). }
  destruct Q as (v & Q0 & V1 & V2 & V3 & V4 & V5). rewrite Q0 in E. cbn [bind] in E. destruct (free_pointers _ _ _ E) as (F1 & F2 & F3 & F4).
  destruct (forget_pointers v a) as (G1 & G2 & G3 & G4). rewrite F1, F2, F3, F4, G1, G2, G3, G4, V1, V2, V3. auto.
Qed.
Lemma points_app b L x o p : points b L o p -> points b (L ++ [x]) o p.
Proof. destruct o as [k|]; cbn [points]; [|auto]. intros E. pose proof (znth_Some_range _ _ _ E). rewrite znth_app. replace (k - b <? zlen L) with true by lia. exact E. Qed.
Lemma points_tail b a (L : list Z) k p : k <> b -> znth (a :: L) (k - b) = Some p -> znth L (k - (b + 1)) = Some p.
Proof. intros N E. pose proof (znth_Some_range _ _ _ E). rewrite znth_cons in E by lia. replace (k - b =? 0) with false in E by lia. rewrite <- E. f_equal. lia. Qed.
Lemma forget_points b a L p e : NoDup (a :: L) -> ~ In 0 (a :: L) -> points_end b (a :: L) p e ->
  points_end (b + 1) L (match p_line p with Some k => if k =? b then mkP None (p_x p) SELECTION_TOP else p | None => p end) (forget_end a e).
Proof.
  intros ND N0 [P Y]. unfold forget_end. destruct (p_line p) as [k|] eqn:E; cbn [points] in P.
  - destruct (Z.eqb_spec k b) as [->|NK].
    + rewrite Z.sub_diag in P. change (znth (a :: L) 0) with (Some a) in P. assert (X : fst e = a) by congruence. rewrite X, Z.eqb_refl. split; reflexivity.
    + apply points_tail in P; [|exact NK]. destruct (Z.eqb_spec (fst e) a) as [EA|NA].
      * exfalso. inversion ND; subst. apply H1. eapply znth_In. exact P.
      * split; [rewrite E; exact P|exact Y].
  - destruct (Z.eqb_spec (fst e) a) as [EA|NA].
    + exfalso. apply N0. left. congruence.
    + split; [rewrite E; exact P|exact Y].
Qed.
Lemma pushed_first s s' l : Inv0 s -> pushed s s' l -> first_id s' = if evicts s then first_id s + 1 else first_id s.
Proof.
  intros H P. pose proof H as H0. inv0 H0. unfold first_id. rewrite (ps_sbid _ _ _ P), (ps_sb _ _ _ P), length_keep_last by lia. rewrite app_length. cbn [length]. unfold evicts. rewrite Isbn.
  destruct (Z.eqb_spec (s_sbmax s) 0); cbn [negb andb]; [lia|]. destruct (Z.leb_spec (s_sbmax s) (zlen (s_sb s))); lia.
Qed.
Lemma link_sim s l s' w live L x w' : Inv0 s -> l_sbid l = None -> link_to_scrollback s l = Ok s' -> inv w (x :: live) L -> follows s w L -> link_line (fl s F_FIXED) w x = Ok w' ->
  follows s' w' (youngest (w_max w) (L ++ [x])).
Proof.
  intros H NL EL I F EW. destruct (ScreenSb.link_ok s l H NL) as (s1 & E1 & P). assert (X : s1 = s') by congruence. rewrite X in P. clear s1 E1 X EL.
  destruct (OwnProofs.link_ok (fl s F_FIXED) w live x L I) as (w1 & E1 & I1 & R1). assert (X : w1 = w') by congruence. rewrite X in *. clear w1 E1 X.
  destruct F as [FL FM FP FA F1 F2]. pose proof (pushed_first s s' l H P) as PF. pose proof H as H0. inv0 H0. pose proof (iv_max _ _ _ I) as MX.
  assert (LEN : zlen (youngest (w_max w) (L ++ [x])) = zlen (s_sb s')).
  { rewrite (ps_sb _ _ _ P), length_keep_last, zlen_youngest, !app_length by lia. cbn [length]. lia. }
  assert (MAX : w_max w' = s_sbmax s') by (rewrite (f_sbmax _ _ (ps_env _ _ _ P)); destruct R1 as (_ & _ & _ & R4); congruence).
  assert (SELA : s_sela s' = s_sela s) by apply (f_sela _ _ (ps_env _ _ _ P)).
  unfold link_line in EW. pose proof (ps_pos _ _ _ P) as QP. pose proof (ps_sel1 _ _ _ P) as Q1. pose proof (ps_sel2 _ _ _ P) as Q2.
  assert (SAME : evicts s = false -> pointers w w' -> (forall o p, points (first_id s) L o p -> points (first_id s) (youngest (w_max w) (L ++ [x])) o p) -> follows s' w' (youngest (w_max w) (L ++ [x]))).
  { intros EV (P1 & P2 & P3 & P4) EXT. rewrite EV in *. rewrite andb_false_r in *. cbn [andb] in *. constructor; auto; rewrite ?PF, ?SELA, ?P1, ?P2, ?P3, ?P4, ?Q1, ?Q2; auto.
    - rewrite QP. destruct (s_sbpos s); apply EXT; exact FP.
    - intros SE. destruct (F1 SE). split; auto.
    - intros SE. destruct (F2 SE). split; auto. }
  destruct (Z.eqb_spec (w_max w) 0) as [M0|M0].
  - destruct L as [|a L]; [|exfalso; cbn [length] in MX; lia]. assert (EV : evicts s = false) by (unfold evicts; replace (s_sbmax s =? 0) with true by lia; reflexivity).
    apply SAME; auto.
    + destruct (free_pointers _ _ _ EW) as (G1 & G2 & G3 & G4). destruct (forget_pointers w x) as (H1 & H2 & H3 & H4).
      assert (NX : 0 <> x). { intros <-. apply (iv_null _ _ _ I). left. reflexivity. }
      assert (FE : forall e, null_or_in (fst e) [] -> forget_end x e = e). { intros e [Z0|[]]. unfold forget_end. rewrite Z0. replace (0 =? x) with false by lia. reflexivity. }
      unfold pointers. rewrite G1, G2, G3, G4, H1, H2, H3, H4. destruct (w_sela w) eqn:SE; [|auto]. destruct (iv_sel _ _ _ I SE) as [N1 N2]. rewrite !FE by assumption. auto.
    + rewrite M0, youngest_zero. intros o p. destruct o as [k|]; cbn [points]; [|auto]. intros E. pose proof (znth_Some_range _ _ _ E). cbn [length] in *. lia.
  - rewrite (iv_count _ _ _ I) in EW. destruct (Z.leb_spec (w_max w) (zlen L)) as [FU|FU].
    + destruct L as [|a L]; [exfalso; cbn [length] in *; lia|]. assert (EV : evicts s = true) by (unfold evicts; rewrite Isbn; replace (s_sbmax s =? 0) with false by lia; replace (s_sbmax s <=? zlen (s_sb s)) with true by lia; reflexivity).
      destruct (evict (fl s F_FIXED) x w) as [w2|] eqn:EE; [|discriminate]. cbn [bind] in EW. destruct (append_pointers _ _ _ EW) as (A1 & A2 & A3 & A4).
      assert (YE : youngest (w_max w) ((a :: L) ++ [x]) = L ++ [x]).
      { unfold youngest. cbn [app length] in *. rewrite app_length. cbn [length]. replace (S (length L + 1) - Z.to_nat (w_max w))%nat with 1%nat by lia. reflexivity. }
      rewrite YE in *. rewrite EV in *. rewrite andb_true_r in *. cbn [andb] in QP.
      pose proof (iv_ndL _ _ _ I) as ND. assert (N0 : ~ In 0 (a :: L)) by (intros Q; apply (iv_null _ _ _ I); apply in_or_app; auto).
      assert (EP := fun i => evict_pointers (fl s F_FIXED) x w _ a L w2 i I EE).
      destruct (EP 0) as (B1 & B2 & B3 & B4 & _). constructor; auto; rewrite ?PF, ?SELA, ?A1, ?A2, ?A3, ?A4, ?B1, ?B2, ?B3; auto.
      * rewrite QP. destruct (s_sbpos s) as [p|]; cbn [points] in FP |- *; [|now apply B4]. destruct (EP (p - first_id s)) as (_ & _ & _ & _ & B5). specialize (B5 FP).
        replace (p - first_id s =? 0) with (p =? first_id s) in B5 by lia. pose proof (znth_Some_range _ _ _ FP) as RP. destruct ((p =? first_id s) || negb (fl s F_FIXED)) eqn:C; cbn [points].
        -- change ((a :: L) ++ [x]) with (a :: (L ++ [x])) in B5. rewrite znth_cons in B5 by lia. replace (p - first_id s + 1 =? 0) with false in B5 by lia. rewrite <- B5. f_equal. lia.
        -- change ((a :: L) ++ [x]) with (a :: (L ++ [x])) in B5. apply orb_false_iff in C. destruct C as [C _]. rewrite znth_cons in B5 by lia. replace (p - first_id s =? 0) with false in B5 by lia. rewrite <- B5. f_equal. lia.
      * intros SE. rewrite FA, SE. rewrite Q1, SE. destruct (forget_points _ _ _ _ _ ND N0 (F1 SE)) as [G1 G2]. split; [now apply points_app|exact G2].
      * intros SE. rewrite FA, SE. rewrite Q2, SE. destruct (forget_points _ _ _ _ _ ND N0 (F2 SE)) as [G1 G2]. split; [now apply points_app|exact G2].
    + cbn [bind] in EW. apply SAME.
      * unfold evicts. rewrite Isbn. replace (s_sbmax s <=? zlen (s_sb s)) with false by lia. apply andb_false_r.
      * exact (append_pointers _ _ _ EW).
      * rewrite youngest_all by (rewrite app_length; cbn [length]; lia). intros o p. apply points_app.
Qed.

(* -- scrolling up --------------------------------------------------------------------------------------------- *)
Lemma forz_snoc {S} a b (body : Z -> S -> res S) s : a <= b -> forz a (b + 1) body s = do r <- forz a b body s; body b r.
Proof.
  intros H. assert (X : exists n, Z.to_nat (b - a) = n) by eauto. destruct X as [n E]. revert a s H E. induction n as [|n IH]; intros a s H E.
  - assert (a = b) by lia. subst a. rewrite forz_step by lia. rewrite (forz_nil b b) by lia. cbn [bind]. destruct (body b s); cbn [bind]; [apply forz_nil; lia|reflexivity].
  - rewrite forz_step by lia. rewrite (forz_step a b) by lia. destruct (body a s) as [s1|]; cbn [bind]; [|reflexivity]. apply IH; lia.
Qed.
Definition up_body (i : Z) (st : screen * list line) : res (screen * list line) :=
      let '(s, cache) := st in
      let pos := u32 (s_mt s + i) in
      if negb (fl s F_ALT) && negb (s_sx s =? 0) then
        let nl := line_new s (s_sx s) in
        do l <- zget (lines s) pos;
        do s' <- link_to_scrollback s l;
        Ok (s', cache ++ [nl])
      else
        do l <- zget (lines s) pos;
        do l' <- line_blank s l;
        do ls <- zmod (lines s) pos (fun _ => l');
        Ok (set_lines s ls, cache ++ [l']).
Definition pushes (alt : bool) (n : Z) (R : list Z) : list Z := if alt then [] else firstn (Z.to_nat n) R.
Lemma follows_same s s' w w' L : s_sb s' = s_sb s -> s_sbid s' = s_sbid s -> s_sbpos s' = s_sbpos s -> s_sbmax s' = s_sbmax s -> s_sela s' = s_sela s -> s_sel1 s' = s_sel1 s -> s_sel2 s' = s_sel2 s ->
  w_max w' = w_max w -> pointers w w' -> follows s w L -> follows s' w' L.
Proof.
  intros E1 E2 E3 E4 E5 E6 E7 E8 (P1 & P2 & P3 & P4) []. assert (EF : first_id s' = first_id s) by (unfold first_id; congruence).
  constructor; rewrite ?EF, ?E1, ?E3, ?E4, ?E5, ?E6, ?E7, ?E8, ?P1, ?P2, ?P3, ?P4; auto.
Qed.
Lemma pointers_refl w : pointers w w.
Proof. unfold pointers. auto. Qed.
Lemma up_loop_sim al k s w L A R B num : Inv0 s -> inv w (w_main w ++ w_alt w) L -> w_rows w = A ++ R ++ B -> zlen A = s_mt s -> zlen R = s_mb s + 1 - s_mt s -> fair al -> plenty al -> follows s w L ->
  0 <= num -> num <= s_mb s + 1 - s_mt s ->
  forall s' c w' C, forz 0 num up_body (s, []) = Ok (s', c) -> forz 0 num (up_row (fl s F_ALT) (fl s F_FIXED) al k (s_mt s)) (w, []) = Ok (w', C) ->
  follows s' w' (youngest (w_max w) (L ++ pushes (fl s F_ALT) num R)).
Proof.
  intros H I ER HA HR FA PL F HN. revert num HN. apply (natlike_ind (fun num => num <= s_mb s + 1 - s_mt s -> forall s' c w' C, forz 0 num up_body (s, []) = Ok (s', c) ->
    forz 0 num (up_row (fl s F_ALT) (fl s F_FIXED) al k (s_mt s)) (w, []) = Ok (w', C) -> follows s' w' (youngest (w_max w) (L ++ pushes (fl s F_ALT) num R)))).
  - intros _ s' c w' C E1 E2. rewrite forz_nil in E1 by lia. rewrite forz_nil in E2 by lia. assert (X : s' = s) by congruence. assert (Y : w' = w) by congruence. rewrite X, Y. assert (PZ : pushes (fl s F_ALT) 0 R = []) by (unfold pushes; destruct (fl s F_ALT); reflexivity). rewrite PZ.
    rewrite app_nil_r, youngest_all by exact (proj1 (iv_max _ _ _ I)). exact F.
  - intros n HN IH HB s' c w' C E1 E2. unfold Z.succ in *. rewrite forz_snoc in E1 by lia. rewrite forz_snoc in E2 by lia.
    destruct (scroll_up_loop s n H) as (s1 & c1 & L1 & P); [lia|]. change (forz 0 n up_body (s, []) = Ok (s1, c1)) in L1.
    destruct (up_rows_ok (fl s F_ALT) (fl s F_FIXED) al k w L A R B (s_mt s) n I ER HA) as (w1 & C1 & G & L2 & X1 & X2 & X3 & X4); [lia|exact FA|].
    specialize (IH ltac:(lia) s1 c1 w1 C1 L1 L2). rewrite L1 in E1. rewrite L2 in E2. cbn [bind] in E1, E2.
    destruct P as [PI PE PR PLn PC PS PSel PA]. pose proof H as H0. inv0 H0. unfold DIM in *.
    unfold up_body in E1. rewrite (f_mt _ _ PE), (fl_env2 _ _ F_ALT PE), (f_sx _ _ PE) in E1. replace (s_sx s =? 0) with false in E1 by lia. rewrite andb_true_r, (u32_small (s_mt s + n)) in E1 by lia.
    destruct (inv_row s (s_mt s + n) H) as (l & El & Wl); [lia|]. assert (El1 : znth (lines s1) (s_mt s + n) = Some l) by (rewrite PR by lia; exact El).
    rewrite (zget_ok _ _ _ El1) in E1. cbn [bind] in E1. destruct (same_rows_rows _ _ X3) as (SR & SO & SA & SM).
    assert (GX : exists x r, skipn (Z.to_nat n) R = x :: r /\ zget (w_rows w) (s_mt s + n) = Ok x).
    { destruct (skipn_cons_len (Z.to_nat n) R) as (x & r & EX); [lia|]. exists x, r. split; [exact EX|]. rewrite ER. rewrite <- (firstn_skipn (Z.to_nat n) R), EX. rewrite <- app_assoc, app_assoc. apply zget_mid. rewrite app_length, firstn_length. lia. }
    destruct GX as (x & r & EX & GX). unfold up_row in E2. unfold pushes in *. destruct (fl s F_ALT) eqn:AL; cbn [negb] in E1.
    + destruct (line_blank s1 l) as [l'|]; [|discriminate]. cbn [bind] in E1. destruct (zmod (lines s1) (s_mt s + n) (fun _ => l')) as [ls|]; [|discriminate]. cbn [bind] in E1.
      rewrite SR, GX in E2. cbn [bind] in E2. destruct (hget (w_heap w1) x) as [o|]; [|discriminate]. cbn [bind] in E2.
      assert (Y1 : s' = set_lines s1 ls) by congruence. assert (Y2 : w' = w1) by congruence. rewrite Y1, Y2. revert IH. apply follows_same; sredg; auto using pointers_refl.
    + destruct (link_to_scrollback s1 l) as [s2|] eqn:LS; [|discriminate]. cbn [bind] in E1. assert (Y1 : s' = s2) by congruence. rewrite Y1.
      destruct (al (k + n) (w_heap w1)) as [p|] eqn:EA; [|destruct (PL _ _ EA)]. destruct (FA _ _ _ EA) as [P0 PN].
      change (w_rows (put_heap w1 (hnew (w_heap w1) p))) with (w_rows w1) in E2. rewrite SR, GX in E2. cbn [bind] in E2.
      destruct (link_line (fl s F_FIXED) (put_heap w1 (hnew (w_heap w1) p)) x) as [w2|] eqn:LW; [|discriminate]. cbn [bind] in E2. assert (Y2 : w' = w2) by congruence. rewrite Y2.
      rewrite (proj2 X2 eq_refl PL) in X4. rewrite EX in X4. pose proof (inv_new _ _ _ p X4 P0 PN) as I1.
      assert (PM : Permutation (p :: w_other w ++ A ++ ((x :: r) ++ C1) ++ B) (x :: w_other w ++ A ++ (r ++ C1 ++ [p]) ++ B)).
      { rewrite (app_assoc r), <- !(app_assoc _ _ B). cbn [app]. rewrite !(app_assoc (w_other w) A). eapply Permutation_trans; [apply perm_skip; symmetry; apply Permutation_middle|].
        eapply Permutation_trans; [apply perm_swap|]. apply perm_skip. rewrite !app_assoc. apply Permutation_middle. }
      rewrite <- (fl_env2 _ _ F_FIXED PE) in LW.
      assert (Q := link_sim s1 l s2 _ _ _ x w2 PI (proj2 Wl) LS (inv_perm _ _ _ _ I1 PM)). cbn [put_heap w_max] in Q. rewrite SM, youngest_twice, <- app_assoc in Q.
      replace (Z.to_nat (n + 1)) with (S (Z.to_nat n)) by lia. rewrite (firstn_S_cons _ _ _ _ EX). apply Q; [|exact LW].
      revert IH. apply follows_same; auto. unfold pointers. auto.
Qed.
(* From the last line back. *)
Lemma back_at w live L y : inv w live L -> forall n i, -1 <= i < zlen L -> (Z.to_nat (i + 1) < n)%nat -> forall y0, y0 < 0 -> y = or0 (znth L i) ->
  back_to n (w_heap w) y y0 = Ok (or0 (znth L (i + 1 + y0))).
Proof.
  intros I n. revert y. induction n as [|n IH]; intros y i HI HNn y0 HY E; [lia|]. cbn [back_to]. destruct (Z.eq_dec i (-1)) as [->|NI].
  - rewrite znth_neg in E by lia. cbn [or0] in E. rewrite E. change (0 =? 0) with true. cbv iota. rewrite znth_neg by lia. reflexivity.
  - destruct (znth_some L i) as [p P]; [lia|]. rewrite P in E. cbn [or0] in E. rewrite E. destruct (iv_znth _ _ _ _ _ I P) as [PN _]. replace (p =? 0) with false by lia.
    destruct (Z.ltb_spec (y0 + 1) 0) as [LT|GE].
    + rewrite (dll_at _ _ _ _ (iv_dll _ _ _ I) P). cbn [bind o_prev]. rewrite (IH _ (i - 1)) by (lia || reflexivity). do 3 f_equal. lia.
    + replace (i + 1 + y0) with i by lia. rewrite P. reflexivity.
Qed.
Lemma end_up_sim s w live L num p e : Inv0 s -> inv w live L -> zlen L = zlen (s_sb s) -> points_end (first_id s) L p e ->
  forall e', end_up w num e = Ok e' -> points_end (first_id s) L (sel_scroll_up (s_sb s) num p) e'.
Proof.
  intros H I EL [P Y] e' E. unfold end_up in E. unfold sel_scroll_up. pose proof H as H0. inv0 H0. destruct (p_line p) as [k0|] eqn:LK; cbn [points] in P.
  - destruct (iv_znth _ _ _ _ _ I P) as [PN _]. replace (fst e =? 0) with false in E by lia. cbn [andb] in E. apply ok_inj in E. rewrite E. split; [rewrite LK; exact P|exact Y].
  - rewrite P in E. rewrite Z.eqb_refl in E. cbn [andb] in E. rewrite Y in E. destruct (0 <=? p_y p); [|apply ok_inj in E; rewrite E; split; [rewrite LK; exact P|exact Y]]. cbv zeta in *.
    destruct (Z.ltb_spec (i32 (p_y p - num)) 0) as [LT|GE]; [|apply ok_inj in E; rewrite E; split; reflexivity].
    rewrite (back_at w live L (w_last w) I _ (zlen L - 1)) in E; try lia; [| |rewrite (iv_last _ _ _ I); apply last_znth].
    + cbn [bind] in E. apply ok_inj in E. rewrite E. rewrite (walk_back_ids _ (s_sbid s)) by auto. split; cbn [fst snd p_line p_y]; [|reflexivity]. replace (zlen L - 1 + 1 + i32 (p_y p - num)) with (zlen L + i32 (p_y p - num)) by lia.
      destruct (Z.leb_spec (- i32 (p_y p - num)) (zlen (s_sb s))) as [IN|OUT]; cbn [points].
      * unfold first_id. replace (s_sbid s + 1 + i32 (p_y p - num) - (s_sbid s - zlen (s_sb s) + 1)) with (zlen L + i32 (p_y p - num)) by lia. destruct (znth_some L (zlen L + i32 (p_y p - num))) as [q Q]; [lia|]. rewrite Q. reflexivity.
      * rewrite znth_neg by lia. reflexivity.
    + pose proof (heap_len _ _ _ I). lia.
Qed.
Lemma inv_put w live L ls : inv w live L -> inv (put_rows w ls) live L.
Proof. intros I. now apply inv_put_rows. Qed.
Lemma up_chunk_sim al k s w L A R B num : Inv0 s -> inv w (w_main w ++ w_alt w) L -> w_rows w = A ++ R ++ B -> zlen A = s_mt s -> zlen R = s_mb s + 1 - s_mt s -> fair al -> plenty al -> follows s w L ->
  0 <= num <= s_mb s + 1 - s_mt s ->
  forall s' w', scroll_up_chunk s (s_mb s + 1 - s_mt s) num = Ok s' -> up_chunk (fl s F_ALT) (fl s F_FIXED) al k (s_mt s) (s_mb s + 1 - s_mt s) num w = Ok w' ->
  follows s' w' (youngest (w_max w) (L ++ pushes (fl s F_ALT) num R)).
Proof.
  intros H I ER HA HR FA PL F HN s' w' E1 E2. unfold scroll_up_chunk in E1. unfold up_chunk in E2.
  destruct (scroll_up_loop s num H) as (s1 & c1 & L1 & P); [lia|]. cbv zeta in L1. rewrite L1 in E1. change (forz 0 num up_body (s, []) = Ok (s1, c1)) in L1. cbn [bind] in E1.
  destruct (up_rows_ok (fl s F_ALT) (fl s F_FIXED) al k w L A R B (s_mt s) num I ER HA) as (w1 & C1 & G & L2 & X1 & X2 & X3 & X4); [lia|exact FA|].
  pose proof (up_loop_sim al k s w L A R B num H I ER HA HR FA PL F (proj1 HN) (proj2 HN) s1 c1 w1 C1 L1 L2) as F1. rewrite L2 in E2. cbn [bind] in E2.
  assert (EG : G = pushes (fl s F_ALT) num R) by (unfold pushes; destruct (fl s F_ALT); [now apply X2|now apply X2]). rewrite EG in X4.
  set (L1' := youngest (w_max w) (L ++ pushes (fl s F_ALT) num R)) in *.
  assert (M : exists ls2, (if num <? s_mb s + 1 - s_mt s then lines_move s1 (s_mt s1) (u32 (s_mt s1 + num)) (s_mb s + 1 - s_mt s - num) else Ok s1) = Ok (set_lines s1 ls2) \/
    (if num <? s_mb s + 1 - s_mt s then lines_move s1 (s_mt s1) (u32 (s_mt s1 + num)) (s_mb s + 1 - s_mt s - num) else Ok s1) = Ub).
  { destruct (num <? s_mb s + 1 - s_mt s); [|exists (lines s1); left; now rewrite set_lines_lines]. unfold lines_move. destruct (zmove (lines s1) _ _ _) as [ls|]; [exists ls; left; reflexivity|exists []; right; reflexivity]. }
  destruct M as [ls2 [M|M]]; rewrite M in E1; [|discriminate]. cbn [bind] in E1. unfold lines_copy in E1. destruct (zcopy (lines (set_lines s1 ls2)) _ c1) as [ls3|]; [|discriminate]. cbn [bind] in E1.
  set (s3 := set_lines (set_lines s1 ls2) ls3) in *. apply ok_inj in E1. rewrite E1. clear E1 M s'.
  destruct (if num <? s_mb s + 1 - s_mt s then zmove (w_rows w1) (s_mt s) (s_mt s + num) (s_mb s + 1 - s_mt s - num) else Ok (w_rows w1)) as [ls4|]; [|discriminate]. cbn [bind] in E2.
  destruct (zcopy ls4 (s_mt s + (s_mb s + 1 - s_mt s - num)) C1) as [ls5|]; [|discriminate]. cbn [bind] in E2. pose proof (inv_put _ _ _ ls5 X4) as I2. set (w2 := put_rows w1 ls5) in *.
  assert (F3 : follows s3 w2 L1'). { revert F1. apply follows_same; unfold s3; sredg; auto; unfold w2, put_rows, pointers; cbn; auto. }
  change (w_sela w1) with (w_sela w2) in E2. unfold sel_map. rewrite (fo_sela _ _ _ F3) in E2.
  destruct (s_sela s3) eqn:SE; [|apply ok_inj in E2; rewrite E2; exact F3].
  destruct (end_up w2 num (w_sel1 w2)) as [a|] eqn:EA; [|discriminate]. cbn [bind] in E2. destruct (end_up w2 num (w_sel2 w2)) as [b|] eqn:EB; [|discriminate]. cbn [bind] in E2. apply ok_inj in E2. rewrite E2.
  destruct F3 as [G1 G2 G3 G4 G5 G6]. assert (ES : s_sb s3 = s_sb s1) by (unfold s3; sredg; reflexivity). assert (EF : first_id s3 = first_id s1) by (unfold first_id; rewrite ES; unfold s3; sredg; reflexivity). pose proof (up_inv _ _ _ _ P) as PI.
  constructor; [exact G1|exact G2|exact G3|symmetry; exact SE| |]; intros _.
  - specialize (G5 SE). change (points_end (first_id s3) L1' (sel_scroll_up (s_sb s3) num (s_sel1 s3)) a). rewrite EF, ES in *. exact (end_up_sim s1 w2 _ L1' num (s_sel1 s3) _ PI I2 G1 G5 a EA).
  - specialize (G6 SE). change (points_end (first_id s3) L1' (sel_scroll_up (s_sb s3) num (s_sel2 s3)) b). rewrite EF, ES in *. exact (end_up_sim s1 w2 _ L1' num (s_sel2 s3) _ PI I2 G1 G6 b EB).
Qed.
Lemma follows_age s w L : follows s w L -> follows (age_all s) w L.
Proof. apply follows_same; auto using pointers_refl. Qed.
Lemma up_rec_sim fuel : forall al k s w L A R B n, Inv0 s -> inv w (w_main w ++ w_alt w) L -> w_rows w = A ++ R ++ B -> zlen A = s_mt s -> zlen R = s_mb s + 1 - s_mt s -> fair al -> plenty al -> follows s w L ->
  0 <= n -> Z.min n (s_mb s + 1 - s_mt s) / 128 <= Z.of_nat fuel ->
  forall s' w', scroll_up_rec fuel s n = Ok s' -> up_rec fuel (fl s F_ALT) (fl s F_FIXED) al k (s_mt s) (s_mb s) n w = Ok w' ->
  follows s' w' (youngest (w_max w) (L ++ pushes (fl s F_ALT) (Z.min n (s_mb s + 1 - s_mt s)) R)).
Proof.
  induction fuel as [|fuel IH]; intros al k s w L A R B n H I ER HA HR FA PL F HN HF s' w' E1 E2; cbn [scroll_up_rec up_rec] in E1, E2; destruct (Z.eqb_spec n 0) as [Z0|NZ].
  1,3: assert (Y1 : s' = s) by congruence; assert (Y2 : w' = w) by congruence; rewrite Y1, Y2; subst n; pose proof H as H0; inv0 H0; replace (Z.min 0 (s_mb s + 1 - s_mt s)) with 0 by lia;
       assert (PZ : pushes (fl s F_ALT) 0 R = []) by (unfold pushes; destruct (fl s F_ALT); reflexivity); rewrite PZ, app_nil_r, youngest_all by exact (proj1 (iv_max _ _ _ I)); exact F.
  all: pose proof (Inv0_age_all s H) as HG; pose proof H as H0; inv0 H0; unfold DIM in *; cbv zeta in E1, E2; change (s_mb (age_all s)) with (s_mb s) in E1; change (s_mt (age_all s)) with (s_mt s) in E1;
       rewrite (u32_small (s_mb s + 1 - s_mt s)) in E1 by lia;
       assert (EN : (if s_mb s + 1 - s_mt s <? n then s_mb s + 1 - s_mt s else n) = Z.min n (s_mb s + 1 - s_mt s)) by (destruct (Z.ltb_spec (s_mb s + 1 - s_mt s) n); lia); rewrite EN in E1, E2; set (m := Z.min n (s_mb s + 1 - s_mt s)) in *.
  - replace (128 <? m) with false in E1, E2 by lia. apply (up_chunk_sim al k (age_all s) w L A R B m HG I ER HA HR FA PL (follows_age _ _ _ F)); auto. change (s_mb (age_all s)) with (s_mb s). change (s_mt (age_all s)) with (s_mt s). lia.
  - destruct (Z.ltb_spec 128 m) as [BIG|SM]; [|apply (up_chunk_sim al k (age_all s) w L A R B m HG I ER HA HR FA PL (follows_age _ _ _ F)); auto; change (s_mb (age_all s)) with (s_mb s); change (s_mt (age_all s)) with (s_mt s); lia].
    destruct (scroll_up_chunk_ok (age_all s) 128 HG) as (s1 & L1 & P1); [change (s_mb (age_all s)) with (s_mb s); change (s_mt (age_all s)) with (s_mt s); lia|reflexivity|].
    change (s_mb (age_all s)) with (s_mb s) in L1. change (s_mt (age_all s)) with (s_mt s) in L1. rewrite L1 in E1. cbn [bind] in E1. apply scrolled_up_age in P1. pose proof (su_env _ _ _ P1) as PE.
    destruct (up_chunk_ok (fl s F_ALT) (fl s F_FIXED) al k w L A R B (s_mt s) (s_mb s + 1 - s_mt s) 128 I ER HA HR) as (w1 & C1 & G1 & L2 & X1 & X2 & X3 & X4); [lia|exact FA|]. rewrite L2 in E2. cbn [bind] in E2.
    assert (EG : G1 = pushes (fl s F_ALT) 128 R) by (unfold pushes; destruct (fl s F_ALT); [now apply X2|now apply X2]). rewrite EG in X4.
    assert (F1 : follows s1 w1 (youngest (w_max w) (L ++ pushes (fl s F_ALT) 128 R))).
    { apply (up_chunk_sim al k (age_all s) w L A R B 128 HG I ER HA HR FA PL (follows_age _ _ _ F)); auto. change (s_mb (age_all s)) with (s_mb s). change (s_mt (age_all s)) with (s_mt s). lia. }
    pose proof (exchanged_length _ _ _ X1) as LC. rewrite firstn_length in LC. change (Z.to_nat 128) with 128%nat in *. destruct X3 as (Q1 & Q2 & Q3 & Q4).
    rewrite <- (fl_env2 _ _ F_ALT PE), <- (fl_env2 _ _ F_FIXED PE), <- (f_mt _ _ PE), <- (f_mb _ _ PE) in E2.
    pose proof (IH al (k + 128) s1 w1 _ A (skipn 128 R ++ C1) B (m - 128) (su_inv _ _ _ P1) X4 Q1) as Q. rewrite (f_mt _ _ PE), (f_mb _ _ PE), (fl_env2 _ _ F_ALT PE), (fl_env2 _ _ F_FIXED PE) in Q.
    rewrite (fl_env2 _ _ F_ALT PE), (fl_env2 _ _ F_FIXED PE), (f_mt _ _ PE), (f_mb _ _ PE) in E2.
    assert (Q' := Q HA ltac:(rewrite app_length, skipn_length; lia) FA PL F1 ltac:(lia) ltac:(lia) s' w' E1 E2). clear Q.
    rewrite Q4, youngest_twice, <- app_assoc in Q'.
    assert (EQ : pushes (fl s F_ALT) 128 R ++ pushes (fl s F_ALT) (Z.min (m - 128) (s_mb s + 1 - s_mt s)) (skipn 128 R ++ C1) = pushes (fl s F_ALT) m R).
    { replace (Z.min (m - 128) (s_mb s + 1 - s_mt s)) with (m - 128) by lia. unfold pushes. destruct (fl s F_ALT); [reflexivity|]. change (Z.to_nat 128) with 128%nat.
      rewrite firstn_app. replace (Z.to_nat (m - 128) - length (skipn 128 R))%nat with O by (rewrite skipn_length; lia). rewrite firstn_O, app_nil_r.
      rewrite <- (firstn_skipn 128 R) at 3. rewrite firstn_app, firstn_length, firstn_firstn. f_equal; f_equal; lia. }
    rewrite EQ in Q'. exact Q'.
Qed.
