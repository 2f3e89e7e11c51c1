(* From the invariant of LifeInv.v to what LifeSpec.v asks for. *)
From Verif Require Import Base BaseProofs Life LifeSpec LifeProofs LifeScr LifeCalls LifeThms LifeInv.
From Coq Require Import Permutation.

Lemma in_opt : forall x p o, In x (opt p o) -> p <> 0 /\ x = (p, o).
Proof. intros x p o I. unfold opt in I. destruct (p =? 0) eqn:E; [destruct I|]. destruct I as [<-|[]]. split; [lia|reflexivity]. Qed.
Lemma opt_in : forall p o, p = 0 \/ In (p, o) (opt p o).
Proof. intros p o. unfold opt. destruct (p =? 0) eqn:E; [left; lia|right; left; reflexivity]. Qed.
Lemma in_lines : forall x ls, In x (lines ls) -> exists g, In g ls /\ (x = (gl g, Line (gc g) (gn g)) \/ x = (gc g, Bytes)).
Proof. intros x ls I. apply in_flat_map in I. destruct I as (g & J & [<-|[<-|[]]]); exists g; auto. Qed.
Lemma lines_in : forall g ls, In g ls -> In (gl g, Line (gc g) (gn g)) (lines ls) /\ In (gc g, Bytes) (lines ls).
Proof. intros g ls I. split; apply in_flat_map; exists g; (split; [exact I|]); [left|right; left]; reflexivity. Qed.

Section Of.
Variable m : mem.
Lemma alive_in : forall p o, In (p, o) m -> alive m p.
Proof. intros p o I. apply in_map_iff. exists (p, o). auto. Qed.
Lemma reach_cell : forall p o, In (p, o) m -> reach m p p.
Proof. intros p o I. apply reach_here. eapply alive_in. exact I. Qed.
Lemma reach_trans : forall a b c, reach m a b -> reach m b c -> reach m a c.
Proof. intros a b c R. induction R as [p A|p o q a I J R IH]; intro K; [exact K|]. eapply reach_on; [exact I|exact J|auto]. Qed.
Lemma reach_next : forall p o q o', In (p, o) m -> In q (ptrs o) -> In (q, o') m -> reach m p q.
Proof. intros p o q o' I J K. eapply reach_on; [exact I|exact J|]. eapply reach_cell. exact K. Qed.

Lemma part : forall g, (forall x, In x (scells g) -> In x m) ->
  In (gp g, Scr (gs g)) m /\ (forall x, In x (tcells (r_tab (gs g)) (gi g) (gd g)) -> In x m) /\
  (forall x, In x (opt (r_main (gs g)) (Ptrs (gmr g) (map gl (gms g)))) -> In x m) /\
  (forall x, In x (opt (r_alt (gs g)) (Ptrs (gar g) (map gl (gos g)))) -> In x m) /\
  (forall x, In x (opt (r_ruler (gs g)) Bytes) -> In x m) /\
  (forall x, In x (lines (gms g)) -> In x m) /\ (forall x, In x (lines (gos g)) -> In x m) /\ (forall x, In x (lines (gsb g)) -> In x m).
Proof.
  intros g H. unfold scells in H. split; [apply H; left; reflexivity|].
  repeat match goal with |- _ /\ _ => split end; intros x I; apply H; right; rewrite !in_app_iff; auto 10.
Qed.
(* In a screen: pointers lead to blocks, blocks can be reached. *)
Lemma scr_valid : forall g, (forall x, In x (scells g) -> In x m) -> wf g ->
  forall p o q, In (p, o) (scells g) -> In q (ptrs o) -> q = 0 \/ alive m q.
Proof.
  intros g H W p o q I J. destruct (part g H) as (P0 & Pt & Pm & Pa & Pr & Lm & La & Ls).
  assert (LL : forall ls, (forall x, In x (lines ls) -> In x m) -> In (p, o) (lines ls) -> alive m q).
  { intros ls L K. destruct (in_lines _ _ K) as (k & K1 & [K2|K2]); injection K2 as -> ->; [|destruct J]. destruct J as [<-|[]].
    eapply alive_in. apply L. apply (lines_in k ls K1). }
  assert (GL : forall ls, (forall x, In x (lines ls) -> In x m) -> In q (map gl ls) -> alive m q).
  { intros ls L K. apply in_map_iff in K. destruct K as (k & <- & K1). eapply alive_in. apply L. apply (lines_in k ls K1). }
  unfold scells in I. destruct I as [I|I].
  - injection I as <- <-. cbn [ptrs] in J. destruct J as [<-|[<-|[<-|[<-|J]]]].
    + destruct (Z.eq_dec (r_tab (gs g)) 0) as [E|E]; [left; exact E|right]. eapply alive_in. apply Pt. unfold tcells. destruct (r_tab (gs g) =? 0) eqn:K; [lia|]. left. reflexivity.
    + destruct (opt_in (r_main (gs g)) (Ptrs (gmr g) (map gl (gms g)))) as [E|E]; [left; exact E|right]. eapply alive_in. apply Pm. exact E.
    + destruct (opt_in (r_alt (gs g)) (Ptrs (gar g) (map gl (gos g)))) as [E|E]; [left; exact E|right]. eapply alive_in. apply Pa. exact E.
    + destruct (opt_in (r_ruler (gs g)) Bytes) as [E|E]; [left; exact E|right]. eapply alive_in. apply Pr. exact E.
    + right. rewrite (wf_sb g W) in J. exact (GL _ Ls J).
  - right. rewrite !in_app_iff in I. destruct I as [I|[I|[I|[I|[I|[I|I]]]]]].
    + unfold tcells in I, Pt. destruct (r_tab (gs g) =? 0); [destruct I|]. destruct I as [I|[I|[I|[]]]]; injection I as <- <-; cbn [ptrs] in J.
      * destruct J as [<-|[]]. eapply alive_in. apply Pt. right. left. reflexivity.
      * destruct J as [<-|[]]. eapply alive_in. apply Pt. right. right. left. reflexivity.
      * destruct J.
    + destruct (in_opt _ _ _ I) as (_ & K). injection K as -> ->. exact (GL _ Lm J).
    + destruct (in_opt _ _ _ I) as (_ & K). injection K as -> ->. exact (GL _ La J).
    + destruct (in_opt _ _ _ I) as (_ & K). injection K as -> ->. destruct J.
    + exact (LL _ Lm I).
    + exact (LL _ La I).
    + exact (LL _ Ls I).
Qed.
Lemma scr_needed : forall g, (forall x, In x (scells g) -> In x m) -> wf g ->
  forall a o, In (a, o) (scells g) -> reach m (gp g) a.
Proof.
  intros g H W a o I. destruct (part g H) as (P0 & Pt & Pm & Pa & Pr & Lm & La & Ls).
  assert (LL : forall ls p, (forall x, In x (lines ls) -> In x m) -> (forall k, In k ls -> reach m p (gl k)) -> In (a, o) (lines ls) -> reach m p a).
  { intros ls p L R K. destruct (in_lines _ _ K) as (k & K1 & [K2|K2]); injection K2 as -> ->; [apply R; exact K1|].
    eapply reach_trans; [apply R; exact K1|]. eapply reach_next; [apply L; apply (lines_in k ls K1)|left; reflexivity|apply L; apply (lines_in k ls K1)]. }
  unfold scells in I. destruct I as [I|I]; [injection I as <- <-; eapply reach_cell; exact P0|].
  rewrite !in_app_iff in I. destruct I as [I|[I|[I|[I|[I|[I|I]]]]]].
  - unfold tcells in I, Pt. destruct (r_tab (gs g) =? 0); [destruct I|].
    assert (R1 : reach m (gp g) (r_tab (gs g))) by (eapply reach_next; [exact P0|left; reflexivity|apply Pt; left; reflexivity]).
    assert (R2 : reach m (gp g) (gi g)) by (eapply reach_trans; [exact R1|]; eapply reach_next; [apply Pt; left; reflexivity|left; reflexivity|apply Pt; right; left; reflexivity]).
    destruct I as [I|[I|[I|[]]]]; injection I as <- <-; [exact R1|exact R2|].
    eapply reach_trans; [exact R2|]. eapply reach_next; [apply Pt; right; left; reflexivity|left; reflexivity|apply Pt; right; right; left; reflexivity].
  - pose proof (Pm _ I) as J. destruct (in_opt _ _ _ I) as (_ & K). injection K as -> ->. eapply reach_next; [exact P0|right; left; reflexivity|exact J].
  - pose proof (Pa _ I) as J. destruct (in_opt _ _ _ I) as (_ & K). injection K as -> ->. eapply reach_next; [exact P0|right; right; left; reflexivity|exact J].
  - pose proof (Pr _ I) as J. destruct (in_opt _ _ _ I) as (_ & K). injection K as -> ->. eapply reach_next; [exact P0|right; right; right; left; reflexivity|exact J].
  - eapply LL; [exact Lm| |exact I]. intros k K. destruct (wf_main g W) as [E|E]; [rewrite E in K; destruct K|].
    rewrite opt_some in Pm by exact E. specialize (Pm _ ltac:(left; reflexivity)).
    eapply reach_trans; [eapply reach_next; [exact P0|right; left; reflexivity|exact Pm]|].
    eapply reach_next; [exact Pm|cbn [ptrs]; apply in_map; exact K|apply Lm; apply (lines_in k _ K)].
  - eapply LL; [exact La| |exact I]. intros k K. destruct (wf_alt g W) as [E|E]; [rewrite E in K; destruct K|].
    rewrite opt_some in Pa by exact E. specialize (Pa _ ltac:(left; reflexivity)).
    eapply reach_trans; [eapply reach_next; [exact P0|right; right; left; reflexivity|exact Pa]|].
    eapply reach_next; [exact Pa|cbn [ptrs]; apply in_map; exact K|apply La; apply (lines_in k _ K)].
  - eapply LL; [exact Ls| |exact I]. intros k K.
    eapply reach_next; [exact P0|cbn [ptrs]; rewrite (wf_sb g W); right; right; right; right; apply in_map; exact K|apply Ls; apply (lines_in k _ K)].
Qed.
End Of.

Lemma inv_sound : forall w h S V, inv w h S V -> sound (w_mem w) h.
Proof.
  intros w h S V I. pose proof (i_mem _ _ _ _ I) as (P & N & Z0). set (m := w_mem w) in *.
  assert (TO : forall x, In x m -> In x (all S V)) by (intros x J; exact (Permutation_in _ P J)).
  assert (OF : forall x, In x (all S V) -> In x m) by (intros x J; exact (Permutation_in _ (Permutation_sym P) J)).
  assert (SC : forall g, In g S -> forall x, In x (scells g) -> In x m).
  { intros g J x K. apply OF. unfold all. apply in_or_app. left. apply in_flat_map. exists g. auto. }
  assert (VC : forall v, In v V -> forall x, In x (vcells v) -> In x m).
  { intros v J x K. apply OF. unfold all. apply in_or_app. right. apply in_flat_map. exists v. auto. }
  constructor.
  - exact N.
  - intros [p|p] J; apply hc_in in J.
    + destruct (i_hs _ _ _ _ I p J) as (g & K & <-). exists (gs g). split; [apply (SC g K); left; reflexivity|]. apply (i_sref _ _ _ _ I g K).
    + destruct (i_hv _ _ _ _ I p J) as (v & K & <-). exists (vt v). split; [apply (VC v K); left; reflexivity|]. apply (i_vref _ _ _ _ I v K).
  - intros p o q J K. apply TO in J. unfold all in J. apply in_app_or in J. destruct J as [J|J]; apply in_flat_map in J; destruct J as (g & Jg & J).
    + exact (scr_valid m g (SC g Jg) (i_wf _ _ _ _ I g Jg) p o q J K).
    + pose proof (VC g Jg) as A. unfold vcells in J, A. destruct J as [J|[J|J]].
      * injection J as <- <-. cbn [ptrs] in K. destruct K as [<-|[<-|[<-|[<-|[]]]]].
        -- right. destruct (i_con _ _ _ _ I g Jg) as (x & Jx & Ex). rewrite <- Ex. eapply alive_in. apply (SC x Jx). left. reflexivity.
        -- right. eapply alive_in. apply A. right. left. reflexivity.
        -- destruct (opt_in (t_name (vt g)) Bytes) as [E|E]; [left; exact E|right]. eapply alive_in. apply A. right. right. apply in_or_app. left. exact E.
        -- destruct (opt_in (t_custom (vt g)) Bytes) as [E|E]; [left; exact E|right]. eapply alive_in. apply A. right. right. apply in_or_app. right. exact E.
      * injection J as <- <-. destruct K.
      * apply in_app_or in J. destruct J as [J|J]; destruct (in_opt _ _ _ J) as (_ & E); injection E as -> ->; destruct K.
  - intros a J. apply in_map_iff in J. destruct J as ([a' o] & Ea & J). cbn in Ea. subst a'. apply TO in J. unfold all in J. apply in_app_or in J.
    assert (HV : forall v, In v V -> In (HVte (vp v)) h) by (intros v K; apply hc_in; destruct (i_vref _ _ _ _ I v K); lia).
    destruct J as [J|J]; apply in_flat_map in J; destruct J as (g & Jg & J).
    + pose proof (scr_needed m g (SC g Jg) (i_wf _ _ _ _ I g Jg) a o J) as R. destruct (i_sref _ _ _ _ I g Jg) as (E & L).
      pose proof (hc_nonneg h (HScr (gp g))) as Q. destruct (Z.eq_dec (hc h (HScr (gp g))) 0) as [K|K].
      * destruct (nv_in V (gp g)) as (v & Jv & Ev); [lia|]. exists (HVte (vp v)). split; [exact (HV v Jv)|]. cbn [addr].
        eapply reach_on; [apply (VC v Jv); left; reflexivity|left; reflexivity|]. rewrite Ev. exact R.
      * exists (HScr (gp g)). split; [apply hc_in; lia|exact R].
    + exists (HVte (vp g)). split; [exact (HV g Jg)|]. cbn [addr]. pose proof (VC g Jg) as A. pose proof (A _ J) as Ia. unfold vcells in J, A.
      destruct J as [J|[J|J]].
      * injection J as <- <-. eapply reach_cell. exact Ia.
      * injection J as <- <-. eapply reach_next; [apply A; left; reflexivity|right; left; reflexivity|exact Ia].
      * apply in_app_or in J. destruct J as [J|J]; destruct (in_opt _ _ _ J) as (_ & E); injection E as -> ->.
        -- eapply reach_next; [apply A; left; reflexivity|right; right; left; reflexivity|exact Ia].
        -- eapply reach_next; [apply A; left; reflexivity|right; right; right; left; reflexivity|exact Ia].
Qed.
Lemma inv_nothing : inv nothing [] [] [].
Proof.
  constructor.
  - split; [apply Permutation_refl|]. split; [constructor|intros []].
  - intros g [].
  - intros g [].
  - intros v [].
  - intros v [].
  - intros p H. unfold hc in H. cbn in H. lia.
  - intros p H. unfold hc in H. cbn in H. lia.
Qed.
Lemma sound_none : forall m, sound m [] -> m = [].
Proof.
  intros [|[p o] m] [_ _ _ H]; [reflexivity|]. destruct (H p) as (x & [] & _). left. reflexivity.
Qed.

(* Histories from the beginning. *)
Lemma histories_sound : forall al cs, fair al -> lawful al nothing [] cs ->
  exists w h, history al nothing [] cs = Ok (w, h) /\ sound (w_mem w) h /\ (h = [] -> w_mem w = []).
Proof.
  intros al cs F L. destruct (history_inv al F cs _ _ _ _ inv_nothing L) as (w & h & S & V & E & I). exists w, h. split; [exact E|].
  pose proof (inv_sound w h S V I) as So. split; [exact So|]. intros ->. apply sound_none. exact So.
Qed.
Lemma creation : forall al cs w h c, fair al -> lawful al nothing [] (cs ++ [c]) -> history al nothing [] cs = Ok (w, h) ->
  c = ScrNew \/ (exists p, c = VteNew p) ->
  exists w' got, lstep al w c = Ok (w', got) /\
    (got = 0 -> Permutation (w_mem w') (w_mem w) /\ ~ plenty al) /\
    (got <> 0 -> ~ alive (w_mem w) got /\ exists x, held h c got = x :: h /\ addr x = got).
Proof.
  intros al cs w h c F L E C.
  assert (K : exists S V, inv w h S V /\ may h c).
  { clear C. revert L E. generalize inv_nothing. generalize (@nil gscr) (@nil gvte) (@nil handle) nothing.
    induction cs as [|a r IH]; intros S V h0 w0 I L E; cbn [app history lawful] in *.
    - injection E as -> ->. exists S, V. split; [exact I|]. apply L.
    - destruct L as (M & L). destruct (lstep_inv al F w0 h0 S V a I M) as (w1 & got & S1 & V1 & E1 & I1). rewrite E1 in E. cbn [bind fst snd] in E.
      exact (IH _ _ _ _ I1 (L _ _ E1) E). }
  destruct K as (S & V & I & (Hl & Mc)). pose proof (i_mem _ _ _ _ I) as (P & N & Z0).
  destruct C as [->|(p & ->)]; cbn [lstep held].
  - destruct (scr_new_ok al F w _ (i_mem _ _ _ _ I)) as (w' & p & -> & [(-> & (P' & _) & Np)|(Hp & g & Eg & (P' & N' & _) & _)]); do 2 eexists; (split; [reflexivity|]); (split; [intro K|intro K]); try lia.
    + split; [|exact Np]. eapply Permutation_trans; [exact P'|apply Permutation_sym; exact P].
    + split; [|destruct (p =? 0) eqn:Ep; [lia|]; eexists; split; reflexivity]. intro A. apply (Permutation_NoDup (Permutation_map fst P')) in N'. rewrite scells_eq, Eg in N'. cbn in N'.
      inversion N' as [|? ? NI _]; subst. apply NI. rewrite map_app. apply in_or_app. right. apply (Permutation_in _ (Permutation_map fst P)). exact A.
  - destruct (new_vte al F w h S V p I Hl Mc) as (w' & v & Ev & A). exists w', v. split; [exact Ev|]. destruct A as [(-> & (P' & _) & Np)|(Hv & S' & V' & I')]; (split; [intro K|intro K]); try lia.
    + split; [|exact Np]. eapply Permutation_trans; [exact P'|apply Permutation_sym; exact P].
    + split; [|destruct (v =? 0) eqn:Ep; [lia|]; eexists; split; reflexivity].
      unfold vte_new in Ev. unfold alloc in Ev at 1. destruct (al (w_tick w) (w_mem w)) as [q|] eqn:Eq.
      * destruct (F _ _ _ Eq) as (Hq & Nq). destruct (q =? 0) eqn:E0; [lia|]. destruct (alloc al _ Bytes) as [w2 u].
        destruct (wwr w2 q _) as [w3|]; cbn [bind] in Ev; [|discriminate Ev]. destruct (u =? 0).
        -- destruct (wfr w3 q); cbn [bind] in Ev; [|discriminate Ev]. injection Ev as _ Ev. lia.
        -- destruct (rd_scr (w_mem w3) p); cbn [bind] in Ev; [|discriminate Ev]. destruct (scr_ref w3 p); cbn [bind] in Ev; [|discriminate Ev].
           injection Ev as _ <-. exact Nq.
      * change (0 =? 0) with true in Ev. cbv iota in Ev. injection Ev as _ Ev. lia.
Qed.
