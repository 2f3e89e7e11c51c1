(* Scrolling when lines may be refused. *)
From Verif Require Import Base BaseProofs Wcwidth Symbol Screen ScreenInv ScreenSb ScreenScroll ScreenSpec ScreenOps ScreenMove ScreenCtl ScreenResize
  ScreenSafe ScreenLaws ScreenAlt ScreenHist TwinSpec TwinProofs Alloc AllocSpec.

Lemma sub_refl {A} (l : list A) : subseq l l.
Proof. induction l; constructor; auto. Qed.
Lemma sub_none {A} (l : list A) : subseq [] l.
Proof. induction l; constructor; auto. Qed.
Lemma sub_app {A} (a b c d : list A) : subseq a b -> subseq c d -> subseq (a ++ c) (b ++ d).
Proof. intros H. induction H; intros K; cbn [app]; auto; constructor; auto. Qed.

Lemma f_line_new_cases s w al : exists r al', f_line_new s w al = (r, al') /\ (r = None \/ r = Some (line_new s w)).
Proof.
  unfold f_line_new. destruct (w =? 0); [eauto|]. destruct (ask al) as [[] al1]; [eauto|]. destruct (ask al1) as [[] al2]; eauto.
Qed.

(* The scrollback has got some of these rows. *)
Definition fhist (s s' : screen) (rows : list (list glyph)) : Prop :=
  s_sbmax s' = s_sbmax s /\ exists kept, subseq kept rows /\ sb_text s' = last_n (s_sbmax s) (sb_text s ++ kept).
Definition row_blank (s : screen) (l : line) : Prop :=
  line_wf (s_sx s) l /\ forall x, 0 <= x < s_sx s -> row_at l x = Some (blank_glyph (s_def s)).

Record fpart (s s' : screen) (c : list line) (i : Z) : Prop := mkFpart {
  fp_inv : Inv0 s'; fp_env : env2 s s';
  fp_rows : forall k, (k < s_mt s \/ s_mt s + i <= k) -> znth (lines s') k = znth (lines s) k;
  fp_len : zlen (lines s') = zlen (lines s);
  fp_clen : zlen c = i;
  fp_cache : Forall (row_blank s) c;
  fp_sb : fhist s s' (if fl s F_ALT then [] else txt (zslice (lines s) (s_mt s) i))
}.
Lemma fhist_refl s r : Inv0 s -> fhist s s r.
Proof.
  intros H. split; [reflexivity|]. exists []. split; [apply sub_none|]. rewrite app_nil_r, last_n_all; [reflexivity|now apply sb_bound].
Qed.
Lemma fhist_trans s s1 s2 a b : 0 <= s_sbmax s -> fhist s s1 a -> fhist s1 s2 b -> fhist s s2 (a ++ b).
Proof.
  intros H0 [E1 (k1 & S1 & T1)] [E2 (k2 & S2 & T2)]. split; [congruence|]. exists (k1 ++ k2). split; [now apply sub_app|].
  rewrite T2, T1, E1, app_assoc. now apply keep_last_app.
Qed.
Lemma fhist_same s s' r : fhist s s r -> s_sb s' = s_sb s -> s_sbmax s' = s_sbmax s -> fhist s s' r.
Proof. intros [_ (k & S & T)] E1 E2. split; [exact E2|]. exists k. split; auto. unfold sb_text. rewrite E1. exact T. Qed.
Lemma fhist_eq s s1 s2 r : fhist s s1 r -> s_sb s2 = s_sb s1 -> s_sbmax s2 = s_sbmax s1 -> fhist s s2 r.
Proof. intros [A (k & S & T)] E1 E2. split; [congruence|]. exists k. split; auto. unfold sb_text. rewrite E1. exact T. Qed.
Lemma fhist_pushed s s' l : pushed s s' l -> fhist s s' [row_text l].
Proof.
  intros P. split; [apply (ps_env _ _ _ P)|]. exists [row_text l]. split; [apply sub_refl|].
  unfold sb_text. rewrite (ps_sb _ _ _ P), <- keep_last_map, map_app. reflexivity.
Qed.
Lemma row_blank_env s s' l : env2 s s' -> row_blank s' l -> row_blank s l.
Proof. intros V [A B]. rewrite (f_sx _ _ V) in *. rewrite (f_def _ _ V) in *. now split. Qed.

Lemma f_scroll_loop s num al : Inv0 s -> 0 <= num <= s_mb s + 1 - s_mt s ->
  exists s' c al', forz 0 num f_scroll_body (s, [], al) = Ok (s', c, al') /\ fpart s s' c num.
Proof.
  intros H Hnum.
  destruct (forz_inv (fun i st => fpart s (fst (fst st)) (snd (fst st)) i) 0 num f_scroll_body (s, [], al)) as ([[s' c] al'] & E & P); [lia| | |].
  - cbn [fst snd]. constructor; auto using env2_refl, fhist_refl.
  - intros i [[s1 c] al1] Hi P. cbn [fst snd] in P. destruct P as [PI PE PR PL PCL PC PS].
    pose proof H as H0. inv0 H0. unfold DIM in *. unfold f_scroll_body. cbv zeta.
    rewrite (f_mt _ _ PE), (fl_env2 _ _ F_ALT PE), (f_sx _ _ PE).
    rewrite (u32_small (s_mt s + i)) by lia.
    destruct (inv_row s (s_mt s + i) H) as (l & El & Wl); [lia|].
    assert (El1 : znth (lines s1) (s_mt s + i) = Some l) by (rewrite PR by lia; exact El).
    assert (K : exists nl al2, (if negb (fl s F_ALT) then f_line_new s1 (s_sx s) al1 else (None, al1)) = (nl, al2) /\
       (nl = None \/ nl = Some (line_new s1 (s_sx s)) /\ fl s F_ALT = false)).
    { destruct (fl s F_ALT); cbn [negb]; [eauto|]. destruct (f_line_new_cases s1 (s_sx s) al1) as (r & al2 & E1 & [K|K]); eauto 6. }
    destruct K as (nl & al2 & EK & K). rewrite EK. clear EK. rewrite (zget_ok _ _ _ El1). cbn [bind].
    assert (SL : txt (zslice (lines s) (s_mt s) (i + 1)) = txt (zslice (lines s) (s_mt s) i) ++ [row_text l]).
    { unfold txt. rewrite (zslice_S _ _ _ l), map_app by (auto; lia). reflexivity. }
    assert (M0 : 0 <= s_sbmax s) by lia.
    destruct K as [->|[-> Ealt]].
    + destruct (line_blank_ok s1 l PI) as [Eb Wb]; [now rewrite (f_sx _ _ PE)|].
      rewrite Eb. cbn [bind]. pose proof (znth_Some_range _ _ _ El1).
      rewrite zmod_ok by lia. cbn [bind]. eexists; split; [reflexivity|]. cbn [fst snd].
      rewrite (f_sx _ _ PE) in Wb.
      constructor.
      * apply Inv0_set_lines; auto. rewrite (f_sx _ _ PE), (f_ln _ _ PE).
        apply lines_wf_zupd_const; auto. rewrite <- (f_sx _ _ PE), <- (f_ln _ _ PE). now apply inv_lines.
      * eapply env2_trans; [exact PE|apply env2_set_lines].
      * intros k Hk. rewrite lines_set_lines, znth_zupd. replace (k =? s_mt s + i) with false by lia. apply PR. lia.
      * rewrite lines_set_lines, length_zupd. exact PL.
      * rewrite app_length. cbn [length]. lia.
      * apply Forall_app. split; auto. constructor; [|constructor]. apply (row_blank_env s s1); auto.
        split; [now rewrite (f_sx _ _ PE)|]. intros x Hx. apply row_at_blanked; auto. rewrite (f_sx _ _ PE). apply Wl.
      * apply (fhist_eq s s1); auto. destruct PS as [A (k & B & C)]. split; auto. exists k. split; auto.
        destruct (fl s F_ALT); auto. rewrite SL. rewrite <- (app_nil_r k). apply sub_app; auto using sub_none.
    + destruct (link_ok s1 l PI) as (s2 & E2 & P2); [apply Wl|]. rewrite E2. cbn [bind].
      eexists; split; [reflexivity|]. cbn [fst snd].
      pose proof (pushed_Inv0 _ _ _ PI P2) as PI2. pose proof (fhist_pushed _ _ _ P2) as PH.
      destruct P2 as [QE QL _ _ _ _ _ _ _].
      assert (PE2 : env2 s s2) by (eapply env2_trans; eauto).
      constructor; auto.
      * intros k Hk. rewrite QL. apply PR. lia.
      * now rewrite QL.
      * rewrite app_length. cbn [length]. lia.
      * apply Forall_app. split; auto. constructor; [|constructor]. apply (row_blank_env s s1); auto.
        rewrite <- (f_sx _ _ PE). split; [now apply line_new_wf|]. intros x Hx. apply row_at_new; auto.
      * rewrite Ealt in *. rewrite SL. eapply fhist_trans; eauto.
  - exists s', c, al'. auto.
Qed.

Record fscrolled (s s' : screen) (n : Z) : Prop := mkFS {
  fs_inv : Inv0 s'; fs_env : env2 s s';
  fs_rows : forall i,
    if (s_mt s <=? i) && (i <=? s_mb s) then
      if i + n <=? s_mb s then znth (lines s') i = znth (lines s) (i + n)
      else exists l, znth (lines s') i = Some l /\ row_blank s l
    else znth (lines s') i = znth (lines s) i;
  fs_sb : fhist s s' (if fl s F_ALT then [] else txt (zslice (lines s) (s_mt s) n))
}.

Lemma f_chunk_ok s num al : Inv0 s -> 0 < num <= s_mb s + 1 - s_mt s ->
  exists s' al', f_scroll_up_chunk s (s_mb s + 1 - s_mt s) num al = Ok (s', al') /\ fscrolled s s' num.
Proof.
  intros H Hn. unfold f_scroll_up_chunk.
  destruct (f_scroll_loop s num al H ltac:(lia)) as (s1 & c & al1 & E & P). rewrite E. clear E. cbn [bind].
  destruct P as [PI PE PR PL PCL PC PS]. pose proof H as H0. inv0 H0. unfold DIM in *.
  pose proof (inv_lines s H) as [LL LF].
  rewrite !(f_mt _ _ PE). rewrite (u32_small (s_mt s + num)) by lia.
  set (max := s_mb s + 1 - s_mt s) in *.
  assert (exists ls2, (if num <? max then lines_move s1 (s_mt s) (s_mt s + num) (max - num) else Ok s1)
            = Ok (set_lines s1 ls2) /\ zlen ls2 = zlen (lines s) /\
          (forall i, (i < s_mt s \/ s_mt s + (max - num) <= i) -> i < s_mt s \/ s_mb s < i ->
                 znth ls2 i = znth (lines s) i) /\
          (forall i, s_mt s <= i < s_mt s + (max - num) -> znth ls2 i = znth (lines s) (i + num)) /\
          (forall i l, znth ls2 i = Some l -> exists j, znth (lines s1) j = Some l))
    as (ls2 & E2 & L2 & O2 & M2 & X2).
  { destruct (num <? max) eqn:En.
    - unfold lines_move. rewrite zmove_ok by lia. cbn [bind]. eexists; split; [reflexivity|].
      split; [rewrite length_move by lia; lia|]. split.
      + intros i Hi Hi2. rewrite znth_move by lia. replace ((_ <=? i) && _) with false by lia. apply PR. lia.
      + split.
        * intros i Hi. rewrite znth_move by lia. replace ((_ <=? i) && _) with true by lia.
          replace (i - s_mt s + (s_mt s + num)) with (i + num) by lia. apply PR. lia.
        * intros i l. rewrite znth_move by lia. destruct (_ && _); eauto.
    - exists (lines s1). rewrite set_lines_lines. split; [reflexivity|]. split; [exact PL|]. split.
      + intros i Hi Hi2. apply PR. lia.
      + split; [intros i Hi; lia|eauto]. }
  rewrite E2. cbn [bind]. replace (s_mt (set_lines s1 ls2)) with (s_mt s) by (sredg; symmetry; apply (f_mt _ _ PE)).
  rewrite (u32_small (s_mt s + (max - num))) by lia.
  unfold lines_copy. rewrite lines_set_lines, zcopy_ok by lia. cbn [bind].
  set (ls3 := zput ls2 (s_mt s + (max - num)) c).
  set (s3 := set_lines (set_lines s1 ls2) ls3).
  assert (R3 : forall i, if (s_mt s <=? i) && (i <=? s_mb s) then
      if i + num <=? s_mb s then znth ls3 i = znth (lines s) (i + num)
      else exists l, znth ls3 i = Some l /\ row_blank s l
    else znth ls3 i = znth (lines s) i).
  { intros i. unfold ls3. rewrite znth_zput by lia. rewrite PCL.
    destruct ((s_mt s + (max - num) <=? i) && (i <? s_mt s + (max - num) + num)) eqn:E.
    - replace ((s_mt s <=? i) && (i <=? s_mb s)) with true by lia.
      replace (i + num <=? s_mb s) with false by lia.
      destruct (znth_some c (i - (s_mt s + (max - num)))) as [l El]; [lia|]. exists l. split; [exact El|]. eapply Forall_get; eauto.
    - destruct ((s_mt s <=? i) && (i <=? s_mb s)) eqn:E1.
      + replace (i + num <=? s_mb s) with true by lia. apply M2. lia.
      + apply O2; lia. }
  assert (L3 : zlen ls3 = zlen (lines s)).
  { unfold ls3. rewrite length_zput by lia. lia. }
  assert (W3 : lines_wf (s_sx s) (s_ln s) ls3).
  { apply wf_pointwise; [lia|]. intros i l Hl. specialize (R3 i). destruct (_ && _); [destruct (_ <=? _)|].
    - rewrite R3 in Hl. eapply Forall_get; eauto.
    - destruct R3 as (l0 & E0 & [W0 _]). rewrite E0 in Hl. inversion Hl. now subst.
    - rewrite R3 in Hl. eapply Forall_get; eauto. }
  assert (I3 : Inv0 s3).
  { apply Inv0_set_lines; sredg; rewrite ?(f_sx _ _ PE), ?(f_ln _ _ PE); auto.
    apply Inv0_set_lines; rewrite ?(f_sx _ _ PE), ?(f_ln _ _ PE); auto.
    apply wf_pointwise; [lia|]. intros i l Hl.
    destruct (X2 i l Hl) as [j Hj].
    pose proof (inv_lines s1 PI) as [_ F1]. rewrite (f_sx _ _ PE) in F1. eapply Forall_get; eauto. }
  eexists _, _; split; [reflexivity|].
  change (s_sb s3) with (s_sb s1).
  assert (PE3 : env2 s s3).
  { eapply env2_trans; [exact PE|]. eapply env2_trans; apply env2_set_lines. }
  constructor.
  - apply Inv0_sel_map; auto. intros p Hp. apply sel_scroll_up_ptr; auto. apply (i_sbid _ I3).
  - eapply env2_trans; [exact PE3|apply env2_sel_map].
  - intros i. rewrite lines_sel_map. unfold s3. rewrite lines_set_lines. apply R3.
  - apply (fhist_eq s s1); [exact PS| |]; unfold sel_map; destruct (s_sela s3); reflexivity.
Qed.

Lemma fscrolled_comp s s1 s2 a b : Inv0 s -> 0 <= a -> 0 <= b -> a + b <= s_mb s + 1 - s_mt s ->
  fscrolled s s1 a -> fscrolled s1 s2 b -> fscrolled s s2 (a + b).
Proof.
  intros H Ha Hb Hab [AI AE AR AS] [BI BE BR BS].
  pose proof (inv_lines s H) as [LL _]. pose proof H as H0. inv0 H0.
  rewrite (f_mt _ _ AE), (f_mb _ _ AE) in BR.
  constructor.
  - exact BI.
  - eapply env2_trans; eauto.
  - intros i. pose proof (BR i) as Bi. pose proof (AR i) as Ai. pose proof (AR (i + b)) as Aib.
    destruct ((s_mt s <=? i) && (i <=? s_mb s)) eqn:E; [|congruence].
    destruct (i + b <=? s_mb s) eqn:E1.
    + replace ((s_mt s <=? i + b) && true) with true in Aib by lia.
      replace (i + b + a <=? s_mb s) with (i + (a + b) <=? s_mb s) in Aib by lia.
      destruct (i + (a + b) <=? s_mb s).
      * rewrite Bi, Aib. f_equal. lia.
      * destruct Aib as (l & El & W). exists l. split; auto. congruence.
    + replace (i + (a + b) <=? s_mb s) with false by lia. destruct Bi as (l & El & W). exists l. split; auto. now apply (row_blank_env s s1).
  - rewrite (fl_env2 _ _ _ AE), (f_mt _ _ AE) in BS. pose proof (fhist_trans s s1 s2 _ _ ltac:(lia) AS BS) as T.
    destruct (fl s F_ALT); [exact T|].
    assert (Hsl : zslice (lines s) (s_mt s) (a + b) = zslice (lines s) (s_mt s) a ++ zslice (lines s1) (s_mt s) b).
    { apply znth_ext'. intros i. destruct (i <? 0) eqn:Ei; [now rewrite !znth_neg by lia|].
      assert (L1 : zlen (zslice (lines s) (s_mt s) a) = a) by (rewrite length_zslice; lia).
      rewrite znth_app, L1, !znth_zslice by lia.
      destruct (i <? a) eqn:E1; [replace (i <? a + b) with true by lia; reflexivity|].
      rewrite ?znth_zslice by lia. replace (i <? a + b) with (i - a <? b) by lia. destruct (i - a <? b) eqn:E2; [|reflexivity].
      specialize (AR (s_mt s + (i - a))). replace ((_ <=? _) && _) with true in AR by lia.
      replace (_ <=? s_mb s) with true in AR by lia. rewrite AR. f_equal. lia. }
    unfold txt in *. rewrite Hsl, map_app. exact T.
Qed.
Lemma fscrolled_age s s' n : fscrolled (age_all s) s' n -> fscrolled s s' n.
Proof. intros [I V R S]. constructor; auto. destruct V. constructor; auto. Qed.

Lemma f_rec_ok fuel : forall s n al, Inv0 s -> 0 < n ->
  Z.min n (s_mb s + 1 - s_mt s) / 128 <= Z.of_nat fuel ->
  exists s' al', f_scroll_up_rec fuel s n al = Ok (s', al') /\ fscrolled s s' (Z.min n (s_mb s + 1 - s_mt s)).
Proof.
  induction fuel as [|fuel IH]; intros s n al H Hn Hf; pose proof H as H0; inv0 H0; unfold DIM in *.
  all: cbn [f_scroll_up_rec]; replace (n =? 0) with false by lia; sredg.
  all: rewrite (u32_small (s_mb s + 1 - s_mt s)) by lia.
  all: replace (if s_mb s + 1 - s_mt s <? n then s_mb s + 1 - s_mt s else n) with (Z.min n (s_mb s + 1 - s_mt s))
       by (destruct (s_mb s + 1 - s_mt s <? n) eqn:E; lia).
  all: pose proof (Inv0_age_all s H) as HA.
  - replace (128 <? _) with false by lia.
    destruct (f_chunk_ok (age_all s) (Z.min n (s_mb s + 1 - s_mt s)) al HA) as (s' & al' & E & P); [sredg; lia|].
    exists s', al'. split; [exact E|]. now apply fscrolled_age.
  - destruct (128 <? Z.min n (s_mb s + 1 - s_mt s)) eqn:E128.
    + destruct (f_chunk_ok (age_all s) 128 al HA) as (s1 & al1 & E1 & P1); [sredg; lia|].
      change (s_mb (age_all s)) with (s_mb s) in E1. change (s_mt (age_all s)) with (s_mt s) in E1.
      rewrite E1. cbn [bind fst snd]. apply fscrolled_age in P1. pose proof (fs_env _ _ _ P1) as PE.
      destruct (IH s1 (Z.min n (s_mb s + 1 - s_mt s) - 128) al1 (fs_inv _ _ _ P1)) as (s2 & al2 & E2 & P2); [lia| |].
      { rewrite (f_mb _ _ PE), (f_mt _ _ PE). lia. }
      rewrite (f_mb _ _ PE), (f_mt _ _ PE) in P2. rewrite Z.min_l in P2 by lia.
      exists s2, al2. split; [exact E2|].
      replace (Z.min n (s_mb s + 1 - s_mt s)) with (128 + (Z.min n (s_mb s + 1 - s_mt s) - 128)) by lia.
      eapply fscrolled_comp; eauto; lia.
    + destruct (f_chunk_ok (age_all s) (Z.min n (s_mb s + 1 - s_mt s)) al HA) as (s' & al' & E & P); [sredg; lia|].
      exists s', al'. split; [exact E|]. now apply fscrolled_age.
Qed.
Lemma f_scroll_up_ok s n al : Inv0 s -> 0 < n ->
  exists s' al', f_scroll_up s n al = Ok (s', al') /\ fscrolled s s' (Z.min n (s_mb s + 1 - s_mt s)).
Proof.
  intros H Hn. unfold f_scroll_up. apply f_rec_ok; auto.
  pose proof H as H0. inv0 H0. unfold DIM in *. rewrite u32_small by lia. lia.
Qed.

Lemma fscrolled_at s s' n y x : Inv0 s -> 0 <= n <= s_mb s + 1 - s_mt s -> fscrolled s s' n ->
  on_screen s y x -> at_ s' y x = shift_up s (s_mt s) (s_mb s) n y x.
Proof.
  intros H Hn [_ _ R _] [Hy Hx]. specialize (R y). unfold shift_up, at_, rows_at.
  destruct ((s_mt s <=? y) && (y <=? s_mb s)); [|now rewrite R]. destruct (y + n <=? s_mb s); [now rewrite R|].
  destruct R as (l & -> & [_ W]). now apply W.
Qed.
