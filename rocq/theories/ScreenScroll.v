(* Scrolling: exact effect of screen_scroll_up and screen_scroll_down. *)
From Verif Require Import Base BaseProofs Wcwidth Symbol Screen ScreenInv ScreenSb.

(* The line that replaces row l when it is scrolled away. *)
Definition blanked (s : screen) (l : line) : line :=
  set_cells l (filled (blank s) 0 (s_sx s) (l_cells l)).
Definition fresh_row (s : screen) (l : line) : line :=
  if fl s F_ALT then blanked s l else line_new s (s_sx s).

(* Row i of rows rotated up by n between t and b. *)
Definition row_up (f : line -> line) (t b n : Z) (ls : list line) (i : Z) : option line :=
  if (t <=? i) && (i <=? b) then
    if i + n <=? b then znth ls (i + n)
    else option_map f (znth ls (i + n - (b + 1 - t)))
  else znth ls i.
(* Rows of ls' are those of ls shifted up/down by n between t and b, filled
   with rows f l for old rows l of that range. *)
Definition rows_up (f : line -> line) (t b n : Z) (ls ls' : list line) : Prop :=
  zlen ls' = zlen ls /\ forall i,
  (i < t \/ b < i -> znth ls' i = znth ls i) /\
  (t <= i <= b - n -> znth ls' i = znth ls (i + n)) /\
  (t <= i <= b -> b - n < i -> exists j, t <= j < t + n /\ znth ls' i = option_map f (znth ls j)).
Definition rows_down (f : line -> line) (t b n : Z) (ls ls' : list line) : Prop :=
  zlen ls' = zlen ls /\ forall i,
  (i < t \/ b < i -> znth ls' i = znth ls i) /\
  (t + n <= i <= b -> znth ls' i = znth ls (i - n)) /\
  (t <= i <= b -> i < t + n -> exists j, b - n < j <= b /\ znth ls' i = option_map f (znth ls j)).

Lemma line_blank_ok s l : Inv0 s -> line_wf (s_sx s) l ->
  line_blank s l = Ok (blanked s l) /\ line_wf (s_sx s) (blanked s l).
Proof.
  intros H [Hw Hi]. inv0 H. unfold line_blank, on_cells, blanked. rewrite fill_ok by lia. cbn [bind].
  split; [reflexivity|]. split; cbn [set_cells l_cells l_sbid]; [now rewrite length_filled|exact Hi].
Qed.
Lemma line_new_wf s : Inv0 s -> line_wf (s_sx s) (line_new s (s_sx s)).
Proof. intros H. inv0 H. split; cbn; [rewrite repeat_length; lia|reflexivity]. Qed.
Lemma fresh_row_wf s l : Inv0 s -> line_wf (s_sx s) l -> line_wf (s_sx s) (fresh_row s l).
Proof.
  intros H Hl. unfold fresh_row. destruct (fl s F_ALT); [now apply line_blank_ok|now apply line_new_wf].
Qed.
Lemma blanked_env2 s s' l : env2 s s' -> blanked s' l = blanked s l.
Proof. intros E. unfold blanked. now rewrite (blank_env2 _ _ E), (f_sx _ _ E). Qed.
Lemma fresh_row_env2 s s' l : env2 s s' -> fresh_row s' l = fresh_row s l.
Proof.
  intros E. unfold fresh_row. rewrite (fl_env2 _ _ _ E), (blanked_env2 _ _ _ E), (f_sx _ _ E).
  unfold line_new. now rewrite (blank_env2 _ _ E), (f_cnt _ _ E).
Qed.

Lemma zslice_S {A} (l : list A) i n x : 0 <= i -> 0 <= n -> znth l (i + n) = Some x ->
  zslice l i (n + 1) = zslice l i n ++ [x].
Proof.
  intros Hi Hn Hx. pose proof (znth_Some_range _ _ _ Hx) as R.
  apply znth_ext'. intros j. destruct (j <? 0) eqn:Ej; [now rewrite !znth_neg by lia|].
  assert (L : zlen (zslice l i n) = n) by (rewrite length_zslice; lia).
  rewrite znth_app, !znth_zslice by lia. rewrite L.
  destruct (j <? n) eqn:E.
  - replace (j <? n + 1) with true by lia. reflexivity.
  - destruct (j <? n + 1) eqn:E2.
    + replace (j - n) with 0 by lia. replace j with n by lia. rewrite Hx. reflexivity.
    + rewrite znth_ge; [reflexivity|cbn [length]; lia].
Qed.
Lemma zslice_0 {A} (l : list A) i : zslice l i 0 = [].
Proof. reflexivity. Qed.
Lemma mapi_from_app {A B} (f : Z -> A -> B) a b k :
  mapi_from k f (a ++ b) = mapi_from k f a ++ mapi_from (k + zlen a) f b.
Proof.
  revert k; induction a as [|x a IH]; intros k; cbn [mapi_from app length].
  - now rewrite Z.add_0_r.
  - rewrite IH. replace (k + Z.of_nat (S (length a))) with (k + 1 + zlen a) by lia. reflexivity.
Qed.
Lemma wf_pointwise w n ls : zlen ls = n -> (forall i l, znth ls i = Some l -> line_wf w l) -> lines_wf w n ls.
Proof. intros H1 H2. split; auto. apply Forall_znth. exact H2. Qed.

(* The scrollback after rows were appended. *)
Definition sb_after (s : screen) (rows : list line) : list line :=
  keep_last (s_sbmax s) (s_sb s ++ mapi_from (s_sbid s + 1) linked rows).

Record up_sb (s s' : screen) (n : Z) : Prop := mkUpSb {
  us_sb : s_sb s' = sb_after s (zslice (lines s) (s_mt s) n);
  us_id : s_sbid s' = (if s_sbmax s =? 0 then s_sbid s else s_sbid s + n);
  us_pos : pos_follow s s'
}.
Record same_sb (s s' : screen) : Prop := mkSameSb {
  ss_sb : s_sb s' = s_sb s; ss_n : s_sbn s' = s_sbn s; ss_id : s_sbid s' = s_sbid s;
  ss_pos : s_sbpos s' = s_sbpos s; ss_posn : s_sbposn s' = s_sbposn s
}.

Record up_part (s s' : screen) (c : list line) (i : Z) : Prop := mkUpPart {
  up_inv : Inv0 s'; up_env : env2 s s';
  up_rows : forall k, (k < s_mt s \/ s_mt s + i <= k) -> znth (lines s') k = znth (lines s) k;
  up_len : zlen (lines s') = zlen (lines s);
  up_cache : c = map (fresh_row s) (zslice (lines s) (s_mt s) i);
  up_part_sb : if fl s F_ALT then same_sb s s' else up_sb s s' i;
  up_part_sel : s_sela s = true -> forall p p', (p = s_sel1 s /\ p' = s_sel1 s') \/ (p = s_sel2 s /\ p' = s_sel2 s') ->
     p' = match p_line p with
      | Some k => if live s' k then p else mkP None (p_x p) SELECTION_TOP
      | None => p end;
  up_part_age : s_age s = s_cnt s -> s_age s' = s_cnt s
}.

Lemma live_mono s s' k : Inv0 s -> first_id s <= first_id s' -> sb_ptr (s_sb s) (s_sbid s) (Some k) ->
  s_sbid s <= s_sbid s' -> live s k = true.
Proof. intros H. unfold live, first_id. cbn. lia. Qed.

Lemma keep_last_0 {A} (l : list A) n : n <= 0 -> keep_last n l = [].
Proof. intros H. unfold keep_last. apply skipn_all2. lia. Qed.

Lemma scroll_up_loop s num : Inv0 s -> 0 <= num <= s_mb s + 1 - s_mt s ->
  exists s' c,
  forz 0 num (fun i st =>
      let '(s, cache) := st in
      let pos := u32 (s_mt s + i) in
      if negb (fl s F_ALT) && negb (s_sx s =? 0) then
        let nl := line_new s (s_sx s) in
        do l <- zget (lines s) pos;
        do s' <- link_to_scrollback s l;
        Ok (s', cache ++ [nl])
      else
        do l <- zget (lines s) pos;
        do l' <- line_blank s l;
        do ls <- zmod (lines s) pos (fun _ => l');
        Ok (set_lines s ls, cache ++ [l'])) (s, []) = Ok (s', c) /\ up_part s s' c num.
Proof.
  intros H Hnum.
  destruct (forz_inv (fun i st => up_part s (fst st) (snd st) i) 0 num
   (fun i st =>
      let '(s, cache) := st in
      let pos := u32 (s_mt s + i) in
      if negb (fl s F_ALT) && negb (s_sx s =? 0) then
        let nl := line_new s (s_sx s) in
        do l <- zget (lines s) pos;
        do s' <- link_to_scrollback s l;
        Ok (s', cache ++ [nl])
      else
        do l <- zget (lines s) pos;
        do l' <- line_blank s l;
        do ls <- zmod (lines s) pos (fun _ => l');
        Ok (set_lines s ls, cache ++ [l'])) (s, [])) as ([s' c] & E & P); [lia| | |].
  - cbn [fst snd]. constructor; auto using env2_refl.
    + destruct (fl s F_ALT); [constructor; reflexivity|]. pose proof H as H0. inv0 H0. constructor.
      * unfold sb_after. rewrite zslice_0. cbn [mapi_from]. rewrite app_nil_r, keep_last_all by lia. reflexivity.
      * destruct (_ =? 0); lia.
      * unfold pos_follow. destruct (s_sbpos s) as [p|]; [|reflexivity]. cbn in Isbpos.
        unfold first_id. destruct (fl s F_FIXED); f_equal; lia.
    + intros Es p p' Hp. assert (p' = p) by (destruct Hp as [[-> ->]|[-> ->]]; reflexivity). subst p'.
      pose proof H as H0. inv0 H0.
      destruct (p_line p) as [k|] eqn:Ek; [|reflexivity].
      assert (Hk : sb_ptr (s_sb s) (s_sbid s) (Some k)).
      { rewrite <- Ek. destruct Hp as [[-> _]|[-> _]]; auto. }
      cbn in Hk. unfold live, first_id. replace (_ && _) with true by lia. reflexivity.
  - intros i [s1 c] Hi P. cbn [fst snd] in P. destruct P as [PI PE PR PL PC PS PSel PA].
    pose proof H as H0. inv0 H0. unfold DIM in *.
    rewrite (f_mt _ _ PE), (fl_env2 _ _ F_ALT PE), (f_sx _ _ PE).
    replace (s_sx s =? 0) with false by lia. rewrite andb_true_r.
    rewrite (u32_small (s_mt s + i)) by lia.
    destruct (inv_row s (s_mt s + i) H) as (l & El & Wl); [lia|].
    assert (El1 : znth (lines s1) (s_mt s + i) = Some l) by (rewrite PR by lia; exact El).
    rewrite (zget_ok _ _ _ El1). cbn [bind].
    destruct (fl s F_ALT) eqn:Ealt; cbn [negb].
    + destruct (line_blank_ok s1 l PI) as [Eb Wb]; [now rewrite (f_sx _ _ PE)|].
      rewrite Eb. cbn [bind]. pose proof (znth_Some_range _ _ _ El1).
      rewrite zmod_ok by lia. cbn [bind]. eexists; split; [reflexivity|]. cbn [fst snd].
      rewrite (f_sx _ _ PE) in Wb.
      constructor.
      * apply Inv0_set_lines; auto. rewrite (f_sx _ _ PE), (f_ln _ _ PE).
        apply lines_wf_zupd_const; auto. rewrite <- (f_sx _ _ PE), <- (f_ln _ _ PE). now apply inv_lines.
      * eapply env2_trans; [exact PE|apply env2_set_lines].
      * intros k Hk. rewrite lines_set_lines, znth_zupd. replace (k =? s_mt s + i) with false by lia. apply PR. lia.
      * rewrite lines_set_lines, length_zupd. exact PL.
      * rewrite (zslice_S _ _ _ l), map_app, PC by (auto; lia). cbn [map]. unfold fresh_row at 3. rewrite ?Ealt.
        now rewrite (blanked_env2 _ _ _ PE).
      * rewrite ?Ealt in *. destruct PS. constructor; sredg; auto.
      * intros Es p p' Hp. apply (PSel Es). exact Hp.
      * intros Ha. sredg. auto.
    + destruct (link_ok s1 l PI) as (s2 & E2 & P2); [apply Wl|]. rewrite E2. cbn [bind].
      eexists; split; [reflexivity|]. cbn [fst snd].
      pose proof (pushed_Inv0 _ _ _ PI P2) as PI2. pose proof (pushed_ids _ _ _ PI P2) as [Hi2 L2].
      pose proof (pushed_pos _ _ _ PI P2) as Hpos. pose proof (pushed_sel _ _ _ PI P2) as Hsel.
      destruct P2 as [QE QL QA QSB QID QN QP Q1 Q2]. rewrite ?Ealt in PS. destruct PS as [SB SID SPOS].
      assert (PE2 : env2 s s2) by (eapply env2_trans; eauto).
      constructor; auto.
      * intros k Hk. rewrite QL. apply PR. lia.
      * now rewrite QL.
      * rewrite (zslice_S _ _ _ l), map_app, PC by (auto; lia). cbn [map]. unfold fresh_row at 3. rewrite ?Ealt.
        rewrite <- (f_sx _ _ PE). unfold line_new. now rewrite (blank_env2 _ _ PE), (f_cnt _ _ PE).
      * rewrite Ealt. constructor.
        -- rewrite QSB, (f_sbmax _ _ PE), SB, SID. unfold sb_after.
           rewrite keep_last_app by lia. rewrite (zslice_S _ _ _ l), mapi_from_app, app_assoc by (auto; lia).
           cbn [mapi_from].
           destruct (s_sbmax s =? 0) eqn:Em; [now rewrite !keep_last_0 by lia|].
           assert (LS : zlen (zslice (lines s) (s_mt s) i) = i).
           { rewrite length_zslice. pose proof (inv_lines s H) as [HL _]. lia. }
           rewrite LS. do 3 f_equal. f_equal. lia.
        -- rewrite QID, (f_sbmax _ _ PE), SID. destruct (s_sbmax s =? 0); lia.
        -- unfold pos_follow in *. rewrite Hpos, SPOS, (fl_env2 _ _ _ PE).
           destruct (s_sbpos s) as [p|]; [|reflexivity].
           assert (first_id s1 <= first_id s2).
           { unfold first_id. rewrite QID, L2. pose proof (i_sbn _ PI); pose proof (i_sbmax _ PI). destruct (s_sbmax s1 =? 0) eqn:Em1; lia. }
           destruct (fl s F_FIXED); f_equal; lia.
      * intros Es p p' Hp. rewrite (f_sela _ _ PE) in *. rewrite Es in *. cbn [andb] in Q1, Q2.
        assert (exists q, q = match p_line p with
             | Some k => if live s1 k then p else mkP None (p_x p) SELECTION_TOP | None => p end /\
             sb_ptr (s_sb s1) (s_sbid s1) (p_line q) /\
             p' = match p_line q with
             | Some k => if live s2 k then q else mkP None (p_x q) SELECTION_TOP | None => q end) as (q & Eq & Hq & Ep').
        { pose proof (i_sel1 _ PI) as K1; pose proof (i_sel2 _ PI) as K2. rewrite (f_sela _ _ PE), Es in K1, K2.
          destruct Hp as [[-> ->]|[-> ->]].
          - exists (s_sel1 s1). split; [apply (PSel eq_refl); auto|]. split; auto. 
          - exists (s_sel2 s1). split; [apply (PSel eq_refl); auto|]. split; auto. }
        rewrite Ep'. destruct (p_line p) as [k|] eqn:Ek; [|now rewrite Eq, Ek].
        destruct (live s1 k) eqn:El1'; rewrite Eq; [now rewrite Ek|]. cbn [p_line p_x].
        assert (Hd : live s2 k = false); [|now rewrite Hd].
        assert (Hkp : sb_ptr (s_sb s) (s_sbid s) (Some k)).
        { rewrite <- Ek. destruct Hp as [[-> _]|[-> _]]; auto. }
        cbn in Hkp. unfold live, first_id in *. rewrite QID, L2, SID in *. pose proof (i_sbn _ PI); pose proof (i_sbmax _ PI).
        rewrite (f_sbmax _ _ PE) in *.
        destruct (s_sbmax s =? 0) eqn:Em; lia.
      * intros Ha. rewrite QA. apply (f_cnt _ _ PE).
  - exists s', c. split; auto.
Qed.

Record scrolled_up (s s' : screen) (n : Z) : Prop := mkSU {
  su_inv : Inv0 s'; su_env : env2 s s';
  su_rows : forall i, znth (lines s') i = row_up (fresh_row s) (s_mt s) (s_mb s) n (lines s) i;
  su_sb : if fl s F_ALT then same_sb s s' else up_sb s s' n;
  su_sel : fl s F_ALT = false -> s_sela s = true ->
    forall p p', (p = s_sel1 s /\ p' = s_sel1 s') \/ (p = s_sel2 s /\ p' = s_sel2 s') ->
    (p_line p = None -> p_y p < 2147483648) -> sel_follow s s' n p p';
  su_age : s_age s' = s_cnt s
}.

Lemma sel_scroll_up_ptr sb last num p : sb_ids sb last -> sb_ptr sb last (p_line p) ->
  sb_ptr sb last (p_line (sel_scroll_up sb num p)).
Proof.
  intros Hi Hp. unfold sel_scroll_up. destruct (p_line p) eqn:E; [now rewrite E|].
  destruct (0 <=? p_y p); [|now rewrite E].
  destruct (i32 (p_y p - num) <? 0) eqn:Ey; cbn; [|exact I].
  rewrite (walk_back_ids _ last) by (auto; lia).
  destruct (_ <=? zlen sb) eqn:E1; cbn; [lia|exact I].
Qed.
Lemma Inv0_sel_map s f : Inv0 s ->
  (forall p, sb_ptr (s_sb s) (s_sbid s) (p_line p) -> sb_ptr (s_sb s) (s_sbid s) (p_line (f p))) ->
  Inv0 (sel_map s f).
Proof.
  intros H Hf. unfold sel_map. destruct (s_sela s) eqn:E; auto. inv0 H. constructor; sredg; auto; intros; apply Hf; auto.
Qed.
Lemma lines_sel_map s f : lines (sel_map s f) = lines s.
Proof. unfold sel_map. destruct (s_sela s); reflexivity. Qed.
Lemma row_up_some f t b n ls i l w : 0 <= t -> 0 <= n <= b + 1 - t -> b < zlen ls ->
  Forall (line_wf w) ls -> (forall l, line_wf w l -> line_wf w (f l)) ->
  row_up f t b n ls i = Some l -> line_wf w l.
Proof.
  intros Ht Hn Hb HF Hf. unfold row_up.
  destruct ((t <=? i) && (i <=? b)); [|apply Forall_get; auto].
  destruct (i + n <=? b); [apply Forall_get; auto|].
  destruct (znth ls _) eqn:E; cbn; [|discriminate]. intros Hl; inversion Hl; subst.
  apply Hf. eapply Forall_get; eauto.
Qed.

Lemma scroll_up_chunk_ok s num : Inv0 s -> 0 < num <= s_mb s + 1 - s_mt s -> s_age s = s_cnt s ->
  exists s', scroll_up_chunk s (s_mb s + 1 - s_mt s) num = Ok s' /\ scrolled_up s s' num.
Proof.
  intros H Hn Ha. unfold scroll_up_chunk.
  destruct (scroll_up_loop s num H ltac:(lia)) as (s1 & c & E & P). cbv zeta in E. rewrite E. clear E. cbn [bind].
  destruct P as [PI PE PR PL PC PS PSel PA]. pose proof H as H0. inv0 H0. unfold DIM in *.
  pose proof (inv_lines s H) as [LL LF].
  assert (Lc : zlen c = num). { rewrite PC, map_length, length_zslice. lia. }
  rewrite !(f_mt _ _ PE). rewrite (u32_small (s_mt s + num)) by lia.
  set (max := s_mb s + 1 - s_mt s) in *.
  assert (exists ls2, (if num <? max then lines_move s1 (s_mt s) (s_mt s + num) (max - num) else Ok s1)
            = Ok (set_lines s1 ls2) /\ zlen ls2 = zlen (lines s) /\
          (forall i, (i < s_mt s \/ s_mt s + (max - num) <= i) -> i < s_mt s \/ s_mb s < i ->
                 znth ls2 i = znth (lines s) i) /\
          (forall i, s_mt s <= i < s_mt s + (max - num) -> znth ls2 i = znth (lines s) (i + num)) /\
          (forall i l, znth ls2 i = Some l -> exists j, znth (lines s1) j = Some l))
    as (ls2 & E2 & L2 & O2 & M2 & X2).
  { destruct (num <? max) eqn:En.
    - unfold lines_move. rewrite zmove_ok by lia. cbn [bind]. eexists; split; [reflexivity|].
      split; [rewrite length_move by lia; lia|]. split.
      + intros i Hi Hi2. rewrite znth_move by lia. replace ((_ <=? i) && _) with false by lia. apply PR. lia.
      + split.
        * intros i Hi. rewrite znth_move by lia. replace ((_ <=? i) && _) with true by lia.
          replace (i - s_mt s + (s_mt s + num)) with (i + num) by lia. apply PR. lia.
        * intros i l. rewrite znth_move by lia. destruct (_ && _); eauto.
    - exists (lines s1). rewrite set_lines_lines. split; [reflexivity|]. split; [exact PL|]. split.
      + intros i Hi Hi2. apply PR. lia.
      + split; [intros i Hi; lia|eauto]. }
  rewrite E2. cbn [bind]. replace (s_mt (set_lines s1 ls2)) with (s_mt s) by (sredg; symmetry; apply (f_mt _ _ PE)).
  rewrite (u32_small (s_mt s + (max - num))) by lia.
  unfold lines_copy. rewrite lines_set_lines, zcopy_ok by lia. cbn [bind].
  set (ls3 := zput ls2 (s_mt s + (max - num)) c).
  set (s3 := set_lines (set_lines s1 ls2) ls3).
  assert (R3 : forall i, znth ls3 i = row_up (fresh_row s) (s_mt s) (s_mb s) num (lines s) i).
  { intros i. unfold ls3. rewrite znth_zput by lia. rewrite Lc. unfold row_up.
    destruct ((s_mt s + (max - num) <=? i) && (i <? s_mt s + (max - num) + num)) eqn:E.
    - replace ((s_mt s <=? i) && (i <=? s_mb s)) with true by lia.
      replace (i + num <=? s_mb s) with false by lia.
      rewrite PC, znth_map, znth_zslice by lia. replace (_ <? num) with true by lia. do 2 f_equal. lia.
    - destruct ((s_mt s <=? i) && (i <=? s_mb s)) eqn:E1.
      + replace (i + num <=? s_mb s) with true by lia. apply M2. lia.
      + apply O2; lia. }
  assert (L3 : zlen ls3 = zlen (lines s)).
  { unfold ls3. rewrite length_zput by lia. lia. }
  assert (W3 : lines_wf (s_sx s) (s_ln s) ls3).
  { apply wf_pointwise; [lia|]. intros i l Hl. rewrite R3 in Hl. refine (row_up_some _ _ _ _ _ _ _ _ _ _ _ _ _ Hl); auto; try lia.
    intros l0 Hl0. now apply fresh_row_wf. }
  assert (I3 : Inv0 s3).
  { apply Inv0_set_lines; sredg; rewrite ?(f_sx _ _ PE), ?(f_ln _ _ PE); auto.
    apply Inv0_set_lines; rewrite ?(f_sx _ _ PE), ?(f_ln _ _ PE); auto.
    apply wf_pointwise; [lia|]. intros i l Hl.
    destruct (X2 i l Hl) as [j Hj].
    pose proof (inv_lines s1 PI) as [_ F1]. rewrite (f_sx _ _ PE) in F1. eapply Forall_get; eauto. }
  eexists; split; [reflexivity|].
  change (s_sb s3) with (s_sb s1).
  assert (PE3 : env2 s s3).
  { eapply env2_trans; [exact PE|]. eapply env2_trans; apply env2_set_lines. }
  constructor.
  - apply Inv0_sel_map; auto. intros p Hp. apply sel_scroll_up_ptr; auto. apply (i_sbid _ I3).
  - eapply env2_trans; [exact PE3|apply env2_sel_map].
  - intros i. rewrite lines_sel_map. unfold s3. rewrite lines_set_lines. apply R3.
  - unfold sel_map. destruct (fl s F_ALT).
    + destruct PS. destruct (s_sela s3); constructor; unfold s3; sredg; auto.
    + destruct PS as [S1 S2 S3]. unfold pos_follow, first_id in *.
      destruct (s_sela s3); constructor; unfold s3, pos_follow, first_id; sredg; auto.
  - intros Ealt Es p p' Hp Hy. 
    assert (exists q, q = match p_line p with
      | Some k => if live s1 k then p else mkP None (p_x p) SELECTION_TOP
      | None => p end /\ p' = sel_scroll_up (s_sb s1) num q) as (q & Eq & ->).
    { assert (Es3 : s_sela s3 = true) by (unfold s3; sredg; rewrite (f_sela _ _ PE); exact Es).
      unfold sel_map in Hp. rewrite Es3 in Hp. sred.
      destruct Hp as [[-> ->]|[-> ->]].
      - exists (s_sel1 s1). split; [apply (PSel Es); auto|reflexivity].
      - exists (s_sel2 s1). split; [apply (PSel Es); auto|reflexivity]. }
    assert (Hlive : forall k, live (sel_map s3 (sel_scroll_up (s_sb s1) num)) k = live s1 k).
    { intros k. unfold live, first_id, sel_map. destruct (s_sela s3); reflexivity. }
    assert (Hid : s_sbid (sel_map s3 (sel_scroll_up (s_sb s1) num)) = s_sbid s1).
    { unfold sel_map. destruct (s_sela s3); reflexivity. }
    unfold sel_follow. rewrite Hid. subst q.
    destruct (p_line p) as [k|] eqn:Ek.
    + rewrite Hlive. unfold sel_scroll_up. destruct (live s1 k); [now rewrite Ek|]. reflexivity.
    + specialize (Hy eq_refl). unfold sel_scroll_up. rewrite Ek. destruct (p_y p <? 0) eqn:E0.
      * replace (0 <=? p_y p) with false by lia. reflexivity.
      * replace (0 <=? p_y p) with true by lia. rewrite (i32_small (p_y p - num)) by lia.
        destruct (num <=? p_y p) eqn:E1.
        -- replace (_ <? 0) with false by lia. reflexivity.
        -- replace (_ <? 0) with true by lia. rewrite Hlive.
           rewrite (walk_back_ids _ (s_sbid s1)) by (auto using i_sbid; lia).
           unfold live, first_id. destruct (_ <=? zlen (s_sb s1)) eqn:E2'.
           ++ replace (_ && _) with true by lia. reflexivity.
           ++ replace (_ && _) with false by lia. reflexivity.
  - unfold sel_map. destruct (s_sela s3); unfold s3; sredg; auto.
Qed.

Lemma row_up_comp f t b m n ls ls1 i : 0 <= m -> 0 <= n -> m + n <= b + 1 - t ->
  (forall k, znth ls1 k = row_up f t b m ls k) ->
  row_up f t b n ls1 i = row_up f t b (m + n) ls i.
Proof.
  intros Hm Hn Hmn H1. unfold row_up at 1 2. destruct ((t <=? i) && (i <=? b)) eqn:E.
  - destruct (i + n <=? b) eqn:E1.
    + rewrite H1. unfold row_up. replace ((t <=? i + n) && _) with true by lia.
      replace (i + n + m <=? b) with (i + (m + n) <=? b) by lia.
      destruct (i + (m + n) <=? b); [|f_equal]; f_equal; lia.
    + replace (i + (m + n) <=? b) with false by lia. f_equal. rewrite H1. unfold row_up.
      replace ((t <=? _) && _) with true by lia. replace (_ <=? b) with true by lia. f_equal. lia.
  - rewrite H1. unfold row_up. now rewrite E.
Qed.

Lemma first_id_mono s s' n : Inv0 s -> Inv0 s' -> env2 s s' -> 0 <= n <= s_mb s + 1 - s_mt s -> up_sb s s' n ->
  first_id s <= first_id s' /\ s_sbid s <= s_sbid s' /\ zlen (s_sb s') = Z.min (s_sbmax s) (zlen (s_sb s) + n).
Proof.
  intros H H' E Hn [U1 U2 U3]. pose proof (inv_lines s H) as [L _]. inv0 H.
  assert (zlen (s_sb s') = Z.min (s_sbmax s) (zlen (s_sb s) + n)).
  { rewrite U1. unfold sb_after. rewrite length_keep_last, app_length, length_mapi_from, length_zslice by lia. lia. }
  unfold first_id. rewrite U2. destruct (s_sbmax s =? 0) eqn:Em; lia.
Qed.

Lemma sel_follow_y s s' n p p' : (p_line p = None -> p_y p < 2147483648) -> 0 <= n -> sel_follow s s' n p p' ->
  p_line p' = None -> p_y p' < 2147483648.
Proof.
  intros Hp Hn ->. unfold SELECTION_TOP. destruct (p_line p) eqn:E.
  - destruct (live s' z); cbn; [congruence|lia].
  - specialize (Hp eq_refl). intros _. destruct (p_y p <? 0); [lia|]. destruct (n <=? p_y p); cbn; [lia|]. destruct (live s' _); cbn; lia.
Qed.

Lemma scrolled_up_comp s s1 s2 a b : Inv0 s -> 0 <= a -> 0 <= b -> a + b <= s_mb s + 1 - s_mt s ->
  scrolled_up s s1 a -> scrolled_up s1 s2 b -> scrolled_up s s2 (a + b).
Proof.
  intros H Ha Hb Hab [AI AE AR AS ASel AA] [BI BE BR BS BSel BA].
  pose proof (inv_lines s H) as [LL _]. pose proof H as H0. inv0 H0.
  constructor.
  - exact BI.
  - eapply env2_trans; eauto.
  - intros i. rewrite BR, (f_mt _ _ AE), (f_mb _ _ AE).
    rewrite (row_up_comp _ _ _ a b (lines s) (lines s1)); auto.
    + unfold row_up. destruct (_ && _); [|reflexivity]. destruct (_ <=? _); [reflexivity|].
      destruct (znth (lines s) _); [|reflexivity]. cbn. f_equal. apply fresh_row_env2, AE.
    + intros k. rewrite AR. unfold row_up. destruct (_ && _); [|reflexivity]. destruct (_ <=? _); [reflexivity|].
      destruct (znth (lines s) _); [|reflexivity]. cbn. f_equal. symmetry. apply fresh_row_env2, AE.
  - rewrite (fl_env2 _ _ _ AE) in BS. destruct (fl s F_ALT) eqn:Ealt.
    + destruct AS, BS. constructor; congruence.
    + pose proof (first_id_mono s s1 a H AI AE ltac:(lia) AS) as (M1 & M2 & M3).
      pose proof (first_id_mono s1 s2 b AI BI BE ltac:(rewrite (f_mb _ _ AE), (f_mt _ _ AE); lia) BS) as (M4 & M5 & M6).
      destruct AS as [A1 A2 A3], BS as [B1 B2 B3]. constructor.
      * rewrite B1. unfold sb_after. rewrite A1, A2, (f_sbmax _ _ AE), (f_mt _ _ AE). unfold sb_after.
        rewrite keep_last_app by lia. rewrite <- app_assoc.
        destruct (s_sbmax s =? 0) eqn:Em; [now rewrite !keep_last_0 by lia|].
        do 2 f_equal.
        assert (Hsl : zslice (lines s) (s_mt s) (a + b) = zslice (lines s) (s_mt s) a ++ zslice (lines s1) (s_mt s) b).
        { apply znth_ext'. intros i. destruct (i <? 0) eqn:Ei; [now rewrite !znth_neg by lia|].
          assert (L1 : zlen (zslice (lines s) (s_mt s) a) = a) by (rewrite length_zslice; lia).
          rewrite znth_app, L1, !znth_zslice by lia.
          destruct (i <? a) eqn:E1; [replace (i <? a + b) with true by lia; reflexivity|].
          rewrite ?znth_zslice by lia. replace (i <? a + b) with (i - a <? b) by lia. destruct (i - a <? b) eqn:E2; [|reflexivity].
          rewrite AR. unfold row_up. replace ((_ <=? _) && _) with true by lia.
          replace (_ <=? s_mb s) with true by lia. f_equal. lia. }
        rewrite Hsl, mapi_from_app. f_equal. rewrite length_zslice. f_equal. lia.
      * rewrite B2, A2, (f_sbmax _ _ AE). destruct (s_sbmax s =? 0); lia.
      * unfold pos_follow in *. rewrite B3, A3, (fl_env2 _ _ _ AE). destruct (s_sbpos s); [|reflexivity].
        destruct (fl s F_FIXED); f_equal; lia.
  - intros Ealt Es p p' Hp Hy. rewrite (fl_env2 _ _ _ AE) in *. rewrite Ealt in *. rewrite (f_sela _ _ AE) in BSel.
    pose proof (first_id_mono s s1 a H AI AE ltac:(lia) AS) as (M1 & M2 & M3).
    pose proof (first_id_mono s1 s2 b AI BI BE ltac:(rewrite (f_mb _ _ AE), (f_mt _ _ AE); lia) BS) as (M4 & M5 & M6).
    assert (Hk : forall k, p_line p = Some k -> first_id s <= k <= s_sbid s).
    { intros k Ek. assert (Hkp : sb_ptr (s_sb s) (s_sbid s) (Some k)).
      { rewrite <- Ek. destruct Hp as [[-> _]|[-> _]]; auto. }
      cbn in Hkp. unfold first_id. lia. }
    assert (exists q, sel_follow s s1 a p q /\ sel_follow s1 s2 b q p') as (q & F1 & F2).
    { destruct Hp as [[-> ->]|[-> ->]].
      - exists (s_sel1 s1). assert (F : sel_follow s s1 a (s_sel1 s) (s_sel1 s1)) by (apply (ASel eq_refl Es); auto).
        split; [exact F|]. apply (BSel eq_refl Es); auto. exact (sel_follow_y _ _ _ _ _ Hy Ha F).
      - exists (s_sel2 s1). assert (F : sel_follow s s1 a (s_sel2 s) (s_sel2 s1)) by (apply (ASel eq_refl Es); auto).
        split; [exact F|]. apply (BSel eq_refl Es); auto. exact (sel_follow_y _ _ _ _ _ Hy Ha F). }
    destruct AS as [A1 A2 A3], BS as [B1 B2 B3]. rewrite (f_sbmax _ _ AE) in *.
    unfold sel_follow in *. rewrite F2, F1. clear F1 F2.
    destruct (p_line p) as [k|] eqn:Ek.
    + specialize (Hk k eq_refl). destruct (live s1 k) eqn:E1.
      * now rewrite Ek.
      * cbn [p_line p_y p_x]. replace (SELECTION_TOP <? 0) with true by reflexivity.
        assert (E2 : live s2 k = false) by (unfold live in *; lia). now rewrite E2.
    + destruct (p_y p <? 0) eqn:E0; [now rewrite Ek, E0|].
      destruct (a <=? p_y p) eqn:E1.
      * cbn [p_line p_y p_x]. replace (p_y p - a <? 0) with false by lia.
        replace (b <=? p_y p - a) with (a + b <=? p_y p) by lia.
        replace (p_y p - (a + b)) with (p_y p - a - b) by lia. reflexivity.
      * replace (a + b <=? p_y p) with false by lia.
        destruct (s_sbmax s =? 0) eqn:Em.
        -- assert (D1 : forall k, live s1 k = false) by (intros; unfold live, first_id; lia).
           assert (D2 : forall k, live s2 k = false) by (intros; unfold live, first_id; lia).
           rewrite !D1. cbn [p_line p_y p_x]. rewrite !D2. reflexivity.
        -- replace (s_sbid s2 + 1 + (p_y p - (a + b))) with (s_sbid s1 + 1 + (p_y p - a)) by lia.
           set (k := s_sbid s1 + 1 + (p_y p - a)).
           destruct (live s1 k) eqn:E2; cbn [p_line p_y p_x].
           ++ destruct (live s2 k); reflexivity.
           ++ replace (SELECTION_TOP <? 0) with true by reflexivity.
              assert (E3 : live s2 k = false) by (unfold live in *; lia). now rewrite E3.
  - rewrite BA. apply (f_cnt _ _ AE).
Qed.

Lemma scrolled_up_age s a s' n : scrolled_up (set_age s a) s' n -> scrolled_up s s' n.
Proof.
  intros [I E R S Sel A]. constructor; auto.
  - destruct E. constructor; auto.
  - change (fl s F_ALT) with (fl (set_age s a) F_ALT). destruct (fl (set_age s a) F_ALT); destruct S; constructor; auto.
Qed.

Lemma scroll_up_rec_ok fuel : forall s n, Inv0 s -> 0 < n ->
  Z.min n (s_mb s + 1 - s_mt s) / 128 <= Z.of_nat fuel ->
  exists s', scroll_up_rec fuel s n = Ok s' /\ scrolled_up s s' (Z.min n (s_mb s + 1 - s_mt s)).
Proof.
  induction fuel as [|fuel IH]; intros s n H Hn Hf; pose proof H as H0; inv0 H0; unfold DIM in *.
  all: cbn [scroll_up_rec]; replace (n =? 0) with false by lia; sredg.
  all: rewrite (u32_small (s_mb s + 1 - s_mt s)) by lia.
  all: replace (if s_mb s + 1 - s_mt s <? n then s_mb s + 1 - s_mt s else n) with (Z.min n (s_mb s + 1 - s_mt s))
       by (destruct (s_mb s + 1 - s_mt s <? n) eqn:E; lia).
  all: pose proof (Inv0_age_all s H) as HA.
  - replace (128 <? _) with false by lia.
    destruct (scroll_up_chunk_ok (age_all s) (Z.min n (s_mb s + 1 - s_mt s)) HA) as (s' & E & P); [sredg; lia|reflexivity|].
    exists s'. split; [exact E|]. eapply scrolled_up_age; exact P.
  - destruct (128 <? Z.min n (s_mb s + 1 - s_mt s)) eqn:E128.
    + destruct (scroll_up_chunk_ok (age_all s) 128 HA) as (s1 & E1 & P1); [sredg; lia|reflexivity|].
      change (s_mb (age_all s)) with (s_mb s) in E1. change (s_mt (age_all s)) with (s_mt s) in E1.
      rewrite E1. cbn [bind]. apply scrolled_up_age in P1. pose proof (su_env _ _ _ P1) as PE.
      destruct (IH s1 (Z.min n (s_mb s + 1 - s_mt s) - 128) (su_inv _ _ _ P1)) as (s2 & E2 & P2); [lia| |].
      { rewrite (f_mb _ _ PE), (f_mt _ _ PE). lia. }
      rewrite (f_mb _ _ PE), (f_mt _ _ PE) in P2. rewrite Z.min_l in P2 by lia.
      exists s2. split; [exact E2|].
      replace (Z.min n (s_mb s + 1 - s_mt s)) with (128 + (Z.min n (s_mb s + 1 - s_mt s) - 128)) by lia.
      eapply scrolled_up_comp; eauto; lia.
    + destruct (scroll_up_chunk_ok (age_all s) (Z.min n (s_mb s + 1 - s_mt s)) HA) as (s' & E & P); [sredg; lia|reflexivity|].
      exists s'. split; [exact E|]. eapply scrolled_up_age; exact P.
Qed.

Theorem scroll_up_ok s n : Inv0 s -> 0 < n ->
  exists s', scroll_up s n = Ok s' /\ scrolled_up s s' (Z.min n (s_mb s + 1 - s_mt s)).
Proof.
  intros H Hn. unfold scroll_up. apply scroll_up_rec_ok; auto.
  pose proof H as H0. inv0 H0. unfold DIM in *. rewrite u32_small by lia. lia.
Qed.

(* -- scrolling down -------------------------------------------------------- *)
Record scrolled_down (s s' : screen) (n : Z) : Prop := mkSD {
  sd_inv : Inv0 s'; sd_env : env2 s s';
  sd_rows : rows_down (blanked s) (s_mt s) (s_mb s) n (lines s) (lines s');
  sd_sb : same_sb s s';
  sd_sel : s_sela s = true ->
    forall p p', (p = s_sel1 s /\ p' = s_sel1 s') \/ (p = s_sel2 s /\ p' = s_sel2 s') ->
    (p_line p = None -> p_y p + n < 2147483648) -> p' = match p_line p with
                               | Some _ => p
                               | None => if 0 <=? p_y p then mkP None (p_x p) (p_y p + n) else p end;
  sd_age : s_age s' = s_cnt s
}.

(* Blanking a set of rows given by an injective index map. *)
Lemma cache_blank_ok s idx num : Inv0 s -> 0 <= num ->
  (forall i, 0 <= i < num -> 0 <= idx i < s_ln s) ->
  (forall i j, 0 <= i < num -> 0 <= j < num -> idx i = idx j -> i = j) ->
  exists ls c, cache_blank s idx num = Ok (set_lines s ls, c) /\ zlen ls = zlen (lines s) /\
    lines_wf (s_sx s) (s_ln s) ls /\
    (forall k, (forall i, 0 <= i < num -> k <> idx i) -> znth ls k = znth (lines s) k) /\
    (forall i, 0 <= i < num -> znth ls (idx i) = option_map (blanked s) (znth (lines s) (idx i))) /\
    zlen c = num /\
    (forall i, 0 <= i < num -> znth c i = option_map (blanked s) (znth (lines s) (idx i))).
Proof.
  intros H Hn Hidx Hinj. unfold cache_blank.
  destruct (forz_inv (fun m st => exists ls, fst st = set_lines s ls /\ zlen ls = zlen (lines s) /\
      lines_wf (s_sx s) (s_ln s) ls /\
      (forall k, (forall i, 0 <= i < m -> k <> idx i) -> znth ls k = znth (lines s) k) /\
      (forall i, 0 <= i < m -> znth ls (idx i) = option_map (blanked s) (znth (lines s) (idx i))) /\
      zlen (snd st) = m /\
      (forall i, 0 <= i < m -> znth (snd st) i = option_map (blanked s) (znth (lines s) (idx i))))
    0 num (fun i st =>
    let '(s, cache) := st in
    do l <- zget (lines s) (idx i);
    do l' <- line_blank s l;
    do ls <- zmod (lines s) (idx i) (fun _ => l');
    Ok (set_lines s ls, cache ++ [l'])) (s, [])) as ([s' c] & E & ls & E1 & P); [lia| | |].
  - exists (lines s). cbn [fst snd]. rewrite set_lines_lines. repeat split; auto; try lia; try apply inv_lines; auto.
  - intros i [s1 c] Hi (ls & E1 & L & W & O & M & Lc & C). cbn [fst snd] in *. subst s1.
    rewrite lines_set_lines. destruct (inv_row s (idx i) H (Hidx i Hi)) as (l & El & Wl).
    assert (El1 : znth ls (idx i) = Some l).
    { rewrite O; auto. intros j Hj Eq. apply Hinj in Eq; lia. }
    rewrite (zget_ok _ _ _ El1). cbn [bind].
    assert (HI : Inv0 (set_lines s ls)) by (apply Inv0_set_lines; auto).
    destruct (line_blank_ok (set_lines s ls) l HI Wl) as [Eb Wb]. rewrite Eb. cbn [bind].
    rewrite zmod_ok by (eapply znth_Some_range; eauto). cbn [bind].
    eexists; split; [reflexivity|]. cbn [fst snd].
    assert (Hb : blanked (set_lines s ls) l = blanked s l) by reflexivity. rewrite Hb in *.
    exists (zupd ls (idx i) (fun _ => blanked s l)). repeat split.
    + apply set_lines_twice.
    + now rewrite length_zupd.
    + rewrite length_zupd. apply W.
    + exact (proj2 (lines_wf_zupd_const (s_sx s) (s_ln s) _ _ _ W Wb)).
    + intros k Hk. rewrite znth_zupd. destruct (k =? idx i) eqn:Ek.
      * exfalso. apply (Hk i); lia.
      * apply O. intros j Hj. apply Hk. lia.
    + intros j Hj. rewrite znth_zupd. destruct (idx j =? idx i) eqn:Ej.
      * assert (j = i) by (apply Hinj; lia). subst j. rewrite El1, El. reflexivity.
      * apply M. destruct (Z.eq_dec j i); [subst; lia|lia].
    + rewrite app_length. cbn [length]. lia.
    + intros j Hj. rewrite znth_app, Lc. destruct (j <? i) eqn:Ej; [apply C; lia|].
      assert (j = i) by lia. subst j. rewrite Z.sub_diag, El. reflexivity.
  - cbn [fst snd] in *. subst s'. exists ls, c. split; [exact E|]. exact P.
Qed.

Lemma rows_up_wf f t b n ls ls' w : 0 <= t -> 0 <= n -> b < zlen ls -> rows_up f t b n ls ls' ->
  (forall l, line_wf w l -> line_wf w (f l)) -> lines_wf w (zlen ls) ls -> lines_wf w (zlen ls) ls'.
Proof.
  intros Ht Hn Hb [L R] Hf [_ W]. apply wf_pointwise; [exact L|]. intros i l Hl.
  destruct (R i) as (R1 & R2 & R3).
  destruct (Z_lt_le_dec i t); [rewrite R1 in Hl by lia; eapply Forall_get; eauto|].
  destruct (Z_lt_le_dec b i); [rewrite R1 in Hl by lia; eapply Forall_get; eauto|].
  destruct (Z_lt_le_dec (b - n) i).
  - destruct R3 as (j & Hj & E); [lia|lia|]. rewrite Hl in E. destruct (znth ls j) eqn:Ej; [|discriminate].
    cbn in E. inversion E; subst. apply Hf. eapply Forall_get; eauto.
  - rewrite R2 in Hl by lia. eapply Forall_get; eauto.
Qed.
Lemma rows_down_wf f t b n ls ls' w : 0 <= t -> 0 <= n -> b < zlen ls -> rows_down f t b n ls ls' ->
  (forall l, line_wf w l -> line_wf w (f l)) -> lines_wf w (zlen ls) ls -> lines_wf w (zlen ls) ls'.
Proof.
  intros Ht Hn Hb [L R] Hf [_ W]. apply wf_pointwise; [exact L|]. intros i l Hl.
  destruct (R i) as (R1 & R2 & R3).
  destruct (Z_lt_le_dec i t); [rewrite R1 in Hl by lia; eapply Forall_get; eauto|].
  destruct (Z_lt_le_dec b i); [rewrite R1 in Hl by lia; eapply Forall_get; eauto|].
  destruct (Z_lt_le_dec i (t + n)).
  - destruct R3 as (j & Hj & E); [lia|lia|]. rewrite Hl in E. destruct (znth ls j) eqn:Ej; [|discriminate].
    cbn in E. inversion E; subst. apply Hf. eapply Forall_get; eauto.
  - rewrite R2 in Hl by lia. eapply Forall_get; eauto.
Qed.

Lemma bind_assoc {A B C} (x : res A) (f : A -> res B) (g : B -> res C) :
  bind (bind x f) g = bind x (fun a => bind (f a) g).
Proof. destruct x; reflexivity. Qed.

(* Blank n rows at the bottom, rotate them to the top of t..b. *)
Lemma insert_rows_ok s t b n (always : bool) : Inv0 s -> 0 <= t <= b -> b < s_sy s -> 0 < n <= b + 1 - t ->
  exists ls1 c ls',
    cache_blank s (fun i => u32 (b - i)) n = Ok (set_lines s ls1, c) /\
    (if n <? b + 1 - t then
        do s' <- lines_move (set_lines s ls1) (u32 (t + n)) t (b + 1 - t - n);
        lines_copy s' t c
     else if always then lines_copy (set_lines s ls1) t c else Ok (set_lines s ls1)) = Ok (set_lines s ls') /\
    rows_down (blanked s) t b n (lines s) ls' /\ lines_wf (s_sx s) (s_ln s) ls'.
Proof.
  intros H Ht Hb Hn. pose proof H as H0. inv0 H0. unfold DIM in *. pose proof (inv_lines s H) as [LL LF].
  destruct (cache_blank_ok s (fun i => u32 (b - i)) n H) as (ls1 & c & E & L1 & W1 & O1 & M1 & Lc & C1).
  - lia.
  - intros i Hi. cbv beta. rewrite u32_small by lia. lia.
  - intros i j Hi Hj. cbv beta. rewrite !u32_small by lia. lia.
  - assert (O1' : forall k, k <= b - n \/ b < k -> znth ls1 k = znth (lines s) k).
    { intros k Hk. apply O1. intros i Hi. rewrite u32_small by lia. lia. }
    assert (M1' : forall k, b - n < k <= b -> znth ls1 k = option_map (blanked s) (znth (lines s) k)).
    { intros k Hk. specialize (M1 (b - k) ltac:(lia)). rewrite u32_small in M1 by lia.
      replace (b - (b - k)) with k in M1 by lia. exact M1. }
    assert (C1' : forall i, 0 <= i < n -> znth c i = option_map (blanked s) (znth (lines s) (b - i))).
    { intros i Hi. rewrite C1 by lia. now rewrite u32_small by lia. }
    exists ls1, c.
    assert (exists ls', (if n <? b + 1 - t then
        do s' <- lines_move (set_lines s ls1) (u32 (t + n)) t (b + 1 - t - n);
        lines_copy s' t c
     else if always then lines_copy (set_lines s ls1) t c else Ok (set_lines s ls1)) = Ok (set_lines s ls') /\
      rows_down (blanked s) t b n (lines s) ls') as (ls' & E' & R').
    { unfold lines_move, lines_copy. rewrite (u32_small (t + n)) by lia. rewrite !lines_set_lines.
      destruct (n <? b + 1 - t) eqn:En.
      - rewrite zmove_ok by lia. cbn [bind]. rewrite set_lines_twice, lines_set_lines.
        assert (Lm : zlen (zput ls1 (t + n) (zslice ls1 t (b + 1 - t - n))) = zlen ls1).
        { rewrite length_move by lia. lia. }
        rewrite zcopy_ok by lia. cbn [bind]. rewrite set_lines_twice.
        eexists; split; [reflexivity|]. split; [rewrite length_zput by lia; lia|].
        intros i. rewrite znth_zput by lia. rewrite Lc, znth_move by lia. repeat split.
        + intros Hi. replace ((_ <=? i) && _) with false by lia. replace ((_ <=? i) && _) with false by lia.
          apply O1'. lia.
        + intros Hi. replace ((_ <=? i) && _) with false by lia. replace ((_ <=? i) && _) with true by lia.
          rewrite O1' by lia. f_equal. lia.
        + intros Hi Hi2. replace ((_ <=? i) && _) with true by lia. exists (b - (i - t)). split; [lia|].
          apply C1'. lia.
      - destruct always.
        + rewrite zcopy_ok by lia. cbn [bind]. rewrite set_lines_twice.
          eexists; split; [reflexivity|]. split; [rewrite length_zput by lia; lia|].
          intros i. rewrite znth_zput by lia. rewrite Lc. repeat split.
          * intros Hi. replace ((_ <=? i) && _) with false by lia. apply O1'. lia.
          * intros Hi. lia.
          * intros Hi Hi2. replace ((_ <=? i) && _) with true by lia. exists (b - (i - t)). split; [lia|].
            apply C1'. lia.
        + exists ls1. split; [reflexivity|]. split; [exact L1|]. intros i. repeat split.
          * intros Hi. apply O1'. lia.
          * intros Hi. lia.
          * intros Hi Hi2. exists i. split; [lia|]. apply M1'. lia. }
    exists ls'. repeat split; auto; try apply R'.
    + rewrite <- LL. apply R'.
    + rewrite <- LL in W1. eapply rows_down_wf with (t := t) (b := b) (n := n) (ls := lines s); eauto; try lia.
      * intros l Hl. apply line_blank_ok; auto.
      * split; auto.
Qed.

(* Blank n rows at the top, rotate them to the bottom of t..b (delete lines). *)
Lemma delete_rows_ok s t b n : Inv0 s -> 0 <= t <= b -> b < s_sy s -> 0 < n <= b + 1 - t ->
  exists ls1 c ls',
    cache_blank s (fun i => u32 (t + i)) n = Ok (set_lines s ls1, c) /\
    (if n <? b + 1 - t then
        do s' <- lines_move (set_lines s ls1) t (u32 (t + n)) (b + 1 - t - n);
        lines_copy s' (u32 (t + (b + 1 - t - n))) c
     else Ok (set_lines s ls1)) = Ok (set_lines s ls') /\
    rows_up (blanked s) t b n (lines s) ls' /\ lines_wf (s_sx s) (s_ln s) ls'.
Proof.
  intros H Ht Hb Hn. pose proof H as H0. inv0 H0. unfold DIM in *. pose proof (inv_lines s H) as [LL LF].
  destruct (cache_blank_ok s (fun i => u32 (t + i)) n H) as (ls1 & c & E & L1 & W1 & O1 & M1 & Lc & C1).
  - lia.
  - intros i Hi. cbv beta. rewrite u32_small by lia. lia.
  - intros i j Hi Hj. cbv beta. rewrite !u32_small by lia. lia.
  - assert (O1' : forall k, k < t \/ t + n <= k -> znth ls1 k = znth (lines s) k).
    { intros k Hk. apply O1. intros i Hi. rewrite u32_small by lia. lia. }
    assert (M1' : forall k, t <= k < t + n -> znth ls1 k = option_map (blanked s) (znth (lines s) k)).
    { intros k Hk. specialize (M1 (k - t) ltac:(lia)). rewrite u32_small in M1 by lia.
      replace (t + (k - t)) with k in M1 by lia. exact M1. }
    assert (C1' : forall i, 0 <= i < n -> znth c i = option_map (blanked s) (znth (lines s) (t + i))).
    { intros i Hi. rewrite C1 by lia. now rewrite u32_small by lia. }
    exists ls1, c.
    assert (exists ls', (if n <? b + 1 - t then
        do s' <- lines_move (set_lines s ls1) t (u32 (t + n)) (b + 1 - t - n);
        lines_copy s' (u32 (t + (b + 1 - t - n))) c
     else Ok (set_lines s ls1)) = Ok (set_lines s ls') /\
      rows_up (blanked s) t b n (lines s) ls') as (ls' & E' & R').
    { unfold lines_move, lines_copy. rewrite !u32_small by lia. rewrite !lines_set_lines.
      destruct (n <? b + 1 - t) eqn:En.
      - rewrite zmove_ok by lia. cbn [bind]. rewrite set_lines_twice, lines_set_lines.
        assert (Lm : zlen (zput ls1 t (zslice ls1 (t + n) (b + 1 - t - n))) = zlen ls1).
        { rewrite length_move by lia. lia. }
        rewrite zcopy_ok by lia. cbn [bind]. rewrite set_lines_twice.
        eexists; split; [reflexivity|]. split; [rewrite length_zput by lia; lia|].
        intros i. rewrite znth_zput by lia. rewrite Lc, znth_move by lia. repeat split.
        + intros Hi. replace ((_ <=? i) && _) with false by lia. replace ((_ <=? i) && _) with false by lia.
          apply O1'. lia.
        + intros Hi. replace ((_ <=? i) && _) with false by lia. replace ((_ <=? i) && _) with true by lia.
          rewrite O1' by lia. f_equal. lia.
        + intros Hi Hi2. replace ((_ <=? i) && _) with true by lia.
          exists (t + (i - (t + (b + 1 - t - n)))). split; [lia|]. apply C1'. lia.
      - exists ls1. split; [reflexivity|]. split; [exact L1|]. intros i. repeat split.
        + intros Hi. apply O1'. lia.
        + intros Hi. lia.
        + intros Hi Hi2. exists i. split; [lia|]. apply M1'. lia. }
    exists ls'. repeat split; auto; try apply R'.
    + rewrite <- LL. apply R'.
    + rewrite <- LL in W1. eapply rows_up_wf with (t := t) (b := b) (n := n) (ls := lines s); eauto; try lia.
      * intros l Hl. apply line_blank_ok; auto.
      * split; auto.
Qed.

Lemma scroll_down_chunk_ok s num : Inv0 s -> 0 < num <= s_mb s + 1 - s_mt s -> s_age s = s_cnt s ->
  exists s', scroll_down_chunk s (s_mb s + 1 - s_mt s) num = Ok s' /\ scrolled_down s s' num.
Proof.
  intros H Hn Ha. unfold scroll_down_chunk. pose proof H as H0. inv0 H0.
  destruct (insert_rows_ok s (s_mt s) (s_mb s) num true H ltac:(lia) ltac:(lia) ltac:(lia))
    as (ls1 & c & ls' & E & E2 & R & W).
  rewrite E. cbn [bind].
  assert (E3 : (do s2 <- (if num <? s_mb s + 1 - s_mt s
      then lines_move (set_lines s ls1) (u32 (s_mt (set_lines s ls1) + num)) (s_mt (set_lines s ls1))
             (s_mb s + 1 - s_mt s - num) else Ok (set_lines s ls1));
      lines_copy s2 (s_mt s2) c) = Ok (set_lines s ls')).
  { destruct (num <? s_mb s + 1 - s_mt s); [|exact E2].
    unfold lines_move in *. sredg. destruct (zmove _ _ _ _); [|discriminate]. cbn [bind] in *. exact E2. }
  rewrite <- bind_assoc, E3. cbn [bind].
  eexists; split; [reflexivity|].
  assert (I3 : Inv0 (set_lines s ls')) by (apply Inv0_set_lines; auto).
  constructor.
  - apply Inv0_sel_map; auto. intros p Hp. unfold sel_scroll_down. destruct (p_line p) eqn:Ep; [now rewrite Ep|].
    destruct (0 <=? p_y p); [exact I|now rewrite Ep].
  - eapply env2_trans; [apply env2_set_lines|apply env2_sel_map].
  - rewrite lines_sel_map, lines_set_lines. exact R.
  - unfold sel_map. sredg. destruct (s_sela s); constructor; reflexivity.
  - intros Es p p' Hp Hy. unfold sel_map in Hp. sred. rewrite Es in Hp. sred.
    assert (p' = sel_scroll_down num p) by (destruct Hp as [[-> ->]|[-> ->]]; reflexivity). subst p'.
    unfold sel_scroll_down. destruct (p_line p); [reflexivity|]. specialize (Hy eq_refl). destruct (0 <=? p_y p) eqn:E0; [|reflexivity].
    rewrite i32_small by lia. reflexivity.
  - unfold sel_map. sredg. destruct (s_sela s); sredg; auto.
Qed.

Lemma rows_down_comp f t b m n ls ls1 ls2 : 0 <= t -> 0 <= m -> 0 <= n -> m + n <= b + 1 - t ->
  rows_down f t b m ls ls1 -> rows_down f t b n ls1 ls2 -> rows_down f t b (m + n) ls ls2.
Proof.
  intros Ht Hm Hn Hmn [L1 R1] [L2 R2]. split; [lia|]. intros i.
  destruct (R2 i) as (A1 & A2 & A3). repeat split.
  - intros Hi. rewrite A1 by auto. now apply R1.
  - intros Hi. rewrite A2 by lia. destruct (R1 (i - n)) as (_ & B2 & _). rewrite B2 by lia. f_equal. lia.
  - intros Hi Hi2. destruct (Z_lt_le_dec i (t + n)) as [Hl|Hl].
    + destruct A3 as (j & Hj & E); [lia|lia|]. rewrite E.
      destruct (R1 j) as (_ & B2 & _). rewrite B2 by lia. exists (j - m). split; [lia|reflexivity].
    + rewrite A2 by lia. destruct (R1 (i - n)) as (_ & _ & B3).
      destruct B3 as (j & Hj & E); [lia|lia|]. exists j. split; [lia|exact E].
Qed.
Lemma rows_down_ext f g t b n ls ls' : (forall l, f l = g l) -> rows_down f t b n ls ls' -> rows_down g t b n ls ls'.
Proof.
  intros Hfg [L R]. split; auto. intros i. destruct (R i) as (A1 & A2 & A3). repeat split; auto.
  intros Hi Hi2. destruct (A3 Hi Hi2) as (j & Hj & E). exists j. split; auto. rewrite E.
  destruct (znth ls j); cbn; congruence.
Qed.

Lemma scrolled_down_comp s s1 s2 a b : Inv0 s -> 0 <= a -> 0 <= b -> a + b <= s_mb s + 1 - s_mt s ->
  scrolled_down s s1 a -> scrolled_down s1 s2 b -> scrolled_down s s2 (a + b).
Proof.
  intros H Ha Hb Hab [AI AE AR AS ASel AA] [BI BE BR BS BSel BA]. pose proof H as H0. inv0 H0.
  constructor.
  - exact BI.
  - eapply env2_trans; eauto.
  - rewrite (f_mt _ _ AE), (f_mb _ _ AE) in BR.
    apply rows_down_comp with (ls1 := lines s1); auto; try lia.
    eapply rows_down_ext; [|exact BR]. intros l. apply blanked_env2, AE.
  - destruct AS, BS. constructor; congruence.
  - intros Es p p' Hp Hy. rewrite (f_sela _ _ AE) in BSel.
    assert (exists q, q = match p_line p with Some _ => p
               | None => if 0 <=? p_y p then mkP None (p_x p) (p_y p + a) else p end /\
        ((p_line q = None -> p_y q + b < 2147483648) -> p' = match p_line q with Some _ => q
               | None => if 0 <=? p_y q then mkP None (p_x q) (p_y q + b) else q end)) as (q & Eq & Ep).
    { destruct Hp as [[-> ->]|[-> ->]].
      - exists (s_sel1 s1). split; [apply (ASel Es); auto; intros X; specialize (Hy X); lia|]. intros. apply (BSel Es); auto.
      - exists (s_sel2 s1). split; [apply (ASel Es); auto; intros X; specialize (Hy X); lia|]. intros. apply (BSel Es); auto. }
    subst q. destruct (p_line p) eqn:E; [rewrite E in Ep; apply Ep; discriminate|]. specialize (Hy eq_refl).
    destruct (0 <=? p_y p) eqn:E0.
    + cbn [p_line p_x p_y] in Ep. rewrite Ep by lia. replace (0 <=? p_y p + a) with true by lia.
      now rewrite Z.add_assoc.
    + rewrite E, E0 in Ep. apply Ep. intros _. lia.
  - rewrite BA. apply (f_cnt _ _ AE).
Qed.

Lemma scrolled_down_age s a s' n : scrolled_down (set_age s a) s' n -> scrolled_down s s' n.
Proof.
  intros [I E R S Sel A]. constructor; auto.
  - destruct E. constructor; auto.
  - destruct S; constructor; auto.
Qed.

Lemma scroll_down_rec_ok fuel : forall s n, Inv0 s -> 0 < n ->
  Z.min n (s_mb s + 1 - s_mt s) / 128 <= Z.of_nat fuel ->
  exists s', scroll_down_rec fuel s n = Ok s' /\ scrolled_down s s' (Z.min n (s_mb s + 1 - s_mt s)).
Proof.
  induction fuel as [|fuel IH]; intros s n H Hn Hf; pose proof H as H0; inv0 H0; unfold DIM in *.
  all: cbn [scroll_down_rec]; replace (n =? 0) with false by lia; sredg.
  all: rewrite (u32_small (s_mb s + 1 - s_mt s)) by lia.
  all: replace (if s_mb s + 1 - s_mt s <? n then s_mb s + 1 - s_mt s else n) with (Z.min n (s_mb s + 1 - s_mt s))
       by (destruct (s_mb s + 1 - s_mt s <? n) eqn:E; lia).
  all: pose proof (Inv0_age_all s H) as HA.
  - replace (128 <? _) with false by lia.
    destruct (scroll_down_chunk_ok (age_all s) (Z.min n (s_mb s + 1 - s_mt s)) HA) as (s' & E & P); [sredg; lia|reflexivity|].
    exists s'. split; [exact E|]. eapply scrolled_down_age; exact P.
  - destruct (128 <? Z.min n (s_mb s + 1 - s_mt s)) eqn:E128.
    + destruct (scroll_down_chunk_ok (age_all s) 128 HA) as (s1 & E1 & P1); [sredg; lia|reflexivity|].
      change (s_mb (age_all s)) with (s_mb s) in E1. change (s_mt (age_all s)) with (s_mt s) in E1.
      rewrite E1. cbn [bind]. apply scrolled_down_age in P1. pose proof (sd_env _ _ _ P1) as PE.
      destruct (IH s1 (Z.min n (s_mb s + 1 - s_mt s) - 128) (sd_inv _ _ _ P1)) as (s2 & E2 & P2); [lia| |].
      { rewrite (f_mb _ _ PE), (f_mt _ _ PE). lia. }
      rewrite (f_mb _ _ PE), (f_mt _ _ PE) in P2. rewrite Z.min_l in P2 by lia.
      exists s2. split; [exact E2|].
      replace (Z.min n (s_mb s + 1 - s_mt s)) with (128 + (Z.min n (s_mb s + 1 - s_mt s) - 128)) by lia.
      eapply scrolled_down_comp; eauto; lia.
    + destruct (scroll_down_chunk_ok (age_all s) (Z.min n (s_mb s + 1 - s_mt s)) HA) as (s' & E & P); [sredg; lia|reflexivity|].
      exists s'. split; [exact E|]. eapply scrolled_down_age; exact P.
Qed.

Theorem scroll_down_ok s n : Inv0 s -> 0 < n ->
  exists s', scroll_down s n = Ok s' /\ scrolled_down s s' (Z.min n (s_mb s + 1 - s_mt s)).
Proof.
  intros H Hn. unfold scroll_down. apply scroll_down_rec_ok; auto.
  pose proof H as H0. inv0 H0. unfold DIM in *. rewrite u32_small by lia. lia.
Qed.
