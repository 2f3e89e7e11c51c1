(* Exact effect of mode flags, margins, scrollback view, selection and erase calls. *)
From Verif Require Import Base BaseProofs Screen ScreenInv ScreenSb ScreenScroll ScreenSpec ScreenOps ScreenMove.

(* -- mode flags -------------------------------------------------------------- *)
Definition fl_alt (s2 : screen) (enter leave : bool) : screen :=
  if enter then set_defm (set_act (age_all s2) true) (s_def s2)
  else if leave then set_act (age_all s2) false else s2.
Definition fl_end (s3 : screen) (hide inv : bool) : screen :=
  let s4 := if hide then touched s3 else s3 in if inv then age_all s4 else s4.
Definition flags_set (s : screen) (f : Z) : screen :=
  let chg n := negb (fl s n) && bit f n in
  fl_end (fl_alt (set_flags (inc_age s) (Z.lor (s_flags s) f)) (chg F_ALT) false) (chg F_HIDE) (chg F_INVERSE).
Definition flags_reset (s : screen) (f : Z) : screen :=
  let chg n := fl s n && bit f n in
  fl_end (fl_alt (set_flags (inc_age s) (Z.ldiff (s_flags s) f)) false (chg F_ALT)) (chg F_HIDE) (chg F_INVERSE).

Lemma Inv0_fl_alt s v (e l : bool) : Inv0 s ->
  bit v F_ALT = (if e then true else if l then false else fl s F_ALT) -> Inv0 (fl_alt (set_flags s v) e l).
Proof.
  intros H Hv. inv0 H. unfold fl_alt. destruct e; [|destruct l]; constructor; sredg; auto; unfold fl; sredg; congruence.
Qed.
Lemma Inv_fl_end s v (e l h i : bool) : Inv s ->
  bit v F_ALT = (if e then true else if l then false else fl s F_ALT) ->
  Inv (fl_end (fl_alt (set_flags s v) e l) h i).
Proof.
  intros (H & Hx & Hy) Hv. pose proof (Inv0_fl_alt s v e l H Hv) as H1.
  assert (E : s_cx (fl_alt (set_flags s v) e l) = s_cx s /\ s_cy (fl_alt (set_flags s v) e l) = s_cy s /\
              s_sx (fl_alt (set_flags s v) e l) = s_sx s /\ s_sy (fl_alt (set_flags s v) e l) = s_sy s).
  { unfold fl_alt. destruct e; [|destruct l]; repeat split. }
  destruct E as (E1 & E2 & E3 & E4). unfold fl_end. set (t := fl_alt _ _ _) in *.
  assert (Inv t) by (split; [exact H1|]; lia).
  assert (Ht : Inv (if h then touched t else t)).
  { destruct h; [|auto]. split; [now apply Inv0_touched|]. change (s_cx (touched t)) with (s_cx t).
    change (s_cy (touched t)) with (s_cy t). change (s_sx (touched t)) with (s_sx t). change (s_sy (touched t)) with (s_sy t). lia. }
  destruct i; [|exact Ht]. destruct Ht as (A & B & C). split; [now apply Inv0_age_all|]. exact (conj B C).
Qed.

Lemma fl_inc s n : fl (inc_age s) n = fl s n.
Proof. apply frame_fl, frame_inc. Qed.

Lemma set_flags_ok s f : Inv s -> f <> 0 ->
  scr_set_flags s f = Ok (flags_set s f) /\ Inv (flags_set s f).
Proof.
  intros H Hf. incs s. unfold scr_set_flags, flags_set. replace (f =? 0) with false by lia. rewrite INfl.
  change (bit (s_flags s)) with (fl s).
  set (e := negb (fl s F_ALT) && bit f F_ALT). set (h := negb (fl s F_HIDE) && bit f F_HIDE).
  set (iv := negb (fl s F_INVERSE) && bit f F_INVERSE). set (v := Z.lor (s_flags s) f).
  assert (Hv : bit v F_ALT = (if e then true else if false then false else fl (inc_age s) F_ALT)).
  { rewrite fl_inc. unfold bit, v, e, fl, bit. rewrite Z.lor_spec.
    destruct (Z.testbit (s_flags s) F_ALT), (Z.testbit f F_ALT); reflexivity. }
  pose proof (Inv_inc s H) as HI. destruct HI as (HI & _).
  pose proof (Inv0_fl_alt (inc_age s) v e false HI Hv) as H1.
  split; [|apply Inv_fl_end; auto; now apply Inv_inc].
  change (if e then set_defm (set_act (age_all (set_flags (inc_age s) v)) true) (s_def (set_flags (inc_age s) v))
          else set_flags (inc_age s) v) with (fl_alt (set_flags (inc_age s) v) e false).
  unfold fl_end. destruct h; [rewrite touch_cursor_ok by auto|]; reflexivity.
Qed.
Lemma reset_flags_ok s f : Inv s -> f <> 0 ->
  scr_reset_flags s f = Ok (flags_reset s f) /\ Inv (flags_reset s f).
Proof.
  intros H Hf. incs s. unfold scr_reset_flags, flags_reset. replace (f =? 0) with false by lia. rewrite INfl.
  change (bit (s_flags s)) with (fl s).
  set (e := fl s F_ALT && bit f F_ALT). set (h := fl s F_HIDE && bit f F_HIDE).
  set (iv := fl s F_INVERSE && bit f F_INVERSE). set (v := Z.ldiff (s_flags s) f).
  assert (Hv : bit v F_ALT = (if false then true else if e then false else fl (inc_age s) F_ALT)).
  { rewrite fl_inc. unfold bit, v, e, fl, bit. rewrite Z.ldiff_spec.
    destruct (Z.testbit (s_flags s) F_ALT), (Z.testbit f F_ALT); reflexivity. }
  pose proof (Inv_inc s H) as HI. destruct HI as (HI & _).
  pose proof (Inv0_fl_alt (inc_age s) v false e HI Hv) as H1.
  split; [|apply Inv_fl_end; auto; now apply Inv_inc].
  change (if e then set_act (age_all (set_flags (inc_age s) v)) false
          else set_flags (inc_age s) v) with (fl_alt (set_flags (inc_age s) v) false e).
  unfold fl_end. destruct h; [rewrite touch_cursor_ok by auto|]; reflexivity.
Qed.

(* -- margins ------------------------------------------------------------------ *)
Lemma set_margins_ok s t b : Inv s -> u32_arg t -> u32_arg b ->
  let t' := Z.max t 1 in
  scr_set_margins s t b = (if (t' <? b) && (b <=? s_sy s) then set_mb (set_mt s (t' - 1)) (b - 1)
                           else set_mb (set_mt s 0) (s_sy s - 1)) /\
  Inv (scr_set_margins s t b).
Proof.
  intros (H & Hx & Hy) Ht Hb. unfold u32_arg in *. pose proof H as H0. inv0 H0. unfold DIM in *. cbv zeta.
  assert (E : scr_set_margins s t b = (if (Z.max t 1 <? b) && (b <=? s_sy s) then set_mb (set_mt s (Z.max t 1 - 1)) (b - 1)
                           else set_mb (set_mt s 0) (s_sy s - 1))).
  { unfold scr_set_margins. replace (if t =? 0 then 1 else t) with (Z.max t 1) by (destruct (t =? 0) eqn:E; lia).
    rewrite (u32_small (s_sy s - 1)) by lia.
    destruct (b <=? Z.max t 1) eqn:E1.
    - replace (_ && _) with false by lia. reflexivity.
    - destruct (s_sy s <? b) eqn:E2; [replace (_ && _) with false by lia; reflexivity|
        replace (_ && _) with true by lia; now rewrite !u32_small by lia]. }
  split; [exact E|]. rewrite E. destruct (_ && _) eqn:E1.
  all: split; [|sredg; lia]; constructor; sredg; auto; lia.
Qed.

(* -- scrollback view ------------------------------------------------------------ *)
Definition vpos (s : screen) (v : Z) : option Z :=
  if v =? zlen (s_sb s) then None else Some (first_id s + v).
Lemma view_range s : Inv0 s -> 0 <= view_index s <= zlen (s_sb s) /\ s_sbpos s = vpos s (view_index s).
Proof.
  intros H. pose proof (i_sbpos _ H) as P. unfold view_index, vpos, first_id, sb_ptr in *.
  destruct (s_sbpos s) as [p|].
  - split; [lia|]. replace (_ =? _) with false by lia. f_equal. lia.
  - split; [lia|]. replace (_ =? _) with true by lia. reflexivity.
Qed.
Lemma Inv_vpos s v pn : Inv s -> 0 <= v <= zlen (s_sb s) -> Inv (set_sbposn (set_sbpos s (vpos s v)) pn).
Proof.
  intros (H & Hx & Hy) Hv. split; [|exact (conj Hx Hy)]. inv0 H. constructor; sredg; auto.
  unfold vpos, first_id. destruct (v =? zlen (s_sb s)) eqn:E; cbn; [exact I|lia].
Qed.
Lemma view_vpos s v pn : 0 <= v <= zlen (s_sb s) -> view_index (set_sbposn (set_sbpos s (vpos s v)) pn) = v.
Proof.
  intros Hv. unfold view_index. sredg. unfold vpos, first_id. destruct (v =? zlen (s_sb s)) eqn:E; lia.
Qed.

Lemma sb_up_loop n : forall s, Inv s -> exists pn, loop_n n sb_up1 s
  = Ok (set_sbposn (set_sbpos s (vpos s (Z.max 0 (view_index s - Z.of_nat n)))) pn).
Proof.
  induction n as [|n IH]; intros s HI.
  - exists (s_sbposn s). destruct HI as (H & _). destruct (view_range s H) as [V1 V2].
    replace (Z.max 0 (view_index s - Z.of_nat 0)) with (view_index s) by lia. rewrite <- V2. destruct s; reflexivity.
  - pose proof HI as (H & _). destruct (view_range s H) as [V1 V2]. pose proof H as H0. inv0 H0.
    cbn [loop_n]. unfold sb_up1 at 1. 
    assert (HS : forall pn, view_index s > 0 -> 
       exists pn', loop_n n sb_up1 (set_sbposn (set_sbpos s (vpos s (view_index s - 1))) pn)
        = Ok (set_sbposn (set_sbpos s (vpos s (Z.max 0 (view_index s - Z.of_nat (S n))))) pn')).
    { intros pn Hv. destruct (IH (set_sbposn (set_sbpos s (vpos s (view_index s - 1))) pn)) as (pn' & E).
      - apply Inv_vpos; auto; lia.
      - exists pn'. rewrite E, view_vpos by lia.
        replace (view_index s - 1 - Z.of_nat n) with (view_index s - Z.of_nat (S n)) by lia. reflexivity. }
    destruct (s_sbpos s) as [p|] eqn:Ep.
    + cbn in Isbpos. rewrite (sb_prev_ids _ (s_sbid s)) by auto. cbn [bind].
      unfold view_index in *. rewrite Ep in *.
      destruct (s_sbid s - zlen (s_sb s) + 1 <? p) eqn:E.
      * destruct (HS (u32 (s_sbposn s - 1))) as (pn' & E'); [lia|]. exists pn'. rewrite <- E'.
        replace (Some (p - 1)) with (vpos s (p - (s_sbid s - zlen (s_sb s) + 1) - 1)); [reflexivity|].
        unfold vpos, first_id. replace (_ =? _) with false by lia. f_equal. lia.
      * exists (s_sbposn s). do 2 f_equal. replace (vpos s _) with (Some p); [destruct s; cbn in *; subst; reflexivity|].
        unfold vpos, first_id. replace (_ =? _) with false by lia. f_equal. lia.
    + rewrite (sb_lastp_ids _ (s_sbid s)) by auto. unfold view_index in *. rewrite Ep in *.
      destruct (zlen (s_sb s) =? 0) eqn:E.
      * exists (s_sbposn s). do 2 f_equal. replace (vpos s _) with (@None Z); [destruct s; cbn in *; subst; reflexivity|].
        unfold vpos. replace (_ =? _) with true by lia. reflexivity.
      * destruct (HS (u32 (s_sbn s - 1))) as (pn' & E'); [lia|]. exists pn'. rewrite <- E'.
        replace (Some (s_sbid s)) with (vpos s (zlen (s_sb s) - 1)); [reflexivity|].
        unfold vpos, first_id. replace (_ =? _) with false by lia. f_equal. lia.
Qed.
Lemma sb_down_loop n : forall s, Inv s -> exists pn, loop_n n sb_down1 s
  = Ok (set_sbposn (set_sbpos s (vpos s (Z.min (zlen (s_sb s)) (view_index s + Z.of_nat n)))) pn).
Proof.
  induction n as [|n IH]; intros s HI.
  - exists (s_sbposn s). destruct HI as (H & _). destruct (view_range s H) as [V1 V2].
    replace (Z.min (zlen (s_sb s)) (view_index s + Z.of_nat 0)) with (view_index s) by lia. rewrite <- V2. destruct s; reflexivity.
  - pose proof HI as (H & _). destruct (view_range s H) as [V1 V2]. pose proof H as H0. inv0 H0.
    cbn [loop_n]. unfold sb_down1 at 1.
    assert (HS : forall pn, view_index s < zlen (s_sb s) -> 
       exists pn', loop_n n sb_down1 (set_sbposn (set_sbpos s (vpos s (view_index s + 1))) pn)
        = Ok (set_sbposn (set_sbpos s (vpos s (Z.min (zlen (s_sb s)) (view_index s + Z.of_nat (S n))))) pn')).
    { intros pn Hv. destruct (IH (set_sbposn (set_sbpos s (vpos s (view_index s + 1))) pn)) as (pn' & E).
      - apply Inv_vpos; auto; lia.
      - exists pn'. rewrite E, view_vpos by lia.
        replace (view_index s + 1 + Z.of_nat n) with (view_index s + Z.of_nat (S n)) by lia. reflexivity. }
    destruct (s_sbpos s) as [p|] eqn:Ep.
    + cbn in Isbpos. rewrite (sb_next_ids _ (s_sbid s)) by auto. cbn [bind].
      unfold view_index in *. rewrite Ep in *.
      destruct (HS (u32 (s_sbposn s + 1))) as (pn' & E'); [lia|]. exists pn'. rewrite <- E'.
      replace (if p <? s_sbid s then Some (p + 1) else None)
        with (vpos s (p - (s_sbid s - zlen (s_sb s) + 1) + 1)); [reflexivity|].
      unfold vpos, first_id. destruct (p <? s_sbid s) eqn:E; 
        [replace (_ =? _) with false by lia; f_equal; lia|replace (_ =? _) with true by lia; reflexivity].
    + unfold view_index in *. rewrite Ep in *. 
      exists (s_sbposn s). do 2 f_equal. replace (vpos s _) with (@None Z); [destruct s; cbn in *; subst; reflexivity|].
      unfold vpos. replace (_ =? _) with true by lia. reflexivity.
Qed.

(* The screen with the view moved to index v (pn: the internal count). *)
Definition viewed (s : screen) (v pn : Z) : screen := set_sbposn (set_sbpos s (vpos s v)) pn.
Definition aged (s : screen) : screen := age_all (inc_age s).
Lemma Inv_aged s : Inv s -> Inv (aged s).
Proof. intros H. destruct (Inv_inc s H) as (A & B). split; [now apply Inv0_age_all|exact B]. Qed.
Lemma aged_sb s : s_sb (aged s) = s_sb s /\ s_sbid (aged s) = s_sbid s /\ view_index (aged s) = view_index s /\
  s_sbn (aged s) = s_sbn s /\ s_sbpos (aged s) = s_sbpos s.
Proof. unfold aged, view_index. rewrite inc_age_eq. repeat split. Qed.

Lemma sb_up_ok s n : Inv s -> 0 < n -> exists pn,
  scr_sb_up s n = Ok (viewed (aged s) (Z.max 0 (view_index s - n)) pn) /\
  Inv (viewed (aged s) (Z.max 0 (view_index s - n)) pn).
Proof.
  intros H Hn. pose proof (Inv_aged s H) as HA. destruct (aged_sb s) as (A1 & A2 & A3 & _).
  unfold scr_sb_up. replace (n =? 0) with false by lia. fold (aged s).
  destruct (sb_up_loop (Z.to_nat n) (aged s) HA) as (pn & E). exists pn. unfold viewed.
  rewrite E, A3. replace (Z.of_nat (Z.to_nat n)) with n by lia. split; [reflexivity|].
  apply Inv_vpos; auto. rewrite A1. destruct (view_range s (proj1 H)). lia.
Qed.
Lemma sb_down_ok s n : Inv s -> 0 < n -> exists pn,
  scr_sb_down s n = Ok (viewed (aged s) (Z.min (zlen (s_sb s)) (view_index s + n)) pn) /\
  Inv (viewed (aged s) (Z.min (zlen (s_sb s)) (view_index s + n)) pn).
Proof.
  intros H Hn. pose proof (Inv_aged s H) as HA. destruct (aged_sb s) as (A1 & A2 & A3 & _).
  unfold scr_sb_down. replace (n =? 0) with false by lia. fold (aged s).
  destruct (sb_down_loop (Z.to_nat n) (aged s) HA) as (pn & E). exists pn. unfold viewed.
  rewrite E, A3, A1. replace (Z.of_nat (Z.to_nat n)) with n by lia. split; [reflexivity|].
  apply Inv_vpos; auto; rewrite ?A1. destruct (view_range s (proj1 H)). lia.
Qed.
Lemma sb_reset_ok s : Inv s -> Inv (scr_sb_reset s) /\ s_sbpos (scr_sb_reset s) = None /\
  (s_sbpos s = None -> scr_sb_reset s = s) /\
  (s_sbpos s <> None -> scr_sb_reset s = viewed (aged s) (zlen (s_sb s)) 0).
Proof.
  intros H. unfold scr_sb_reset. destruct (s_sbpos s) eqn:E.
  - assert (E1 : set_sbposn (set_sbpos (age_all (inc_age s)) None) 0 = viewed (aged s) (zlen (s_sb s)) 0).
    { unfold viewed, vpos. destruct (aged_sb s) as (A1 & _). rewrite A1, Z.eqb_refl. reflexivity. }
    rewrite E1. split; [|split; [|split; [congruence|auto]]].
    + apply Inv_vpos; [now apply Inv_aged|]. destruct (aged_sb s) as (A1 & _). rewrite A1. lia.
    + unfold viewed, vpos. destruct (aged_sb s) as (A1 & _). rewrite A1, Z.eqb_refl. reflexivity.
  - split; [exact H|]. split; [exact E|]. split; [auto|congruence].
Qed.

(* -- scrollback size -------------------------------------------------------------- *)
Definition sel_live (s' : screen) (p : selpos) : selpos :=
  match p_line p with
  | Some k => if live s' k then p else mkP None (p_x p) SELECTION_TOP
  | None => p
  end.
Record trimmed (s s' : screen) (n : Z) : Prop := mkTrim {
  tr_inv : Inv0 s'; tr_env : env2 s s'; tr_lines : lines s' = lines s; tr_age : s_age s' = s_age s;
  tr_sb : s_sb s' = skipn (Z.to_nat n) (s_sb s); tr_id : s_sbid s' = s_sbid s;
  tr_pos : s_sbpos s' = match s_sbpos s with
                        | None => None
                        | Some p => if zlen (s_sb s') =? 0 then None else Some (Z.max p (first_id s'))
                        end;
  tr_sel1 : s_sel1 s' = if s_sela s then sel_live s' (s_sel1 s) else s_sel1 s;
  tr_sel2 : s_sel2 s' = if s_sela s then sel_live s' (s_sel2 s) else s_sel2 s
}.

Lemma sel_live_id s p : Inv0 s -> sb_ptr (s_sb s) (s_sbid s) (p_line p) -> sel_live s p = p.
Proof.
  intros H Hp. unfold sel_live, live, first_id. destruct (p_line p) as [k|] eqn:E; [|reflexivity].
  cbn in Hp. replace (_ && _) with true by lia. reflexivity.
Qed.

Lemma sb_trim1_ok s : Inv0 s -> s_sb s <> [] -> exists s', sb_trim1 s = Ok s' /\ trimmed s s' 1.
Proof.
  intros H Hne. pose proof H as H0. inv0 H0. unfold sb_trim1.
  destruct (s_sb s) as [|l rest] eqn:Esb; [congruence|]. cbn [length] in *.
  assert (Hl : l_sbid l = Some (first_id s)).
  { rewrite (Isbid 0 l) by reflexivity. unfold first_id. rewrite Esb. cbn [length]. f_equal. lia. }
  eexists; split; [reflexivity|].
  set (pos' := match s_sbpos s with
                        | None => None
                        | Some p => if zlen rest =? 0 then None else Some (Z.max p (first_id s + 1))
                        end).
  set (s1 := set_sbn (set_sb s rest) (u32 (s_sbn s - 1))).
  set (s2 := if match s_sbpos s with Some p => ptr_is (Some p) l | None => false end then set_sbpos s1 (sb_firstp rest) else s1).
  assert (E2 : s2 = set_sbpos s1 pos').
  { unfold s2, pos'. destruct (s_sbpos s) as [p|] eqn:Ep.
    - cbn in Isbpos. unfold ptr_is. rewrite Hl. unfold first_id in *. rewrite Esb in *. cbn [length] in *.
      destruct (p =? _) eqn:E.
      + rewrite (sb_firstp_ids _ (s_sbid s)) by (eapply ids_tl; eauto).
        destruct (zlen rest =? 0) eqn:E0; [reflexivity|]. do 2 f_equal. lia.
      + replace (zlen rest =? 0) with false by lia. unfold s1.
        replace (Z.max p _) with p by lia. destruct s; cbn in *; subst; reflexivity.
    - unfold s1. destruct s; cbn in *; subst; reflexivity. }
  rewrite E2. clear E2 s2.
  assert (FI : forall q, first_id (sel_drop (set_sbpos s1 q) l) = first_id s + 1).
  { intros q. unfold sel_drop. change (s_sela (set_sbpos s1 q)) with (s_sela s). unfold first_id.
    destruct (s_sela s); sredg; unfold s1; sredg; rewrite Esb; cbn [length]; lia. }
  assert (SB : s_sb (sel_drop (set_sbpos s1 pos') l) = rest) by (unfold sel_drop; destruct (s_sela _); reflexivity).
  assert (SI : s_sbid (sel_drop (set_sbpos s1 pos') l) = s_sbid s) by (unfold sel_drop; destruct (s_sela _); reflexivity).
  assert (Hsel : forall p, (s_sela s = true -> sb_ptr (l :: rest) (s_sbid s) (p_line p)) -> s_sela s = true ->
     sel_drop1 l p = sel_live (sel_drop (set_sbpos s1 pos') l) p).
  { intros p Hp Hs. specialize (Hp Hs). unfold sel_drop1, sel_live, live. rewrite FI, SI.
    destruct (p_line p) as [k|]; [|now rewrite ptr_is_none]. cbn in Hp. unfold ptr_is. rewrite Hl.
    unfold first_id. rewrite Esb. cbn [length].
    destruct (k =? _) eqn:E; [replace (_ && _) with false by lia|replace (_ && _) with true by lia]; reflexivity. }
  assert (S1 : s_sel1 (sel_drop (set_sbpos s1 pos') l) = if s_sela s then sel_live (sel_drop (set_sbpos s1 pos') l) (s_sel1 s) else s_sel1 s).
  { destruct (s_sela s) eqn:Es.
    - rewrite <- Hsel by auto. unfold sel_drop. change (s_sela (set_sbpos s1 pos')) with (s_sela s). rewrite Es. reflexivity.
    - unfold sel_drop. change (s_sela (set_sbpos s1 pos')) with (s_sela s). rewrite Es. reflexivity. }
  assert (S2 : s_sel2 (sel_drop (set_sbpos s1 pos') l) = if s_sela s then sel_live (sel_drop (set_sbpos s1 pos') l) (s_sel2 s) else s_sel2 s).
  { destruct (s_sela s) eqn:Es.
    - rewrite <- Hsel by auto. unfold sel_drop. change (s_sela (set_sbpos s1 pos')) with (s_sela s). rewrite Es. reflexivity.
    - unfold sel_drop. change (s_sela (set_sbpos s1 pos')) with (s_sela s). rewrite Es. reflexivity. }
  assert (EV : env2 s (sel_drop (set_sbpos s1 pos') l)).
  { unfold sel_drop. destruct (s_sela _); constructor; reflexivity. }
  assert (LS : lines (sel_drop (set_sbpos s1 pos') l) = lines s) by (unfold sel_drop; destruct (s_sela _); reflexivity).
  assert (AS : s_age (sel_drop (set_sbpos s1 pos') l) = s_age s) by (unfold sel_drop; destruct (s_sela _); reflexivity).
  assert (PS : s_sbpos (sel_drop (set_sbpos s1 pos') l) = pos') by (unfold sel_drop; destruct (s_sela _); reflexivity).
  assert (NS : s_sbn (sel_drop (set_sbpos s1 pos') l) = zlen rest).
  { unfold sel_drop. destruct (s_sela _); sredg; unfold s1; sredg; rewrite u32_small; lia. }
  assert (SL : forall p, sb_ptr rest (s_sbid s) (p_line (sel_live (sel_drop (set_sbpos s1 pos') l) p))).
  { intros p. unfold sel_live, live. rewrite FI, SI. destruct (p_line p) as [k|] eqn:Ek; [|rewrite Ek; exact I].
    destruct (_ && _) eqn:E; [|exact I]. rewrite Ek. cbn. unfold first_id in E. rewrite Esb in E. cbn [length] in E. lia. }
  set (s' := sel_drop (set_sbpos s1 pos') l) in *. clearbody s'.
  constructor; auto.
  - apply (Inv0_env2 s); auto; rewrite ?SB, ?SI, ?NS, ?PS.
    + rewrite LS. now apply inv_lines.
    + reflexivity.
    + lia.
    + eapply ids_tl; eauto.
    + unfold pos'. destruct (s_sbpos s) as [p|]; [|exact I]. cbn in Isbpos.
      destruct (zlen rest =? 0) eqn:E; [exact I|]. unfold first_id. rewrite Esb. cbn [length]. cbn. lia.
    + intros Es. rewrite S1, Es. apply SL.
    + intros Es. rewrite S2, Es. apply SL.
  - rewrite SB, Esb. reflexivity.
  - rewrite SB, PS. unfold pos'.
    assert (HF : first_id s' = first_id s + 1) by (unfold first_id; rewrite SB, SI, Esb; cbn [length]; lia).
    rewrite HF. reflexivity.
Qed.

Lemma sel_live_comp s1 s2 p : s_sbid s1 = s_sbid s2 -> first_id s1 <= first_id s2 -> sel_live s2 (sel_live s1 p) = sel_live s2 p.
Proof.
  intros Hi Hf. unfold sel_live, live. rewrite Hi. destruct (p_line p) as [k|] eqn:E; [|now rewrite E].
  destruct ((first_id s1 <=? k) && _) eqn:E1; [now rewrite E|]. cbn [p_line p_x].
  replace ((first_id s2 <=? k) && _) with false by lia. reflexivity.
Qed.

Lemma sb_trim_ok n : forall s, Inv0 s -> (n <= length (s_sb s))%nat ->
  exists s', sb_trim n s = Ok s' /\ trimmed s s' (Z.of_nat n).
Proof.
  induction n as [|n IH]; intros s H Hn.
  - exists s. split; [reflexivity|]. pose proof H as H0. inv0 H0. constructor; auto.
    + apply env2_refl.
    + destruct (s_sbpos s) as [p|]; [|reflexivity]. cbn in Isbpos. unfold first_id. replace (_ =? 0) with false by lia.
      f_equal. lia.
    + destruct (s_sela s); [|reflexivity]. symmetry. apply sel_live_id; auto.
    + destruct (s_sela s); [|reflexivity]. symmetry. apply sel_live_id; auto.
  - destruct (sb_trim1_ok s H) as (s1 & E1 & P1); [destruct (s_sb s); cbn [length] in Hn; [lia|congruence]|].
    assert (L1 : zlen (s_sb s1) = zlen (s_sb s) - 1).
    { rewrite (tr_sb _ _ _ P1), skipn_length. lia. }
    destruct (IH s1 (tr_inv _ _ _ P1)) as (s2 & E2 & P2); [lia|].
    exists s2. cbn [sb_trim]. rewrite E1. cbn [bind]. split; [exact E2|].
    pose proof (tr_env _ _ _ P1) as V1. pose proof (tr_env _ _ _ P2) as V2.
    assert (L2 : zlen (s_sb s2) = zlen (s_sb s) - 1 - Z.of_nat n).
    { rewrite (tr_sb _ _ _ P2), skipn_length. lia. }
    assert (I2 : s_sbid s2 = s_sbid s1) by apply P2.
    constructor.
    + apply P2.
    + eapply env2_trans; eauto.
    + rewrite (tr_lines _ _ _ P2). apply P1.
    + rewrite (tr_age _ _ _ P2). apply P1.
    + rewrite (tr_sb _ _ _ P2), (tr_sb _ _ _ P1). apply znth_ext'. intros i.
      destruct (i <? 0) eqn:Ei; [now rewrite !znth_neg by lia|]. rewrite !znth_skipn by lia. f_equal. lia.
    + rewrite I2. apply P1.
    + rewrite (tr_pos _ _ _ P2), (tr_pos _ _ _ P1). destruct (s_sbpos s) as [p|]; [|reflexivity].
      destruct (zlen (s_sb s1) =? 0) eqn:E3.
      * replace (zlen (s_sb s2) =? 0) with true by lia. reflexivity.
      * destruct (zlen (s_sb s2) =? 0); [reflexivity|]. f_equal. unfold first_id. lia.
    + rewrite (tr_sel1 _ _ _ P2), (tr_sel1 _ _ _ P1), (f_sela _ _ V1). destruct (s_sela s); [|reflexivity].
      apply sel_live_comp; [auto|]. unfold first_id. lia.
    + rewrite (tr_sel2 _ _ _ P2), (tr_sel2 _ _ _ P1), (f_sela _ _ V1). destruct (s_sela s); [|reflexivity].
      apply sel_live_comp; [auto|]. unfold first_id. lia.
Qed.

Lemma set_max_sb_ok s max : Inv s -> u32_arg max -> exists s1,
  trimmed (aged s) s1 (Z.max 0 (zlen (s_sb s) - max)) /\
  scr_set_max_sb s max = Ok (set_sbmax s1 max) /\ Inv (set_sbmax s1 max).
Proof.
  intros H Hm. unfold u32_arg in Hm. pose proof (Inv_aged s H) as HA. destruct (aged_sb s) as (A1 & A2 & A3 & A4 & A5).
  unfold scr_set_max_sb. fold (aged s). rewrite A4. pose proof (i_sbn _ (proj1 H)) as Hn.
  destruct (sb_trim_ok (Z.to_nat (s_sbn s - max)) (aged s) (proj1 HA)) as (s1 & E & P); [rewrite A1; lia|].
  replace (Z.of_nat (Z.to_nat (s_sbn s - max))) with (Z.max 0 (zlen (s_sb s) - max)) in P by lia.
  exists s1. split; [exact P|]. rewrite E. cbn [bind]. split; [reflexivity|].
  pose proof (tr_inv _ _ _ P) as I1. pose proof (tr_env _ _ _ P) as V1. destruct HA as (HA & Bx & By).
  split.
  - inv0 I1. constructor; sredg; auto. rewrite Isbn, (tr_sb _ _ _ P), skipn_length, A1. lia.
  - sredg. rewrite (f_cx _ _ V1), (f_cy _ _ V1), (f_sx _ _ V1), (f_sy _ _ V1). auto.
Qed.

Lemma clear_sb_ok s : Inv s -> Inv (scr_clear_sb s).
Proof.
  intros H. pose proof (Inv_aged s H) as (HA & Bx & By). unfold scr_clear_sb. fold (aged s).
  unfold sel_map. inv0 HA. destruct (s_sela _) eqn:E; (split; [|exact (conj Bx By)]); constructor; sredg; auto; try lia.
  - apply ids_nil.
  - exact I.
  - intros _. unfold sel_unline. destruct (p_line (s_sel1 (aged s))) eqn:E1; [exact I|rewrite E1; exact I].
  - intros _. unfold sel_unline. destruct (p_line (s_sel2 (aged s))) eqn:E1; [exact I|rewrite E1; exact I].
  - apply ids_nil.
  - exact I.
  - intros E1. change (s_sela (aged s) = true) in E1. change (s_sela (aged s) = false) in E. congruence.
  - intros E1. change (s_sela (aged s) = true) in E1. change (s_sela (aged s) = false) in E. congruence.
Qed.

(* -- selection ---------------------------------------------------------------- *)
Lemma sel_walk_ok l : forall i last y, sb_ids l last -> 0 <= y -> i = last - zlen l + 1 ->
  sel_walk l y = if y <? zlen l then (Some (i + y), 0) else (None, y - zlen l).
Proof.
  induction l as [|x l IH]; intros i last y H Hy Hi; cbn [sel_walk length] in *.
  - replace (y <? Z.of_nat 0) with false by lia. f_equal. lia.
  - destruct (y =? 0) eqn:E.
    + replace (y <? _) with true by lia. rewrite (H 0 x) by reflexivity. cbn [length]. do 2 f_equal. lia.
    + rewrite (IH (i + 1) last) by (try lia; eapply ids_tl; eauto).
      destruct (y <? Z.of_nat (S (length l))) eqn:E1.
      * replace (y - 1 <? zlen l) with true by lia. do 2 f_equal. lia.
      * replace (y - 1 <? zlen l) with false by lia. f_equal. lia.
Qed.

(* The selection end for view row y, column x. *)
Definition sel_at (s : screen) (x y : Z) : selpos :=
  let off := zlen (s_sb s) - view_index s in
  if y <? off then mkP (Some (first_id s + view_index s + y)) x 0 else mkP None x (i32 (y - off)).
Lemma selection_set_ok s x y : Inv0 s -> 0 <= y -> selection_set s x y = Ok (sel_at s x y) /\
  sb_ptr (s_sb s) (s_sbid s) (p_line (sel_at s x y)).
Proof.
  intros H Hy. destruct (view_range s H) as [V1 V2]. pose proof (i_sbid _ H) as Hid. split.
  - unfold selection_set, sel_at. destruct (s_sbpos s) as [p|] eqn:Ep.
    + pose proof (i_sbpos _ H) as Hp. rewrite Ep in Hp. cbn in Hp.
      rewrite (sb_from_ids _ (s_sbid s)) by auto.
      set (k := p - (s_sbid s - zlen (s_sb s) + 1)) in *.
      assert (Ev : view_index s = k) by (unfold view_index; rewrite Ep; reflexivity). rewrite Ev in *.
      rewrite (sel_walk_ok _ p (s_sbid s)).
      * rewrite skipn_length. replace (Z.of_nat (length (s_sb s) - Z.to_nat k)) with (zlen (s_sb s) - k) by lia.
        destruct (y <? zlen (s_sb s) - k); [|reflexivity]. do 3 f_equal. unfold first_id, k. lia.
      * now apply ids_skipn.
      * exact Hy.
      * rewrite skipn_length. unfold k. lia.
    + assert (Ev : view_index s = zlen (s_sb s)) by (unfold view_index; rewrite Ep; reflexivity). rewrite Ev.
      replace (y <? _) with false by lia. do 3 f_equal. lia.
  - unfold sel_at. destruct (y <? _) eqn:E; cbn; [|exact I]. unfold first_id. lia.
Qed.

Lemma sel_start_ok s x y : Inv s -> 0 <= y ->
  let p := sel_at (aged s) x y in
  let s' := set_sel2 (set_sel1 (set_sela (aged s) true) p) p in
  scr_sel_start s x y = Ok s' /\ Inv s'.
Proof.
  intros H Hy. cbv zeta. pose proof (Inv_aged s H) as (HA & Bx & By).
  destruct (selection_set_ok (aged s) x y HA Hy) as [E P]. split.
  - unfold scr_sel_start. fold (aged s).
    change (selection_set (set_sela (aged s) true) x y) with (selection_set (aged s) x y). rewrite E. reflexivity.
  - split; [|exact (conj Bx By)]. inv0 HA. constructor; sredg; auto.
Qed.
Lemma sel_target_ok s x y : Inv s -> 0 <= y ->
  let s' := if s_sela s then set_sel2 (aged s) (sel_at (aged s) x y) else s in
  scr_sel_target s x y = Ok s' /\ Inv s'.
Proof.
  intros H Hy. cbv zeta. pose proof (Inv_aged s H) as (HA & Bx & By). unfold scr_sel_target. fold (aged s).
  destruct (s_sela s); [|auto].
  destruct (selection_set_ok (aged s) x y HA Hy) as [E P]. rewrite E. cbn [bind]. split; [reflexivity|].
  split; [|exact (conj Bx By)]. inv0 HA. constructor; sredg; auto.
Qed.
Lemma sel_reset_ok s : Inv s -> Inv (scr_sel_reset s).
Proof.
  intros H. pose proof (Inv_aged s H) as (HA & Bx & By). unfold scr_sel_reset. fold (aged s).
  split; [|exact (conj Bx By)]. inv0 HA. constructor; sredg; auto; discriminate.
Qed.

(* -- tab stops, reset ------------------------------------------------------------ *)
Lemma Inv_tabs s t : Inv s -> s_sx s <= zlen t -> Inv (set_tabs s t).
Proof. intros (H & Hx & Hy) Ht. split; [|exact (conj Hx Hy)]. inv0 H. constructor; sredg; auto. Qed.
Lemma tabstop_ok v s : Inv s ->
  let s' := if s_cx s <? s_sx s then set_tabs s (zupd (s_tabs s) (s_cx s) (fun _ => v)) else s in
  scr_tabstop v s = Ok s' /\ Inv s'.
Proof.
  intros H. cbv zeta. pose proof H as (H0 & _). inv0 H0. unfold scr_tabstop.
  destruct (s_cx s <? s_sx s) eqn:E.
  - replace (s_sx s <=? s_cx s) with false by lia. rewrite zmod_ok by lia. cbn [bind]. split; [reflexivity|].
    apply Inv_tabs; auto. now rewrite length_zupd.
  - replace (s_sx s <=? s_cx s) with true by lia. auto.
Qed.
Definition tabs_upto (n : Z) (f : Z -> bool) (t : list bool) : list bool := mapi (fun k b => if k <? n then f k else b) t.
Lemma tabs_upto_ok n f t : n <= zlen t -> forz 0 n (fun i t => zmod t i (fun _ => f i)) t = Ok (tabs_upto n f t).
Proof.
  intros H. rewrite (forz_zupd (fun i _ => f i)) by lia. f_equal. apply mapi_ext. intros i x Hi.
  apply znth_Some_range in Hi. replace (0 <=? i) with true by lia. reflexivity.
Qed.
Lemma reset_all_tabstops_ok s : Inv s ->
  let s' := set_tabs s (tabs_upto (s_sx s) (fun _ => false) (s_tabs s)) in
  scr_reset_all_tabstops s = Ok s' /\ Inv s'.
Proof.
  intros H. cbv zeta. pose proof H as (H0 & _). inv0 H0. unfold scr_reset_all_tabstops.
  rewrite (tabs_upto_ok _ (fun _ => false)) by lia. split; [reflexivity|].
  apply Inv_tabs; auto. unfold tabs_upto. now rewrite length_mapi.
Qed.
Definition reset_to (s : screen) : screen :=
  set_tabs (set_act (set_mb (set_mt (set_flags (aged s) 0) 0) (s_sy s - 1)) false)
           (tabs_upto (s_sx s) (fun i => i mod 8 =? 0) (s_tabs s)).
Lemma reset_ok s : Inv s -> scr_reset s = Ok (reset_to s) /\ Inv (reset_to s).
Proof.
  intros H. pose proof (Inv_aged s H) as HA. pose proof H as (H0 & _). inv0 H0. unfold DIM in *. incs s.
  unfold scr_reset, reset_to. fold (aged s).
  change (s_sy (aged s)) with (s_sy (inc_age s)). rewrite INsy, u32_small by lia.
  set (s1 := set_act (set_mb (set_mt (set_flags (aged s) 0) 0) (s_sy s - 1)) false).
  change (s_sx s1) with (s_sx (inc_age s)). change (s_tabs s1) with (s_tabs (inc_age s)). rewrite INsx, INtabs.
  unfold reset_tabs. rewrite (tabs_upto_ok _ (fun i => i mod 8 =? 0)) by lia. split; [reflexivity|].
  apply Inv_tabs.
  - destruct HA as (HA & Bx & By). split; [|exact (conj Bx By)]. 
    pose proof (i_sy _ HA) as A1. change (s_sy (aged s)) with (s_sy (inc_age s)) in A1. rewrite INsy in A1.
    clear - HA A1 INsy. inv0 HA. unfold s1. constructor; sredg; auto; try lia.
    change (s_sy (aged s)) with (s_sy (inc_age s)). rewrite INsy. lia.
  - unfold tabs_upto. rewrite length_mapi. change (s_sx s1) with (s_sx (inc_age s)). rewrite INsx. lia.
Qed.
Lemma set_def_attr_ok s a : Inv s -> Inv (scr_set_def_attr s a).
Proof. intros (H & Hx & Hy). split; [|exact (conj Hx Hy)]. inv0 H. constructor; sredg; auto. Qed.

(* -- erase calls ------------------------------------------------------------------- *)
Lemma erase_call_ok s x0 y0 x1 y1 p : Inv s -> 0 <= x0 -> 0 <= y0 -> 0 <= x1 -> 0 <= y1 ->
  erase_region (inc_age s) x0 y0 x1 y1 p = Ok (erased (inc_age s) x0 y0 x1 y1 p) /\
  Inv (erased (inc_age s) x0 y0 x1 y1 p).
Proof.
  intros H A B C D. pose proof (Inv_inc s H) as (HI & Hx & Hy).
  destruct (erase_region_ok (inc_age s) x0 y0 x1 y1 p HI A B C D) as [E P]. split; [exact E|].
  split; [exact P|exact (conj Hx Hy)].
Qed.
Definition curx (s : screen) : Z := Z.min (s_cx s) (s_sx s - 1).
Lemma curx_ok s : Inv s -> clamp_x (inc_age s) (s_cx (inc_age s)) = curx s /\ 0 <= curx s < s_sx s.
Proof.
  intros H. pose proof (Inv_inc s H) as (HI & _). incs s. pose proof (i_cx _ (proj1 H)) as Hc.
  pose proof (i_sx _ (proj1 H)). destruct (clamp_x_ok (inc_age s) (s_cx s) HI Hc) as [C1 C2].
  rewrite INcx, C2, INsx. unfold curx. split; [reflexivity|lia].
Qed.
(* What each erase call erases: range in reading order, as (x0,y0)..(x1,y1). *)
Definition erase_to (s : screen) (x0 y0 x1 y1 : Z) (p : bool) : screen := erased (inc_age s) x0 y0 x1 y1 p.

Lemma inc_cx s : s_cx (inc_age s) = s_cx s. Proof. now incs s. Qed.
Lemma inc_cy s : s_cy (inc_age s) = s_cy s. Proof. now incs s. Qed.
Lemma inc_sx s : s_sx (inc_age s) = s_sx s. Proof. now incs s. Qed.
Lemma inc_sy s : s_sy (inc_age s) = s_sy s. Proof. now incs s. Qed.
Lemma curx_inc s : Inv s -> clamp_x (inc_age s) (s_cx s) = curx s.
Proof. intros H. destruct (curx_ok s H) as [E _]. now rewrite inc_cx in E. Qed.
Lemma erase_dims s : Inv s -> 0 <= curx s /\ 0 <= s_cx s /\ 0 <= s_cy s /\ 0 < s_sx s <= 1073741824 /\ 0 < s_sy s <= 1073741824.
Proof.
  intros H. destruct (curx_ok s H) as [_ C]. destruct H as (H & _). inv0 H. unfold DIM in *. lia.
Qed.
Ltac erase_tac s H :=
  pose proof (erase_dims s H); rewrite ?inc_cx, ?inc_cy, ?inc_sx, ?inc_sy, ?(curx_inc s H), ?u32_small by lia;
  apply erase_call_ok; auto; lia.

Lemma erase_cursor_ok s : Inv s ->
  scr_erase_cursor s = Ok (erase_to s (curx s) (s_cy s) (curx s) (s_cy s) false) /\
  Inv (erase_to s (curx s) (s_cy s) (curx s) (s_cy s) false).
Proof. intros H. unfold scr_erase_cursor. erase_tac s H. Qed.
Lemma erase_chars_ok s n : Inv s -> 0 < n ->
  let x1 := u32 (curx s + n - 1) in
  scr_erase_chars s n = Ok (erase_to s (curx s) (s_cy s) x1 (s_cy s) false) /\
  Inv (erase_to s (curx s) (s_cy s) x1 (s_cy s) false).
Proof.
  intros H Hn. cbv zeta. unfold scr_erase_chars. replace (n =? 0) with false by lia.
  destruct (curx_ok _ H) as [CX CR]. incs s. rewrite CX, INcy. pose proof (u32_range (curx s + n - 1)).
  apply erase_call_ok; auto; try lia; apply (i_cy _ (proj1 H)).
Qed.
Lemma erase_to_end_ok s p : Inv s ->
  scr_erase_cursor_to_end s p = Ok (erase_to s (curx s) (s_cy s) (s_sx s - 1) (s_cy s) p) /\
  Inv (erase_to s (curx s) (s_cy s) (s_sx s - 1) (s_cy s) p).
Proof. intros H. unfold scr_erase_cursor_to_end. erase_tac s H. Qed.
Lemma erase_home_ok s p : Inv s ->
  scr_erase_home_to_cursor s p = Ok (erase_to s 0 (s_cy s) (s_cx s) (s_cy s) p) /\
  Inv (erase_to s 0 (s_cy s) (s_cx s) (s_cy s) p).
Proof. intros H. unfold scr_erase_home_to_cursor. erase_tac s H. Qed.
Lemma erase_line_ok s p : Inv s ->
  scr_erase_current_line s p = Ok (erase_to s 0 (s_cy s) (s_sx s - 1) (s_cy s) p) /\
  Inv (erase_to s 0 (s_cy s) (s_sx s - 1) (s_cy s) p).
Proof. intros H. unfold scr_erase_current_line. erase_tac s H. Qed.
Lemma erase_screen_to_cursor_ok s p : Inv s ->
  scr_erase_screen_to_cursor s p = Ok (erase_to s 0 0 (s_cx s) (s_cy s) p) /\
  Inv (erase_to s 0 0 (s_cx s) (s_cy s) p).
Proof. intros H. unfold scr_erase_screen_to_cursor. erase_tac s H. Qed.
Lemma erase_cursor_to_screen_ok s p : Inv s ->
  scr_erase_cursor_to_screen s p = Ok (erase_to s (curx s) (s_cy s) (s_sx s - 1) (s_sy s - 1) p) /\
  Inv (erase_to s (curx s) (s_cy s) (s_sx s - 1) (s_sy s - 1) p).
Proof. intros H. unfold scr_erase_cursor_to_screen. erase_tac s H. Qed.
Lemma erase_screen_ok s p : Inv s ->
  scr_erase_screen s p = Ok (erase_to s 0 0 (s_sx s - 1) (s_sy s - 1) p) /\
  Inv (erase_to s 0 0 (s_sx s - 1) (s_sy s - 1) p).
Proof. intros H. unfold scr_erase_screen. erase_tac s H. Qed.
