(* Copying all the text. *)
From Verif Require Import Base BaseProofs Screen ScreenInv ScreenSb ScreenScroll ScreenSpec ScreenOps ScreenMove ScreenCtl ScreenResize ScreenSafe ScreenHist ScreenRz ScreenThms ScreenAlt.
From Verif Require Import Selection SelectionSpec SelectionProofs SelectionFollow SelectionThms.
From Verif Require Import Utf8Spec VteData Vte VteSpec VteInv VteSafe VteView Paper PaperProofs Document DocProofs CopySpec CopyHidden.

Lemma view_moves_inv s o s' : reachable s -> op_args o -> step s o = Ok s' -> reachable s'.
Proof. intros R A E. eapply reachable_step; eauto. Qed.

Lemma viewed_same a v pn : text_rows (viewed a v pn) = text_rows a /\ s_sx (viewed a v pn) = s_sx a /\ s_sy (viewed a v pn) = s_sy a /\ s_sb (viewed a v pn) = s_sb a /\ s_sbid (viewed a v pn) = s_sbid a /\
  s_sela (viewed a v pn) = s_sela a /\ s_sel1 (viewed a v pn) = s_sel1 a /\ s_sel2 (viewed a v pn) = s_sel2 a.
Proof. repeat split. Qed.
(* Nothing but view, ages and selection differs. *)
Record kept (s t : screen) : Prop := mkKept { kp_rows : text_rows t = text_rows s; kp_sx : s_sx t = s_sx s; kp_sy : s_sy t = s_sy s; kp_sb : s_sb t = s_sb s; kp_id : s_sbid t = s_sbid s }.
Lemma kept_refl s : kept s s.
Proof. constructor; reflexivity. Qed.
Lemma kept_trans a b c : kept a b -> kept b c -> kept a c.
Proof. intros [] []. constructor; congruence. Qed.
Lemma kept_aged s : kept s (aged s).
Proof. destruct (aged_rows s) as (A & B & C). destruct (aged_sb s) as (D & E & _). constructor; auto. Qed.
Lemma kept_viewed a v pn : kept a (viewed a v pn).
Proof. constructor; reflexivity. Qed.
Lemma sels_aged s : s_sela (aged s) = s_sela s /\ s_sel1 (aged s) = s_sel1 s /\ s_sel2 (aged s) = s_sel2 s.
Proof. unfold aged. rewrite inc_age_eq. repeat split. Qed.

Lemma to_top s n : Inv s -> zlen (s_sb s) <= n -> exists t, scr_sb_up s n = Ok t /\ Inv t /\ kept s t /\ view_index t = 0.
Proof.
  intros H Hn. destruct (view_range s (proj1 H)) as [V _]. destruct (Z.eq_dec n 0) as [->|N].
  - exists s. split; [reflexivity|]. split; [exact H|]. split; [apply kept_refl|lia].
  - destruct (sb_up_ok s n H ltac:(lia)) as (pn & E & I). eexists. split; [exact E|]. split; [exact I|]. split; [apply (kept_trans _ (aged s)); [apply kept_aged|apply kept_viewed]|].
    rewrite view_viewed by (auto; lia). lia.
Qed.
Lemma to_bottom s : Inv s -> Inv (scr_sb_reset s) /\ kept s (scr_sb_reset s) /\ view_index (scr_sb_reset s) = zlen (s_sb s) /\
  s_sela (scr_sb_reset s) = s_sela s /\ s_sel1 (scr_sb_reset s) = s_sel1 s /\ s_sel2 (scr_sb_reset s) = s_sel2 s.
Proof.
  intros H. destruct (sb_reset_ok s H) as (I & P & A & B). split; [exact I|].
  assert (K : kept s (scr_sb_reset s) /\ s_sela (scr_sb_reset s) = s_sela s /\ s_sel1 (scr_sb_reset s) = s_sel1 s /\ s_sel2 (scr_sb_reset s) = s_sel2 s).
  { destruct (s_sbpos s) eqn:E; [|rewrite A by reflexivity; split; [apply kept_refl|auto]].
    rewrite B by discriminate. split; [apply (kept_trans _ (aged s)); [apply kept_aged|apply kept_viewed]|]. apply sels_aged. }
  destruct K as [K L]. split; [exact K|]. split; [|exact L]. unfold view_index. rewrite P, (kp_sb _ _ K). reflexivity.
Qed.

Lemma all_copied s n : reachable s -> roomy s -> chars_below 65536 s -> zlen (s_sb s) <= n -> u32_arg n ->
  exists s', run s (select_all s n) = Ok s' /\
    selection_copy s' = Ok (CText (sel_text [0] s 0 0 (zlen (s_sb s) + s_sy s - 1) (s_sx s - 1))).
Proof.
  intros Rs R C Hn Hu. apply reachable_Inv in Rs. pose proof (i_sx _ (proj1 Rs)) as Sx. pose proof (i_sy _ (proj1 Rs)) as Sy.
  destruct (to_top s n Rs Hn) as (a & Ea & Ia & Ka & Va).
  destruct (sel_start_ok a 0 0 Ia ltac:(lia)) as [Eb Ib]. cbv zeta in Eb, Ib.
  set (p := sel_at (aged a) 0 0) in *. set (b := set_sel2 (set_sel1 (set_sela (aged a) true) p) p) in *.
  assert (Kb : kept s b). { apply (kept_trans _ a); [exact Ka|]. apply (kept_trans _ (aged a)); [apply kept_aged|]. constructor; reflexivity. }
  assert (Pb : s_sela b = true /\ s_sel1 b = p) by (split; reflexivity).
  assert (Vp : view_index (aged a) = 0) by (destruct (aged_sb a) as (_ & _ & -> & _); exact Va).
  assert (Kp : kept s (aged a)) by (apply (kept_trans _ a); [exact Ka|apply kept_aged]).
  pose proof (sel_at_place (aged a) 0 0 (proj1 (Inv_aged a Ia))) as PP. rewrite (kp_sx _ _ Kp), (kp_sy _ _ Kp), (kp_sb _ _ Kp), Vp in PP.
  specialize (PP ltac:(lia) ltac:(lia)). fold p in PP. destruct PP as (P1 & P2 & P3 & P4). apply (place_same _ s) in P1; [|symmetry; apply Kp..].
  clearbody b. destruct (to_bottom b Ib) as (Ic & Kc & Vc & Pc1 & Pc2 & _). set (c := scr_sb_reset b) in *. assert (Ec : step b OSbReset = Ok c) by reflexivity. clearbody c.
  assert (Ks : kept s c) by (apply (kept_trans _ b); assumption).
  destruct (sel_target_ok c (s_sx s - 1) (s_sy s - 1) Ic ltac:(lia)) as [Ed Id]. cbv zeta in Ed, Id. rewrite Pc1, (proj1 Pb) in Ed, Id.
  set (q := sel_at (aged c) (s_sx s - 1) (s_sy s - 1)) in *. set (d := set_sel2 (aged c) q) in *.
  assert (Kq : kept s (aged c)) by (apply (kept_trans _ c); [exact Ks|apply kept_aged]).
  assert (Kd : kept s d). { apply (kept_trans _ (aged c)); [exact Kq|]. constructor; reflexivity. }
  assert (Vq : view_index (aged c) = zlen (s_sb s)). { destruct (aged_sb c) as (_ & _ & -> & _). rewrite Vc, (kp_sb _ _ Kb). reflexivity. }
  pose proof (sel_at_place (aged c) (s_sx s - 1) (s_sy s - 1) (proj1 (Inv_aged c Ic))) as QQ. rewrite (kp_sx _ _ Kq), (kp_sy _ _ Kq), (kp_sb _ _ Kq), Vq in QQ.
  specialize (QQ ltac:(lia) ltac:(lia)). fold q in QQ. destruct QQ as (Q1 & Q2 & Q3 & Q4). apply (place_same _ s) in Q1; [|symmetry; apply Kq..].
  assert (D1 : s_sela d = true /\ s_sel1 d = p /\ s_sel2 d = q).
  { destruct (sels_aged c) as (A1 & A2 & _). split; [change (s_sela (aged c) = true)|split; [change (s_sel1 (aged c) = p)|reflexivity]]; rewrite ?A1, ?A2, ?Pc1, ?Pc2; apply Pb. }
  destruct D1 as (D1 & D2 & D3). clearbody d p q. exists d. split.
  { unfold select_all. cbn [run]. change (step s (OSbUp n)) with (scr_sb_up s n). rewrite Ea. cbn [bind run]. change (step a (OSelStart 0 0)) with (scr_sel_start a 0 0). rewrite Eb. cbn [bind run]. rewrite Ec. cbn [bind run].
    change (step c (OSelTarget (s_sx s - 1) (s_sy s - 1))) with (scr_sel_target c (s_sx s - 1) (s_sy s - 1)). rewrite Ed. reflexivity. }
  rewrite <- (sel_text_rows [0] s d) by apply Kd. replace (zlen (s_sb s) + s_sy s - 1) with (zlen (s_sb s) + (s_sy s - 1)) by lia.
  replace (_ <? zlen (s_sb s)) with false in Q3 by lia. destruct Q3 as [Q3 Q5].
  apply (copy_text d p q).
  - apply Id.
  - unfold roomy. rewrite (kp_sx _ _ Kd), (kp_sy _ _ Kd), (kp_sb _ _ Kd). exact R.
  - exact D1.
  - rewrite D2, D3. unfold text_ends. rewrite Q3. destruct (Z.ltb_spec (0 + 0) (zlen (s_sb s))); destruct P3 as [-> P5]; [|tauto].
    right. split; [exact P5|]. rewrite P4, Q4. lia.
  - rewrite D2, D3. auto.
  - right. apply (place_same s); try apply Kd. exact P1.
  - right. apply (place_same s); try apply Kd. exact Q1.
  - unfold before. lia.
  - left. unfold chars_below in *. now rewrite (kp_rows _ _ Kd).
  - right. lia.
Qed.
