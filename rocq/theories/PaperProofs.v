(* Proofs for C50: the screen with its scrollback is a window on the page. *)
From Verif Require Import Base BaseProofs Screen ScreenInv ScreenSpec ScreenSb ScreenScroll ScreenOps ScreenMove ScreenLaws
  ScreenSafe ScreenHist ScreenRz ScreenThms Paper.

(* Settings no item changes. *)
Record settled (s s' : screen) : Prop := mkSettled {
  k_flags : s_flags s' = s_flags s; k_def : s_def s' = s_def s; k_sx : s_sx s' = s_sx s; k_sy : s_sy s' = s_sy s;
  k_mt : s_mt s' = s_mt s; k_mb : s_mb s' = s_mb s }.
Lemma settled_refl s : settled s s.
Proof. constructor; reflexivity. Qed.
Lemma settled_trans a b c : settled a b -> settled b c -> settled a c.
Proof. intros [] []. constructor; congruence. Qed.
Lemma settled_frame s s' : same_frame s s' -> settled s s'.
Proof. intros F. constructor; apply F. Qed.
Lemma settled_env2 s s' : env2 s s' -> settled s s'.
Proof. intros F. constructor; apply F. Qed.
Lemma settled_env s s' : same_env s s' -> settled s s'.
Proof. intros F. constructor; apply F. Qed.
Lemma settled_moved s x y : settled s (moved s x y).
Proof. apply settled_env, env_moved. Qed.
Lemma settled_inc s : settled s (inc_age s).
Proof. apply settled_frame, frame_inc. Qed.

Lemma settled_write s ch a s' : Inv s -> ~ op_hazard s (OWrite ch a) -> step s (OWrite ch a) = Ok s' -> settled s s'.
Proof.
  intros H Hz E. destruct (scr_width_ok ch) as (w & Ew & Hw). destruct (Z.eq_dec w 0) as [->|Hne].
  - rewrite (write_zero_law s ch a Ew) in E. apply ok_inj in E. subst. apply settled_refl.
  - cbn [step] in E. destruct (scr_write_ok s ch a w H Ew ltac:(lia)) as (s1 & E1 & W & _).
    { intros Hi. pose proof (i_sx _ (proj1 H)). destruct (Z.eq_dec (s_sx s) 1); [|lia]. destruct (Z.eq_dec w 2) as [->|]; [|lia].
      exfalso. apply Hz. split; [exact Hi|]. split; assumption. }
    rewrite E1 in E. apply ok_inj in E. subst s1. clear E1. destruct W as [(s2 & P & _ & _ & _ & ->)].
    apply (settled_trans _ (inc_age s)); [apply settled_inc|].
    apply (settled_trans _ (wr_s1 (inc_age s))); [apply settled_env, env_wr_s1|].
    apply (settled_trans _ s2).
    + destruct (wr_last (inc_age s) <? s_cy (wr_s1 (inc_age s))).
      * eapply settled_trans; [|apply settled_env2; apply P]. apply settled_moved.
      * rewrite P. apply settled_refl.
    + eapply settled_trans; [|apply settled_moved]. constructor; reflexivity.
Qed.
Lemma settled_down s n b s' : Inv s -> u32_arg n -> step s (OMoveDown n b) = Ok s' -> settled s s'.
Proof.
  intros H Hn E. cbn [step] in E. destruct (Z.eq_dec n 0) as [->|Hne].
  - unfold scr_move_down in E. change (0 =? 0) with true in E. apply ok_inj in E. subst. apply settled_refl.
  - unfold u32_arg in Hn. pose proof (move_down_ok s n b H ltac:(lia)) as M. cbv zeta in M.
    destruct (_ <? n); [destruct b|].
    + destruct M as (s1 & U & E1 & _). rewrite E1 in E. apply ok_inj in E. subst.
      eapply settled_trans; [apply settled_inc|]. eapply settled_trans; [apply settled_env2; apply U|apply settled_moved].
    + destruct M as (E1 & _). rewrite E1 in E. apply ok_inj in E. subst. apply settled_frame, frame_moved.
    + destruct M as (E1 & _). rewrite E1 in E. apply ok_inj in E. subst. apply settled_frame, frame_moved.
Qed.
Lemma settled_newline s s' : Inv s -> step s ONewline = Ok s' -> settled s s'.
Proof.
  intros H E. cbn [step] in E. unfold scr_newline in E.
  assert (H1 : u32_arg 1) by (unfold u32_arg; lia).
  destruct (move_down_law (inc_age s) 1 true (Inv_inc s H) H1) as (s1 & E1 & I1 & _).
  rewrite E1 in E. cbn [bind] in E. pose proof (settled_down (inc_age s) 1 true s1 (Inv_inc s H) H1 E1) as K.
  destruct (line_home_ok s1 I1) as [E2 _]. rewrite E2 in E. apply ok_inj in E. subst.
  eapply settled_trans; [apply settled_inc|]. eapply settled_trans; [exact K|]. apply settled_frame, frame_moved.
Qed.
Lemma settled_home s s' : Inv s -> step s OLineHome = Ok s' -> settled s s'.
Proof. intros H E. cbn [step] in E. destruct (line_home_ok s H) as [E2 _]. rewrite E2 in E. apply ok_inj in E. subst. apply settled_frame, frame_moved. Qed.
Lemma settled_left s n s' : Inv s -> 0 < n -> step s (OMoveLeft n) = Ok s' -> settled s s'.
Proof.
  intros H Hn E. cbn [step] in E. destruct (move_left_ok s n H Hn) as [E2 _]. cbv zeta in E2. rewrite E2 in E. apply ok_inj in E. subst.
  apply settled_frame, frame_moved.
Qed.

(* Counting scrollback rows from the end. *)
Lemma zlen_last_n {A} n (l : list A) : 0 <= n -> zlen (last_n n l) = Z.min n (zlen l).
Proof. intros H. unfold last_n. rewrite skipn_length. lia. Qed.
Lemma last_n_end {A} n (l : list A) d : 1 <= d <= zlen (last_n n l) -> znth (last_n n l) (zlen (last_n n l) - d) = znth l (zlen l - d).
Proof.
  intros H. unfold last_n in *. rewrite skipn_length in *. rewrite znth_skipn by lia. f_equal. lia.
Qed.
Lemma fl_settled s s' n : settled s s' -> fl s' n = fl s n.
Proof. intros K. unfold fl. now rewrite (k_flags _ _ K). Qed.
Lemma typing_settled s s' : settled s s' -> typing s -> typing s'.
Proof.
  intros K []. constructor; rewrite ?(fl_settled _ _ _ K), ?(k_mt _ _ K), ?(k_mb _ _ K), ?(k_sy _ _ K); auto.
Qed.

Lemma top_row s : reachable s -> typing s -> exists r, top_rows s 1 = [r] /\ forall x, znth r x = at_ s 0 x.
Proof.
  intros H T. pose proof (reachable_Inv s H) as (I0 & _ & Hy). pose proof (at_main s H (ty_main _ T)) as AM. clear H.
  unfold top_rows. rewrite (ty_top _ T). pose proof (i_sy _ I0) as Sy. pose proof (i_main _ I0) as Lm.
  destruct (s_main s) as [|l ls] eqn:E; [destruct Lm as [Lm _]; pose proof (i_ln _ I0); cbn [length] in Lm; lia|].
  exists (row_text l). split; [reflexivity|]. intros x. rewrite AM. unfold main_at, rows_at. rewrite E.
  change (znth (l :: ls) 0) with (Some l). unfold row_at, row_text. apply znth_map.
Qed.

Lemma above_after s s' k M : reachable s -> typing s -> k = 0 \/ k = 1 -> 0 <= M ->
  sb_text s' = last_n M (sb_text s ++ top_rows s k) ->
  zlen (sb_text s') = Z.min M (zlen (sb_text s) + k) /\
  forall d x, 1 <= d <= zlen (sb_text s') -> above s' d x = if d <=? k then at_ s (k - d) x else above s (d - k) x.
Proof.
  intros H T Hk HM E.
  assert (R : zlen (top_rows s k) = k /\ forall d x, 1 <= d <= k ->
     match znth (top_rows s k) (k - d) with Some r => znth r x | None => None end = at_ s (k - d) x).
  { destruct Hk as [->| ->].
    - unfold top_rows. change (zslice (s_main s) (s_mt s) 0) with (@nil line). split; [reflexivity|lia].
    - destruct (top_row s H T) as (r & E1 & A). rewrite E1. split; [reflexivity|]. intros d x Hd. replace (1 - d) with 0 by lia.
      change (znth [r] 0) with (Some r). apply A. }
  destruct R as [RL RA]. split.
  - rewrite E, zlen_last_n, app_length by auto. lia.
  - intros d x Hd. unfold above at 1. rewrite E in *. rewrite last_n_end by lia. rewrite znth_app, app_length.
    assert (zlen (last_n M (sb_text s ++ top_rows s k)) <= zlen (sb_text s) + k) by (rewrite zlen_last_n, app_length by auto; lia).
    destruct (Z.leb_spec d k).
    + replace (_ <? _) with false by lia. rewrite <- (RA d x) by lia.
      match goal with |- match znth _ ?a with _ => _ end = match znth _ ?b with _ => _ end => replace a with b by lia end. reflexivity.
    + replace (_ <? _) with true by lia. unfold above.
      match goal with |- match znth _ ?a with _ => _ end = match znth _ ?b with _ => _ end => replace a with b by lia end. reflexivity.
Qed.

(* The window after one item. *)
Record window (w h M : Z) (s : screen) (p : paper) : Prop := mkWindow {
  wi_reach : reachable s; wi_typing : typing s; wi_w : s_sx s = w; wi_h : s_sy s = h; wi_M : s_sbmax s = M;
  wi_shows : shows s p;
  wi_below : forall y x, p_top p + h <= y -> p_rows p y x = Some (blank_glyph (s_def s)) }.
Definition next (w h M : Z) (s : screen) (p : paper) (s' : screen) (p' : paper) : Prop :=
  window w h M s' p' /\ zlen (sb_text s') = Z.min M (zlen (sb_text s) + (p_top p' - p_top p)) /\ p_top p <= p_top p'.

Lemma window_next w h M s p o s' k r c f : window w h M s p -> op_args o -> step s o = Ok s' -> settled s s' ->
  k = 0 \/ k = 1 -> off s o = top_rows s k -> sb_limit s o = s_sbmax s -> o <> OClearSb ->
  s_cx s' = c -> p_top p + k + s_cy s' = r ->
  (forall y x, on_screen s y x -> at_ s' y x = f (p_top p + k + y) x) ->
  (forall y x, y < p_top p + k -> f y x = p_rows p y x) ->
  (forall y x, p_top p + k + h <= y -> f y x = p_rows p y x) ->
  next w h M s p s' (mkPaper f r c (p_top p + k)).
Proof.
  intros W Ha E K Hk Ho Hl Hc Cx Cy A F1 F2. destruct W as [Rs T Ew Eh EM Sh B].
  destruct (sb_step_r s o s' Rs Ha E) as [S1 S2]. assert (S3 : sb_text s' = last_n M (sb_text s ++ top_rows s k)).
  { rewrite S1, <- Ho, <- EM, <- Hl. unfold sb_spec. destruct o; auto. contradiction. }
  assert (HM : 0 <= M).
  { pose proof (reachable_Inv s Rs) as (I0 & _). pose proof (i_sbmax _ I0). pose proof (i_sbn _ I0). lia. }
  destruct (above_after s s' k M Rs T Hk HM S3) as [L1 L2].
  pose proof (reachable_step s o s' Rs Ha E) as Rs'.
  split; [|split; cbn [p_top]; [rewrite L1; lia|lia]]. constructor; cbn [p_rows p_r p_c p_top]; auto.
  - eapply typing_settled; eauto.
  - now rewrite (k_sx _ _ K).
  - now rewrite (k_sy _ _ K).
  - congruence.
  - constructor; cbn [p_rows p_r p_c p_top]; auto.
    + intros y x O. apply A. unfold on_screen in *. now rewrite (k_sx _ _ K), (k_sy _ _ K) in O.
    + intros d x Hd Hx. rewrite L2 by auto. rewrite F1 by lia. rewrite (k_sx _ _ K) in Hx.
      pose proof (reachable_Inv s Rs) as (I0 & _). pose proof (i_sy _ I0).
      destruct (Z.leb_spec d k).
      * rewrite (sh_at _ _ Sh) by (unfold on_screen; lia). f_equal. lia.
      * rewrite (sh_above _ _ Sh) by lia. f_equal. lia.
  - intros y x Hy. rewrite F2 by lia. rewrite (k_def _ _ K). apply B. lia.
Qed.

(* The picture after moving up by k rows. *)
Lemma shifted w h M s p k y x : window w h M s p -> 0 <= k -> on_screen s y x ->
  shift_up s (s_mt s) (s_mb s) k y x = p_rows p (p_top p + k + y) x.
Proof.
  intros [Rs T Ew Eh EM Sh B] Hk O. pose proof O as O'. unfold on_screen in O. unfold shift_up. rewrite (ty_top _ T), (ty_bot _ T).
  replace (_ && _) with true by lia. destruct (Z.leb_spec (y + k) (s_sy s - 1)).
  - rewrite (sh_at _ _ Sh) by (unfold on_screen; lia). f_equal. lia.
  - rewrite B by lia. reflexivity.
Qed.
Definition lf_k (s : screen) : Z := if s_cy s =? s_sy s - 1 then 1 else 0.
Lemma over_down_1 s : reachable s -> typing s -> over_down s 1 = lf_k s /\ floor_row s = s_sy s - 1.
Proof.
  intros Rs T. pose proof (reachable_Inv s Rs) as (I0 & _ & Hy). pose proof (i_sy _ I0).
  unfold over_down, region, floor_row, lf_k. rewrite (ty_top _ T), (ty_bot _ T).
  replace (_ <=? _) with true by lia. destruct (Z.eqb_spec (s_cy s) (s_sy s - 1)); lia.
Qed.
Lemma go_eq h p r c k : Z.max (p_top p) (r - (h - 1)) = p_top p + k -> go h p r c = mkPaper (p_rows p) r c (p_top p + k).
Proof. intros E. unfold go. now rewrite E. Qed.

Lemma item_next w h M s p i : window w h M s p ->
  exists s', step s (item_op i) = Ok s' /\ next w h M s p s' (typed w h p i).
Proof.
  intros W. pose proof W as W0. destruct W0 as [Rs T Ew Eh EM Sh B]. pose proof (reachable_Inv s Rs) as HI.
  pose proof HI as (I0 & Hx & Hy). pose proof (i_sy _ I0) as Sy. pose proof (i_sx _ I0) as Sx. pose proof (i_cx _ I0) as Cx. pose proof (i_cy _ I0) as Cy.
  destruct (over_down_1 s Rs T) as [OD FR]. pose proof (sh_row _ _ Sh) as SR. pose proof (sh_col _ _ Sh) as SC.
  assert (U1 : u32_arg 1) by (unfold u32_arg; lia).
  assert (LK : lf_k s = 0 \/ lf_k s = 1) by (unfold lf_k; destruct (_ =? _); auto).
  assert (LT : Z.max (p_top p) (p_r p + 1 - (h - 1)) = p_top p + lf_k s) by (unfold lf_k; destruct (Z.eqb_spec (s_cy s) (s_sy s - 1)); lia).
  assert (LS : Z.max (p_top p) (p_r p - (h - 1)) = p_top p + 0) by lia.
  destruct i as [ch a| | | | |a]; cbn [item_op typed].
  - destruct (scr_width_ok ch) as (wd & Ewd & Hwd). rewrite Ewd. destruct (Z.leb_spec wd 0).
    + exists s. rewrite (write_zero_law s ch a) by (rewrite Ewd; f_equal; lia). split; [reflexivity|]. split; [exact W|]. split; [|lia].
      pose proof (i_sbmax _ I0). pose proof (i_sbn _ I0). unfold sb_text. rewrite map_length. lia.
    + assert (Hz : ~ op_hazard s (OWrite ch a)) by (intros (Hi & _); rewrite (ty_over _ T) in Hi; discriminate).
      destruct (write_r s ch a wd Rs Hz Ewd ltac:(lia)) as (s' & E & X & Y & A). exists s'. split; [exact E|].
      pose proof (settled_write s ch a s' HI Hz E) as K.
      set (k := if p_c p <? w then 0 else lf_k s).
      assert (Hk : k = 0 \/ k = 1) by (unfold k; destruct (p_c p <? w); auto).
      assert (WS : write_scrolls s = (k =? 1)).
      { unfold write_scrolls, wraps, k. rewrite SC, Ew, (ty_wrap _ T), FR, andb_true_r. unfold lf_k. destruct (p_c p <? w); [reflexivity|].
        cbn [negb andb]. now destruct (s_cy s =? s_sy s - 1). }
      set (c := if p_c p <? w then p_c p else 0). set (r := if p_c p <? w then p_r p else p_r p + 1).
      assert (WC : write_col s = c).
      { unfold write_col, c. rewrite SC, Ew, (ty_wrap _ T). now destruct (p_c p <? w). }
      assert (WR : p_top p + k + write_row s = r).
      { unfold write_row. rewrite WS. unfold wraps, k, r, lf_k. rewrite SC, Ew, (ty_wrap _ T). destruct (p_c p <? w); cbn [negb andb].
        - change (0 =? 1) with false. cbn [negb andb]. lia.
        - destruct (Z.eqb_spec (s_cy s) (s_sy s - 1)); [change (1 =? 1) with true|change (0 =? 1) with false]; cbn [negb andb]; lia. }
      assert (BW : forall y x, on_screen s y x -> before_write s y x = p_rows p (p_top p + k + y) x).
      { intros y x O. unfold before_write. rewrite WS. destruct (Z.eqb_spec k 1) as [K1|K1].
        - rewrite K1. apply (shifted w h M); auto. lia.
        - assert (k = 0) as -> by lia. rewrite (sh_at _ _ Sh) by auto. f_equal. lia. }
      set (p1 := if p_c p <? w then p else go h p (p_r p + 1) 0).
      assert (P1 : p1 = mkPaper (p_rows p) r c (p_top p + k)).
      { unfold p1, r, c, k. destruct (p_c p <? w); [|now apply go_eq]. rewrite Z.add_0_r. now destruct p. }
      rewrite P1. cbn [p_rows p_r p_c p_top].
      assert (RB : p_top p + k <= r < p_top p + k + h).
      { rewrite <- WR. unfold write_row. pose proof FR. destruct (wraps s && negb (write_scrolls s)) eqn:Ew1; [|lia].
        apply andb_true_iff in Ew1. destruct Ew1 as [Ew1 Ew2]. unfold write_scrolls in Ew2. rewrite Ew1 in Ew2. cbn [andb] in Ew2.
        rewrite FR in Ew2. destruct (Z.eqb_spec (s_cy s) (s_sy s - 1)); [discriminate|]. lia. }
      unfold go. cbn [p_rows p_r p_c p_top]. replace (Z.max (p_top p + k) (r - (h - 1))) with (p_top p + k) by lia.
      apply (window_next w h M s p (OWrite ch a)); auto.
      * cbn [op_args]. exact I.
      * unfold off. rewrite (ty_main _ T), Ewd, WS. replace (0 <? wd) with true by lia. cbn [andb].
        destruct Hk as [->| ->]; [|reflexivity]. unfold top_rows. reflexivity.
      * discriminate.
      * now rewrite X, WC.
      * now rewrite Y.
      * intros y x O. rewrite A by auto. unfold write_spec, put_at. cbv zeta. rewrite WC, (ty_over _ T), !BW by auto.
        replace (p_top p + k + y =? r) with (y =? write_row s) by lia. destruct (y =? write_row s); [|reflexivity].
        destruct (Z.ltb_spec x c), (Z.eqb_spec x c), (Z.ltb_spec c x); cbn [andb]; auto; lia.
      * intros y x Hl. unfold put_at. now replace (y =? r) with false by lia.
      * intros y x Hl. unfold put_at. now replace (y =? r) with false by lia.
  - destruct (newline_law s HI) as (s' & E & X & Y & A). exists s'. split; [exact E|].
    rewrite (go_eq h p _ _ (lf_k s) LT). apply (window_next w h M s p ONewline); auto.
    + cbn [op_args]. exact I.
    + now apply settled_newline.
    + unfold off. now rewrite (ty_main _ T), OD.
    + discriminate.
    + rewrite Y, FR. unfold lf_k. destruct (Z.eqb_spec (s_cy s) (s_sy s - 1)); lia.
    + intros y x O. rewrite A, OD by auto. apply (shifted w h M); auto. lia.
  - destruct (move_down_law s 1 true HI U1) as (s' & E & _ & X & Y & _ & _ & _ & _ & A). exists s'. split; [exact E|].
    rewrite (go_eq h p _ _ (lf_k s) LT). apply (window_next w h M s p (OMoveDown 1 true)); auto.
    + now apply (settled_down s 1 true).
    + unfold off. now rewrite (ty_main _ T), OD.
    + discriminate.
    + now rewrite X.
    + rewrite Y, FR. unfold lf_k. destruct (Z.eqb_spec (s_cy s) (s_sy s - 1)); lia.
    + intros y x O. rewrite A, OD by auto. apply (shifted w h M); auto. lia.
  - destruct (motion_r s _ _ _ Rs (mo_home s)) as (s' & E & X & Y & A & _). exists s'. split; [exact E|].
    rewrite (go_eq h p _ _ 0 LS). pose proof (settled_home s s' HI E) as K. apply (window_next w h M s p OLineHome); auto.
    + cbn [op_args]. exact I.
    + unfold off. now rewrite (ty_main _ T).
    + discriminate.
    + rewrite Y. lia.
    + intros y x O. assert (R' : reachable s') by (apply (reachable_step s OLineHome); [exact Rs|exact I|exact E]).
      rewrite (at_main s' R') by (rewrite (fl_settled _ _ _ K); apply T).
      destruct (A y x) as [A1 _]. rewrite A1, <- (at_main s Rs (ty_main _ T)), (sh_at _ _ Sh) by auto. f_equal. lia.
  - destruct (motion_r s _ _ _ Rs (mo_left s 1 U1 ltac:(lia))) as (s' & E & X & Y & A & _). exists s'. split; [exact E|].
    rewrite (go_eq h p _ _ 0 LS). pose proof (settled_left s 1 s' HI ltac:(lia) E) as K. apply (window_next w h M s p (OMoveLeft 1)); auto.
    + unfold off. now rewrite (ty_main _ T).
    + discriminate.
    + rewrite X. unfold cursor_col. now rewrite SC, Ew.
    + rewrite Y. lia.
    + intros y x O. assert (R' : reachable s') by (apply (reachable_step s (OMoveLeft 1)); [exact Rs|exact U1|exact E]).
      rewrite (at_main s' R') by (rewrite (fl_settled _ _ _ K); apply T).
      destruct (A y x) as [A1 _]. rewrite A1, <- (at_main s Rs (ty_main _ T)), (sh_at _ _ Sh) by auto. f_equal. lia.
  - exists (set_def s a). split; [reflexivity|]. split.
    + constructor; cbn [p_rows p_r p_c p_top]; auto.
      * exact (reachable_step s (OSetDefAttr a) _ Rs I eq_refl).
      * destruct T. constructor; assumption.
      * constructor; cbn [p_rows p_r p_c p_top]; auto.
        -- intros y x O. change (at_ (set_def s a) y x) with (at_ s y x). replace (_ <? _) with true by (unfold on_screen in O; cbn in O; lia).
           now apply (sh_at _ _ Sh).
        -- intros d x Hd Hcol. assert (Hy2 : p_top p - d < p_top p + h) by lia. apply Z.ltb_lt in Hy2. rewrite Hy2.
           exact (sh_above _ _ Sh d x Hd Hcol).
      * intros y x Hrow. now replace (_ <? _) with false by lia.
    + cbn [p_top]. split; [|lia]. change (sb_text (set_def s a)) with (sb_text s).
      pose proof (i_sbmax _ I0). pose proof (i_sbn _ I0). unfold sb_text. rewrite map_length. lia.
Qed.

Lemma items_next w h M is : forall s p, window w h M s p ->
  exists s', run s (map item_op is) = Ok s' /\ next w h M s p s' (typed_all w h p is).
Proof.
  induction is as [|i is IH]; intros s p W.
  - exists s. split; [reflexivity|]. split; [exact W|]. split; [|cbn; lia]. pose proof (reachable_Inv s (wi_reach _ _ _ _ _ W)) as (I0 & _).
    pose proof (i_sbmax _ I0). pose proof (i_sbn _ I0). pose proof (wi_M _ _ _ _ _ W). unfold sb_text. rewrite map_length. cbn [typed_all fold_left]. lia.
  - destruct (item_next w h M s p i W) as (s1 & E1 & W1 & L1 & T1). destruct (IH s1 _ W1) as (s' & E & W' & L & T').
    exists s'. split; [cbn [map run]; rewrite E1; exact E|]. split; [exact W'|]. cbn [typed_all fold_left] in *.
    fold (typed_all w h (typed w h p i) is) in *. split; lia.
Qed.

Lemma window_of s : reachable s -> typing s -> window (s_sx s) (s_sy s) (s_sbmax s) s (paper_of s).
Proof.
  intros H T. constructor; auto.
  - constructor; cbn [paper_of p_rows p_r p_c p_top]; auto.
    + intros y x [O1 O2]. replace (_ <? _) with false by lia. now replace (_ <? _) with true by lia.
    + intros d x Hd Hx. replace (_ <? _) with true by lia. f_equal. lia.
  - intros y x. cbn [paper_of p_rows p_r p_c p_top]. intros Hy. pose proof (reachable_Inv s H) as (I0 & _). pose proof (i_sy _ I0).
    replace (_ <? _) with false by lia. now replace (_ <? _) with false by lia.
Qed.

Lemma paper_r s is : reachable s -> typing s ->
  let p := typed_all (s_sx s) (s_sy s) (paper_of s) is in
  exists s', run s (map item_op is) = Ok s' /\ shows s' p /\ s_sx s' = s_sx s /\ s_sy s' = s_sy s /\
    zlen (sb_text s') = Z.min (s_sbmax s) (zlen (sb_text s) + p_top p).
Proof.
  intros H T p. destruct (items_next _ _ _ is s _ (window_of s H T)) as (s' & E & W & L & _). exists s'. split; [exact E|].
  split; [apply W|]. split; [apply W|]. split; [apply W|]. fold p in L. rewrite L. cbn [paper_of p_top]. f_equal. lia.
Qed.

(* Text of single width symbols, by position counted along the rows. *)
Lemma lin_unique w y x r c : 0 <= x < w -> 0 <= c < w -> y * w + x = r * w + c -> y = r /\ x = c.
Proof.
  intros Hx Hc E. assert (y = r) by nia. split; [auto|subst; lia].
Qed.
Lemma fold_text w h a cps : 0 < w -> forall p, 0 <= p_c p <= w -> Forall (fun ch => scr_width ch = Ok 1) cps ->
  let p' := typed_all w h p (map (fun ch => IChar ch a) cps) in
  let L := p_r p * w + p_c p in
  (forall y x, 0 <= x < w -> p_rows p' y x = match znth cps (y * w + x - L) with Some ch => Some (ch, 1, a) | None => p_rows p y x end) /\
  p_r p' * w + p_c p' = L + zlen cps /\ (0 < p_c p \/ 0 < zlen cps -> 0 < p_c p') /\ p_c p' <= w /\
  (p_top p' = Z.max (p_top p) (p_r p' - (h - 1)) \/ zlen cps = 0 /\ p' = p) /\ p_r p <= p_r p'.
Proof.
  intros Hw. induction cps as [|ch cps IH]; intros p Hc F; cbn [map typed_all fold_left].
  - cbv zeta. cbn [length]. change (zlen (@nil Z)) with 0. repeat match goal with |- _ /\ _ => split end; try lia.
    + intros y x _. now rewrite znth_nil.
    + right. split; [lia|reflexivity].
  - inversion F as [|? ? F1 F2]; subst. fold (typed_all w h (typed w h p (IChar ch a)) (map (fun ch => IChar ch a) cps)).
    set (p1 := typed w h p (IChar ch a)).
    assert (P1 : p1 = mkPaper (put_at (p_rows p) (if p_c p <? w then p_r p else p_r p + 1) (if p_c p <? w then p_c p else 0) ch 1 a)
       (if p_c p <? w then p_r p else p_r p + 1) ((if p_c p <? w then p_c p else 0) + 1)
       (Z.max (p_top p) ((if p_c p <? w then p_r p else p_r p + 1) - (h - 1)))).
    { unfold p1, typed. rewrite F1. change (1 <=? 0) with false. cbv iota zeta. destruct (p_c p <? w); unfold go; cbn [p_rows p_r p_c p_top]; f_equal; lia. }
    clearbody p1. assert (C1 : 0 <= p_c p1 <= w) by (rewrite P1; cbn [p_c]; destruct (Z.ltb_spec (p_c p) w); lia).
    specialize (IH p1 C1 F2). cbv zeta in *. set (p' := typed_all w h p1 (map (fun ch => IChar ch a) cps)) in *. clearbody p'.
    destruct IH as (A & B & C & D & T & R).
    assert (L1 : p_r p1 * w + p_c p1 = p_r p * w + p_c p + 1).
    { rewrite P1. cbn [p_r p_c]. destruct (Z.ltb_spec (p_c p) w); nia. }
    assert (ZL : zlen (ch :: cps) = zlen cps + 1) by (cbn [length]; lia).
    assert (R1 : p_r p <= p_r p1) by (rewrite P1; cbn [p_r]; destruct (p_c p <? w); lia).
    assert (T1 : p_top p1 = Z.max (p_top p) (p_r p1 - (h - 1))) by (rewrite P1; reflexivity).
    repeat match goal with |- _ /\ _ => split end; try lia.
    + intros y x Hx. rewrite A by auto. rewrite L1.
      destruct (Z.eq_dec (y * w + x - (p_r p * w + p_c p)) 0) as [E0|E0].
      * rewrite E0. change (znth (ch :: cps) 0) with (Some ch). cbv iota. rewrite znth_neg by lia.
        rewrite P1. cbn [p_rows]. unfold put_at.
        assert (y = (if p_c p <? w then p_r p else p_r p + 1) /\ x = (if p_c p <? w then p_c p else 0)) as [-> ->].
        { destruct (Z.ltb_spec (p_c p) w).
          - apply (lin_unique w); lia.
          - apply (lin_unique w); lia. }
        now rewrite !Z.eqb_refl.
      * assert (ZC : forall i, i <> 0 -> znth (ch :: cps) i = znth cps (i - 1)).
        { intros i Hi. destruct (Z_lt_le_dec i 0); [now rewrite !znth_neg by lia|]. rewrite znth_cons by lia. now replace (i =? 0) with false by lia. }
        rewrite ZC by auto. clear ZC.
        replace (y * w + x - (p_r p * w + p_c p + 1)) with (y * w + x - (p_r p * w + p_c p) - 1) by lia.
        destruct (znth cps _) eqn:Ez; [reflexivity|]. rewrite P1. cbn [p_rows]. unfold put_at.
        destruct (Z.eqb_spec y (if p_c p <? w then p_r p else p_r p + 1)) as [Ey|]; [|reflexivity].
        destruct (Z.eqb_spec x (if p_c p <? w then p_c p else 0)) as [Ex|].
        -- exfalso. apply E0. destruct (Z.ltb_spec (p_c p) w); subst; nia.
        -- destruct (_ && _) eqn:Eb; [|reflexivity]. lia.
    + intros _. apply C. left. rewrite P1. cbn [p_c]. destruct (p_c p <? w); lia.
    + left. destruct T as [T|[_ ->]]; [|exact T1]. lia.
Qed.

Lemma fold_r s cps a : reachable s -> typing s -> s_cx s <= s_sx s -> cps <> [] -> Forall (fun ch => scr_width ch = Ok 1) cps ->
  let w := s_sx s in let n := zlen cps in
  let row := s_cy s + (s_cx s + n - 1) / w in
  let gone := Z.max 0 (row - (s_sy s - 1)) in
  let page y x := match znth cps ((y - s_cy s) * w + x - s_cx s) with Some ch => Some (ch, 1, a) | None => p_rows (paper_of s) y x end in
  exists s', run s (map (fun ch => OWrite ch a) cps) = Ok s' /\
    s_cy s' = row - gone /\ s_cx s' = (s_cx s + n - 1) mod w + 1 /\
    (forall y x, on_screen s y x -> at_ s' y x = page (gone + y) x) /\
    zlen (sb_text s') = Z.min (s_sbmax s) (zlen (sb_text s) + gone) /\
    (forall d x, 1 <= d <= zlen (sb_text s') -> 0 <= x < w -> above s' d x = page (gone - d) x).
Proof.
  intros H T Hx Hn F. cbv zeta. pose proof (reachable_Inv s H) as (I0 & _). pose proof (i_sx _ I0) as Sx. pose proof (i_cx _ I0) as Cx.
  pose proof (i_cy _ I0) as Cy. destruct (bounds s H) as (By & _). assert (Hl : 0 < zlen cps) by (destruct cps; [congruence|cbn [length]; lia]).
  destruct (paper_r s (map (fun ch => IChar ch a) cps) H T) as (s' & E & Sh & Wx & Wy & L). rewrite map_map in E. cbn [item_op] in E.
  destruct (fold_text (s_sx s) (s_sy s) a cps ltac:(lia) (paper_of s) ltac:(cbn; lia) F) as (A & B & C & D & T2 & R). cbv zeta in *.
  set (p := typed_all _ _ _ _) in *. clearbody p. specialize (C (or_intror Hl)).
  assert (T3 : p_top p = Z.max 0 (p_r p - (s_sy s - 1))) by (destruct T2 as [T2|[T2 _]]; [exact T2|lia]). clear T2.
  cbn [paper_of p_r p_c p_top] in B, R.
  set (w := s_sx s) in *. set (n := zlen cps) in *.
  assert (Q : p_r p = s_cy s + (s_cx s + n - 1) / w /\ p_c p = (s_cx s + n - 1) mod w + 1).
  { assert (E1 : s_cx s + n - 1 = (p_r p - s_cy s) * w + (p_c p - 1)) by lia. rewrite E1.
    rewrite Z.div_add_l, (Z.add_comm (_ * w)), Z.mod_add, Z.div_small, Z.mod_small by lia. lia. }
  destruct Q as [Q1 Q2]. rewrite <- Q1, <- T3, <- Q2. clear Q1 Q2.
  assert (PG : forall y x, 0 <= x < w -> p_rows p y x =
      match znth cps ((y - s_cy s) * w + x - s_cx s) with Some ch => Some (ch, 1, a) | None => p_rows (paper_of s) y x end).
  { intros y x Hxw. rewrite A by auto. cbn [paper_of p_r p_c]. now replace (y * w + x - (s_cy s * w + s_cx s)) with ((y - s_cy s) * w + x - s_cx s) by lia. }
  exists s'. split; [exact E|]. split; [pose proof (sh_row _ _ Sh); lia|]. split; [apply Sh|]. split.
  - intros y x O. rewrite (sh_at _ _ Sh) by (unfold on_screen in *; lia). apply PG. apply O.
  - split; [exact L|]. intros d x Hd Hxw. rewrite (sh_above _ _ Sh) by lia. now apply PG.
Qed.
