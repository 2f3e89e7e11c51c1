(* Screens with the same page keep having the same page. *)
From Verif Require Import Base BaseProofs Screen ScreenInv ScreenSb ScreenScroll ScreenSpec ScreenOps ScreenMove ScreenCtl ScreenResize
  ScreenSafe ScreenLaws ScreenAlt ScreenHist ScreenRz ScreenThms FrameSpec ScreenFrame TwinSpec.
From Verif Require SelectionFollow.

Lemma page_refl s : same_page s s.
Proof. constructor; auto. Qed.
Lemma page_sym s t : same_page s t -> same_page t s.
Proof.
  intros [A B C D E F G H I J K L]. constructor; auto; [intros k Hk; symmetry; apply H; lia| |]; intros y x O; symmetry; (apply K || apply L); unfold on_screen in *; now rewrite <- A, <- B.
Qed.
Lemma page_trans a b c : same_page a b -> same_page b c -> same_page a c.
Proof.
  intros [A B C D E F G H I J K L] [A' B' C' D' E' F' G' H' I' J' K' L']. constructor; try congruence; [intros k Hk; rewrite H' by lia; apply H; lia| |]; intros y x O.
  - rewrite K' by (unfold on_screen in *; now rewrite A, B). auto.
  - rewrite L' by (unfold on_screen in *; now rewrite A, B). auto.
Qed.

(* -- what a call leaves alone besides: the inactive buffer, def_attr_main ---- *)
Definition oth (s s' : screen) : Prop :=
  s_defm s' = s_defm s /\ s_act s' = s_act s /\
  (if s_act s then s_main s' else s_alt s') = (if s_act s then s_main s else s_alt s).
Lemma oth_refl s : oth s s.
Proof. repeat split. Qed.
Lemma oth_trans a b c : oth a b -> oth b c -> oth a c.
Proof. intros (A & B & C) (A' & B' & C'). unfold oth. rewrite B in C'. rewrite A', B', C', A, B, C. auto. Qed.
Lemma oth_frame s s' : same_frame s s' -> oth s s'.
Proof. intros F. split; [apply F|]. split; apply F. Qed.
Lemma oth_env s s' : same_env s s' -> oth s s'.
Proof. intros F. split; [apply F|]. split; apply F. Qed.
Lemma oth_env2 s s' : env2 s s' -> oth s s'.
Proof. intros F. split; [apply F|]. split; apply F. Qed.
Lemma oth_inc s : oth s (inc_age s).
Proof. apply oth_frame, frame_inc. Qed.
Lemma oth_aged s s' : oth (inc_age s) s' -> oth s s'.
Proof. apply oth_trans, oth_inc. Qed.
Lemma oth_moved s x y : oth s (moved s x y).
Proof. apply oth_env, env_moved. Qed.
Lemma oth_imoved s x y : oth s (moved (inc_age s) x y).
Proof. apply oth_frame, frame_moved. Qed.
Lemma oth_set_lines s ls : oth s (set_lines s ls).
Proof. apply oth_env, env_set_lines. Qed.
Lemma oth_erase s a b c d p : oth s (erase_to s a b c d p).
Proof. apply oth_aged. unfold erase_to, erased. eapply oth_trans; [|apply oth_set_lines]. repeat split. Qed.
Lemma oth_chars s f : oth s (char_edit s f).
Proof.
  unfold char_edit. apply (oth_trans _ (chars_s s)); [|apply oth_set_lines].
  apply oth_aged. unfold chars_s, cursor_in. generalize (inc_age s). intros ?. repeat split.
Qed.
Lemma oth_wrote s s' ch w a : wrote s s' ch w a -> oth s s'.
Proof.
  intros [(s2 & E2 & _ & _ & _ & ->)].
  assert (K1 : oth s (wr_s1 s)) by apply oth_env, env_wr_s1.
  assert (K2 : oth s s2).
  { destruct (wr_last s <? s_cy (wr_s1 s)); [|now subst].
    eapply oth_trans; [exact K1|]. eapply oth_trans; [apply oth_moved|]. apply oth_env2, (su_env _ _ _ E2). }
  eapply oth_trans; [exact K2|]. eapply oth_trans; [apply oth_set_lines|apply oth_moved].
Qed.
Lemma oth_down s n b s' : Inv s -> u32_arg n -> scr_move_down s n b = Ok s' -> oth s s'.
Proof.
  intros H Hn E. destruct (Z.eq_dec n 0) as [->|Hne].
  - unfold scr_move_down in E. change (0 =? 0) with true in E. apply ok_inj in E. subst. apply oth_refl.
  - unfold u32_arg in Hn. pose proof (move_down_ok s n b H ltac:(lia)) as M. cbv zeta in M.
    destruct (_ <? n); [destruct b|].
    + destruct M as (s1 & U & E1 & _). rewrite E1 in E. apply ok_inj in E. subst.
      apply oth_aged. eapply oth_trans; [apply oth_env2; apply U|apply oth_moved].
    + destruct M as (E1 & _). rewrite E1 in E. apply ok_inj in E. subst. apply oth_imoved.
    + destruct M as (E1 & _). rewrite E1 in E. apply ok_inj in E. subst. apply oth_imoved.
Qed.
Lemma oth_up s n b s' : Inv s -> u32_arg n -> scr_move_up s n b = Ok s' -> oth s s'.
Proof.
  intros H Hn E. destruct (Z.eq_dec n 0) as [->|Hne].
  - unfold scr_move_up in E. change (0 =? 0) with true in E. apply ok_inj in E. subst. apply oth_refl.
  - unfold u32_arg in Hn. pose proof (move_up_ok s n b H ltac:(lia)) as M. cbv zeta in M.
    destruct (_ <? n); [destruct b|].
    + destruct M as (s1 & U & E1 & _). rewrite E1 in E. apply ok_inj in E. subst.
      apply oth_aged. eapply oth_trans; [apply oth_env2; apply (sd_env _ _ _ U)|apply oth_moved].
    + destruct M as (E1 & _). rewrite E1 in E. apply ok_inj in E. subst. apply oth_imoved.
    + destruct M as (E1 & _). rewrite E1 in E. apply ok_inj in E. subst. apply oth_imoved.
Qed.
Definition is_rz (o : op) : bool := match o with OResize _ _ => true | _ => false end.
Lemma oth_step s o s' : Inv s -> op_args o -> may_text o = true -> is_rz o = false -> step s o = Ok s' -> oth s s'.
Proof.
  intros H Ha M Hr E. destruct o; try discriminate M; try discriminate Hr; cbn [step] in E;
    try (cbn [op_args] in Ha; unfold u32_arg in Ha).
  - destruct (scr_width_ok ch) as (w & Ew & Hw). destruct (Z.eq_dec w 0) as [->|Hne].
    + unfold scr_write in E. rewrite Ew in E. apply ok_inj in E. subst. apply oth_refl.
    + destruct (Bool.bool_dec (fl s F_INSERT && (s_sx s <? w)) true) as [Hb|Hb].
      * assert (U : step s (OWrite ch a) = Ub).
        { apply hazard_ub; auto. cbn [op_hazard]. pose proof (i_sx _ (proj1 H)). repeat split; [now destruct (fl s F_INSERT)|lia|]. rewrite Ew. f_equal. lia. }
        cbn [step] in U. congruence.
      * destruct (scr_write_ok s ch a w H Ew ltac:(lia)) as (s1 & E1 & W & _).
        { intros X. rewrite X in Hb. cbn [andb] in Hb. lia. }
        rewrite E1 in E. apply ok_inj in E. subst. apply oth_aged. now apply (oth_wrote _ _ ch w a).
  - unfold scr_newline in E.
    assert (H1 : u32_arg 1) by (unfold u32_arg; lia).
    destruct (move_down_law (inc_age s) 1 true (Inv_inc s H) H1) as (s1 & E1 & I1 & _).
    rewrite E1 in E. cbn [bind] in E. pose proof (oth_down (inc_age s) 1 true s1 (Inv_inc s H) H1 E1) as K.
    destruct (line_home_ok s1 I1) as [E2 _]. rewrite E2 in E. apply ok_inj in E. subst.
    apply oth_aged. eapply oth_trans; [exact K|]. apply oth_imoved.
  - unfold scr_scroll_up in E. destruct (n =? 0) eqn:En; [apply ok_inj in E; subst; apply oth_refl|].
    destruct (scroll_call_up s n H ltac:(lia)) as (s1 & E1 & U & _). rewrite E in E1. apply ok_inj in E1. subst s1.
    apply oth_aged, oth_env2, (su_env _ _ _ U).
  - unfold scr_scroll_down in E. destruct (n =? 0) eqn:En; [apply ok_inj in E; subst; apply oth_refl|].
    destruct (scroll_call_down s n H ltac:(lia)) as (s1 & E1 & U & _). rewrite E in E1. apply ok_inj in E1. subst s1.
    apply oth_aged, oth_env2, (sd_env _ _ _ U).
  - now apply (oth_up s n b).
  - now apply (oth_down s n b).
  - unfold scr_insert_lines in E. destruct (n =? 0) eqn:En; [apply ok_inj in E; subst; apply oth_refl|].
    destruct ((s_cy s <? s_mt s) || (s_mb s <? s_cy s)) eqn:Er; [apply ok_inj in E; subst; apply oth_refl|].
    destruct (insert_lines_ok s n H ltac:(lia) ltac:(lia)) as (ls' & E1 & _).
    unfold scr_insert_lines in E1. rewrite En, Er in E1. rewrite E in E1. apply ok_inj in E1. rewrite <- E1. clear.
    apply oth_aged. eapply oth_trans; [|eapply oth_trans; [apply (oth_set_lines (age_all (inc_age s)) ls')|]]; repeat split.
  - unfold scr_delete_lines in E. destruct (n =? 0) eqn:En; [apply ok_inj in E; subst; apply oth_refl|].
    destruct ((s_cy s <? s_mt s) || (s_mb s <? s_cy s)) eqn:Er; [apply ok_inj in E; subst; apply oth_refl|].
    destruct (delete_lines_ok s n H ltac:(lia) ltac:(lia)) as (ls' & E1 & _).
    unfold scr_delete_lines in E1. rewrite En, Er in E1. rewrite E in E1. apply ok_inj in E1. rewrite <- E1. clear.
    apply oth_aged. eapply oth_trans; [|eapply oth_trans; [apply (oth_set_lines (age_all (inc_age s)) ls')|]]; repeat split.
  - destruct (Z.eq_dec n 0) as [->|]; [apply ok_inj in E; subst; apply oth_refl|].
    destruct (insert_chars_ok s n H ltac:(lia)) as [E1 _]. cbv zeta in E1. rewrite E1 in E. apply ok_inj in E. subst s'. apply oth_chars.
  - destruct (Z.eq_dec n 0) as [->|]; [apply ok_inj in E; subst; apply oth_refl|].
    destruct (delete_chars_ok s n H ltac:(lia)) as [E1 _]. cbv zeta in E1. rewrite E1 in E. apply ok_inj in E. subst s'. apply oth_chars.
  - destruct (erase_cursor_ok s H) as [E1 _]. rewrite E1 in E. apply ok_inj in E. subst s'. apply oth_erase.
  - destruct (Z.eq_dec n 0) as [->|]; [apply ok_inj in E; subst; apply oth_refl|].
    destruct (erase_chars_ok s n H ltac:(lia)) as [E1 _]. rewrite E1 in E. apply ok_inj in E. subst s'. apply oth_erase.
  - destruct (erase_to_end_ok s p H) as [E1 _]. rewrite E1 in E. apply ok_inj in E. subst s'. apply oth_erase.
  - destruct (erase_home_ok s p H) as [E1 _]. rewrite E1 in E. apply ok_inj in E. subst s'. apply oth_erase.
  - destruct (erase_line_ok s p H) as [E1 _]. rewrite E1 in E. apply ok_inj in E. subst s'. apply oth_erase.
  - destruct (erase_screen_to_cursor_ok s p H) as [E1 _]. rewrite E1 in E. apply ok_inj in E. subst s'. apply oth_erase.
  - destruct (erase_cursor_to_screen_ok s p H) as [E1 _]. rewrite E1 in E. apply ok_inj in E. subst s'. apply oth_erase.
  - destruct (erase_screen_ok s p H) as [E1 _]. rewrite E1 in E. apply ok_inj in E. subst s'. apply oth_erase.
Qed.

(* def_attr_main over the remaining calls. *)
Lemma defm_aged s s' : s_defm s' = s_defm (inc_age s) -> s_defm s' = s_defm s.
Proof. intros ->. apply (oth_inc s). Qed.
Lemma defm_imoved s x y : s_defm (moved (inc_age s) x y) = s_defm s.
Proof. apply (oth_imoved s). Qed.
Lemma defm_viewed s v pn : s_defm (viewed (aged s) v pn) = s_defm s.
Proof. apply defm_aged. unfold viewed, aged. generalize (inc_age s). intros ?. reflexivity. Qed.
Lemma defm_step s o s' : Inv s -> op_args o -> may_text o = false -> (forall f, o <> OSetFlags f) -> step s o = Ok s' -> s_defm s' = s_defm s.
Proof.
  intros H Ha M Hf E. destruct o; try discriminate M;
    try (lazymatch type of E with step _ OReset = _ => idtac | step _ OClearSb = _ => idtac | _ => cbn [step] in E end);
    try (cbn [op_args] in Ha; unfold u32_arg in Ha).
  - destruct Ha as [Ha1 Ha2]. apply ok_inj in E. destruct (set_margins_ok s t b H Ha1 Ha2) as [M1 _]. cbv zeta in M1. rewrite M1 in E. clear M1.
    subst s'. destruct (_ && _); reflexivity.
  - destruct (set_max_sb_ok s n H Ha) as (s1 & T & E1 & _). rewrite E1 in E. apply ok_inj in E. subst s'. clear E1.
    change (s_defm (set_sbmax s1 n)) with (s_defm s1). rewrite (f_defm _ _ (tr_env _ _ _ T)). apply defm_aged. reflexivity.
  - rewrite step_clear, SelectionFollow.clear_sb_eq in E. apply ok_inj in E. subst s'. apply defm_aged.
    unfold SelectionFollow.no_sb, aged. generalize (inc_age s). intros t. unfold sel_map. match goal with |- context [if ?b then _ else _] => destruct b end; reflexivity.
  - destruct (Z.eq_dec n 0) as [->|]; [apply ok_inj in E; now subst|].
    destruct (sb_up_ok s n H ltac:(lia)) as (pn & E1 & _). rewrite E1 in E. apply ok_inj in E. subst s'. apply defm_viewed.
  - destruct (Z.eq_dec n 0) as [->|]; [apply ok_inj in E; now subst|].
    destruct (sb_down_ok s n H ltac:(lia)) as (pn & E1 & _). rewrite E1 in E. apply ok_inj in E. subst s'. apply defm_viewed.
  - unfold scr_sb_page_up in E. destruct (n =? 0); [apply ok_inj in E; now subst|]. cbv zeta in E.
    pose proof (u32_range (n * s_sy (inc_age s))) as R. set (m := u32 (n * s_sy (inc_age s))) in *. clearbody m.
    apply defm_aged. destruct (Z.eq_dec m 0) as [->|]; [apply ok_inj in E; now subst|].
    destruct (sb_up_ok (inc_age s) m (Inv_inc s H) ltac:(lia)) as (pn & E1 & _). rewrite E1 in E. apply ok_inj in E. subst s'. apply defm_viewed.
  - unfold scr_sb_page_down in E. destruct (n =? 0); [apply ok_inj in E; now subst|]. cbv zeta in E.
    pose proof (u32_range (n * s_sy (inc_age s))) as R. set (m := u32 (n * s_sy (inc_age s))) in *. clearbody m.
    apply defm_aged. destruct (Z.eq_dec m 0) as [->|]; [apply ok_inj in E; now subst|].
    destruct (sb_down_ok (inc_age s) m (Inv_inc s H) ltac:(lia)) as (pn & E1 & _). rewrite E1 in E. apply ok_inj in E. subst s'. apply defm_viewed.
  - apply ok_inj in E. destruct (sb_reset_ok s H) as (_ & _ & R1 & R2).
    destruct (s_sbpos s) eqn:Ep; [rewrite R2 in E by congruence|rewrite R1 in E by congruence]; subst s'; [apply defm_viewed|reflexivity].
  - apply ok_inj in E. subst s'. reflexivity.
  - rewrite step_reset in E. destruct (reset_ok s H) as [E1 _]. rewrite E1 in E. apply ok_inj in E. rewrite E. clear. apply defm_aged.
    unfold reset_to, aged. generalize (inc_age s). intros ?. reflexivity.
  - now destruct (Hf f).
  - destruct (Z.eq_dec f 0) as [->|]; [apply ok_inj in E; now subst|].
    destruct (reset_flags_ok s f H ltac:(lia)) as [E1 I1]. rewrite E1 in E. apply ok_inj in E. clear E1 I1. subst s'. apply defm_aged.
    unfold flags_reset, fl_end, fl_alt, touched. cbv zeta.
    repeat match goal with |- context [if ?b then _ else _] => destruct b end; reflexivity.
  - destruct (tabstop_ok true s H) as [E1 _]. cbv zeta in E1. rewrite E1 in E. apply ok_inj in E. subst s'.
    match goal with |- context [if ?b then _ else _] => destruct b end; reflexivity.
  - destruct (tabstop_ok false s H) as [E1 _]. cbv zeta in E1. rewrite E1 in E. apply ok_inj in E. subst s'.
    match goal with |- context [if ?b then _ else _] => destruct b end; reflexivity.
  - destruct (reset_all_tabstops_ok s H) as [E1 _]. cbv zeta in E1. rewrite E1 in E. apply ok_inj in E. subst s'. reflexivity.
  - destruct (move_to_ok s x y H ltac:(lia) ltac:(lia)) as [E1 _]. rewrite E1 in E. apply ok_inj in E. subst s'. apply defm_imoved.
  - apply (oth_up s n b s' H Ha E).
  - apply (oth_down s n b s' H Ha E).
  - destruct (Z.eq_dec n 0) as [->|]; [apply ok_inj in E; now subst|].
    destruct (move_left_ok s n H ltac:(lia)) as [E1 _]. rewrite E1 in E. apply ok_inj in E. subst s'. apply defm_imoved.
  - destruct (Z.eq_dec n 0) as [->|]; [apply ok_inj in E; now subst|].
    destruct (move_right_ok s n H ltac:(lia)) as [E1 _]. rewrite E1 in E. apply ok_inj in E. subst s'. apply defm_imoved.
  - destruct (line_end_ok s H) as [E1 _]. rewrite E1 in E. apply ok_inj in E. subst s'. apply defm_imoved.
  - destruct (line_home_ok s H) as [E1 _]. rewrite E1 in E. apply ok_inj in E. subst s'. apply defm_imoved.
  - destruct (Z.eq_dec n 0) as [->|]; [apply ok_inj in E; now subst|].
    destruct (tab_right_ok s n H ltac:(lia)) as (x & E1 & _). rewrite E1 in E. apply ok_inj in E. subst s'. apply defm_imoved.
  - destruct (Z.eq_dec n 0) as [->|]; [apply ok_inj in E; now subst|].
    destruct (Z_lt_le_dec (zlen (s_tabs s)) (s_cx s)).
    { rewrite (tab_left_ub s n H) in E; [discriminate|lia|unfold tab_fits; lia]. }
    destruct (tab_left_ok s n H ltac:(lia)) as (x & E1 & _); [unfold tab_fits; lia|]. rewrite E1 in E. apply ok_inj in E. subst s'. apply defm_imoved.
  - apply ok_inj in E. subst s'. apply defm_aged. reflexivity.
  - destruct (sel_start_ok s x y H ltac:(lia)) as [E1 _]. cbv zeta in E1. rewrite E1 in E. apply ok_inj in E. clear E1. subst s'.
    generalize (sel_at (aged s) x y). intros q. apply defm_aged. reflexivity.
  - destruct (sel_target_ok s x y H ltac:(lia)) as [E1 _]. cbv zeta in E1. rewrite E1 in E. apply ok_inj in E. clear E1. subst s'.
    destruct (s_sela s); [|reflexivity]. generalize (sel_at (aged s) x y). intros q. apply defm_aged. reflexivity.
Qed.

(* -- quantities that depend on the page only --------------------------------- *)
Section Derived.
  Context (s t : screen) (P : same_page s t).
  Lemma pg_fl n : fl t n = fl s n.
  Proof. unfold fl. now rewrite (pg_flags _ _ P). Qed.
  Lemma pg_floor : floor_row t = floor_row s.
  Proof. unfold floor_row. now rewrite (pg_cy _ _ P), (pg_mb _ _ P), (pg_sy _ _ P). Qed.
  Lemma pg_ceil : ceil_row t = ceil_row s.
  Proof. unfold ceil_row. now rewrite (pg_cy _ _ P), (pg_mt _ _ P). Qed.
  Lemma pg_region : region t = region s.
  Proof. unfold region. now rewrite (pg_mt _ _ P), (pg_mb _ _ P). Qed.
  Lemma pg_col : cursor_col t = cursor_col s.
  Proof. unfold cursor_col. now rewrite (pg_cx _ _ P), (pg_sx _ _ P). Qed.
  Lemma pg_over_down n : over_down t n = over_down s n.
  Proof. unfold over_down. now rewrite pg_floor, pg_region, (pg_cy _ _ P). Qed.
  Lemma pg_over_up n : over_up t n = over_up s n.
  Proof. unfold over_up. now rewrite pg_ceil, pg_region, (pg_cy _ _ P). Qed.
  Lemma pg_wraps : wraps t = wraps s.
  Proof. unfold wraps. now rewrite (pg_cx _ _ P), (pg_sx _ _ P), pg_fl. Qed.
  Lemma pg_scrolls : write_scrolls t = write_scrolls s.
  Proof. unfold write_scrolls. now rewrite pg_wraps, pg_floor, (pg_cy _ _ P). Qed.
  Lemma pg_wcol : write_col t = write_col s.
  Proof. unfold write_col. now rewrite (pg_cx _ _ P), (pg_sx _ _ P), pg_fl. Qed.
  Lemma pg_wrow : write_row t = write_row s.
  Proof. unfold write_row. now rewrite pg_wraps, pg_scrolls, (pg_cy _ _ P). Qed.
  Lemma pg_on y x : on_screen t y x <-> on_screen s y x.
  Proof. unfold on_screen. now rewrite (pg_sx _ _ P), (pg_sy _ _ P). Qed.
  Context (H : Inv s) (H' : Inv t).
  Lemma pg_tlen : zlen (s_tabs t) < s_cx s <-> zlen (s_tabs s) < s_cx s.
  Proof.
    destruct H as (H0 & Hx & _). destruct H' as (H0' & _). pose proof (i_cx _ H0). pose proof (i_tabs _ H0). pose proof (i_sx _ H0).
    pose proof (pg_tabs _ _ P (s_cx s - 1) ltac:(lia)) as E.
    pose proof (i_tabs _ H0') as T. pose proof (pg_sx _ _ P).
    destruct (znth (s_tabs s) (s_cx s - 1)) eqn:E1.
    - apply znth_Some_range in E, E1. lia.
    - apply znth_None_range in E, E1. lia.
  Qed.
  Lemma pg_hazard o : op_hazard t o <-> op_hazard s o.
  Proof. destruct o; cbn [op_hazard]; try reflexivity; [rewrite pg_fl, (pg_sx _ _ P); reflexivity|rewrite (pg_cx _ _ P), pg_tlen; reflexivity]. Qed.
  Lemma pg_at y x : on_screen s y x -> at_ t y x = at_ s y x.
  Proof.
    intros O. rewrite (at_active s (proj1 H)), (at_active t (proj1 H')), pg_fl. destruct (fl s F_ALT); [now apply (pg_alt _ _ P)|now apply (pg_main _ _ P)].
  Qed.
  Lemma pg_shift_up a b n y x : on_screen s y x -> 0 <= n -> 0 <= a -> b < s_sy s -> shift_up t a b n y x = shift_up s a b n y x.
  Proof.
    intros O Hn Ha Hb. unfold shift_up. rewrite (pg_def _ _ P), (pg_at y x) by auto. destruct (_ && _) eqn:E; [|reflexivity].
    destruct (y + n <=? b) eqn:E2; [|reflexivity]. apply pg_at. unfold on_screen in *. lia.
  Qed.
  Lemma pg_shift_down a b n y x : on_screen s y x -> 0 <= n -> 0 <= a -> b < s_sy s -> shift_down t a b n y x = shift_down s a b n y x.
  Proof.
    intros O Hn Ha Hb. unfold shift_down. rewrite (pg_def _ _ P), (pg_at y x) by auto. destruct (_ && _) eqn:E; [|reflexivity].
    destruct (a + n <=? y) eqn:E2; [|reflexivity]. apply pg_at. unfold on_screen in *. lia.
  Qed.
  Lemma pg_erase r p y x : on_screen s y x -> erase_spec t r p y x = erase_spec s r p y x.
  Proof. intros O. unfold erase_spec. now rewrite (pg_def _ _ P), (pg_at y x). Qed.
  Lemma pg_write ch w a y x : on_screen s y x -> 1 <= w -> write_spec t ch w a y x = write_spec s ch w a y x.
  Proof.
    intros O Hw. assert (B : forall y x, on_screen s y x -> before_write t y x = before_write s y x).
    { intros y0 x0 O0. unfold before_write. rewrite pg_scrolls, (pg_mt _ _ P), (pg_mb _ _ P). destruct (write_scrolls s); [|now apply pg_at].
      pose proof (i_mt _ (proj1 H)). pose proof (i_mb _ (proj1 H)). apply pg_shift_up; auto; lia. }
    assert (C : 0 <= write_col s).
    { unfold write_col. pose proof (i_cx _ (proj1 H)). pose proof (i_sx _ (proj1 H)). destruct (_ <? _); [lia|]. destruct (fl s F_WRAP); lia. }
    unfold write_spec. rewrite pg_wrow, pg_wcol, !pg_fl. rewrite (B y x) by auto.
    destruct (y =? write_row s) eqn:E1; [|reflexivity]. destruct (x <? write_col s) eqn:E2; [reflexivity|].
    destruct (x =? write_col s); [reflexivity|]. destruct (x <? write_col s + w) eqn:E3; [reflexivity|].
    destruct (fl s F_INSERT); [|reflexivity]. apply B. unfold on_screen in *. lia.
  Qed.
End Derived.

Lemma page_still o s t s' t' : may_text o = false -> same_page s t ->
  same_text s s' -> same_text t t' ->
  s_sx s' = s_sx s -> s_sy s' = s_sy s ->
  s_sx t' = s_sx s' -> s_sy t' = s_sy s' -> s_flags t' = s_flags s' -> s_mt t' = s_mt s' -> s_mb t' = s_mb s' ->
  s_def t' = s_def s' -> s_defm t' = s_defm s' -> (forall k, k <= s_sx s' -> znth (s_tabs t') k = znth (s_tabs s') k) -> s_cx t' = s_cx s' -> s_cy t' = s_cy s' ->
  same_page s' t'.
Proof.
  intros _ P T T' A B. intros. constructor; auto; intros y x O.
  - rewrite (proj1 (T' y x)), (proj1 (T y x)). apply (pg_main _ _ P). unfold on_screen in *. now rewrite <- A, <- B.
  - rewrite (proj2 (T' y x)), (proj2 (T y x)). apply (pg_alt _ _ P). unfold on_screen in *. now rewrite <- A, <- B.
Qed.
Lemma page_edit o s t s' t' : may_text o = true -> is_rz o = false -> same_page s t -> Inv s -> Inv t -> Inv s' -> Inv t' ->
  framed o s s' -> framed o t t' -> oth s s' -> oth t t' ->
  s_cx t' = s_cx s' -> s_cy t' = s_cy s' -> (forall y x, on_screen s y x -> at_ t' y x = at_ s' y x) -> same_page s' t'.
Proof.
  intros M R P H H' I I' F F' (O1 & O2 & O3) (Q1 & Q2 & Q3) Cx Cy A.
  assert (X : may_size o = false /\ may_flags o = false /\ may_margins o = false /\ may_def o = false /\ may_tabs o = false)
    by (destruct o; try discriminate M; try discriminate R; auto).
  destruct X as (X1 & X2 & X3 & X4 & X5). destruct F as [F1 F2 F3 F4 F5 _ _ _ _ _]. destruct F' as [G1 G2 G3 G4 G5 _ _ _ _ _].
  destruct (F1 X1) as [F1a F1b]. destruct (F3 X3) as [F3a F3b]. destruct (G1 X1) as [G1a G1b]. destruct (G3 X3) as [G3a G3b].
  specialize (F2 X2). specialize (F4 X4). specialize (F5 X5). specialize (G2 X2). specialize (G4 X4). specialize (G5 X5).
  assert (FS : fl s' F_ALT = fl s F_ALT) by (unfold fl; congruence).
  assert (FT : fl t' F_ALT = fl s F_ALT) by (rewrite <- (pg_fl s t P); unfold fl; congruence).
  assert (AA : forall y x, on_screen s' y x -> at_ t' y x = at_ s' y x) by (intros y x O; apply A; unfold on_screen in *; congruence).
  pose proof (at_active s' (proj1 I)) as S1. pose proof (at_active t' (proj1 I')) as S2. rewrite FS in S1. rewrite FT in S2.
  pose proof (i_act _ (proj1 H)) as A1. pose proof (i_act _ (proj1 H')) as A2. rewrite (pg_fl s t P) in A2.
  rewrite A1 in O3. rewrite A2 in Q3.
  destruct P as [P1 P2 P3 P4 P5 P6 P7 P8 P9 P10 P11 P12].
  assert (ON : forall y x, on_screen s' y x -> on_screen s y x) by (intros y x; unfold on_screen; now rewrite F1a, F1b).
  constructor; try congruence; [intros k Hk; rewrite F5, G5; apply P8; lia| |]; intros y x O.
  - destruct (fl s F_ALT).
    + unfold main_at. rewrite Q3, O3. apply P11; auto.
    + rewrite <- S1, <- S2. auto.
  - destruct (fl s F_ALT).
    + rewrite <- S1, <- S2. auto.
    + unfold alt_at. rewrite Q3, O3. apply P12; auto.
Qed.

(* -- cursor and picture after the calls that edit ------------------------------ *)
Definition eff (o : op) (s t s' t' : screen) : Prop :=
  s_cx t' = s_cx s' /\ s_cy t' = s_cy s' /\ forall y x, on_screen s y x -> at_ t' y x = at_ s' y x.
Lemma eff_same o s t : same_page s t -> Inv s -> Inv t -> eff o s t s t.
Proof. intros P H H'. split; [apply P|]. split; [apply P|]. intros. now apply pg_at. Qed.
Lemma eff_erases o s t r r' p s' t' : same_page s t -> Inv s -> Inv t -> (forall y x, r' y x = r y x) ->
  erases s o r p -> erases t o r' p -> step s o = Ok s' -> step t o = Ok t' -> eff o s t s' t'.
Proof.
  intros P H H' R (s1 & E1 & A & B & C) (t1 & E2 & A' & B' & C') E E'. rewrite E1 in E. rewrite E2 in E'. apply ok_inj in E. apply ok_inj in E'. subst.
  split; [rewrite A, A'; apply P|]. split; [rewrite B, B'; apply P|]. intros y x O. rewrite C by auto. rewrite C' by now apply (pg_on s t P).
  rewrite <- (pg_erase s t P H H') by auto. now apply erase_spec_ext.
Qed.
Lemma eff_step o s t s' t' : may_text o = true -> is_rz o = false -> op_args o -> same_page s t -> Inv s -> Inv t ->
  step s o = Ok s' -> step t o = Ok t' -> eff o s t s' t'.
Proof.
  intros M Hr Ha P H H' E E'. pose proof (i_mt _ (proj1 H)) as Hmt. pose proof (i_mb _ (proj1 H)) as Hmb. pose proof (i_cy _ (proj1 H)) as Hcy. pose proof (i_cx _ (proj1 H)) as Hcx.
  pose proof (i_sx _ (proj1 H)) as Hsx.
  destruct o; try discriminate M; try discriminate Hr; try (cbn [op_args] in Ha).
  - destruct (scr_width_ok ch) as (w & Ew & Hw). destruct (Z.eq_dec w 0) as [->|Hne].
    + rewrite write_zero_law in E by auto. rewrite write_zero_law in E' by auto. apply ok_inj in E. apply ok_inj in E'. subst. now apply eff_same.
    + assert (W : write_fits s w).
      { intros X. destruct (Z_lt_le_dec (s_sx s) w); [|lia]. assert (U : step s (OWrite ch a) = Ub).
        { apply hazard_ub; auto. cbn [op_hazard]. repeat split; [auto|lia|]. rewrite Ew. f_equal. lia. }
        congruence. }
      assert (W' : write_fits t w) by (unfold write_fits in *; now rewrite (pg_fl s t P), (pg_sx _ _ P)).
      destruct (write_law s ch a w H Ew ltac:(lia) W) as (s1 & E1 & A & B & C).
      destruct (write_law t ch a w H' Ew ltac:(lia) W') as (t1 & E2 & A' & B' & C').
      rewrite E1 in E. rewrite E2 in E'. apply ok_inj in E. apply ok_inj in E'. subst.
      split; [rewrite A, A'; f_equal; now apply pg_wcol|]. split; [rewrite B, B'; now apply pg_wrow|].
      intros y x O. rewrite C by auto. rewrite C' by now apply (pg_on s t P). apply (pg_write s t P H H'); auto. lia.
  - cbn [step] in E, E'. unfold scr_newline in E, E'.
    assert (H1 : u32_arg 1) by (unfold u32_arg; lia).
    assert (PI : same_page (inc_age s) (inc_age t)).
    { apply (page_trans _ s); [|apply (page_trans _ t); auto]; [apply page_sym|]; pose proof (frame_inc s) as F; pose proof (frame_inc t) as G;
      pose proof (same_text_inc s) as T; pose proof (same_text_inc t) as T'; (constructor; [apply F|apply F|apply F|apply F|apply F|apply F|apply F|intros; now rewrite (g_tabs _ _ F)|apply inc_cx|apply inc_cy|intros; apply T|intros; apply T]) ||
      (constructor; [apply G|apply G|apply G|apply G|apply G|apply G|apply G|intros; now rewrite (g_tabs _ _ G)|apply inc_cx|apply inc_cy|intros; apply T'|intros; apply T']). }
    destruct (move_down_law (inc_age s) 1 true (Inv_inc s H) H1) as (s1 & E1 & I1 & A1 & A2 & A3 & A4 & A5 & _ & A6).
    destruct (move_down_law (inc_age t) 1 true (Inv_inc t H') H1) as (t1 & E2 & I2 & B1 & B2 & B3 & B4 & B5 & _ & B6).
    rewrite E1 in E. rewrite E2 in E'. cbn [bind] in E, E'.
    destruct (line_home_ok s1 I1) as [F1 _]. destruct (line_home_ok t1 I2) as [F2 _]. rewrite F1 in E. rewrite F2 in E'.
    apply ok_inj in E. apply ok_inj in E'. subst s' t'.
    split; [now rewrite !moved_cx|]. split; [rewrite !moved_cy, A2, B2, (pg_floor _ _ PI), (pg_cy _ _ PI); reflexivity|].
    intros y x O. rewrite !at_moved, !at_inc, A6, B6 by (apply on_screen_inc; auto; now apply (pg_on s t P)).
    rewrite (pg_mt _ _ PI), (pg_mb _ _ PI), (pg_over_down _ _ PI). apply (pg_shift_up _ _ PI (Inv_inc s H) (Inv_inc t H')).
    + now apply on_screen_inc.
    + unfold over_down, region. rewrite (g_mt _ _ (frame_inc s)), (g_mb _ _ (frame_inc s)). lia.
    + rewrite (g_mt _ _ (frame_inc s)). lia.
    + rewrite (g_mb _ _ (frame_inc s)), inc_sy. lia.
  - destruct (scroll_up_law s n H Ha) as (s1 & E1 & A & B & C). destruct (scroll_up_law t n H' Ha) as (t1 & E2 & A' & B' & C').
    rewrite E1 in E. rewrite E2 in E'. apply ok_inj in E. apply ok_inj in E'. subst.
    split; [rewrite A, A'; apply P|]. split; [rewrite B, B'; apply P|]. intros y x O. rewrite C by auto. rewrite C' by now apply (pg_on s t P).
    rewrite (pg_mt _ _ P), (pg_mb _ _ P), (pg_region _ _ P). unfold u32_arg in Ha. apply (pg_shift_up s t P H H'); auto; unfold region; lia.
  - destruct (scroll_down_law s n H Ha) as (s1 & E1 & A & B & C). destruct (scroll_down_law t n H' Ha) as (t1 & E2 & A' & B' & C').
    rewrite E1 in E. rewrite E2 in E'. apply ok_inj in E. apply ok_inj in E'. subst.
    split; [rewrite A, A'; apply P|]. split; [rewrite B, B'; apply P|]. intros y x O. rewrite C by auto. rewrite C' by now apply (pg_on s t P).
    rewrite (pg_mt _ _ P), (pg_mb _ _ P), (pg_region _ _ P). unfold u32_arg in Ha. apply (pg_shift_down s t P H H'); auto; unfold region; lia.
  - destruct (move_up_law s n b H Ha) as (s1 & E1 & I1 & A1 & A2 & A3 & A4 & A5 & _ & A6).
    destruct (move_up_law t n b H' Ha) as (t1 & E2 & I2 & B1 & B2 & B3 & B4 & B5 & _ & B6).
    cbn [step] in E, E'. rewrite E1 in E. rewrite E2 in E'. apply ok_inj in E. apply ok_inj in E'. subst.
    split; [rewrite A1, B1; apply P|]. split; [rewrite A2, B2, (pg_ceil _ _ P), (pg_cy _ _ P); reflexivity|].
    intros y x O. rewrite A6 by auto. rewrite B6 by now apply (pg_on s t P). destruct b; [|now apply pg_at].
    rewrite (pg_mt _ _ P), (pg_mb _ _ P), (pg_over_up _ _ P). apply (pg_shift_down s t P H H'); auto; unfold over_up, region; lia.
  - destruct (move_down_law s n b H Ha) as (s1 & E1 & I1 & A1 & A2 & A3 & A4 & A5 & _ & A6).
    destruct (move_down_law t n b H' Ha) as (t1 & E2 & I2 & B1 & B2 & B3 & B4 & B5 & _ & B6).
    cbn [step] in E, E'. rewrite E1 in E. rewrite E2 in E'. apply ok_inj in E. apply ok_inj in E'. subst.
    split; [rewrite A1, B1; apply P|]. split; [rewrite A2, B2, (pg_floor _ _ P), (pg_cy _ _ P); reflexivity|].
    intros y x O. rewrite A6 by auto. rewrite B6 by now apply (pg_on s t P). destruct b; [|now apply pg_at].
    rewrite (pg_mt _ _ P), (pg_mb _ _ P), (pg_over_down _ _ P). apply (pg_shift_up s t P H H'); auto; unfold over_down, region; lia.
  - destruct (Z.eq_dec n 0) as [->|Hn0].
    { cbn [step] in E, E'. unfold scr_insert_lines in E, E'. change (0 =? 0) with true in *. apply ok_inj in E. apply ok_inj in E'. subst. now apply eff_same. }
    destruct (Z_le_dec (s_mt s) (s_cy s)); [destruct (Z_le_dec (s_cy s) (s_mb s))|].
    2:{ rewrite (proj1 (lines_outside s n ltac:(lia))) in E. rewrite (proj1 (lines_outside t n ltac:(rewrite (pg_mt _ _ P), (pg_mb _ _ P), (pg_cy _ _ P); lia))) in E'.
        apply ok_inj in E. apply ok_inj in E'. subst. now apply eff_same. }
    2:{ rewrite (proj1 (lines_outside s n ltac:(lia))) in E. rewrite (proj1 (lines_outside t n ltac:(rewrite (pg_mt _ _ P), (pg_mb _ _ P), (pg_cy _ _ P); lia))) in E'.
        apply ok_inj in E. apply ok_inj in E'. subst. now apply eff_same. }
    unfold u32_arg in Ha. destruct (insert_lines_law s n H Ha ltac:(lia) ltac:(lia)) as (s1 & E1 & A & B & C).
    destruct (insert_lines_law t n H' Ha ltac:(lia) ltac:(rewrite (pg_mt _ _ P), (pg_mb _ _ P), (pg_cy _ _ P); lia)) as (t1 & E2 & A' & B' & C').
    rewrite E1 in E. rewrite E2 in E'. apply ok_inj in E. apply ok_inj in E'. subst.
    split; [congruence|]. split; [rewrite B, B'; apply P|]. intros y x O. rewrite C by auto. rewrite C' by now apply (pg_on s t P).
    rewrite (pg_cy _ _ P), (pg_mb _ _ P). apply (pg_shift_down s t P H H'); auto; lia.
  - destruct (Z.eq_dec n 0) as [->|Hn0].
    { cbn [step] in E, E'. unfold scr_delete_lines in E, E'. change (0 =? 0) with true in *. apply ok_inj in E. apply ok_inj in E'. subst. now apply eff_same. }
    destruct (Z_le_dec (s_mt s) (s_cy s)); [destruct (Z_le_dec (s_cy s) (s_mb s))|].
    2:{ rewrite (proj2 (lines_outside s n ltac:(lia))) in E. rewrite (proj2 (lines_outside t n ltac:(rewrite (pg_mt _ _ P), (pg_mb _ _ P), (pg_cy _ _ P); lia))) in E'.
        apply ok_inj in E. apply ok_inj in E'. subst. now apply eff_same. }
    2:{ rewrite (proj2 (lines_outside s n ltac:(lia))) in E. rewrite (proj2 (lines_outside t n ltac:(rewrite (pg_mt _ _ P), (pg_mb _ _ P), (pg_cy _ _ P); lia))) in E'.
        apply ok_inj in E. apply ok_inj in E'. subst. now apply eff_same. }
    unfold u32_arg in Ha. destruct (delete_lines_law s n H Ha ltac:(lia) ltac:(lia)) as (s1 & E1 & A & B & C).
    destruct (delete_lines_law t n H' Ha ltac:(lia) ltac:(rewrite (pg_mt _ _ P), (pg_mb _ _ P), (pg_cy _ _ P); lia)) as (t1 & E2 & A' & B' & C').
    rewrite E1 in E. rewrite E2 in E'. apply ok_inj in E. apply ok_inj in E'. subst.
    split; [congruence|]. split; [rewrite B, B'; apply P|]. intros y x O. rewrite C by auto. rewrite C' by now apply (pg_on s t P).
    rewrite (pg_cy _ _ P), (pg_mb _ _ P). apply (pg_shift_up s t P H H'); auto; lia.
  - destruct (Z.eq_dec n 0) as [->|Hn0].
    { cbn [step] in E, E'. unfold scr_insert_chars in E, E'. change (0 =? 0) with true in *. cbn [orb] in *. apply ok_inj in E. apply ok_inj in E'. subst. now apply eff_same. }
    unfold u32_arg in Ha. destruct (insert_chars_law s n H Ha ltac:(lia)) as (s1 & E1 & A & B & C).
    destruct (insert_chars_law t n H' Ha ltac:(lia)) as (t1 & E2 & A' & B' & C').
    rewrite E1 in E. rewrite E2 in E'. apply ok_inj in E. apply ok_inj in E'. subst.
    split; [rewrite A, A'; now apply pg_col|]. split; [rewrite B, B'; apply P|]. intros y x O. rewrite C by auto. rewrite C' by now apply (pg_on s t P).
    rewrite (pg_col _ _ P), (pg_sx _ _ P). unfold chars_in. rewrite (pg_cy _ _ P), (pg_def _ _ P), (pg_at s t P H H' y x O).
    destruct (_ && _) eqn:E3; [|reflexivity]. destruct (x <? _) eqn:E4; [reflexivity|]. apply (pg_at s t P H H'). unfold on_screen, cursor_col in *. lia.
  - destruct (Z.eq_dec n 0) as [->|Hn0].
    { cbn [step] in E, E'. unfold scr_delete_chars in E, E'. change (0 =? 0) with true in *. cbn [orb] in *. apply ok_inj in E. apply ok_inj in E'. subst. now apply eff_same. }
    unfold u32_arg in Ha. destruct (delete_chars_law s n H Ha ltac:(lia)) as (s1 & E1 & A & B & C).
    destruct (delete_chars_law t n H' Ha ltac:(lia)) as (t1 & E2 & A' & B' & C').
    rewrite E1 in E. rewrite E2 in E'. apply ok_inj in E. apply ok_inj in E'. subst.
    split; [rewrite A, A'; now apply pg_col|]. split; [rewrite B, B'; apply P|]. intros y x O. rewrite C by auto. rewrite C' by now apply (pg_on s t P).
    rewrite (pg_col _ _ P), (pg_sx _ _ P). unfold chars_out. rewrite (pg_cy _ _ P), (pg_def _ _ P), (pg_sx _ _ P), (pg_at s t P H H' y x O).
    destruct (_ && _) eqn:E3; [|reflexivity]. destruct (_ <? s_sx s) eqn:E4; [|reflexivity]. apply (pg_at s t P H H'). unfold on_screen, cursor_col in *. lia.
  - refine (eff_erases _ s t _ _ _ s' t' P H H' _ (erase_cursor_law s H) (erase_cursor_law t H') E E'). intros y x. cbv beta. now rewrite (pg_cy _ _ P), (pg_col _ _ P).
  - destruct (Z.eq_dec n 0) as [->|Hn0].
    { cbn [step] in E, E'. unfold scr_erase_chars in E, E'. change (0 =? 0) with true in *. cbn [orb] in *. apply ok_inj in E. apply ok_inj in E'. subst. now apply eff_same. }
    unfold u32_arg in Ha. destruct (erase_chars_ok s n H ltac:(lia)) as [E1 _]. destruct (erase_chars_ok t n H' ltac:(lia)) as [E2 _]. cbv zeta in E1, E2.
    cbn [step] in E, E'. rewrite E1 in E. rewrite E2 in E'. apply ok_inj in E. apply ok_inj in E'. subst.
    split; [rewrite !(proj1 (erase_keep _ _ _ _ _ _)); apply P|]. split; [rewrite !(proj2 (erase_keep _ _ _ _ _ _)); apply P|].
    intros y x O. rewrite (erase_to_at s) by auto. rewrite (erase_to_at t) by (auto; now apply (pg_on s t P)).
    rewrite (pg_erase s t P H H') by auto. apply erase_spec_ext. unfold curx, er_to, er_from. now rewrite (pg_cx _ _ P), (pg_cy _ _ P), (pg_sx _ _ P), (pg_sy _ _ P).
  - refine (eff_erases _ s t _ _ _ s' t' P H H' _ (erase_to_end_law s p H) (erase_to_end_law t p H') E E'). intros y x. unfold reg_right. now rewrite (pg_cy _ _ P), (pg_col _ _ P).
  - refine (eff_erases _ s t _ _ _ s' t' P H H' _ (erase_home_law s p H) (erase_home_law t p H') E E'). intros y x. unfold reg_left. now rewrite (pg_cy _ _ P), (pg_cx _ _ P).
  - refine (eff_erases _ s t _ _ _ s' t' P H H' _ (erase_line_law s p H) (erase_line_law t p H') E E'). intros y x. unfold reg_row. now rewrite (pg_cy _ _ P).
  - refine (eff_erases _ s t _ _ _ s' t' P H H' _ (erase_screen_to_cursor_law s p H) (erase_screen_to_cursor_law t p H') E E'). intros y x. unfold reg_above, reg_left. now rewrite (pg_cy _ _ P), (pg_cx _ _ P).
  - refine (eff_erases _ s t _ _ _ s' t' P H H' _ (erase_cursor_to_screen_law s p H) (erase_cursor_to_screen_law t p H') E E'). intros y x. unfold reg_below, reg_right. now rewrite (pg_cy _ _ P), (pg_col _ _ P).
  - refine (eff_erases _ s t _ _ _ s' t' P H H' _ (erase_screen_law s p H) (erase_screen_law t p H') E E'). reflexivity.
Qed.
