(* Sessions of the widget with and without looking around. *)
From Verif Require Import Base BaseProofs Screen ScreenSpec ScreenResize ScreenInv ScreenSafe Render RenderSpec RenderProofs RenderThms Utf8 Symbol VteData Vte VteKeys VteInv VteSafe
  TwinSpec TwinVteSpec TwinProofs TwinStep TwinVte TwinThms Gadget GadgetSpec GadgetProofs GadgetTwinSpec.

(* q has no looking around, and its terminal is one C27 is about. *)
Record tied (q g : gadget) : Prop := mkTied {
  td_inv : VInv (h_vte q); td_vte : h_vte g = w_con (h_vte q) (v_con (h_vte g)); td_tw : tw None (h_vte q) (v_con (h_vte g));
  td_face : h_face g = h_face q; td_pty : h_pty g = h_pty q; td_pipe : h_pipe g = h_pipe q; td_titles : h_titles g = h_titles q;
  td_cell : forall f, h_face g = Some f -> 0 < fst f /\ 0 < snd f;
  td_x : 0 <= h_x g < 4294967296 * 1024; td_y : 0 <= h_y g < 4294967296 * 1024 }.
Lemma con_con v c c' : w_con (w_con v c) c' = w_con v c'. Proof. destruct v; reflexivity. Qed.
Lemma con_of v c : v_con (w_con v c) = c. Proof. destruct v; reflexivity. Qed.
Lemma out_con v c : v_out (w_con v c) = v_out v. Proof. destruct v; reflexivity. Qed.

(* A screen with the same page in the place of g's. *)
Lemma tied_page q g s : tied q g -> Inv s -> same_page (v_con (h_vte g)) s ->
  forall g', h_vte g' = w_con (h_vte g) s -> h_face g' = h_face g -> h_pty g' = h_pty g -> h_pipe g' = h_pipe g -> h_titles g' = h_titles g -> h_x g' = h_x g -> h_y g' = h_y g -> tied q g'.
Proof.
  intros [T1 T2 T3 T4 T5 T6 T7 T8 T9 T10] I P g' E1 E2 E3 E4 E5 E6 E7. destruct T3 as (P0 & I0 & _ & _). constructor; try congruence.
  - rewrite E1, con_of. rewrite T2. apply con_con.
  - rewrite E1, con_of. split; [exact (page_trans _ _ _ P0 P)|]. split; [exact I0|]. split; [exact I|exact Logic.I].
  - intros f. rewrite E2. apply T8.
Qed.
Lemma served_same g s : h_pty (served g (w_con (h_vte g) s)) = h_pty g /\ h_titles (served g (w_con (h_vte g) s)) = h_titles g.
Proof. unfold served. cbn [h_pty h_titles]. rewrite out_con, skipn_all. cbn. rewrite app_nil_r. split; [destruct (h_pty g); [now rewrite app_nil_r|]|]; reflexivity. Qed.
Lemma look_step s o : keeping o = true -> Inv s -> op_args o -> exists s', step s o = Ok s' /\ Inv s' /\ same_page s s'.
Proof.
  intros K I A. destruct (step_ok s o I A) as (s' & E & I'); [destruct o; try discriminate K; cbn; tauto|]. exists s'. split; [exact E|]. split; [exact I'|]. exact (keep_step s o s' K I A E).
Qed.
(* A call that looks. *)
Lemma tied_served q g o : tied q g -> keeping o = true -> op_args o -> exists v, scr (h_vte g) o = Ok v /\ tied q (served g v) /\ tied q (queue (served g v)) /\ h_sel (served g v) = h_sel g.
Proof.
  intros T K A. pose proof (td_tw _ _ T) as (P & I & I' & _). destruct (look_step _ o K I' A) as (s & E & Is & Ps). exists (w_con (h_vte g) s). unfold scr. rewrite E. split; [reflexivity|].
  destruct (served_same g s) as [S1 S2]. split; [|split; [|reflexivity]]; apply (tied_page q g s T Is Ps); auto.
Qed.
Lemma tied_screen q g o : tied q g -> keeping o = true -> op_args o -> exists g', on_screen g o = Ok g' /\ tied q g' /\ h_sel g' = h_sel g.
Proof. intros T K A. destruct (tied_served q g o T K A) as (v & E & _ & T2 & S). unfold on_screen. rewrite E. eexists. split; [reflexivity|]. split; [exact T2|exact S]. Qed.
Lemma tied_sel q g sel t x y : tied q g -> 0 <= x < 4294967296 * 1024 -> 0 <= y < 4294967296 * 1024 -> tied q (set_sel g sel t x y).
Proof. intros [T1 T2 T3 T4 T5 T6 T7 T8 T9 T10] X Y. constructor; auto. Qed.
Lemma cell_in pos size : 0 < size -> 0 <= pos < 4294967296 * 1024 -> exists c, to_cell pos size = Ok c /\ 0 <= c < 4294967296.
Proof.
  intros S P. unfold to_cell. replace (size =? 0) with false by lia. cbv zeta.
  assert (Q : Z.quot pos (1024 * size) = pos / (1024 * size)) by (apply Z.quot_div_nonneg; lia). rewrite Q.
  pose proof (Z.div_pos pos (1024 * size) ltac:(lia) ltac:(lia)). pose proof (Z.div_lt_upper_bound pos (1024 * size) 4294967296 ltac:(lia) ltac:(nia)).
  replace ((0 <=? _) && (_ <? _)) with true by lia. eexists. split; [reflexivity|lia].
Qed.
Lemma tied_call q g f b x y : tied q g -> 0 < fst f -> 0 < snd f -> 0 <= x < 4294967296 * 1024 -> 0 <= y < 4294967296 * 1024 -> exists g', sel_call g f b x y = Ok g' /\ tied q g'.
Proof.
  intros T F1 F2 X Y. unfold sel_call. destruct (cell_in x _ F1 X) as (cx & -> & Rx). cbn [bind]. destruct (cell_in y _ F2 Y) as (cy & -> & Ry). cbn [bind].
  destruct (tied_screen q g (if b then OSelStart cx cy else OSelTarget cx cy) T) as (g' & E & T' & _); [destruct b; reflexivity|destruct b; cbn; unfold u32_arg; lia|]. eauto.
Qed.
Lemma scroll_watch state tr o : scrolls state tr o -> keeping o = true /\ op_args o.
Proof.
  intros (key & cmod & _ & _ & K). unfold scroll_keys in K. cbn in K. repeat (destruct K as [K|K]; [injection K as <- <-; cbn; unfold u32_arg; split; [reflexivity|lia]|]). destruct K.
Qed.
Lemma looking_tied sg q g e : tied q g -> onlooking e -> gev_ok e -> exists g', on_gev sg g e = Ok g' /\ tied q g'.
Proof.
  intros T O A. destruct e as [pressed state keyval tr ucs4|k button time x y|x y|bs|n| |w hh|n|width height| ]; try contradiction O; cbn [on_gev].
  - destruct O as [-> (o & S)]. unfold on_key. cbn [negb]. rewrite (proj2 (scroll_iff state tr o) S). destruct (scroll_watch state tr o S) as [K Ka].
    destruct (tied_screen q g o T K Ka) as (g' & E & T' & _). eauto.
  - cbn in A. unfold on_button. destruct (negb (button =? 1)); [eauto|]. destruct (h_face g) as [f|] eqn:F; [|eauto]. destruct (td_cell _ _ T f F) as [F1 F2]. pose proof (td_x _ _ T) as X. pose proof (td_y _ _ T) as Y.
    destruct k.
    + eexists. split; [reflexivity|]. apply tied_sel; tauto.
    + apply tied_call; auto; try tauto. now apply tied_sel.
    + apply tied_call; auto; try tauto. now apply tied_sel.
    + destruct (_ && _).
      * destruct (tied_screen q g OSelReset T eq_refl Logic.I) as (g' & E & T' & _). rewrite E. cbn [bind]. eexists. split; [reflexivity|]. apply tied_sel; auto.
      * cbn [bind]. eexists. split; [reflexivity|]. now apply tied_sel.
  - cbn in A. unfold on_motion. destruct (h_sel g =? 0); [eauto|]. destruct (h_face g) as [f|] eqn:F; [|eauto]. destruct (td_cell _ _ T f F) as [F1 F2]. pose proof (td_x _ _ T) as X. pose proof (td_y _ _ T) as Y.
    destruct (h_sel g =? 1); [destruct (_ || _); [|eauto]|]; apply tied_call; auto; try tauto. now apply tied_sel.
  - destruct (tied_served q g (OSetMaxSb n) T eq_refl A) as (v & E & T1 & _). rewrite E. cbn [bind]. eauto.
  - destruct (h_face g) as [f|] eqn:F.
    + pose proof (td_tw _ _ T) as (P & I & I' & _). destruct (draw_any _ I') as (ds & E & _). rewrite E. cbn [bind]. eexists. split; [reflexivity|].
      eapply (tied_page q g (set_rst (v_con (h_vte g)) false) T (Inv_rst _ false I')); try reflexivity; [|now rewrite F].
      destruct (page_refl (v_con (h_vte g))). constructor; auto.
    + eexists. split; [reflexivity|]. pose proof (td_tw _ _ T) as (P & I & I' & _). eapply (tied_page q g _ T I' (page_refl _)); cbn; auto. destruct (h_vte g); reflexivity.
Qed.
(* Everything else is done by both alike. *)
Definition ties (q g : res gadget) : Prop := match q, g with Ok a, Ok b => tied a b | Ub, Ub => True | _, _ => False end.
Lemma rl_tied q g r r' : tied q g -> ok_inv r -> rl None r r' -> forall F F',
  (forall a b, tied (served q a) (served g b) -> ties (F a) (F' b)) -> ties (bind r F) (bind r' F').
Proof.
  intros T I R F F' K. destruct r as [a|], r' as [b|]; try contradiction; [|exact Logic.I]. destruct R as (c & -> & W). cbn [bind]. apply K.
  destruct T as [T1 T2 T3 T4 T5 T6 T7 T8 T9 T10]. pose proof (f_equal v_out T2) as O. rewrite out_con in O.
  constructor; cbn [served h_vte h_face h_pty h_pipe h_titles h_x h_y]; rewrite ?con_of, ?out_con, ?O, ?T5, ?T7; auto.
Qed.
Lemma rl_tied_b q g r r' : tied q g -> (forall v x, r = Ok (v, x) -> VInv v) -> rlb None r r' -> forall F F',
  (forall a b x, tied (served q a) (served g b) -> ties (F (a, x)) (F' (b, x))) -> ties (bind r F) (bind r' F').
Proof.
  intros T I R F F' K. destruct r as [[a x]|], r' as [[b y]|]; try contradiction; [|exact Logic.I]. destruct R as (-> & c & -> & W). cbn [bind]. apply K.
  destruct T as [T1 T2 T3 T4 T5 T6 T7 T8 T9 T10]. pose proof (f_equal v_out T2) as O. rewrite out_con in O.
  constructor; cbn [served h_vte h_face h_pty h_pipe h_titles h_x h_y]; rewrite ?con_of, ?out_con, ?O, ?T5, ?T7; auto. exact (I a x eq_refl).
Qed.
Lemma tied_both q g o : tied q g -> op_args o -> ties (on_screen q o) (on_screen g o).
Proof.
  intros T A. unfold on_screen. eapply rl_tied; [exact T| | |].
  - intros v' E. exact (vstep_inv true _ (VScreen o) v' (td_inv _ _ T) A E).
  - rewrite (td_vte _ _ T). apply rl_scr'; [exact (td_tw _ _ T)|exact A|discriminate].
  - intros a b [T1 T2 T3 T4 T5 T6 T7 T8 T9 T10]. constructor; auto.
Qed.
Lemma cells_le len size : 0 <= len <= 1073741824 -> (forall s, size = Some s -> 0 < s) -> 0 <= cells_in len size <= DIM.
Proof.
  intros L S. unfold cells_in, DIM. destruct size as [s|]; [|lia]. specialize (S s eq_refl). replace (s =? 0) with false by lia.
  pose proof (Z.div_pos len s ltac:(lia) ltac:(lia)). pose proof (Z.div_le_upper_bound len s len ltac:(lia) ltac:(nia)). destruct (_ =? 0); lia.
Qed.
Lemma both_tied sg q g e : tied q g -> ~ onlooking e -> gev_ok e -> ties (on_gev sg q e) (on_gev sg g e).
Proof.
  intros T O A. destruct e as [pressed state keyval tr ucs4|k button time x y|x y|bs|n| |w hh|n|width height| ]; try (exfalso; now apply O); cbn [on_gev].
  - unfold on_key. destruct pressed; cbn [negb]; [|exact T]. destruct (scroll_key state tr) as [o|] eqn:S; [exfalso; apply O; split; [reflexivity|]; exists o; now apply scroll_iff|].
    eapply (rl_tied_b q g); [exact T| | |].
    + intros v x. exact (key_inv sg _ _ _ _ _ v x (td_inv _ _ T)).
    + rewrite (td_vte _ _ T). apply rlb_key; [exact (td_inv _ _ T)|exact (td_tw _ _ T)].
    + intros a b x T'. cbn [fst snd]. destruct x; [|exact T']. now apply tied_both.
  - destruct T as [T1 T2 T3 T4 T5 T6 T7 T8 T9 T10]. rewrite T5. destruct (h_pty q) eqn:Q; constructor; cbn; auto; congruence.
  - rewrite (td_pty _ _ T). destruct (h_pty q) eqn:Q; [|exact T]. rewrite (td_pipe _ _ T). eapply (rl_tied q g); [exact T| | |].
    + intros v' E. exact (input_inv sg _ _ v' (td_inv _ _ T) E).
    + rewrite (td_vte _ _ T). apply rl_input; [exact (td_inv _ _ T)|exact (td_tw _ _ T)].
    + intros a b [T1 T2 T3 T4 T5 T6 T7 T8 T9 T10]. constructor; auto.
  - destruct T as [T1 T2 T3 T4 T5 T6 T7 T8 T9 T10]. constructor; auto.
  - destruct T as [T1 T2 T3 T4 T5 T6 T7 T8 T9 T10]. rewrite T5. destruct (h_pty q) eqn:Q; constructor; cbn; auto; try congruence; rewrite ?T4; auto.
    intros f. destruct (h_face q) as [f'|] eqn:F; [rewrite <- T4; auto|intros X; injection X as <-; exact A].
  - destruct A as [A1 A2]. rewrite (td_face _ _ T). apply tied_both; [exact T|]. pose proof (td_cell _ _ T) as C. rewrite (td_face _ _ T) in C.
    split; apply cells_le; auto; destruct (h_face q) as [f|]; try discriminate; intros s X; injection X as <-; now apply C.
Qed.
Lemma looking_dec e : onlooking e \/ ~ onlooking e.
Proof.
  destruct e as [pressed state keyval tr ucs4| | | | | | | | | ]; cbn; auto. destruct pressed; [|right; intros [X _]; discriminate X].
  destruct (scroll_key state tr) as [o|] eqn:S; [left; split; [reflexivity|]; exists o; now apply scroll_iff|right; intros [_ (o & X)]; apply scroll_iff in X; congruence].
Qed.
(* Two lists with a common rest. *)
Lemma thinned_ok es es' : thinned es es' -> Forall gev_ok es -> Forall gev_ok es'.
Proof. induction 1; intros F; auto; apply Forall_cons_iff in F; destruct F; auto. Qed.
Definition pair_up (q : res gadget) (a b : res gadget) : Prop := ties q a /\ ties q b.
Lemma thin_run sg es es' : thinned es es' -> forall q a b, tied q a -> tied q b -> Forall gev_ok es -> exists q', ties q' (on_gevs sg a es) /\ ties q' (on_gevs sg b es').
Proof.
  induction 1 as [|e es es' O Th IH|e es es' Th IH]; intros q a b Ta Tb F; cbn [on_gevs].
  - exists (Ok q). split; assumption.
  - apply Forall_cons_iff in F. destruct F as [Fe F]. destruct (looking_tied sg q a e Ta O Fe) as (a' & E & Ta'). rewrite E. cbn [bind]. exact (IH q a' b Ta' Tb F).
  - apply Forall_cons_iff in F. destruct F as [Fe F]. destruct (looking_dec e) as [O|O].
    + destruct (looking_tied sg q a e Ta O Fe) as (a' & E & Ta'). destruct (looking_tied sg q b e Tb O Fe) as (b' & E' & Tb'). rewrite E, E'. cbn [bind]. exact (IH q a' b' Ta' Tb' F).
    + pose proof (both_tied sg q a e Ta O Fe) as Ka. pose proof (both_tied sg q b e Tb O Fe) as Kb. destruct (on_gev sg q e) as [q1|], (on_gev sg a e) as [a1|], (on_gev sg b e) as [b1|]; try contradiction; cbn [bind].
      * exact (IH q1 a1 b1 Ka Kb F).
      * exists Ub. split; exact Logic.I.
Qed.
Lemma tied_session q a b : tied q a -> tied q b -> same_session a b.
Proof.
  intros [A1 A2 A3 A4 A5 A6 A7 _ _ _] [B1 B2 B3 B4 B5 B6 B7 _ _ _]. destruct A3 as (P & _), B3 as (P' & _). constructor; try congruence.
  split; [rewrite A2, con_con; exact B2|]. exact (page_trans _ _ _ (page_sym _ _ P) P').
Qed.
Lemma new_tied con h : reachable con -> gadget_new con = Ok h -> tied h h.
Proof.
  intros R. unfold gadget_new. destruct (vte_new_safe con R) as (v & E & I). rewrite E. cbn [bind]. intros X. injection X as <-.
  assert (I' : VInv (w_oscb v true)) by now apply VInv_oscb. pose proof (VInv_Inv _ I') as J. set (w := w_oscb v true) in *. clearbody w. constructor; cbn [h_vte h_face h_pty h_pipe h_titles h_x h_y].
  - exact I'.
  - destruct w; reflexivity.
  - split; [apply page_refl|]. split; [exact J|]. split; [exact J|exact Logic.I].
  - reflexivity.
  - reflexivity.
  - reflexivity.
  - reflexivity.
  - intros f X. discriminate X.
  - lia.
  - lia.
Qed.
Lemma init_reachable : reachable scr_init. Proof. exists []. split; [constructor|reflexivity]. Qed.
Lemma thin_alike sg h es es' : gadget_new scr_init = Ok h -> thinned es es' -> Forall gev_ok es -> alike (on_gevs sg h es) (on_gevs sg h es').
Proof.
  intros N Th F. pose proof (new_tied scr_init h init_reachable N) as T. destruct (thin_run sg es es' Th h h h T T F) as (q & A & B). unfold alike. destruct q as [q|], (on_gevs sg h es), (on_gevs sg h es'); try contradiction; [|exact Logic.I].
  exact (tied_session q _ _ A B).
Qed.
