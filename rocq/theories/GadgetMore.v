(* More about sessions of the widget: reading in pieces, titles, size. *)
From Verif Require Import Base BaseProofs Screen ScreenSpec ScreenResize ScreenInv ScreenSafe Render RenderSpec RenderProofs RenderThms Utf8 Symbol VteData Vte VteKeys VteSpec VteView VteInv VteSafe VteFrame VteParse VteStr VteDevSpec VteThms VteThms2 VteThms3 VteGrow
  TwinSpec TwinVteSpec TwinProofs TwinStep TwinVte TwinThms PixelFrame Gadget GadgetSpec GadgetProofs GadgetTwinSpec GadgetTwin.

(* -- reading --------------------------------------------------------------------------- *)
Lemma said_app a b : said (a ++ b) = said a ++ said b. Proof. unfold said. apply flat_map_app. Qed.
Lemma titles_app a b : titles (a ++ b) = titles a ++ titles b. Proof. unfold titles. apply flat_map_app. Qed.
Lemma stream sg es : forall h h' q, Forall piecemeal es -> h_pty h = Some q -> on_gevs sg h es = Ok h' ->
  exists bs new, bs ++ h_pipe h' = h_pipe h ++ says_all es /\ vte_input sg (h_vte h) bs = Ok (h_vte h') /\ v_out (h_vte h') = v_out (h_vte h) ++ new /\
  h_pty h' = Some (q ++ said new) /\ h_titles h' = h_titles h ++ titles new.
Proof.
  induction es as [|e es IH]; intros h h' q F P E; cbn [on_gevs] in E.
  - injection E as <-. exists [], []. cbn. now rewrite !app_nil_r, P.
  - apply Forall_cons_iff in F. destruct F as [Fe F]. destruct e; try contradiction Fe; cbn [on_gev] in E; rewrite P in E.
    + cbn [bind] in E. match type of E with on_gevs _ ?g _ = _ => destruct (IH g h' q F (eq_refl (Some q)) E) as (b & new & A & B & C & D & G) end. cbn [h_pipe h_vte h_titles] in *. exists b, new. split; [|auto].
      rewrite A. cbn [says_all flat_map]. now rewrite app_assoc.
    + destruct (vte_input sg (h_vte h) (firstn n (h_pipe h))) as [v|] eqn:V; [|discriminate]. cbn [bind] in E. destruct (go_input sg _ _ v V) as [_ (l & L)].
      assert (K : skipn (length (v_out (h_vte h))) (v_out v) = l) by (rewrite L, skipn_app, skipn_all, Nat.sub_diag; reflexivity).
      match type of E with on_gevs _ ?g _ = _ => assert (Pg : h_pty g = Some (q ++ said l)) by (cbn [queue served h_pty]; rewrite ?P, K; reflexivity); destruct (IH g h' (q ++ said l) F Pg E) as (b & new & A & B & C & D & G) end. cbn [queue served h_pipe h_vte h_titles] in *. rewrite K in G.
      exists (firstn n (h_pipe h) ++ b), (l ++ new). rewrite input_app, V. cbn [bind]. rewrite <- !app_assoc, A, said_app, titles_app. split; [|split; [exact B|]].
      * cbn [says_all flat_map app]. now rewrite app_assoc, firstn_skipn.
      * split; [rewrite C, L; now rewrite app_assoc|]. split; [rewrite D; now rewrite app_assoc|rewrite G; now rewrite app_assoc].
Qed.
Lemma pieces sg h es1 es2 h1 h2 : Forall piecemeal es1 -> Forall piecemeal es2 -> h_pty h <> None -> says_all es1 = says_all es2 -> on_gevs sg h es1 = Ok h1 -> on_gevs sg h es2 = Ok h2 ->
  h_pipe h1 = [] -> h_pipe h2 = [] -> h_vte h1 = h_vte h2 /\ h_pty h1 = h_pty h2 /\ h_titles h1 = h_titles h2.
Proof.
  intros F1 F2 P S E1 E2 N1 N2. destruct (h_pty h) as [q|] eqn:Q; [|congruence].
  destruct (stream sg es1 h h1 q F1 Q E1) as (b1 & n1 & A1 & B1 & C1 & D1 & G1). destruct (stream sg es2 h h2 q F2 Q E2) as (b2 & n2 & A2 & B2 & C2 & D2 & G2).
  rewrite N1, app_nil_r in A1. rewrite N2, app_nil_r in A2. assert (X : b1 = b2) by congruence. subst b2. assert (V : h_vte h1 = h_vte h2) by congruence.
  split; [exact V|]. assert (n1 = n2) by (apply (app_inv_head (v_out (h_vte h))); congruence). subst n2. split; congruence.
Qed.

(* -- sessions ------------------------------------------------------------------------------ *)
Lemma served_oscb h v : v_oscb (h_vte (served h v)) = v_oscb v. Proof. reflexivity. Qed.
Lemma screen_oscb h o h' : on_screen h o = Ok h' -> v_oscb (h_vte h') = v_oscb (h_vte h) /\ h_sel h' = h_sel h.
Proof. unfold on_screen, scr. destruct (step _ _); [|discriminate]. cbn [bind]. intros E. injection E as <-. split; reflexivity. Qed.
Lemma call_oscb h f b x y h' : sel_call h f b x y = Ok h' -> v_oscb (h_vte h') = v_oscb (h_vte h).
Proof. unfold sel_call. destruct (to_cell _ _); [|discriminate]. cbn [bind]. destruct (to_cell _ _); [|discriminate]. cbn [bind]. intros E. now apply screen_oscb in E. Qed.
Lemma gev_oscb sg h e h' : on_gev sg h e = Ok h' -> v_oscb (h_vte h') = v_oscb (h_vte h).
Proof.
  destruct e; cbn [on_gev]; intros E.
  - unfold on_key in E. destruct (negb pressed); [injection E as <-; reflexivity|]. destruct (scroll_key state tr); [now apply screen_oscb in E|].
    destruct (vte_key _ _ _ _ _ _) as [[v x]|] eqn:K; [|discriminate]. cbn [bind fst snd] in E. apply go_key in K. destruct K as [K _].
    destruct x; [apply screen_oscb in E; destruct E as [E _]; rewrite E, served_oscb; exact K|injection E as <-; exact K].
  - unfold on_button in E. destruct (negb _); [injection E as <-; reflexivity|]. destruct (h_face h); [|injection E as <-; reflexivity]. destruct k.
    + injection E as <-. reflexivity.
    + exact (call_oscb _ _ _ _ _ _ E).
    + exact (call_oscb _ _ _ _ _ _ E).
    + destruct (_ && _).
      * destruct (on_screen h OSelReset) as [g|] eqn:G; [|discriminate]. cbn [bind] in E. injection E as <-. now apply screen_oscb in G.
      * cbn [bind] in E. injection E as <-. reflexivity.
  - unfold on_motion in E. destruct (_ =? 0); [injection E as <-; reflexivity|]. destruct (h_face h); [|injection E as <-; reflexivity]. destruct (_ =? 1).
    + destruct (_ || _); [exact (call_oscb _ _ _ _ _ _ E)|injection E as <-; reflexivity].
    + exact (call_oscb _ _ _ _ _ _ E).
  - injection E as <-. destruct (h_pty h); reflexivity.
  - destruct (h_pty h); [|injection E as <-; reflexivity]. destruct (vte_input _ _ _) as [v|] eqn:V; [|discriminate]. cbn [bind] in E. injection E as <-. exact (proj1 (go_input sg _ _ v V)).
  - injection E as <-. reflexivity.
  - destruct (h_pty h); injection E as <-; reflexivity.
  - unfold scr in E. destruct (step _ _); [|discriminate]. cbn [bind] in E. injection E as <-. reflexivity.
  - now apply screen_oscb in E.
  - destruct (h_face h); [|injection E as <-; reflexivity]. destruct (draw _) as [[[ds s] a]|]; [|discriminate]. cbn [bind] in E. injection E as <-. reflexivity.
Qed.
Lemma gevs_oscb sg es : forall h h', on_gevs sg h es = Ok h' -> v_oscb (h_vte h') = v_oscb (h_vte h).
Proof.
  induction es as [|e r IH]; intros h h' E; cbn [on_gevs] in E; [now injection E as <-|]. destruct (on_gev sg h e) as [g|] eqn:G; [|discriminate]. cbn [bind] in E. rewrite (IH g h' E). exact (gev_oscb sg h e g G).
Qed.
Lemma new_parts con h : reachable con -> gadget_new con = Ok h -> v_oscb (h_vte h) = true /\ h_sel h = 0 /\ h_queued h = false.
Proof. intros R. unfold gadget_new. destruct (vte_new_safe con R) as (v & E & _). rewrite E. cbn [bind]. intros X. injection X as <-. repeat split. Qed.
Lemma always_told sg h0 es h : gadget_new scr_init = Ok h0 -> on_gevs sg h0 es = Ok h -> v_oscb (h_vte h) = true.
Proof. intros N E. rewrite (gevs_oscb sg es h0 h E). now apply (new_parts scr_init h0 init_reachable). Qed.
Lemma gev_sel sg h e h' : unpressed e -> h_sel h = 0 -> on_gev sg h e = Ok h' -> h_sel h' = 0.
Proof.
  intros U S. destruct e; try contradiction U; cbn [on_gev]; intros E.
  - unfold on_key in E. destruct (negb pressed); [injection E as <-; exact S|]. destruct (scroll_key state tr); [apply screen_oscb in E; destruct E; congruence|].
    destruct (vte_key _ _ _ _ _ _) as [[v x]|] eqn:K; [|discriminate]. cbn [bind fst snd] in E. destruct x; [apply screen_oscb in E; destruct E as [_ E]; rewrite E; exact S|injection E as <-; exact S].
  - unfold on_motion in E. rewrite S in E. change (0 =? 0) with true in E. cbv iota in E. now injection E as <-.
  - injection E as <-. destruct (h_pty h); exact S.
  - destruct (h_pty h); [|injection E as <-; exact S]. destruct (vte_input _ _ _) as [v|] eqn:V; [|discriminate]. cbn [bind] in E. injection E as <-. exact S.
  - injection E as <-. exact S.
  - destruct (h_pty h); injection E as <-; exact S.
  - unfold scr in E. destruct (step _ _); [|discriminate]. cbn [bind] in E. injection E as <-. exact S.
  - apply screen_oscb in E. destruct E; congruence.
  - destruct (h_face h); [|injection E as <-; exact S]. destruct (draw _) as [[[ds s] a]|]; [|discriminate]. cbn [bind] in E. injection E as <-. exact S.
Qed.
Lemma gevs_sel sg es : forall h h', Forall unpressed es -> h_sel h = 0 -> on_gevs sg h es = Ok h' -> h_sel h' = 0.
Proof.
  induction es as [|e r IH]; intros h h' F S E; cbn [on_gevs] in E; [now injection E as <-|]. apply Forall_cons_iff in F. destruct F as [Fe F].
  destruct (on_gev sg h e) as [g|] eqn:G; [|discriminate]. cbn [bind] in E. exact (IH g h' F (gev_sel sg h e g Fe S G) E).
Qed.
Lemma hover sg h0 es h x y : gadget_new scr_init = Ok h0 -> Forall unpressed es -> on_gevs sg h0 es = Ok h -> on_gev sg h (EvMotion x y) = Ok h.
Proof.
  intros N F E. pose proof (gevs_sel sg es h0 h F (proj1 (proj2 (new_parts scr_init h0 init_reachable N))) E) as S. cbn [on_gev]. unfold on_motion. now rewrite S.
Qed.
Lemma all_tied sg es : forall q h h', tied q h -> Forall gev_ok es -> on_gevs sg h es = Ok h' -> exists q', tied q' h'.
Proof.
  induction es as [|e r IH]; intros q h h' T F E; cbn [on_gevs] in E; [injection E as <-; eauto|]. apply Forall_cons_iff in F. destruct F as [Fe F].
  destruct (on_gev sg h e) as [g|] eqn:G; [|discriminate]. cbn [bind] in E. destruct (looking_dec e) as [O|O].
  - destruct (looking_tied sg q h e T O Fe) as (g' & G' & T'). rewrite G in G'. injection G' as <-. exact (IH q g h' T' F E).
  - pose proof (both_tied sg q h e T O Fe) as K. rewrite G in K. destruct (on_gev sg q e) as [q'|]; [|contradiction]. exact (IH q' g h' K F E).
Qed.
Lemma cells_spec len size : 0 <= len -> 0 < size -> let n := cells_in len (Some size) in 1 <= n /\ (n * size <= len \/ n = 1) /\ len < (n + 1) * size.
Proof.
  intros L S. cbv zeta. unfold cells_in. replace (size =? 0) with false by lia. pose proof (Z.div_mod len size ltac:(lia)). pose proof (Z.mod_pos_bound len size ltac:(lia)). pose proof (Z.div_pos len size L S).
  destruct (Z.eqb_spec (len / size) 0) as [Z|Z]; [rewrite Z in *; lia|nia].
Qed.
Lemma configured_t sg q h width height : tied q h -> 0 <= width <= 1073741824 -> 0 <= height <= 1073741824 ->
  exists h', on_gev sg h (EvConfigure width height) = Ok h' /\ h_queued h' = true /\ h_sel h' = h_sel h /\ h_face h' = h_face h /\ let s := v_con (h_vte h') in
  match h_face h with Some (w, hh) => filled width w (s_sx s) /\ filled height hh (s_sy s) | None => s_sx s = 1 /\ s_sy s = 1 end.
Proof.
  intros T W H. cbn [on_gev].
  pose proof (td_tw _ _ T) as (_ & _ & I & _). pose proof (td_cell _ _ T) as C.
  set (a := cells_in width _). set (b := cells_in height _).
  assert (A : 0 < a <= DIM /\ 0 < b <= DIM /\ match h_face h with Some (w, hh) => filled width w a /\ filled height hh b | None => a = 1 /\ b = 1 end).
  { unfold a, b. destruct (h_face h) as [[w hh]|]; [|cbn; unfold DIM; lia]. destruct (C (w, hh) eq_refl) as [C1 C2]. cbn [fst snd] in *.
    pose proof (cells_spec width w ltac:(lia) C1) as K1. pose proof (cells_spec height hh ltac:(lia) C2) as K2. cbv zeta in K1, K2.
    pose proof (cells_le width (Some w) W ltac:(intros s X; injection X as <-; exact C1)). pose proof (cells_le height (Some hh) H ltac:(intros s X; injection X as <-; exact C2)).
    unfold filled. repeat split; try tauto; lia. }
  clearbody a b. destruct A as (A1 & A2 & A3). destruct (step_ok _ (OResize a b) I) as (s & Es & Is); [cbn; lia|cbn; tauto|].
  rewrite (on_screen_ok _ _ _ Es). eexists. split; [reflexivity|]. split; [reflexivity|]. split; [reflexivity|]. split; [reflexivity|]. cbn [queue served h_vte]. rewrite con_of.
  destruct (resize_size _ a b s I A1 A2 Es) as [-> ->]. exact A3.
Qed.
Lemma configured sg h0 es h width height : gadget_new scr_init = Ok h0 -> Forall gev_ok es -> on_gevs sg h0 es = Ok h -> 0 <= width <= 1073741824 -> 0 <= height <= 1073741824 ->
  exists h', on_gev sg h (EvConfigure width height) = Ok h' /\ h_queued h' = true /\ h_sel h' = h_sel h /\ h_face h' = h_face h /\ let s := v_con (h_vte h') in
  match h_face h with Some (w, hh) => filled width w (s_sx s) /\ filled height hh (s_sy s) | None => s_sx s = 1 /\ s_sy s = 1 end.
Proof. intros N F E. destruct (all_tied sg es h0 h0 h (new_tied scr_init h0 init_reachable N) F E) as (q & T). exact (configured_t sg q h width height T). Qed.
Lemma frame_done sg h h' : on_gev sg h EvFrame = Ok h' -> h_queued h' = false /\ same_but_age (v_con (h_vte h)) (v_con (h_vte h')) /\ h_pty h' = h_pty h /\ h_titles h' = h_titles h.
Proof.
  cbn [on_gev]. destruct (h_face h); [|intros E; injection E as <-; repeat split]. unfold draw. destruct (match s_sbpos _ with None => _ | Some _ => _ end); [|discriminate]. cbn [bind].
  destruct (draw_rows _ _ _ _ _ _); [|discriminate]. cbn [bind]. intros E. injection E as <-. cbn [h_queued h_vte h_pty h_titles]. rewrite con_of. repeat split.
Qed.
(* Strings within a session, whatever the user looked at. *)
Lemma told_session sg h0 es h intro t stop bs rest : gadget_new scr_init = Ok h0 -> Forall gev_ok es -> on_gevs sg h0 es = Ok h -> text_mode (h_vte h) -> h_pty h <> None -> h_pipe h = bs ++ rest ->
  osc_intro intro -> osc_stop stop -> Forall osc_char t -> Forall (fun c => 32 <= c) t -> zlen (flat_map ucs4_to_utf8 t) <= 127 -> encodes sg (v_flags (h_vte h)) (intro ++ t ++ stop) bs ->
  exists h', on_gev sg h (EvRead (length bs)) = Ok h' /\ h_titles h' = h_titles h ++ titles [EOsc (flat_map ucs4_to_utf8 t)] /\ same_page (v_con (h_vte h)) (v_con (h_vte h')) /\ sent h h' [] /\ h_pipe h' = rest.
Proof.
  intros N F R T P B I S C C' Z E. pose proof (always_told sg h0 es h N R) as O. destruct (all_tied sg es h0 h0 h (new_tied scr_init h0 init_reachable N) F R) as (q & Tq).
  pose proof (td_vte _ _ Tq) as V. assert (Tm : text_mode (h_vte q)) by (rewrite V in T; exact T). assert (Fl : v_flags (h_vte h) = v_flags (h_vte q)) by (rewrite V; reflexivity).
  assert (Oq : v_oscb (h_vte q) = true) by (rewrite V in O; exact O). rewrite Fl in E.
  destruct (osc_string sg (h_vte q) intro t stop bs (td_inv _ _ Tq) Tm I C S E) as (v' & E' & K & _ & _). rewrite osc_keep_all in K by (auto; cbn [length]; lia). cbn [app] in K. unfold told_osc in K. rewrite Oq in K.
  set (text := flat_map ucs4_to_utf8 t) in *. clearbody text.
  assert (Ko : v_out v' = v_out (h_vte q) ++ [EOsc text]) by exact (f_equal v_out K). assert (Kc : v_con v' = v_con (h_vte q)) by exact (f_equal v_con K).
  assert (X : ~ onlooking (EvRead (length bs))) by (intros []). pose proof (both_tied sg q h (EvRead (length bs)) Tq X Logic.I) as D.
  assert (Pq : h_pty q = h_pty h) by (symmetry; exact (td_pty _ _ Tq)). assert (Bq : h_pipe q = bs ++ rest) by (rewrite <- (td_pipe _ _ Tq); exact B).
  destruct (h_pty h) as [w|] eqn:W; [|congruence].
  assert (Q : exists q', on_gev sg q (EvRead (length bs)) = Ok q' /\ h_titles q' = h_titles q ++ titles [EOsc text] /\ v_con (h_vte q') = v_con (h_vte q) /\ h_pty q' = Some w /\ h_pipe q' = rest).
  { cbn [on_gev]. rewrite Pq, Bq, firstn_app, firstn_all, Nat.sub_diag. cbn [firstn]. rewrite app_nil_r, E'. cbn [bind]. eexists. split; [reflexivity|].
    cbn [queue h_titles h_vte h_pipe h_pty served]. rewrite Ko, skipn_app, skipn_all, Nat.sub_diag, Pq. cbn [skipn app said flat_map]. rewrite app_nil_r. split; [reflexivity|]. split; [exact Kc|]. split; [reflexivity|].
    rewrite ?skipn_app, ?skipn_all, ?Nat.sub_diag. reflexivity. }
  destruct Q as (q' & Q1 & Q2 & Q3 & Q4 & Q5). rewrite Q1 in D. destruct (on_gev sg h (EvRead (length bs))) as [h'|] eqn:H; [|contradiction]. exists h'. split; [reflexivity|].
  destruct (td_tw _ _ D) as (P1 & _), (td_tw _ _ Tq) as (P2 & _). rewrite (td_titles _ _ D), Q2, <- (td_titles _ _ Tq), (td_pipe _ _ D), Q5. split; [reflexivity|]. split; [rewrite Q3 in P1; exact (page_trans _ _ _ (page_sym _ _ P2) P1)|].
  split; [|reflexivity]. unfold sent. rewrite W, (td_pty _ _ D), Q4. cbn [app]. now rewrite ?app_nil_r.
Qed.
Lemma title_session sg h0 es h intro t stop bs rest : gadget_new scr_init = Ok h0 -> Forall gev_ok es -> on_gevs sg h0 es = Ok h -> text_mode (h_vte h) -> h_pty h <> None -> h_pipe h = bs ++ rest ->
  osc_intro intro -> osc_stop stop -> Forall osc_char t -> Forall (fun c => 32 <= c) t -> zlen (flat_map ucs4_to_utf8 t) <= 125 -> encodes sg (v_flags (h_vte h)) (intro ++ (50 :: 59 :: t) ++ stop) bs ->
  exists h', on_gev sg h (EvRead (length bs)) = Ok h' /\ h_titles h' = h_titles h ++ [flat_map ucs4_to_utf8 t] /\ same_page (v_con (h_vte h)) (v_con (h_vte h')) /\ sent h h' [] /\ h_pipe h' = rest.
Proof.
  intros N F R T P B I S C C' Z E.
  destruct (told_session sg h0 es h intro (50 :: 59 :: t) stop bs rest N F R T P B I S) as (h' & K1 & K2 & K3); [repeat constructor; try exact C; unfold osc_char; lia|repeat constructor; [lia|lia|exact C']| |exact E|].
  { cbn [flat_map]. change (ucs4_to_utf8 50) with [50]. change (ucs4_to_utf8 59) with [59]. cbn [app length] in *. lia. }
  exists h'. split; [exact K1|]. split; [|exact K3]. rewrite K2. cbn [flat_map]. change (ucs4_to_utf8 50) with [50]. change (ucs4_to_utf8 59) with [59]. cbn [app titles flat_map title_of]. change ((50 =? 50) && (59 =? 59)) with true. cbv iota. cbn [app]. now rewrite (cstr_all _ (utf8s_ne t C')).
Qed.
Lemma untitled_session sg h0 es h intro t stop bs rest : gadget_new scr_init = Ok h0 -> Forall gev_ok es -> on_gevs sg h0 es = Ok h -> text_mode (h_vte h) -> h_pty h <> None -> h_pipe h = bs ++ rest ->
  osc_intro intro -> osc_stop stop -> Forall osc_char t -> Forall (fun c => 32 <= c) t -> zlen (flat_map ucs4_to_utf8 t) <= 127 -> (forall r, flat_map ucs4_to_utf8 t <> 50 :: 59 :: r) -> encodes sg (v_flags (h_vte h)) (intro ++ t ++ stop) bs ->
  exists h', on_gev sg h (EvRead (length bs)) = Ok h' /\ h_titles h' = h_titles h /\ same_page (v_con (h_vte h)) (v_con (h_vte h')) /\ sent h h' [] /\ h_pipe h' = rest.
Proof.
  intros N F R T P B I S C C' Z D E. destruct (told_session sg h0 es h intro t stop bs rest N F R T P B I S C C' Z E) as (h' & K1 & K2 & K3). exists h'. split; [exact K1|]. split; [|exact K3]. rewrite K2.
  set (text := flat_map ucs4_to_utf8 t) in *. clearbody text. cbn [titles flat_map]. unfold title_of. destruct text as [|a [|b r]]; cbn [app]; rewrite ?app_nil_r; try reflexivity. destruct ((a =? 50) && (b =? 59)) eqn:Q; [|cbn [app]; now rewrite app_nil_r].
  exfalso. apply (D r). f_equal; [lia|f_equal; lia].
Qed.
(* Nothing but input and echoed keys can be undefined. *)
Lemma key_defined sg v k a m u : vfl v VF_SRM = true -> exists x, vte_key sg v k a m u = Ok x.
Proof.
  intros S. unfold vte_key. cbv zeta. destruct (key_bytes _ k a m u); [|eauto]. unfold vte_write.
  assert (X : vfl (if bit m M_ALT then set_reset v true VF_PREPEND else v) VF_SRM = true) by (destruct (bit m M_ALT); [rewrite sr_other by (unfold VF_SRM, VF_PREPEND; lia)|]; exact S).
  rewrite X. cbn [bind]. eauto.
Qed.
Lemma undefined_t sg q h e : tied q h -> gev_ok e -> on_gev sg h e = Ub ->
  (exists n, e = EvRead n /\ h_pty h <> None /\ vte_input sg (h_vte h) (firstn n (h_pipe h)) = Ub) \/
  (exists state keyval tr ucs4, e = EvKey true state keyval tr ucs4 /\ vfl (h_vte h) VF_SRM = false).
Proof.
  intros T A U. destruct (looking_dec e) as [O|O].
  { destruct (looking_tied sg q h e T O A) as (g & E & _). congruence. }
  destruct (td_tw _ _ T) as (_ & _ & I & _).
  destruct e as [pressed state keyval tr ucs4|k button time x y|x y|bs|n| |w hh|n|width height| ]; try (exfalso; now apply O).
  - right. cbn [on_gev] in U. unfold on_key in U. destruct pressed; [|discriminate U]. cbn [negb] in U. exists state, keyval, tr, ucs4. split; [reflexivity|].
    destruct (vfl (h_vte h) VF_SRM) eqn:S; [|reflexivity]. exfalso. destruct (scroll_key state tr) as [o|] eqn:K; [apply O; split; [reflexivity|]; exists o; now apply scroll_iff|].
    match type of U with context [vte_key sg (h_vte h) ?k ?a ?m ?u] => destruct (key_defined sg (h_vte h) k a m u S) as ([v x] & E) end. rewrite E in U. cbn [bind fst snd] in U. destruct x; [|discriminate].
    assert (Ks : step (v_con v) OSbReset <> Ub) by (cbn [step]; discriminate). unfold on_screen, scr in U. cbn [served h_vte] in U. destruct (step (v_con v) OSbReset); [discriminate U|congruence].
  - left. cbn [on_gev] in U. exists n. split; [reflexivity|]. destruct (h_pty h); [|discriminate]. split; [discriminate|]. destruct (vte_input _ _ _); [discriminate|reflexivity].
  - cbn [on_gev] in U. destruct (h_pty h); discriminate U.
  - exfalso. destruct (configured_t sg q h width height T (proj1 A) (proj2 A)) as (h' & E & _). congruence.
Qed.
Lemma undefined_only sg h0 es h e : gadget_new scr_init = Ok h0 -> Forall gev_ok es -> on_gevs sg h0 es = Ok h -> gev_ok e -> on_gev sg h e = Ub ->
  (exists n, e = EvRead n /\ h_pty h <> None /\ vte_input sg (h_vte h) (firstn n (h_pipe h)) = Ub) \/
  (exists state keyval tr ucs4, e = EvKey true state keyval tr ucs4 /\ vfl (h_vte h) VF_SRM = false).
Proof. intros N F R. destruct (all_tied sg es h0 h0 h (new_tied scr_init h0 init_reachable N) F R) as (q & T). exact (undefined_t sg q h e T). Qed.
Lemma undefined_run sg h0 es : gadget_new scr_init = Ok h0 -> Forall gev_ok es -> on_gevs sg h0 es = Ub ->
  exists es1 e es2 h, es = es1 ++ e :: es2 /\ on_gevs sg h0 es1 = Ok h /\
  ((exists n, e = EvRead n /\ h_pty h <> None /\ vte_input sg (h_vte h) (firstn n (h_pipe h)) = Ub) \/
   (exists state keyval tr ucs4, e = EvKey true state keyval tr ucs4 /\ vfl (h_vte h) VF_SRM = false)).
Proof.
  intros N F U. assert (G : forall es h, on_gevs sg h es = Ub -> exists es1 e es2 g, es = es1 ++ e :: es2 /\ on_gevs sg h es1 = Ok g /\ on_gev sg g e = Ub).
  { clear. induction es as [|e r IH]; intros h U; cbn [on_gevs] in U; [discriminate|]. destruct (on_gev sg h e) as [g|] eqn:E.
    - cbn [bind] in U. destruct (IH g U) as (a & x & b & k & -> & R & X). exists (e :: a), x, b, k. split; [reflexivity|]. cbn [on_gevs]. rewrite E. cbn [bind]. auto.
    - exists [], e, r, h. auto. }
  destruct (G es h0 U) as (a & x & b & g & -> & R & X). apply Forall_app in F. destruct F as [F1 F2]. apply Forall_cons_iff in F2. exists a, x, b, g. split; [reflexivity|]. split; [exact R|]. exact (undefined_only sg h0 a g x N F1 R (proj1 F2) X).
Qed.
Lemma new_whole con h : reachable con -> gadget_new con = Ok h -> h_pty h = None /\ h_titles h = [] /\ h_queued h = false /\ h_sel h = 0 /\ h_pipe h = [].
Proof. intros R. unfold gadget_new. destruct (vte_new_safe con R) as (v & E & _). rewrite E. cbn [bind]. intros X. injection X as <-. repeat split. Qed.
Lemma new_all h : gadget_new scr_init = Ok h -> h_pty h = None /\ h_titles h = [] /\ h_queued h = false /\ h_sel h = 0 /\ h_pipe h = [].
Proof. exact (new_whole scr_init h init_reachable). Qed.
Lemma new_has con : reachable con -> exists h, gadget_new con = Ok h.
Proof. intros R. unfold gadget_new. destruct (vte_new_safe con R) as (v & E & _). rewrite E. cbn [bind]. eauto. Qed.
Lemma new_some : exists h, gadget_new scr_init = Ok h.
Proof. exact (new_has scr_init init_reachable). Qed.
