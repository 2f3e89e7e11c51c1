(* Controls, escape sequences, shifts and designations; a control sequence after
   ESC does not depend on what was cut off. *)
From Verif Require Import Base BaseProofs Utf8 Symbol Screen ScreenInv ScreenSafe VteData Vte VteKeys VteSpec VteView VteInv VteSafe VteFrame VteParse VteCsi VteText VteStr.
From Verif Require Import ScreenSb ScreenSpec ScreenOps ScreenThms Utf8Spec Utf8Proofs.

(* -- functions that do not look at the parser ------------------------------ *)
Definition cr (r r' : res vte) : Prop := match r, r' with Ok a, Ok b => core a = core b | Ub, Ub => True | _, _ => False end.
Lemma cr_bind r r' f f' : cr r r' -> (forall v v', core v = core v' -> cr (f v) (f' v')) -> cr (bind r f) (bind r' f').
Proof. intros H F. destruct r, r'; cbn in *; try contradiction; auto. Qed.
Lemma cr_scr v v' o : core v = core v' -> cr (scr v o) (scr v' o).
Proof. intros H. unfold scr. rewrite (con_core v v' H). destruct (step (v_con v') o); cbn; [now apply core_con|exact I]. Qed.
Lemma core_fields v w : core v = core w -> v_pal v = v_pal w /\ v_def v = v_def w /\ v_saved v = v_saved w /\ v_cattr v = v_cattr w /\ v_flags v = v_flags w.
Proof.
  intros H. repeat match goal with |- _ /\ _ => split end; [change (v_pal (core v) = v_pal (core w))|change (v_def (core v) = v_def (core w))|change (v_saved (core v) = v_saved (core w))|change (v_cattr (core v) = v_cattr (core w))|change (v_flags (core v) = v_flags (core w))]; now rewrite H.
Qed.
Lemma core_cattr v w a : core v = core w -> core (w_cattr v a) = core (w_cattr w a).
Proof. intros H. change (w_cattr (core v) a = w_cattr (core w) a). now rewrite H. Qed.
Lemma core_gg v w a b : core v = core w -> core (w_gr (w_gl v a) b) = core (w_gr (w_gl w a) b).
Proof. intros H. change (w_gr (w_gl (core v) a) b = w_gr (w_gl (core w) a) b). now rewrite H. Qed.
Lemma core_flags v w a : core v = core w -> core (w_flags v a) = core (w_flags w a).
Proof. intros H. change (w_flags (core v) a = w_flags (core w) a). now rewrite H. Qed.
Lemma core_srf v w b n : core v = core w -> core (set_reset v b n) = core (set_reset w b n).
Proof. intros H. change (set_reset (core v) b n = set_reset (core w) b n). now rewrite H. Qed.
Lemma core_rs v w : core v = core w -> core (reset_state v) = core (reset_state w).
Proof. intros H. change (reset_state (core v) = reset_state (core w)). now rewrite H. Qed.
Definition power_core (c : vte) : vte :=
  w_mrow (w_mcol (w_mev (w_mmode (w_g3 (w_g2 (w_g1 (w_g0 (w_grt (w_glt (w_gr (w_gl c G0) G1) None) None) CsLower) CsUpper) CsLower) CsUpper) 0) 0) 0) 0.
Lemma core_power v : core (power v) = power_core (core v).
Proof. destruct v; reflexivity. Qed.

Lemma cr_restore v v' : core v = core v' -> cr (restore_state v) (restore_state v').
Proof.
  intros H. unfold restore_state. cbv zeta. destruct (core_fields _ _ H) as (_ & _ & -> & _ & _).
  apply cr_bind; [now apply cr_scr|]. intros w w' Hw. destruct (core_fields _ _ Hw) as (-> & _ & _ & _ & F).
  destruct (to_rgb _ _) as [a|]; cbn [bind]; [|exact I]. pose proof (core_cattr _ _ a Hw) as Ha.
  apply cr_bind.
  - replace (vfl (w_cattr w' a) VF_BCE) with (vfl (w_cattr w a) VF_BCE) by (unfold vfl; cbn [w_cattr v_flags]; now rewrite F).
    destruct (vfl _ VF_BCE); [now apply cr_scr|exact Ha].
  - intros x x' Hx. apply cr_bind; [apply cr_scr, core_srf, core_gg, Hx|]. intros y y' Hy. apply cr_scr, core_srf, Hy.
Qed.
Lemma cr_reset v v' : core v = core v' -> cr (vte_reset v) (vte_reset v').
Proof.
  intros H. rewrite !reset_power.
  apply cr_bind; [apply cr_scr, core_flags, H|]. intros w w' Hw. apply cr_bind; [now apply cr_scr|]. intros x x' Hx.
  assert (Hp : core (power x) = core (power x')) by (rewrite !core_power; now f_equal).
  revert Hp. generalize (power x), (power x'). clear x x' Hx. intros x x' Hx.
  destruct (core_fields _ _ Hx) as (-> & -> & _). destruct (to_rgb _ _) as [a|]; cbn [bind]; [|exact I].
  apply cr_bind; [apply cr_scr, core_cattr, Hx|]. intros y y' Hy. exact (core_rs _ _ Hy).
Qed.
Lemma cr_hard v v' : core v = core v' -> cr (vte_hard_reset v) (vte_hard_reset v').
Proof.
  intros H. unfold vte_hard_reset. apply cr_bind; [now apply cr_reset|]. intros w w' Hw. apply cr_bind; [now apply cr_scr|]. intros x x' Hx.
  apply cr_bind; [now apply cr_scr|]. intros y y' Hy. now apply cr_scr.
Qed.

(* -- ESC and a final character --------------------------------------------- *)
Definition esc_final (d : Z) : Prop := trans SEsc d = (Some SGround, AEsc).
Lemma esc_parse w d : v_state w = SEsc -> v_cfl w = 0 -> esc_final d ->
  parse_data w d = do v1 <- do_esc_plain w d; Ok (w_state v1 SGround).
Proof.
  intros E C T. unfold parse_data, do_trans. cbv zeta. rewrite E, T.
  cbn [fst snd exit_action do_action bind]. unfold do_esc, set_charset, cfl. rewrite C.
  assert (X : match esc_charset d with Some c => if bit 0 CSI_POPEN then Some (w_g0 w c) else if bit 0 CSI_PCLOSE then Some (w_g1 w c) else if bit 0 CSI_MULT then Some (w_g2 w c) else if bit 0 CSI_PLUS then Some (w_g3 w c) else None | None => None end = None)
    by (destruct (esc_charset d); reflexivity).
  rewrite X. replace (bit 0 CSI_SPACE) with false by reflexivity. rewrite !andb_false_r. replace (0 =? 0) with true by reflexivity.
  destruct (do_esc_plain w d); reflexivity.
Qed.
Lemma ground_clear v : VInv v -> text_mode v -> parse_data v 27 = Ok (w_state (do_clear v) SEsc).
Proof. intros H [E _]. apply esc_clean; [exact H|congruence]. Qed.
(* The result of an ESC sequence, up to the parser. *)
Lemma esc_seq sg v d bs : VInv v -> text_mode v -> esc_final d -> encodes sg (v_flags v) [27; d] bs ->
  match vte_input sg v bs, do_esc_plain (w_state (do_clear v) SEsc) d with
  | Ok v', Ok w => core v' = core w /\ text_mode v' /\ VInv v'
  | Ub, Ub => True
  | _, _ => False
  end.
Proof.
  intros H Ht T He. pose proof (ground_clear v H Ht) as E1. destruct Ht as [Es R].
  assert (W : walk v [27] (w_state (do_clear v) SEsc)) by (econstructor; [exact E1|reflexivity|constructor]).
  destruct (walk_last sg v [27] _ d bs W R He) as [A B]. rewrite (esc_parse _ d) in A; [|reflexivity..|exact T].
  destruct (do_esc_plain _ d) as [w|]; cbn [bind] in A; destruct (vte_input sg v bs) as [v'|] eqn:E; try contradiction; [|exact I].
  cbn in A. split; [rewrite (core_alike _ _ A); reflexivity|]. split; [split; [rewrite (al_state _ _ _ A); reflexivity|now apply B]|].
  exact (input_inv sg bs v v' H E).
Qed.

(* Input bs has the effect of the screen calls ops and no other, in any mode. *)
Lemma esc_acts sg v d ops bs : VInv v -> text_mode v -> esc_calls d = Some ops -> encodes sg (v_flags v) [27; d] bs -> acts sg v bs ops.
Proof.
  intros H Ht Hs He.
  assert (T : esc_final d /\ forall w, do_esc_plain w d = calls w ops).
  { unfold esc_calls in Hs.
    repeat match type of Hs with (if d =? ?k then _ else _) = Some _ => destruct (Z.eqb_spec d k) as [->|?]; [injection Hs as <-; (split; [reflexivity|]; intros w; first [exact (scr_calls w _)|exact (calls_nil w)])|] end.
    discriminate. }
  destruct T as [T X]. pose proof (esc_seq sg v d bs H Ht T He) as G. rewrite X in G. unfold acts, calls in *.
  change (v_con (w_state (do_clear v) SEsc)) with (v_con v) in G.
  destruct (run (v_con v) ops) as [c|]; cbn [bind] in G; destruct (vte_input sg v bs) as [v'|]; try contradiction; [|reflexivity].
  destruct G as (G & G2 & _). exists v'. split; [reflexivity|]. split; [rewrite G; reflexivity|exact G2].
Qed.

(* -- single controls -------------------------------------------------------- *)
Definition executed (c : Z) : Prop := trans SGround c = (None, AExecute) \/ trans SGround c = (Some SGround, AExecute).
Lemma exec_parse v c : v_state v = SGround -> executed c -> 
  parse_data v c = do_execute v c \/ parse_data v c = do v1 <- do_execute v c; Ok (w_state v1 SGround).
Proof.
  intros E [T|T]; unfold parse_data, do_trans; cbv zeta; rewrite E, T; cbn [fst snd exit_action do_action bind]; [left; reflexivity|right].
  destruct (do_execute v c); reflexivity.
Qed.
Lemma exec_state v c v' : VInv v -> do_execute v c = Ok v' -> v_state v' = v_state v.
Proof.
  intros H E. unfold do_execute, scr, send_primary_da in E.
  repeat match type of E with (if ?b then _ else _) = _ => destruct b end;
    try (injection E as <-; first [reflexivity | unfold vte_send; destruct (vfl v VF_PREPEND); reflexivity]);
    try (destruct (step _ _); [|discriminate]; cbn [bind] in E; injection E as <-; reflexivity).
  rewrite write_console_eq in E by exact H. unfold scr in E. destruct (step _ _); [|discriminate]. cbn [bind] in E. injection E as <-. reflexivity.
Qed.
Lemma exec_seq sg v c bs : VInv v -> text_mode v -> executed c -> encodes sg (v_flags v) [c] bs ->
  match vte_input sg v bs, do_execute v c with
  | Ok v', Ok w => core v' = core w /\ text_mode v' /\ VInv v'
  | Ub, Ub => True
  | _, _ => False
  end.
Proof.
  intros H [Es R] T He. destruct (walk_last sg v [] v c bs (walk_nil v) R He) as [A B].
  pose proof (exec_state v c) as S.
  destruct (exec_parse v c Es T) as [P|P]; rewrite P in A; destruct (do_execute v c) as [w|]; cbn [bind] in A; destruct (vte_input sg v bs) as [v'|] eqn:E; try contradiction; try exact I.
  - cbn in A. split; [exact (core_alike _ _ A)|]. split; [split; [rewrite (al_state _ _ _ A); rewrite (S w H eq_refl); exact Es|now apply B]|].
    exact (input_inv sg bs v v' H E).
  - cbn in A. split; [rewrite (core_alike _ _ A); reflexivity|]. split; [split; [rewrite (al_state _ _ _ A); reflexivity|now apply B]|].
    exact (input_inv sg bs v v' H E).
Qed.
Lemma control_acts sg v c ops bs : VInv v -> text_mode v -> control_calls (vfl v VF_LNM) c = Some ops -> encodes sg (v_flags v) [c] bs -> acts sg v bs ops.
Proof.
  intros H Ht Hs He.
  assert (T : executed c /\ do_execute v c = calls v ops).
  { unfold control_calls in Hs.
    destruct (Z.eqb_spec c 8) as [->|?]; [injection Hs as <-; split; [left; reflexivity|exact (scr_calls v _)]|].
    destruct (Z.eqb_spec c 9) as [->|?]; [injection Hs as <-; split; [left; reflexivity|exact (scr_calls v _)]|].
    destruct ((10 <=? c) && (c <=? 12)) eqn:E.
    { assert (R : c = 10 \/ c = 11 \/ c = 12) by lia. assert (Ho : ops = [if vfl v VF_LNM then ONewline else OMoveDown 1 true]) by congruence. rewrite Ho.
      destruct R as [->|[->| ->]]; (split; [left; reflexivity|]); unfold do_execute; eqbs; cbn [orb]; destruct (vfl v VF_LNM); exact (scr_calls v _). }
    destruct (Z.eqb_spec c 13) as [->|?]; [injection Hs as <-; split; [left; reflexivity|exact (scr_calls v _)]|].
    destruct (Z.eqb_spec c 0x84) as [->|?]; [injection Hs as <-; split; [right; reflexivity|exact (scr_calls v _)]|].
    destruct (Z.eqb_spec c 0x85) as [->|?]; [injection Hs as <-; split; [right; reflexivity|exact (scr_calls v _)]|].
    destruct (Z.eqb_spec c 0x88) as [->|?]; [injection Hs as <-; split; [right; reflexivity|exact (scr_calls v _)]|].
    destruct (Z.eqb_spec c 0x8d) as [->|?]; [injection Hs as <-; split; [right; reflexivity|exact (scr_calls v _)]|].
    destruct ((c =? 0) || (c =? 7) || (c =? 17) || (c =? 19) || (c =? 156)) eqn:E2; [|discriminate]. injection Hs as <-.
    assert (R : c = 0 \/ c = 7 \/ c = 17 \/ c = 19 \/ c = 156) by lia.
    destruct R as [->|[->|[->|[->| ->]]]]; (split; [first [left; reflexivity|right; reflexivity]|exact (calls_nil v)]). }
  destruct T as [T X]. pose proof (exec_seq sg v c bs H Ht T He) as G. rewrite X in G. unfold acts, calls in *.
  destruct (run (v_con v) ops) as [c1|]; cbn [bind] in G; destruct (vte_input sg v bs) as [v'|]; try contradiction; [|reflexivity].
  destruct G as (G & G2 & _). exists v'. split; [reflexivity|]. split; [rewrite G; reflexivity|exact G2].
Qed.

(* -- shifts and designations ------------------------------------------------ *)
Lemma exec_sets sg v c bs w : VInv v -> text_mode v -> executed c -> do_execute v c = Ok w -> encodes sg (v_flags v) [c] bs ->
  exists v', vte_input sg v bs = Ok v' /\ core v' = core w /\ text_mode v' /\ VInv v'.
Proof.
  intros H Ht T E He. pose proof (exec_seq sg v c bs H Ht T He) as G. rewrite E in G. destruct (vte_input sg v bs) as [v'|]; [|contradiction].
  exists v'. tauto.
Qed.
Lemma esc_sets sg v d bs w : VInv v -> text_mode v -> esc_final d -> do_esc_plain (w_state (do_clear v) SEsc) d = Ok w -> encodes sg (v_flags v) [27; d] bs ->
  exists v', vte_input sg v bs = Ok v' /\ core v' = core w /\ text_mode v' /\ VInv v'.
Proof.
  intros H Ht T E He. pose proof (esc_seq sg v d bs H Ht T He) as G. rewrite E in G. destruct (vte_input sg v bs) as [v'|]; [|contradiction].
  exists v'. tauto.
Qed.
Definition shift_seq (l : list Z) : Prop :=
  In l [[14]; [15]; [27; 110]; [27; 111]; [27; 126]; [27; 125]; [27; 124]; [142]; [27; 78]; [143]; [27; 79]].
Lemma shifted_in v l w : shifted v l = Some w -> shift_seq l.
Proof.
  intros E. unfold shift_seq. destruct l as [|a [|b [|? ?]]]; try discriminate; cbn [shifted] in E; cbn [In].
  - repeat match type of E with (if a =? ?k then _ else _) = _ => destruct (Z.eqb_spec a k) as [->|?]; [tauto|] end. discriminate.
  - destruct (Z.eqb_spec a 27) as [->|?]; [|discriminate]. cbn [negb] in E.
    repeat match type of E with (if b =? ?k then _ else _) = _ => destruct (Z.eqb_spec b k) as [->|?]; [tauto|] end. discriminate.
Qed.
Lemma shift_acts sg v l w bs : VInv v -> text_mode v -> shifted v l = Some w -> encodes sg (v_flags v) l bs ->
  exists v', vte_input sg v bs = Ok v' /\ core v' = core w /\ text_mode v' /\ VInv v'.
Proof.
  intros H Ht Hs He. pose proof (shifted_in v l w Hs) as Hi. cbn [In shift_seq] in Hi. unfold shift_seq in Hi. cbn [In] in Hi.
  repeat (destruct Hi as [<-|Hi]); [..|destruct Hi]; injection Hs as <-.
  all: lazymatch type of He with
  | encodes _ _ [?c] _ => first [exact (exec_sets sg v c bs _ H Ht (or_introl eq_refl) eq_refl He) | exact (exec_sets sg v c bs _ H Ht (or_intror eq_refl) eq_refl He)]
  | encodes _ _ [27; ?d] _ => destruct (esc_sets sg v d bs _ H Ht eq_refl eq_refl He) as (v' & E & C & T & I'); exists v'; split; [exact E|]; split; [rewrite C; reflexivity|]; auto
  end.
Qed.

Lemma collect_parse w i : v_state w = SEsc -> 40 <= i <= 43 -> parse_data w i = Ok (w_state (do_collect w i) SEscInt).
Proof.
  intros E Hi. unfold parse_data, do_trans. cbv zeta. rewrite E. assert (R : i = 40 \/ i = 41 \/ i = 42 \/ i = 43) by lia.
  destruct R as [->|[->|[->| ->]]]; reflexivity.
Qed.
Lemma desig_parse w f v' : v_state w = SEscInt -> 48 <= f <= 126 -> (match esc_charset f with Some c => set_charset w c | None => None end) = Some v' ->
  parse_data w f = Ok (w_state v' SGround).
Proof.
  intros E Hf X. unfold parse_data, do_trans. cbv zeta. rewrite E.
  assert (T : trans SEscInt f = (Some SGround, AEsc)).
  { unfold trans, trans_any, trans_state, c0, rng.
    repeat match goal with |- context [f =? ?y] => replace (f =? y) with false by lia end.
    repeat match goal with |- context [(?x <=? f) && (f <=? ?y)] => first [replace ((x <=? f) && (f <=? y)) with false by lia | replace ((x <=? f) && (f <=? y)) with true by lia] end.
    reflexivity. }
  rewrite T. cbn [fst snd exit_action do_action bind]. unfold do_esc. rewrite X. reflexivity.
Qed.
Lemma designated_form v l w : designated v l = Some w -> exists i f c, l = [27; i; f] /\ 40 <= i <= 43 /\ 48 <= f <= 126 /\ esc_charset f = Some c /\
  w = (if i =? 40 then w_g0 v c else if i =? 41 then w_g1 v c else if i =? 42 then w_g2 v c else w_g3 v c).
Proof.
  intros E. destruct l as [|a [|i [|f [|? ?]]]]; cbn [designated] in E; try discriminate.
  destruct (Z.eqb_spec a 27) as [->|?]; [|discriminate]. cbn [negb] in E. exists i, f.
  assert (X : match esc_charset f with Some c => (if f =? 66 then Some CsLower else if f =? 60 then Some CsDecSupp else if f =? 48 then Some CsDecSpec
           else if existsb (Z.eqb f) [65; 52; 67; 53; 82; 81; 75; 89; 69; 54; 90; 72; 55; 61] then Some CsUpper else None) = Some c /\ 48 <= f <= 126
           | None => (if f =? 66 then Some CsLower else if f =? 60 then Some CsDecSupp else if f =? 48 then Some CsDecSpec
           else if existsb (Z.eqb f) [65; 52; 67; 53; 82; 81; 75; 89; 69; 54; 90; 72; 55; 61] then Some CsUpper else None) = None end).
  { unfold esc_charset. destruct (Z.eqb_spec f 66); [split; [reflexivity|lia]|]. destruct (Z.eqb_spec f 60); [split; [reflexivity|lia]|].
    destruct (Z.eqb_spec f 48); [split; [reflexivity|lia]|]. cbn [existsb]. rewrite orb_false_r, !orb_assoc.
    destruct (_ || _) eqn:O; [split; [reflexivity|lia]|reflexivity]. }
  destruct (esc_charset f) as [c|]; [|rewrite X in E; discriminate]. destruct X as [X Hf]. rewrite X in E. exists c. split; [reflexivity|].
  destruct (Z.eqb_spec i 40); [split; [lia|]; split; [exact Hf|]; split; [reflexivity|congruence]|].
  destruct (Z.eqb_spec i 41); [split; [lia|]; split; [exact Hf|]; split; [reflexivity|congruence]|].
  destruct (Z.eqb_spec i 42); [split; [lia|]; split; [exact Hf|]; split; [reflexivity|congruence]|].
  destruct (Z.eqb_spec i 43); [split; [lia|]; split; [exact Hf|]; split; [reflexivity|congruence]|]. discriminate.
Qed.

Lemma collect_cfl w i : 40 <= i <= 43 -> v_cfl w = 0 -> 
  v_cfl (do_collect w i) = if i =? 40 then 512 else if i =? 41 then 1024 else if i =? 42 then 128 else 256.
Proof.
  intros Hi E. assert (R : i = 40 \/ i = 41 \/ i = 42 \/ i = 43) by lia.
  destruct R as [->|[->|[->| ->]]]; unfold do_collect; cbn [w_cfl v_cfl collect_bit]; 
  match goal with |- context [collect_bit ?i] => let b := eval compute in (collect_bit i) in change (collect_bit i) with b end; cbn [w_cfl v_cfl]; rewrite E; reflexivity.
Qed.
Lemma desig_acts sg v l w bs : VInv v -> text_mode v -> designated v l = Some w -> encodes sg (v_flags v) l bs ->
  exists v', vte_input sg v bs = Ok v' /\ core v' = core w /\ text_mode v' /\ VInv v'.
Proof.
  intros H Ht Hs He. destruct (designated_form v l w Hs) as (i & f & c & -> & Hi & Hf & Ec & Ew).
  pose proof (ground_clear v H Ht) as E1. destruct Ht as [Es R]. set (w1 := w_state (do_clear v) SEsc) in *.
  set (w2 := w_state (do_collect w1 i) SEscInt).
  assert (Q2 : quiet v w2).
  { apply (quiet_tr _ w1); [now apply quiet_esc|]. apply (quiet_tr _ (do_collect w1 i)); [apply quiet_collect|apply quiet_state, VInv_collect]; now apply VInv_state, VInv_clear. }
  assert (W : walk v [27; i] w2).
  { econstructor; [exact E1|reflexivity|]. apply (walk_cons w1 i w2); [now apply collect_parse|now apply quiet_flags|constructor]. }
  destruct (walk_last sg v [27; i] w2 f bs W R He) as [A B].
  assert (C : v_cfl w2 = if i =? 40 then 512 else if i =? 41 then 1024 else if i =? 42 then 128 else 256) by exact (collect_cfl w1 i Hi eq_refl).
  assert (X : exists v', set_charset w2 c = Some v' /\ core v' = core w /\ v_state v' = SEscInt).
  { assert (St : v_state w2 = SEscInt) by reflexivity. clearbody w2. clear -C Ew Hi Q2 St. destruct Q2 as [Q _]. subst w. unfold set_charset, cfl. rewrite C.
    assert (R : i = 40 \/ i = 41 \/ i = 42 \/ i = 43) by lia.
    destruct R as [->|[->|[->| ->]]].
    - change (40 =? 40) with true. cbv iota. change (bit 512 CSI_POPEN) with true. cbv iota. exists (w_g0 w2 c). split; [reflexivity|]. split; [|exact St].
      change (w_g0 (core w2) c = w_g0 (core v) c). now rewrite Q.
    - change (41 =? 40) with false. change (41 =? 41) with true. cbv iota. change (bit 1024 CSI_POPEN) with false. change (bit 1024 CSI_PCLOSE) with true. cbv iota.
      exists (w_g1 w2 c). split; [reflexivity|]. split; [|exact St]. change (w_g1 (core w2) c = w_g1 (core v) c). now rewrite Q.
    - change (42 =? 40) with false. change (42 =? 41) with false. change (42 =? 42) with true. cbv iota. change (bit 128 CSI_POPEN) with false. change (bit 128 CSI_PCLOSE) with false. change (bit 128 CSI_MULT) with true. cbv iota.
      exists (w_g2 w2 c). split; [reflexivity|]. split; [|exact St]. change (w_g2 (core w2) c = w_g2 (core v) c). now rewrite Q.
    - change (43 =? 40) with false. change (43 =? 41) with false. change (43 =? 42) with false. cbv iota. change (bit 256 CSI_POPEN) with false. change (bit 256 CSI_PCLOSE) with false. change (bit 256 CSI_MULT) with false. change (bit 256 CSI_PLUS) with true. cbv iota.
      exists (w_g3 w2 c). split; [reflexivity|]. split; [|exact St]. change (w_g3 (core w2) c = w_g3 (core v) c). now rewrite Q. }
  destruct X as (v' & X & Cv & Sv). rewrite (desig_parse w2 f v' eq_refl Hf) in A by (rewrite Ec; exact X).
  destruct (vte_input sg v bs) as [u|] eqn:E; [|contradiction]. exists u. split; [reflexivity|]. split; [rewrite (core_alike _ _ A); exact Cv|].
  split; [split; [rewrite (al_state _ _ _ A); reflexivity|now apply B]|exact (input_inv sg bs v u H E)].
Qed.

(* -- save, restore, reset ----------------------------------------------------- *)
Lemma save_seq sg v bs : VInv v -> text_mode v -> encodes sg (v_flags v) [27; 55] bs ->
  exists v', vte_input sg v bs = Ok v' /\ core v' = core (save_state v) /\ text_mode v' /\ VInv v'.
Proof. intros H Ht He. exact (esc_sets sg v 55 bs _ H Ht eq_refl eq_refl He). Qed.
Lemma esc_cr sg v d bs r : VInv v -> text_mode v -> esc_final d -> cr r (do_esc_plain (w_state (do_clear v) SEsc) d) -> encodes sg (v_flags v) [27; d] bs ->
  match r with Ok w => exists v', vte_input sg v bs = Ok v' /\ core v' = core w /\ text_mode v' /\ VInv v' | Ub => vte_input sg v bs = Ub end.
Proof.
  intros H Ht T C He. pose proof (esc_seq sg v d bs H Ht T He) as G. destruct r as [w|], (do_esc_plain _ d) as [w'|]; cbn in C; try contradiction;
    destruct (vte_input sg v bs) as [v'|]; try contradiction; [|reflexivity]. exists v'. split; [reflexivity|]. split; [now rewrite C|tauto].
Qed.
Lemma restore_seq sg v bs : VInv v -> text_mode v -> encodes sg (v_flags v) [27; 56] bs ->
  match restore_state v with Ok w => exists v', vte_input sg v bs = Ok v' /\ core v' = core w /\ text_mode v' /\ VInv v' | Ub => vte_input sg v bs = Ub end.
Proof.
  intros H Ht He. apply (esc_cr sg v 56 bs (restore_state v) H Ht eq_refl); [|exact He].
  exact (cr_restore v (w_state (do_clear v) SEsc) eq_refl).
Qed.
Lemma hard_seq sg v bs : VInv v -> text_mode v -> encodes sg (v_flags v) [27; 99] bs ->
  match vte_hard_reset v with Ok w => exists v', vte_input sg v bs = Ok v' /\ core v' = core w /\ text_mode v' /\ VInv v' | Ub => vte_input sg v bs = Ub end.
Proof.
  intros H Ht He. apply (esc_cr sg v 99 bs (vte_hard_reset v) H Ht eq_refl); [|exact He].
  exact (cr_hard v (w_state (do_clear v) SEsc) eq_refl).
Qed.

(* -- cancelling and restarting ------------------------------------------------ *)
Lemma any_ground v c r : VInv v -> trans_any c = Some (Some SGround, AExecute) -> 
  (forall l, do_execute (w_osc (osc_event v) l) c = r l) ->
  exists l, parse_data v c = do v2 <- r l; Ok (w_state v2 SGround).
Proof.
  intros H T X. unfold parse_data, do_trans, trans. cbv zeta. rewrite T. cbn [fst snd].
  destruct (exit_eq v c H) as (l & ->). exists l. cbn [bind do_action]. rewrite X. destruct (r l); reflexivity.
Qed.
Lemma can_seq sg v bs : VInv v -> ready v -> encodes sg (v_flags v) [24] bs ->
  exists v', vte_input sg v bs = Ok v' /\ core v' = core (osc_event v) /\ text_mode v' /\ VInv v'.
Proof.
  intros H R He. destruct (walk_last sg v [] v 24 bs (walk_nil v) R He) as [A B].
  destruct (any_ground v 24 (fun l => Ok (w_osc (osc_event v) l)) H eq_refl (fun l => eq_refl)) as (l & P). rewrite P in A. cbn [bind] in A.
  destruct (vte_input sg v bs) as [v'|] eqn:E; [|contradiction]. exists v'. split; [reflexivity|]. split; [rewrite (core_alike _ _ A); reflexivity|].
  split; [split; [rewrite (al_state _ _ _ A); reflexivity|now apply B]|exact (input_inv sg bs v v' H E)].
Qed.
Lemma event_keep v : v_con (osc_event v) = v_con v /\ v_pal (osc_event v) = v_pal v /\ v_cattr (osc_event v) = v_cattr v.
Proof. unfold osc_event. destruct (v_state v); auto. destruct (v_oscb v); auto. Qed.
Lemma sub_seq sg v bs : VInv v -> ready v -> encodes sg (v_flags v) [26] bs ->
  match step (v_con v) (OWrite 0xbf (cur_attr v)) with
  | Ok c => exists v', vte_input sg v bs = Ok v' /\ core v' = core (w_con (w_cattr (osc_event v) (cur_attr v)) c) /\ text_mode v' /\ VInv v'
  | Ub => vte_input sg v bs = Ub
  end.
Proof.
  intros H R He. destruct (walk_last sg v [] v 26 bs (walk_nil v) R He) as [A B].
  destruct (event_keep v) as (K1 & K2 & K3).
  assert (VE : forall l, length l = 128%nat -> VInv (w_osc (osc_event v) l)) by (intros l Hl; pose proof (VInv_event v H) as X; destruct X; constructor; auto).
  unfold parse_data, do_trans, trans in A. cbv zeta in A. replace (trans_any 26) with (Some (Some SGround, AExecute)) in A by reflexivity. cbn [fst snd] in A.
  assert (X : exists l, length l = 128%nat /\ do_action v 26 (exit_action (v_state v)) = Ok (w_osc (osc_event v) l)).
  { destruct (v_state v) eqn:E; cbn [exit_action do_action];
      try (exists (v_osc v); split; [apply (vi_oscl v H)|]; unfold osc_event; rewrite E; destruct v; reflexivity).
    destruct (osc_end_eq v H E) as (l & -> & L). eauto. }
  destruct X as (l & L & X). rewrite X in A. cbn [bind do_action entry_action] in A.
  replace (do_execute (w_osc (osc_event v) l) 26) with (write_console (w_osc (osc_event v) l) 191) in A by reflexivity.
  rewrite (write_console_eq _ _ (VE l L)) in A. unfold scr in A. cbn [w_osc w_cattr v_con v_pal v_cattr] in A. rewrite K1, K2, K3 in A. fold (cur_attr v) in A.
  destruct (step (v_con v) _) as [c|]; cbn [bind] in A.
  - destruct (vte_input sg v bs) as [v'|] eqn:E; [|contradiction]. exists v'. split; [reflexivity|]. split; [rewrite (core_alike _ _ A); reflexivity|].
    split; [split; [rewrite (al_state _ _ _ A); reflexivity|now apply B]|exact (input_inv sg bs v v' H E)].
  - destruct (vte_input sg v bs); [contradiction|reflexivity].
Qed.

(* Terminals that differ at most in a decoder that is not in use. *)
Definition twin (v w : vte) : Prop := v = w \/ (alike [] v w /\ ready v /\ ready w).
Lemma feed_idle sg m m' b : idle m -> idle m' ->
  umach_feed sg m b = umach_feed sg m' b \/
  (idle (umach_feed sg m b) /\ idle (umach_feed sg m' b) /\ umach_out (umach_feed sg m b) = umach_out (umach_feed sg m' b)).
Proof.
  intros I1 I2. unfold umach_feed. cbv zeta. unfold idle in I1, I2.
  destruct (u_state m); try contradiction; destruct (u_state m'); try contradiction;
    repeat match goal with |- context [if ?b then _ else _] => destruct b end;
    first [left; reflexivity | right; split; [exact I|]; split; [exact I|reflexivity]].
Qed.
Lemma alike_sym v w : alike [] v w -> alike [] w v.
Proof. intros (m & ->). exists (v_mach v). destruct v; reflexivity. Qed.
Lemma twin_parse v w cp : alike [] v w -> ready v -> ready w ->
  match parse_data v cp, parse_data w cp with Ok a, Ok b => twin a b | Ub, Ub => True | _, _ => False end.
Proof.
  intros A R1 R2. pose proof (ar_parse [] _ _ cp A) as P. pose proof (ready_parse v cp) as Q1. pose proof (ready_parse w cp) as Q2.
  destruct (parse_data v cp), (parse_data w cp); cbn in P; try contradiction; [|exact I]. right. split; [exact P|]. split; [now apply Q1|now apply Q2].
Qed.
Lemma twin_byte sg v w b : twin v w -> match input_byte sg v b, input_byte sg w b with Ok a, Ok b => twin a b | Ub, Ub => True | _, _ => False end.
Proof.
  intros [->|(A & R1 & R2)]; [destruct (input_byte sg w b); [left; reflexivity|exact I]|].
  unfold input_byte. rewrite !(al_vfl _ _ _ _ A). destruct (vfl v VF_7BIT) eqn:F7; [now apply twin_parse|]. destruct (vfl v VF_8BIT) eqn:F8; [now apply twin_parse|].
  cbv zeta. pose proof (ready_utf8 v R1 F7 F8) as (_ & _ & I1).
  assert (I2 : idle (v_mach w)) by (apply (ready_utf8 w R2); rewrite (al_vfl _ _ _ _ A); assumption).
  destruct (feed_idle sg (v_mach v) (v_mach w) b I1 I2) as [E|(J1 & J2 & E)].
  - rewrite E. destruct A as (m & ->). replace (w_mach (w_mach (w_out v ([] ++ v_out v)) m) (umach_feed sg (v_mach (w_mach (w_out v ([] ++ v_out v)) m)) b)) with (w_mach v (umach_feed sg (v_mach (w_mach (w_out v ([] ++ v_out v)) m)) b)) by (destruct v; reflexivity).
    destruct (umach_out _) as [cp|]; [destruct (parse_data _ cp); [left; reflexivity|exact I]|left; reflexivity].
  - rewrite E. assert (A2 : alike [] (w_mach v (umach_feed sg (v_mach v) b)) (w_mach w (umach_feed sg (v_mach w) b))).
    { destruct A as (m & ->). eexists. destruct v; reflexivity. }
    assert (S1 : ready (w_mach v (umach_feed sg (v_mach v) b))) by (right; right; exact J1).
    assert (S2 : ready (w_mach w (umach_feed sg (v_mach w) b))) by (right; right; exact J2).
    destruct (umach_out (umach_feed sg (v_mach w) b)) as [cp|]; [now apply twin_parse|]. right. auto.
Qed.
Lemma twin_input sg bs : forall v w, twin v w -> match vte_input sg v bs, vte_input sg w bs with Ok a, Ok b => twin a b | Ub, Ub => True | _, _ => False end.
Proof.
  induction bs as [|b r IH]; intros v w T; cbn [vte_input]; [exact T|]. pose proof (twin_byte sg v w b T) as P.
  destruct (input_byte sg v b), (input_byte sg w b); try contradiction; cbn [bind]; [now apply IH|exact I].
Qed.
Lemma clear_core v w s : core v = core w -> alike [] (w_state (do_clear v) s) (w_state (do_clear w) s).
Proof.
  intros H. exists (v_mach w). 
  assert (E : forall u, w_state (do_clear u) s = w_state (w_osc (w_osclen (w_cfl (w_argv (w_argc (w_mach (core u) (v_mach u)) 0) (repeat (-1) 16)) 0) 0) (repeat 0 128)) s) by (intros u; destruct u; reflexivity).
  rewrite (E v), (E w), H. destruct w; reflexivity.
Qed.
(* C29: after ESC nothing of the interrupted sequence matters. *)
Lemma restart sg v w bs : VInv v -> VInv w -> ready v -> ready w -> core (osc_event v) = core (osc_event w) ->
  match vte_input sg v (27 :: bs), vte_input sg w (27 :: bs) with Ok a, Ok b => twin a b | Ub, Ub => True | _, _ => False end.
Proof.
  intros Hv Hw Rv Rw C. cbn [vte_input].
  assert (Ha : ascii 27) by (unfold ascii; lia).
  destruct (ascii_byte sg v 27 Rv Ha) as (m & E & Rm), (ascii_byte sg w 27 Rw Ha) as (m' & E' & Rm').
  assert (P : forall u x, VInv u -> parse_data (w_mach u x) 27 = Ok (w_state (do_clear (w_mach (osc_event u) x)) SEsc)).
  { intros u x Hu. rewrite (esc_eq (w_mach u x)) by now apply VInv_mach. unfold osc_event. cbn [w_mach v_state v_oscb v_osc v_osclen]. destruct (v_state u); try reflexivity. destruct (v_oscb u); reflexivity. }
  assert (R1 : ready (w_state (do_clear (w_mach (osc_event v) m)) SEsc)) by (apply (ready_parse (w_mach v m) 27); [exact Rm|now apply P]).
  assert (R2 : ready (w_state (do_clear (w_mach (osc_event w) m')) SEsc)) by (apply (ready_parse (w_mach w m') 27); [exact Rm'|now apply P]).
  rewrite E, E', !P by assumption. cbn [bind]. apply twin_input. right. split; [apply clear_core; exact C|auto].
Qed.
