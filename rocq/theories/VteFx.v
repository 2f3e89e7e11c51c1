(* Graphic rendition, modes and replies. *)
From Verif Require Import Base BaseProofs Utf8 Symbol Screen ScreenInv ScreenSafe VteData Vte VteKeys VteSpec VteView VteInv VteSafe VteFrame VteParse VteCsi.
From Verif Require Import ScreenSb ScreenSpec ScreenOps ScreenCtl ScreenThms Utf8Spec Utf8Proofs.

(* -- SGR ------------------------------------------------------------------ *)
Lemma csi_m v : csi_body v 109 = do p0 <- zget (v_argv v) 0; do p1 <- zget (v_argv v) 1; csi_attribute v.
Proof. reflexivity. Qed.
Lemma at_argv_full v fl P st : zlen (args P) = 16 -> v_argv (at_csi v fl P st) = args P.
Proof.
  intros H. change (v_argv (at_csi v fl P st)) with (firstn 16 (args P ++ repeat (-1) 16)).
  rewrite firstn_app. replace (16 - length (args P))%nat with 0%nat by lia. rewrite firstn_O, app_nil_r. apply firstn_all2. lia.
Qed.
(* The list of parameters on which the emulator reads past the array. *)
Definition sgr_overrun (P : list Z) : Prop := zlen (args P) = 16 /\ sgr_dangling (args P) = true.
(* The attributes after SGR. *)
Definition sgr_result (v : vte) (P : list Z) : attr :=
  resolve (v_pal v) (sgr_list (v_def v) (sgr_params (args P)) (v_cattr v)).
Lemma core_cattr v w a : core v = core w -> core (w_cattr v a) = core (w_cattr w a).
Proof. intros H. change (w_cattr (core v) a = w_cattr (core w) a). now rewrite H. Qed.

Lemma core_sgr v fl P st l n a c :
  core (w_state (w_con (w_cattr (w_argv (w_argc (at_csi v fl P st) n) l) a) c) SGround) = core (w_con (w_cattr v a) c).
Proof. unfold at_csi. generalize (args P). intros q. destruct v. reflexivity. Qed.
Lemma sgr_seq sg v pri fl P : VInv v -> text_mode v -> marker pri = Some fl -> Forall pchar P -> ~ sgr_overrun P ->
  exists v' c, vte_input sg v (csi_bytes pri P 109) = Ok v' /\ text_mode v' /\ VInv v' /\
    (if vfl v VF_BCE then step (v_con v) (OSetDefAttr (sgr_result v P)) = Ok c else c = v_con v) /\
    core v' = core (w_con (w_cattr v (sgr_result v P)) c).
Proof.
  intros H Ht Hm HP Hh. pose proof Ht as [_ Hr].
  destruct (csi_seq sg v pri fl P 109 H Hr Hm HP ltac:(lia)) as (st & _ & E). rewrite (text_event v Ht) in E.
  pose proof (VInv_at v fl P st H HP) as IA. destruct (args_len P) as [A B].
  rewrite csi_run_body in E by (rewrite at_argc; lia). rewrite csi_m in E.
  rewrite (at_arg v fl P st 0), (at_arg v fl P st 1) in E by lia. cbn [bind] in E.
  destruct (csi_attribute_eq (at_csi v fl P st) IA) as (l & n & Ea & Ca & Ia).
  { rewrite at_argc. lia. }
  { rewrite at_argc. intros [X Y]. rewrite at_argv_full in Y by exact X. apply Hh. split; auto. }
  rewrite at_params in Ea, Ca, Ia. rewrite Ea in E. clear Ea.
  change (v_pal (at_csi v fl P st)) with (v_pal v) in *. change (v_def (at_csi v fl P st)) with (v_def v) in *.
  change (v_cattr (at_csi v fl P st)) with (v_cattr v) in *. change (vfl (at_csi v fl P st) VF_BCE) with (vfl v VF_BCE) in *.
  fold (sgr_result v P) in E, Ca, Ia.
  destruct (vfl v VF_BCE).
  - destruct (scr_ok _ (OSetDefAttr (sgr_result v P)) Ia I) as (c & Ec & Es & _); [cbn; tauto|]. rewrite Es in E.
    destruct E as (v' & E & Al & T & I'). exists v', c. split; [exact E|]. split; [exact T|]. split; [exact I'|]. split; [exact Ec|].
    rewrite (core_alike _ _ Al). apply core_sgr.
  - destruct E as (v' & E & Al & T & I'). exists v', (v_con v). split; [exact E|]. split; [exact T|]. split; [exact I'|]. split; [reflexivity|].
    rewrite (core_alike _ _ Al). rewrite <- (core_sgr v fl P st l n). f_equal.
Qed.
Lemma sgr_seq_ub sg v pri fl P : VInv v -> text_mode v -> marker pri = Some fl -> Forall pchar P -> sgr_overrun P ->
  vte_input sg v (csi_bytes pri P 109) = Ub.
Proof.
  intros H Ht Hm HP [X Y]. pose proof Ht as [_ Hr].
  destruct (csi_seq sg v pri fl P 109 H Hr Hm HP ltac:(lia)) as (st & _ & E). rewrite (text_event v Ht) in E.
  pose proof (VInv_at v fl P st H HP) as IA.
  rewrite csi_run_body in E by (rewrite at_argc; lia). rewrite csi_m in E.
  rewrite (at_arg v fl P st 0), (at_arg v fl P st 1) in E by lia. cbn [bind] in E.
  rewrite (csi_attribute_ub _ IA) in E; [exact E|exact X|]. now rewrite at_argv_full.
Qed.

(* Attributes a list does not mention stay. *)
Lemma sgr_keeps {A} (g : attr -> A) (bad : Z -> bool) def :
  (forall p a, bad p = false -> p <> 38 -> p <> 48 -> g (sgr_simple def p a) = g a) ->
  (forall p c a, (p = 38 \/ p = 48) -> bad p = false -> g (put_colour (p =? 38) c a) = g a) ->
  forall l a, (forall p, In p l -> bad p = false) -> g (sgr_list def l a) = g a.
Proof.
  intros H1 H2. 
  assert (G : forall n l a, (length l <= n)%nat -> (forall p, In p l -> bad p = false) -> g (sgr_list def l a) = g a).
  { induction n as [|n IH]; intros l a Hn Hl; [destruct l; [reflexivity|cbn in Hn; lia]|].
    destruct l as [|p r]; [reflexivity|]. cbn [length] in Hn.
    assert (Bp : bad p = false) by (apply Hl; now left). assert (Br : forall q, In q r -> bad q = false) by (intros; apply Hl; now right).
    cbn [sgr_list]. destruct ((p =? 38) || (p =? 48)) eqn:E.
    - assert (Pp : p = 38 \/ p = 48) by lia.
      assert (D : g (sgr_list def r a) = g a) by (apply IH; [lia|auto]).
      destruct r as [|q [|x r2]]; [exact D| |].
      + repeat (match goal with |- context [match ?z with _ => _ end] => destruct z end; try exact D).
      + assert (E5 : forall c r', (length r' <= n)%nat -> (forall q, In q r' -> bad q = false) -> g (sgr_list def r' (put_colour (p =? 38) c a)) = g a).
        { intros c r' Hn' Hr'. rewrite IH by auto. now apply H2. }
        destruct q as [|q|q]; try exact D. do 3 (try destruct q as [q|q|]; try exact D).
        * destruct (0 <=? x); [|exact D]. apply E5; [cbn [length] in Hn; lia|intros; apply Br; right; right; auto].
        * destruct r2 as [|cg [|cb r3]]; [exact D|exact D|].
          destruct ((0 <=? x) && (0 <=? cg) && (0 <=? cb)); [|exact D]. apply E5; [cbn [length] in Hn; lia|intros; apply Br; do 4 right; auto].
    - rewrite IH by (auto; lia). apply H1; [auto|lia|lia]. }
  intros l a Hl. apply (G (length l)); auto.
Qed.

(* -- modes ---------------------------------------------------------------- *)
Lemma fl_end_only s t h i : s_flags t = s_flags s -> same_text s t -> s_sb t = s_sb s -> s_cx t = s_cx s -> s_cy t = s_cy s ->
  s_sx t = s_sx s -> s_sy t = s_sy s -> s_mt t = s_mt s -> s_mb t = s_mb s -> s_tabs t = s_tabs s -> s_def t = s_def s ->
  only_flags s (fl_end t h i) (s_flags s).
Proof.
  intros E1 E2 E3 E4 E5 E6 E7 E8 E9 E10 E11. unfold fl_end. cbv zeta.
  assert (K : only_flags s (if h then touched t else t) (s_flags s)).
  { unfold only_flags. destruct h; [|auto 12].
    change (s_flags (touched t)) with (s_flags t). change (s_sb (touched t)) with (s_sb t). change (s_cx (touched t)) with (s_cx t).
    change (s_cy (touched t)) with (s_cy t). change (s_sx (touched t)) with (s_sx t). change (s_sy (touched t)) with (s_sy t).
    change (s_mt (touched t)) with (s_mt t). change (s_mb (touched t)) with (s_mb t). change (s_tabs (touched t)) with (s_tabs t).
    change (s_def (touched t)) with (s_def t).
    repeat match goal with |- _ /\ _ => split end; auto. intros y x. destruct (same_text_touched t y x) as [A B], (E2 y x). split; congruence. }
  destruct i; [|exact K]. exact K.
Qed.
Lemma inc_only s v : only_flags (set_flags s v) (set_flags (inc_age s) v) v.
Proof.
  rewrite inc_age_eq. unfold only_flags. repeat match goal with |- _ /\ _ => split end; try reflexivity. intros y x; split; reflexivity.
Qed.
Lemma flags_law s (set : bool) f : reachable s -> f <> 0 -> bit f F_ALT = false ->
  exists s', step s (if set then OSetFlags f else OResetFlags f) = Ok s' /\
    only_flags s s' (if set then Z.lor (s_flags s) f else Z.ldiff (s_flags s) f).
Proof.
  intros H Hf B. apply reachable_Inv in H. destruct set.
  - exists (flags_set s f). split; [exact (proj1 (set_flags_ok s f H Hf))|]. unfold flags_set. rewrite B, andb_false_r. cbn [fl_alt].
    change (only_flags (set_flags s (Z.lor (s_flags s) f)) (fl_end (set_flags (inc_age s) (Z.lor (s_flags s) f)) (negb (fl s F_HIDE) && bit f F_HIDE) (negb (fl s F_INVERSE) && bit f F_INVERSE)) (Z.lor (s_flags s) f)).
    destruct (inc_only s (Z.lor (s_flags s) f)) as (A1 & A2 & A3 & A4 & A5 & A6 & A7 & A8 & A9 & A10 & A11).
    exact (fl_end_only (set_flags s (Z.lor (s_flags s) f)) _ _ _ A1 A2 A3 A4 A5 A6 A7 A8 A9 A10 A11).
  - exists (flags_reset s f). split; [exact (proj1 (reset_flags_ok s f H Hf))|]. unfold flags_reset. rewrite B, andb_false_r. cbn [fl_alt].
    change (only_flags (set_flags s (Z.ldiff (s_flags s) f)) (fl_end (set_flags (inc_age s) (Z.ldiff (s_flags s) f)) (fl s F_HIDE && bit f F_HIDE) (fl s F_INVERSE && bit f F_INVERSE)) (Z.ldiff (s_flags s) f)).
    destruct (inc_only s (Z.ldiff (s_flags s) f)) as (A1 & A2 & A3 & A4 & A5 & A6 & A7 & A8 & A9 & A10 & A11).
    exact (fl_end_only (set_flags s (Z.ldiff (s_flags s) f)) _ _ _ A1 A2 A3 A4 A5 A6 A7 A8 A9 A10 A11).
Qed.

(* One mode parameter. *)
Definition mode1 (dec : bool) (v : vte) (set : bool) (n : Z) : res vte :=
  if dec then csi_mode_dec v set n else csi_mode_ansi v set n.
Lemma mode_flag_eq dec v set n b : mode_flag dec n = Some b -> mode1 dec v set n = calls (set_reset v set b) (mode_screen dec set n).
Proof.
  intros H. unfold mode1, mode_flag in *. destruct dec.
  - assert (C : n = 1 /\ b = VF_CURSOR_KEY \/ n = 5 /\ b = VF_INVERSE \/ n = 6 /\ b = VF_ORIGIN \/ n = 7 /\ b = VF_WRAP
      \/ n = 8 /\ b = VF_REPEAT \/ n = 25 /\ b = VF_TEXT_CURSOR \/ n = 42 /\ b = VF_NRC).
    { destruct n as [|p|p]; try discriminate. do 6 (try destruct p as [p|p|]; try discriminate); injection H as <-; tauto. }
    repeat (destruct C as [[-> ->]|C]); try (destruct C as [-> ->]); unfold csi_mode_dec, MOUSE_X10; eqbs; unfold scr_flag;
      first [apply scr_calls|apply calls_nil].
  - assert (C : n = 2 /\ b = VF_KAM \/ n = 4 /\ b = VF_IRM \/ n = 12 /\ b = VF_SRM \/ n = 20 /\ b = VF_LNM).
    { destruct n as [|p|p]; try discriminate. do 6 (try destruct p as [p|p|]; try discriminate); injection H as <-; tauto. }
    repeat (destruct C as [[-> ->]|C]); try (destruct C as [-> ->]); unfold csi_mode_ansi; eqbs; unfold scr_flag;
      first [apply scr_calls|apply calls_nil].
Qed.
Lemma mode_none_eq dec v set n : mode_flag dec n = None -> (dec = true -> ~ alt_mode n /\ ~ mouse_mode n) -> mode1 dec v set n = Ok v.
Proof.
  intros H Hn. unfold mode1, mode_flag in *. destruct dec.
  - destruct (Hn eq_refl) as [Ha Hm]. unfold alt_mode, mouse_mode in *. unfold csi_mode_dec. cbv zeta.
    assert (N : n <> 1 /\ n <> 5 /\ n <> 6 /\ n <> 7 /\ n <> 8 /\ n <> 25 /\ n <> 42).
    { repeat match goal with |- _ /\ _ => split end; intros ->; discriminate. }
    repeat match goal with |- context [n =? ?k] => replace (n =? k) with false by lia end. reflexivity.
  - unfold csi_mode_ansi.
    assert (N : n <> 2 /\ n <> 4 /\ n <> 12 /\ n <> 20).
    { repeat match goal with |- _ /\ _ => split end; intros ->; discriminate. }
    repeat match goal with |- context [n =? ?k] => replace (n =? k) with false by lia end. reflexivity.
Qed.
Lemma mode_alt_eq v set n : alt_mode n -> mode1 true v set n =
  calls (if alt_saves v set n then w_alty (w_altx v (s_cx (v_con v))) (s_cy (v_con v)) else v) (alt_calls v set n).
Proof.
  intros [->|[->|[->| ->]]]; unfold mode1, csi_mode_dec, alt_saves, alt_calls, scr_flag, MOUSE_X10, MOUSE_BTN, MOUSE_ANY; cbv zeta; eqbs; cbn [orb andb];
    rewrite ?andb_false_r, ?andb_true_r; destruct (vfl v VF_TITE), set; cbn [andb negb];
    first [apply scr_calls|apply scr_calls2|apply calls_nil].
Qed.
Lemma mode_mouse_eq v set n : mouse_mode n -> mode1 true v set n = Ok (mouse_after v set n).
Proof.
  intros Hn. unfold mode1, csi_mode_dec, mouse_after, mouse_spec. cbv zeta.
  destruct Hn as [->|[->|[->|[->| ->]]]]; unfold MOUSE_X10, MOUSE_BTN, MOUSE_ANY, MOUSE_SGR, MOUSE_PIXEL; eqbs; cbn [orb].
  all: cbn [w_mev w_mmode v_mcb v_mmode v_mev]; destruct (v_mcb v), set; cbn [andb negb orb];
    repeat match goal with |- context [?a =? ?b] => destruct (a =? b) end; try reflexivity; destruct v; reflexivity.
Qed.

Definition rcore (r : res vte) : res vte := do v <- r; Ok (core v).
Fixpoint modes (dec set : bool) (l : list Z) (v : vte) : res vte :=
  match l with [] => Ok v | n :: r => do v1 <- mode1 dec v set n; modes dec set r v1 end.
Lemma alt_mode_dec n : {alt_mode n} + {~ alt_mode n}.
Proof. unfold alt_mode. destruct (Z.eq_dec n 47), (Z.eq_dec n 1047), (Z.eq_dec n 1048), (Z.eq_dec n 1049); [left..|right]; tauto. Qed.
Lemma mouse_mode_dec n : {mouse_mode n} + {~ mouse_mode n}.
Proof.
  unfold mouse_mode. destruct (Z.eq_dec n MOUSE_X10), (Z.eq_dec n MOUSE_BTN), (Z.eq_dec n MOUSE_ANY), (Z.eq_dec n MOUSE_SGR), (Z.eq_dec n MOUSE_PIXEL);
    [left..|right]; tauto.
Qed.
Lemma calls_core v ops : rcore (calls v ops) = calls (core v) ops.
Proof. unfold rcore, calls. change (v_con (core v)) with (v_con v). destruct (run (v_con v) ops); reflexivity. Qed.
Lemma core_mouse v mm me e : core (w_mev (w_mmode v mm) me) = w_mev (w_mmode (core v) mm) me /\
  core (emit (w_mev (w_mmode v mm) me) e) = emit (w_mev (w_mmode (core v) mm) me) e.
Proof. destruct v. split; reflexivity. Qed.
Lemma mouse_core v set n : core (mouse_after v set n) = mouse_after (core v) set n.
Proof.
  assert (E1 : v_mmode (core v) = v_mmode v) by reflexivity. assert (E2 : v_mev (core v) = v_mev v) by reflexivity.
  assert (E3 : v_mcb (core v) = v_mcb v) by reflexivity. unfold mouse_after. rewrite E1, E2, E3.
  destruct (mouse_spec set n (v_mmode v) (v_mev v)) as ((mm & me) & [px|]); cbv beta iota zeta.
  - destruct (v_mcb v).
    + exact (proj2 (core_mouse v mm me (EMouse me px))).
    + exact (proj1 (core_mouse v mm me (EMouse me px))).
  - exact (proj1 (core_mouse v mm me (EMouse me true))).
Qed.
(* Every mode falls into one of the classes. *)
Lemma mode_cases dec n :
  (exists b, mode_flag dec n = Some b) \/ (dec = true /\ alt_mode n) \/ (dec = true /\ mouse_mode n) \/
  (mode_flag dec n = None /\ (dec = true -> ~ alt_mode n /\ ~ mouse_mode n)).
Proof.
  destruct (mode_flag dec n) as [b|] eqn:E; [left; eauto|]. right. destruct dec.
  - destruct (alt_mode_dec n); [now left|]. destruct (mouse_mode_dec n); [right; now left|]. right. right. auto.
  - right. right. split; [auto|discriminate].
Qed.
Lemma core_sr v set b : core (set_reset v set b) = set_reset (core v) set b.
Proof. reflexivity. Qed.
Lemma alt_calls_core v set n : alt_calls (core v) set n = alt_calls v set n.
Proof. reflexivity. Qed.
Lemma alt_saves_core v set n :
  core (if alt_saves v set n then w_alty (w_altx v (s_cx (v_con v))) (s_cy (v_con v)) else v) =
  (if alt_saves (core v) set n then w_alty (w_altx (core v) (s_cx (v_con (core v)))) (s_cy (v_con (core v))) else core v).
Proof. change (alt_saves (core v) set n) with (alt_saves v set n). destruct (alt_saves v set n); reflexivity. Qed.
Lemma mode1_core dec v set n : rcore (mode1 dec v set n) = mode1 dec (core v) set n.
Proof.
  destruct (mode_cases dec n) as [(b & E)|[(-> & E)|[(-> & E)|(E & Hn)]]].
  - rewrite !(mode_flag_eq dec _ set n b E), calls_core. exact (f_equal (fun u => calls u (mode_screen dec set n)) (core_sr v set b)).
  - rewrite !(mode_alt_eq _ set n E), calls_core, alt_calls_core. apply (f_equal (fun u => calls u (alt_calls v set n))). apply alt_saves_core.
  - rewrite !(mode_mouse_eq _ set n E). cbn [rcore bind]. now rewrite mouse_core.
  - rewrite !(mode_none_eq dec _ set n E Hn). reflexivity.
Qed.
Lemma modes_core dec set l : forall v, rcore (modes dec set l v) = modes dec set l (core v).
Proof.
  induction l as [|n r IH]; intros v; [reflexivity|]. cbn [modes]. rewrite <- mode1_core. unfold rcore at 2.
  destruct (mode1 dec v set n) as [w|]; cbn [bind]; [apply IH|reflexivity].
Qed.
Lemma modes_app dec set a b : forall v, modes dec set (a ++ b) v = do v1 <- modes dec set a v; modes dec set b v1.
Proof. induction a as [|n r IH]; intros v; cbn [modes app bind]; [reflexivity|]. destruct (mode1 dec v set n); cbn [bind]; auto. Qed.

(* The parameters stay put while they are processed. *)
Lemma calls_params v ops v' : calls v ops = Ok v' -> v_argv v' = v_argv v /\ v_argc v' = v_argc v /\ v_cfl v' = v_cfl v.
Proof. unfold calls. destruct (run (v_con v) ops); cbn [bind]; [|discriminate]. intros E. injection E as <-. auto. Qed.
Lemma mode1_params dec v set n v' : mode1 dec v set n = Ok v' -> v_argv v' = v_argv v /\ v_argc v' = v_argc v /\ v_cfl v' = v_cfl v.
Proof.
  destruct (mode_cases dec n) as [(b & E)|[(-> & E)|[(-> & E)|(E & Hn)]]].
  - rewrite (mode_flag_eq dec _ set n b E). intros X. apply calls_params in X. exact X.
  - rewrite (mode_alt_eq _ set n E). intros X. apply calls_params in X. destruct (alt_saves v set n); exact X.
  - rewrite (mode_mouse_eq _ set n E). intros X. injection X as <-. unfold mouse_after.
    destruct (mouse_spec set n (v_mmode v) (v_mev v)) as ((mm & me) & [px|]); [destruct (v_mcb v)|]; auto.
  - rewrite (mode_none_eq dec _ set n E Hn). intros X. injection X as <-. auto.
Qed.
Lemma for_modes dec set : forall n i v, 0 <= i -> i + Z.of_nat n <= zlen (v_argv v) -> cfl v CSI_WHAT = dec ->
  for_n n i (fun i v' => do p <- zget (v_argv v') i; if cfl v' CSI_WHAT then csi_mode_dec v' set p else csi_mode_ansi v' set p) v
  = modes dec set (zslice (v_argv v) i (Z.of_nat n)) v.
Proof.
  induction n as [|n IH]; intros i v Hi Hl Hc; cbn [for_n].
  - rewrite zslice_0 by lia. reflexivity.
  - destruct (znth_some (v_argv v) i ltac:(lia)) as (p & Ep). rewrite (zslice_cons _ i _ p Ep) by lia. cbn [modes].
    rewrite (zget_ok _ _ _ Ep). cbn [bind]. rewrite Hc. fold (mode1 dec v set p).
    destruct (mode1 dec v set p) as [w|] eqn:E; cbn [bind]; [|reflexivity].
    destruct (mode1_params dec v set p w E) as (A & _ & C).
    replace (Z.of_nat (S n) - 1) with (Z.of_nat n) by lia. rewrite <- A. apply IH; [lia|rewrite A; lia|]. unfold cfl. now rewrite C.
Qed.
Lemma csi_modes w set : VInv w -> csi_mode w set = modes (cfl w CSI_WHAT) set (params w) w.
Proof.
  intros H. pose proof (vi_argc w H). pose proof (vi_argl w H). unfold csi_mode, forz, params.
  rewrite for_modes with (dec := cfl w CSI_WHAT); [|lia|lia|reflexivity]. f_equal. f_equal. lia.
Qed.
Lemma csi_hl v (set : bool) : csi_body v (if set then 104 else 108) = do p0 <- zget (v_argv v) 0; do p1 <- zget (v_argv v) 1; csi_mode v set.
Proof. destruct set; reflexivity. Qed.

Definition private (pri : list Z) : bool := match pri with [63] => true | _ => false end.
Definition mode_bytes (pri P : list Z) (set : bool) : list Z := csi_bytes pri P (if set then 104 else 108).
Lemma mode_seq sg v pri fl P set : VInv v -> text_mode v -> marker pri = Some fl -> Forall pchar P ->
  exists v', vte_input sg v (mode_bytes pri P set) = Ok v' /\ text_mode v' /\ VInv v' /\
    modes (private pri) set (args P) (core v) = Ok (core v').
Proof.
  intros H Ht Hm HP. pose proof Ht as [_ Hr]. unfold mode_bytes.
  destruct (csi_seq sg v pri fl P (if set then 104 else 108) H Hr Hm HP ltac:(destruct set; lia)) as (st & _ & E). rewrite (text_event v Ht) in E.
  pose proof (VInv_at v fl P st H HP) as IA. destruct (args_len P) as [A B].
  rewrite csi_run_body in E by (rewrite at_argc; lia). rewrite csi_hl in E.
  rewrite (at_arg v fl P st 0), (at_arg v fl P st 1) in E by lia. cbn [bind] in E.
  destruct (csi_mode_safe (at_csi v fl P st) set IA) as (w & Ew & Iw). rewrite Ew in E.
  destruct E as (v' & E & Al & T & I'). exists v'. split; [exact E|]. split; [exact T|]. split; [exact I'|].
  rewrite (csi_modes _ set IA), at_params in Ew.
  assert (W : cfl (at_csi v fl P st) CSI_WHAT = private pri) by exact (marker_what pri fl Hm). rewrite W in Ew.
  rewrite <- (core_at v fl P st), <- modes_core, Ew. cbn [rcore bind]. rewrite (core_alike _ _ Al). reflexivity.
Qed.
