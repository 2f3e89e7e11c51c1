(* Strings that are skipped, operating system commands, cancelling and
   restarting, controls and escape sequences. *)
From Verif Require Import Base BaseProofs Utf8 Symbol Screen ScreenInv ScreenSafe VteData Vte VteKeys VteSpec VteView VteInv VteSafe VteFrame VteParse VteCsi VteText.
From Verif Require Import ScreenSb ScreenSpec ScreenOps ScreenThms Utf8Spec Utf8Proofs.

(* -- a run of code points that leaves the input mode alone ---------------- *)
Inductive walk : vte -> list Z -> vte -> Prop :=
| walk_nil v : walk v [] v
| walk_cons v cp v1 r v2 : parse_data v cp = Ok v1 -> v_flags v1 = v_flags v -> walk v1 r v2 -> walk v (cp :: r) v2.
Lemma walk_app v a v1 b v2 : walk v a v1 -> walk v1 b v2 -> walk v (a ++ b) v2.
Proof. induction 1; [auto|]. intros. cbn [app]. econstructor; eauto. Qed.
Lemma walk_flags v a v1 : walk v a v1 -> v_flags v1 = v_flags v.
Proof. induction 1; congruence. Qed.
Lemma walk_parse v a v1 : walk v a v1 -> parse_all v a = Ok v1.
Proof. induction 1 as [|v cp v1 r v2 E _ _ IH]; cbn [parse_all]; [reflexivity|]. now rewrite E. Qed.
Lemma walk_input sg v cps v' : walk v cps v' -> forall w bs, alike [] v w -> ready w -> encodes sg (v_flags v) cps bs ->
  exists w', vte_input sg w bs = Ok w' /\ alike [] v' w' /\ ready w'.
Proof.
  induction 1 as [v|v cp v1 r v2 E Ef Hw IH]; intros w bs A R He.
  - rewrite (enc_nil _ _ _ He). exists w. auto.
  - apply enc_cons in He. destruct He as (b1 & b2 & -> & E1 & E2). rewrite <- (al_flags _ _ _ A) in E1.
    destruct (enc1 sg w cp b1 R E1) as (m & X & Rm). rewrite input_app, X.
    pose proof (ar_parse [] _ _ cp (alike_tr _ _ _ A (alike_w w m))) as P. rewrite E in P.
    destruct (parse_data (w_mach w m) cp) as [w1|] eqn:P2; [|contradiction]. cbn [bind].
    apply (IH w1 b2 P (ready_parse _ cp w1 Rm P2)). now rewrite Ef.
Qed.
(* The last code point may do anything. *)
Lemma walk_last sg v cps v1 c bs : walk v cps v1 -> ready v -> encodes sg (v_flags v) (cps ++ [c]) bs ->
  alike_res [] (parse_data v1 c) (vte_input sg v bs) /\ forall v', vte_input sg v bs = Ok v' -> ready v'.
Proof.
  intros W R He. apply enc_app in He. destruct He as (b1 & b2 & -> & E1 & E2).
  destruct (walk_input sg v cps v1 W v b1) as (w & X & A & Rw); [exists (v_mach v); destruct v; reflexivity|exact R|exact E1|].
  rewrite input_app, X. cbn [bind]. rewrite <- (walk_flags _ _ _ W), <- (al_flags _ _ _ A) in E2.
  destruct (enc1 sg w c b2 Rw E2) as (m & Y & Rm). rewrite Y. split.
  - exact (ar_parse [] _ _ c (alike_tr _ _ _ A (alike_w w m))).
  - intros v' E. exact (ready_parse _ c v' Rm E).
Qed.

(* -- parser-only steps ---------------------------------------------------- *)
(* Nothing but parser fields changed. *)
Definition quiet (v v' : vte) : Prop := core v' = core v /\ VInv v' /\ v_mach v' = v_mach v.
Lemma quiet_flags v v' : quiet v v' -> v_flags v' = v_flags v.
Proof. intros [H _]. change (v_flags (core v') = v_flags (core v)). now rewrite H. Qed.
Lemma quiet_tr a b c : quiet a b -> quiet b c -> quiet a c.
Proof. intros (A & B & C) (D & E & F). split; [congruence|]. split; [exact E|congruence]. Qed.
Lemma quiet_state v s : VInv v -> quiet v (w_state v s).
Proof. intros H. split; [reflexivity|]. split; [now apply VInv_state|reflexivity]. Qed.
Lemma quiet_clear v : VInv v -> quiet v (do_clear v).
Proof. intros H. split; [reflexivity|]. split; [now apply VInv_clear|reflexivity]. Qed.
Lemma quiet_collect v d : VInv v -> quiet v (do_collect v d).
Proof. intros H. split; [|split; [now apply VInv_collect|]]; unfold do_collect; destruct (collect_bit d); reflexivity. Qed.
Lemma quiet_param v d : VInv v -> exists v', do_param v d = Ok v' /\ quiet v v'.
Proof.
  intros H. destruct (param_safe v d H) as (v' & E & I'). exists v'. split; [exact E|].
  assert (G : core v' = core v /\ v_mach v' = v_mach v).
  { unfold do_param in E. cbv zeta in E. destruct (d =? 59); [destruct (_ <? _); inversion E; split; reflexivity|].
    destruct (_ <=? _); [inversion E; split; reflexivity|]. destruct (zget _ _); cbn [bind] in E; [|discriminate].
    destruct (_ <? _); [inversion E; split; reflexivity|]. destruct (_ && _); [|inversion E; split; reflexivity].
    destruct (zmod _ _ _); cbn [bind] in E; [|discriminate]. inversion E; split; reflexivity. }
  destruct G as [G1 G2]. split; [exact G1|]. split; [exact I'|exact G2].
Qed.

Definition in_str (s : pstate) : Prop :=
  match s with SDcsEntry | SDcsParam | SDcsInt | SDcsPass | SDcsIgnore | SStIgnore => True | _ => False end.
Definition mute (a : action) : Prop :=
  match a with AIgnore | ANone | ACollect | AParam | ADcsCollect => True | _ => False end.
Lemma inert_any cp : inert cp -> trans_any cp = None.
Proof.
  intros (A & B & C & D & E). unfold trans_any, rng.
  repeat match goal with |- context [?x =? ?y] => replace (x =? y) with false by lia end.
  repeat match goal with |- context [(?x <=? cp) && (cp <=? ?y)] => replace ((x <=? cp) && (cp <=? y)) with false by lia end.
  reflexivity.
Qed.
Lemma str_trans s cp : in_str s -> inert cp -> exists t a, trans s cp = (t, a) /\ mute a /\
  match t with None => True | Some s' => in_str s' /\ s' <> SDcsEntry /\ s <> SDcsPass end.
Proof.
  intros Hs Hc. unfold trans. rewrite (inert_any cp Hc). destruct Hc as (A & B & C & D & E).
  destruct s; try contradiction; unfold trans_state;
    try (replace (cp =? 0x9c) with false by lia);
    repeat match goal with |- context [if ?b then _ else _] => destruct b end;
    (eexists; eexists; split; [reflexivity|]; split; [exact I|]); try exact I; split; try exact I; split; discriminate.
Qed.
Lemma mute_ok v cp a : VInv v -> mute a -> exists v', do_action v cp a = Ok v' /\ quiet v v'.
Proof.
  intros H Ha. assert (Q : quiet v v) by (split; [reflexivity|split; [exact H|reflexivity]]).
  destruct a; try contradiction; cbn [do_action]; try (exists v; split; [reflexivity|exact Q]).
  - exists (do_collect v cp). split; [reflexivity|now apply quiet_collect].
  - now apply quiet_param.
Qed.
Lemma str_step v cp : VInv v -> in_str (v_state v) -> inert cp ->
  exists v', parse_data v cp = Ok v' /\ quiet v v' /\ in_str (v_state v').
Proof.
  intros H Hs Hc. destruct (str_trans _ cp Hs Hc) as (t & a & E & Ha & Ht). unfold parse_data, do_trans. cbv zeta. rewrite E. cbn [fst snd].
  destruct (mute_ok v cp a H Ha) as (v1 & E1 & Q1). destruct t as [s'|].
  - destruct Ht as (T1 & T2 & T3). replace (exit_action (v_state v)) with ANone by (destruct (v_state v); try contradiction; congruence || reflexivity).
    cbn [do_action bind]. rewrite E1. cbn [bind].
    assert (E3 : do_action v1 cp (entry_action s') = Ok v1) by (destruct s'; try contradiction; congruence || reflexivity).
    rewrite E3. cbn [bind]. exists (w_state v1 s'). split; [reflexivity|]. split; [|exact T1]. eapply quiet_tr; [exact Q1|]. apply quiet_state, Q1.
  - exists v1. split; [exact E1|]. split; [exact Q1|]. 
    assert (X : v_state v1 = v_state v).
    { clear -E1 Ha. destruct a; try contradiction; cbn [do_action] in E1; try (inversion E1; reflexivity).
      - inversion E1. unfold do_collect. destruct (collect_bit cp); reflexivity.
      - unfold do_param in E1. cbv zeta in E1. destruct (cp =? 59); [destruct (_ <? _); inversion E1; reflexivity|].
        destruct (_ <=? _); [inversion E1; reflexivity|]. destruct (zget _ _); cbn [bind] in E1; [|discriminate].
        destruct (_ <? _); [inversion E1; reflexivity|]. destruct (_ && _); [|inversion E1; reflexivity].
        destruct (zmod _ _ _); cbn [bind] in E1; [|discriminate]. inversion E1; reflexivity. }
    now rewrite X.
Qed.
Lemma str_walk cps : forall v, VInv v -> in_str (v_state v) -> Forall inert cps ->
  exists v', walk v cps v' /\ quiet v v' /\ in_str (v_state v').
Proof.
  induction cps as [|c r IH]; intros v H Hs Hc.
  - exists v. split; [constructor|]. split; [split; [reflexivity|split; [exact H|reflexivity]]|exact Hs].
  - inversion Hc; subst. destruct (str_step v c H Hs H2) as (v1 & E & Q & S1).
    destruct (IH v1 (proj1 (proj2 Q)) S1 H3) as (v2 & W & Q2 & S2). exists v2. split; [|split; [|exact S2]].
    + econstructor; [exact E| |exact W]. now apply quiet_flags.
    + eapply quiet_tr; eauto.
Qed.

(* -- entering and leaving -------------------------------------------------- *)
Lemma esc_clean v : VInv v -> v_state v <> SOsc -> parse_data v 27 = Ok (w_state (do_clear v) SEsc).
Proof. intros H Hn. rewrite (esc_eq v H), (osc_event_ground v Hn). reflexivity. Qed.
Lemma quiet_esc v : VInv v -> quiet v (w_state (do_clear v) SEsc).
Proof. intros H. split; [reflexivity|]. split; [now apply VInv_state, VInv_clear|reflexivity]. Qed.
Lemma st_end w : v_state w = SEsc -> v_cfl w = 0 -> parse_data w 92 = Ok (w_state w SGround).
Proof.
  intros E C. unfold parse_data, do_trans. cbv zeta. rewrite E. replace (trans SEsc 92) with (Some SGround, AEsc) by reflexivity.
  cbn [fst snd exit_action do_action bind]. unfold do_esc. replace (esc_charset 92) with (@None charset) by reflexivity.
  rewrite C. reflexivity.
Qed.
Definition opened (v : vte) (s : pstate) : vte := w_state (match entry_action s with AClear | AOscStart => do_clear v | _ => v end) s.
Lemma quiet_opened v s : VInv v -> quiet v (opened v s).
Proof. intros H. unfold opened. destruct s; cbn [entry_action]; (split; [reflexivity|]; split; [|reflexivity]); first [now apply VInv_state, VInv_clear | now apply VInv_state]. Qed.
Lemma esc_open v cp s : v_state v = SEsc -> trans SEsc cp = (Some s, ANone) -> parse_data v cp = Ok (opened v s).
Proof. intros E T. unfold parse_data, do_trans. cbv zeta. rewrite E, T. cbn [fst snd exit_action do_action bind]. destruct s; reflexivity. Qed.
Lemma raw_open v cp s : VInv v -> v_state v <> SOsc -> trans_any cp = Some (Some s, ANone) -> parse_data v cp = Ok (opened v s).
Proof.
  intros H E T. unfold parse_data, do_trans, trans. cbv zeta. rewrite T. cbn [fst snd].
  replace (do_action v cp (exit_action (v_state v))) with (Ok v) by (destruct (v_state v); cbn; congruence || reflexivity).
  cbn [bind do_action]. destruct s; reflexivity.
Qed.
Lemma open_walk v l s : VInv v -> v_state v <> SOsc ->
  (exists cp, l = [27; cp] /\ trans SEsc cp = (Some s, ANone)) \/ (exists cp, l = [cp] /\ trans_any cp = Some (Some s, ANone)) ->
  exists v', walk v l v' /\ quiet v v' /\ v_state v' = s /\ (entry_action s = AOscStart -> v_osclen v' = 0 /\ v_osc v' = repeat 0 128).
Proof.
  intros H Hn [(cp & -> & T)|(cp & -> & T)].
  - set (w := w_state (do_clear v) SEsc). assert (Qw : quiet v w) by now apply quiet_esc.
    exists (opened w s). split.
    + econstructor; [apply (esc_clean v H Hn)|reflexivity|]. econstructor; [apply (esc_open w cp s eq_refl T)|apply quiet_flags, quiet_opened, Qw|constructor].
    + split; [eapply quiet_tr; [exact Qw|apply quiet_opened, Qw]|]. split; [reflexivity|]. intros E. unfold opened. rewrite E. split; reflexivity.
  - exists (opened v s). split.
    + econstructor; [apply (raw_open v cp s H Hn T)|now apply quiet_flags, quiet_opened|constructor].
    + split; [now apply quiet_opened|]. split; [reflexivity|]. intros E. unfold opened. rewrite E. split; reflexivity.
Qed.
Lemma end_walk v l : VInv v -> v_state v <> SOsc -> string_end l -> exists v', walk v l v' /\ quiet v v' /\ v_state v' = SGround.
Proof.
  intros H Hn [<-|[<-|[]]].
  - set (w := w_state (do_clear v) SEsc). assert (Qw : quiet v w) by now apply quiet_esc.
    exists (w_state w SGround). split.
    + econstructor; [apply (esc_clean v H Hn)|reflexivity|]. apply (walk_cons w 92 (w_state w SGround)); [apply (st_end w); reflexivity|reflexivity|constructor].
    + split; [eapply quiet_tr; [exact Qw|apply quiet_state, Qw]|reflexivity].
  - exists (w_state v SGround). split; [|split; [now apply quiet_state|reflexivity]].
    apply (walk_cons v 156 (w_state v SGround)); [|reflexivity|constructor]. unfold parse_data, do_trans. cbv zeta.
    replace (trans (v_state v) 156) with (Some SGround, AExecute) by reflexivity. cbn [fst snd].
    replace (do_action v 156 (exit_action (v_state v))) with (Ok v) by (destruct (v_state v); cbn; congruence || reflexivity). reflexivity.
Qed.

(* C31 *)
Lemma skipped_string sg v intro body stop bs : VInv v -> text_mode v -> skipped_intro intro -> Forall inert body -> string_end stop ->
  encodes sg (v_flags v) (intro ++ body ++ stop) bs ->
  exists v', vte_input sg v bs = Ok v' /\ core v' = core v /\ text_mode v' /\ VInv v'.
Proof.
  intros H [Es R] Hi Hb Ht He. assert (Hn : v_state v <> SOsc) by congruence.
  assert (O : exists s v1, in_str s /\ walk v intro v1 /\ quiet v v1 /\ v_state v1 = s).
  { unfold skipped_intro in Hi. cbn [In] in Hi.
    assert (G : exists s, in_str s /\ ((exists cp, intro = [27; cp] /\ trans SEsc cp = (Some s, ANone)) \/ (exists cp, intro = [cp] /\ trans_any cp = Some (Some s, ANone)))).
    { destruct Hi as [<-|[<-|[<-|[<-|[<-|[<-|[<-|[<-|[]]]]]]]]].
      1: exists SDcsEntry. 2,3,4,6,7,8: exists SStIgnore. 8: exists SDcsEntry.
      all: split; [exact I|]. all: try (left; eexists; split; reflexivity). all: right; eexists; split; reflexivity. }
    destruct G as (s & Gs & G). destruct (open_walk v intro s H Hn G) as (v1 & W & Q & S1 & _). exists s, v1. auto. }
  destruct O as (s & v1 & Is & W1 & Q1 & S1). rewrite <- S1 in Is.
  destruct (str_walk body v1 (proj1 (proj2 Q1)) Is Hb) as (v2 & W2 & Q2 & I2).
  assert (N2 : v_state v2 <> SOsc) by (intros X; now rewrite X in I2).
  destruct (end_walk v2 stop (proj1 (proj2 Q2)) N2 Ht) as (v3 & W3 & Q3 & S3).
  pose proof (walk_app _ _ _ _ _ W1 (walk_app _ _ _ _ _ W2 W3)) as W.
  destruct (walk_input sg v _ v3 W v bs) as (w & E & A & Rw); [exists (v_mach v); destruct v; reflexivity|exact R|exact He|].
  pose proof (quiet_tr _ _ _ Q1 (quiet_tr _ _ _ Q2 Q3)) as (C & _ & _).
  exists w. split; [exact E|]. split; [rewrite (core_alike _ _ A); exact C|]. split; [split; [rewrite (al_state _ _ _ A); exact S3|exact Rw]|].
  exact (input_inv sg bs v w H E).
Qed.

(* -- operating system commands --------------------------------------------- *)
Definition osc_char (cp : Z) : Prop := inert cp /\ cp <> 7.
Definition in_osc (v : vte) (acc : list Z) : Prop :=
  VInv v /\ v_state v = SOsc /\ v_osclen v = zlen acc /\ zslice (v_osc v) 0 (zlen acc) = acc.
Lemma slice_put (l v : list Z) n : 0 <= n -> n + zlen v <= zlen l -> zslice (zput l n v) 0 (n + zlen v) = zslice l 0 n ++ v.
Proof.
  intros H1 H2. unfold zslice, zput. change (Z.to_nat 0) with O. rewrite !skipn_O, app_assoc, firstn_app.
  assert (L : length (firstn (Z.to_nat n) l ++ v) = Z.to_nat (n + zlen v)) by (rewrite app_length, firstn_length; lia).
  rewrite L, Nat.sub_diag, firstn_O, app_nil_r. apply firstn_all2. lia.
Qed.
Lemma osc_step v acc cp : in_osc v acc -> osc_char cp ->
  exists v', parse_data v cp = Ok v' /\ quiet v v' /\ in_osc v' (osc_keep acc [cp]).
Proof.
  intros (H & Es & El & Ec) [Hc H7].
  assert (T : trans (v_state v) cp = (None, if cp <? 32 then AIgnore else AOscCollect)).
  { rewrite Es. unfold trans. rewrite (inert_any cp Hc). destruct Hc as (A & B & C & D & E). unfold trans_state, rng.
    destruct (Z.ltb_spec cp 32).
    - replace (((0 <=? cp) && (cp <=? 6)) || ((8 <=? cp) && (cp <=? 23)) || (cp =? 25) || ((28 <=? cp) && (cp <=? 31))) with true by lia. reflexivity.
    - replace (((0 <=? cp) && (cp <=? 6)) || ((8 <=? cp) && (cp <=? 23)) || (cp =? 25) || ((28 <=? cp) && (cp <=? 31))) with false by lia.
      replace ((cp =? 7) || (cp =? 156)) with false by lia. destruct (_ && _); reflexivity. }
  unfold parse_data, do_trans. cbv zeta. rewrite T. cbn [fst snd osc_keep].
  assert (Q : quiet v v) by (split; [reflexivity|split; [exact H|reflexivity]]).
  destruct (cp <? 32); cbn [do_action].
  { exists v. split; [reflexivity|]. split; [exact Q|]. split; auto. }
  pose proof (osc_collect_safe v cp H) as (v' & E & I'). exists v'. split; [exact E|].
  unfold do_osc_collect, OSC_MAX_LEN in E. cbv zeta in E. rewrite El in E. rewrite app_length, Nat2Z.inj_add.
  pose proof (vi_osclen v H). pose proof (vi_oscl v H) as L.
  destruct (Z.ltb_spec (128 - 1) (zlen acc + zlen (ucs4_to_utf8 cp))).
  - replace (127 <? zlen acc + zlen (ucs4_to_utf8 cp)) with true by lia. injection E as <-. split; [exact Q|]. split; auto.
  - replace (127 <? zlen acc + zlen (ucs4_to_utf8 cp)) with false by lia. rewrite zcopy_ok in E by lia. cbn [bind] in E. injection E as <-.
    split; [split; [reflexivity|split; [exact I'|reflexivity]]|]. split; [exact I'|]. split; [exact Es|].
    cbn [w_osclen w_osc v_osclen v_osc]. rewrite app_length, Nat2Z.inj_add. split; [reflexivity|]. rewrite slice_put by lia. now rewrite Ec.
Qed.
Lemma osc_keep_cons acc c r : osc_keep acc (c :: r) = osc_keep (osc_keep acc [c]) r.
Proof. cbn [osc_keep]. destruct (c <? 32); [reflexivity|]. destruct (127 <? _); reflexivity. Qed.
Lemma osc_walk cps : forall v acc, in_osc v acc -> Forall osc_char cps ->
  exists v', walk v cps v' /\ quiet v v' /\ in_osc v' (osc_keep acc cps).
Proof.
  induction cps as [|c r IH]; intros v acc Hi Hc.
  - exists v. split; [constructor|]. split; [split; [reflexivity|split; [apply Hi|reflexivity]]|exact Hi].
  - inversion Hc; subst. destruct (osc_step v acc c Hi H1) as (v1 & E & Q & I1).
    destruct (IH v1 _ I1 H2) as (v2 & W & Q2 & I2). exists v2. split; [|split].
    + econstructor; [exact E| |exact W]. now apply quiet_flags.
    + eapply quiet_tr; eauto.
    + rewrite osc_keep_cons. exact I2.
Qed.
Lemma told_keep v t : v_flags (told_osc v t) = v_flags v /\ v_mach (told_osc v t) = v_mach v.
Proof. unfold told_osc. destruct (v_oscb v); auto. Qed.
Lemma VInv_told v t : VInv v -> VInv (told_osc v t).
Proof. intros H. unfold told_osc. destruct (v_oscb v); [now apply VInv_emit|exact H]. Qed.
Lemma core_told v w t : core v = core w -> core (told_osc v t) = core (told_osc w t).
Proof.
  intros H. unfold told_osc. assert (B : v_oscb v = v_oscb w) by (change (v_oscb (core v) = v_oscb (core w)); now rewrite H). rewrite B.
  destruct (v_oscb w); [|exact H]. change (emit (core v) (EOsc t) = emit (core w) (EOsc t)). now rewrite H.
Qed.
Lemma in_osc_event v acc : in_osc v acc -> osc_event v = told_osc v acc.
Proof. intros (H & Es & El & Ec). unfold osc_event, told_osc. rewrite Es, El, Ec. reflexivity. Qed.
(* The three ways to end the command properly. *)
Lemma stop_walk v acc l : in_osc v acc -> osc_stop l ->
  exists v', walk v l v' /\ core v' = core (told_osc v acc) /\ v_state v' = SGround.
Proof.
  intros Hi Hl. pose proof Hi as (H & Es & _). pose proof (in_osc_event v acc Hi) as Ev. destruct (told_keep v acc) as [F _].
  destruct Hl as [<-|[<-|[<-|[]]]].
  - destruct (osc_end_eq v H Es) as (b & E & _). exists (w_state (w_osc (osc_event v) b) SGround).
    split; [|split; [rewrite Ev; reflexivity|reflexivity]]. apply (walk_cons v 7 (w_state (w_osc (osc_event v) b) SGround)).
    + unfold parse_data, do_trans. cbv zeta. rewrite Es. replace (trans SOsc 7) with (Some SGround, ANone) by reflexivity. cbn [fst snd exit_action do_action]. rewrite E. reflexivity.
    + rewrite Ev. exact F.
    + constructor.
  - set (w := w_state (do_clear (osc_event v)) SEsc). exists (w_state w SGround).
    split; [|split; [unfold w; rewrite Ev; reflexivity|reflexivity]].
    apply (walk_cons v 27 w); [apply (esc_eq v H)|unfold w; rewrite Ev; exact F|]. apply (walk_cons w 92 (w_state w SGround)); [apply (st_end w); reflexivity|reflexivity|constructor].
  - destruct (osc_end_eq v H Es) as (b & E & _). exists (w_state (w_osc (osc_event v) b) SGround).
    split; [|split; [rewrite Ev; reflexivity|reflexivity]]. apply (walk_cons v 156 (w_state (w_osc (osc_event v) b) SGround)).
    + unfold parse_data, do_trans. cbv zeta. rewrite Es. replace (trans SOsc 156) with (Some SGround, AExecute) by reflexivity. cbn [fst snd exit_action do_action]. rewrite E. reflexivity.
    + rewrite Ev. exact F.
    + constructor.
Qed.
(* C32 *)
Lemma osc_string sg v intro body stop bs : VInv v -> text_mode v -> osc_intro intro -> Forall osc_char body -> osc_stop stop ->
  encodes sg (v_flags v) (intro ++ body ++ stop) bs ->
  exists v', vte_input sg v bs = Ok v' /\ core v' = core (told_osc v (osc_keep [] body)) /\ text_mode v' /\ VInv v'.
Proof.
  intros H [Es R] Hi Hb Ht He. assert (Hn : v_state v <> SOsc) by congruence.
  assert (G : (exists cp, intro = [27; cp] /\ trans SEsc cp = (Some SOsc, ANone)) \/ (exists cp, intro = [cp] /\ trans_any cp = Some (Some SOsc, ANone))).
  { destruct Hi as [<-|[<-|[]]]; [left|right]; eexists; split; reflexivity. }
  destruct (open_walk v intro SOsc H Hn G) as (v1 & W1 & Q1 & S1 & O1). destruct (O1 eq_refl) as [O2 O3].
  assert (I1 : in_osc v1 []) by (split; [apply Q1|]; split; [exact S1|]; split; [exact O2|reflexivity]).
  destruct (osc_walk body v1 [] I1 Hb) as (v2 & W2 & Q2 & I2). destruct (stop_walk v2 _ stop I2 Ht) as (v3 & W3 & C3 & S3).
  pose proof (walk_app _ _ _ _ _ W1 (walk_app _ _ _ _ _ W2 W3)) as W.
  destruct (walk_input sg v _ v3 W v bs) as (w & E & A & Rw); [exists (v_mach v); destruct v; reflexivity|exact R|exact He|].
  pose proof (quiet_tr _ _ _ Q1 Q2) as (C & _ & _).
  exists w. split; [exact E|]. split; [rewrite (core_alike _ _ A), C3; now apply core_told|]. split; [split; [rewrite (al_state _ _ _ A); exact S3|exact Rw]|].
  exact (input_inv sg bs v w H E).
Qed.
Lemma osc_keep_len cps : forall acc, zlen acc <= 127 -> zlen (osc_keep acc cps) <= 127.
Proof.
  induction cps as [|c r IH]; intros acc H; cbn [osc_keep]; [exact H|]. destruct (c <? 32); [auto|].
  destruct (Z.ltb_spec 127 (zlen (acc ++ ucs4_to_utf8 c))); auto.
Qed.
(* A text without controls that fits is kept as it is. *)
Lemma osc_keep_all cps : forall acc, Forall (fun c => 32 <= c) cps -> zlen acc + zlen (flat_map ucs4_to_utf8 cps) <= 127 ->
  osc_keep acc cps = acc ++ flat_map ucs4_to_utf8 cps.
Proof.
  induction cps as [|c r IH]; intros acc Hc Hl; cbn [osc_keep flat_map] in *; [now rewrite app_nil_r|]. inversion Hc; subst.
  rewrite app_length in Hl. replace (c <? 32) with false by lia.
  destruct (Z.ltb_spec 127 (zlen (acc ++ ucs4_to_utf8 c))) as [X|X]; rewrite app_length in X; [lia|].
  rewrite IH; [now rewrite <- app_assoc|auto|rewrite app_length; lia].
Qed.
