(* What the terminal sends on its own while it processes input. *)
From Verif Require Import Base BaseProofs Utf8 Symbol Screen ScreenInv ScreenSafe VteData Vte VteKeys VteSpec VteView VteInv VteSafe VteFrame VteParse VteCsi VteText VteStr VteEsc.
From Verif Require Import ReplyText ScreenSb ScreenSpec ScreenOps ScreenThms Utf8Spec Utf8Proofs.

Definition okev (P : list Z -> Prop) (e : event) : Prop := match e with EWrite b => P b | _ => True end.
(* From v to w only replies in P were sent; no Alt prefix is pending. *)
Definition says (P : list Z -> Prop) (v w : vte) : Prop :=
  vfl v VF_PREPEND = false -> vfl w VF_PREPEND = false /\ exists l, v_out w = v_out v ++ l /\ Forall (okev P) l.
Definition sy_res (P : list Z -> Prop) (v : vte) (r : res vte) : Prop := forall v', r = Ok v' -> says P v v'.
Section Says.
Context (P : list Z -> Prop).
Lemma says_refl v : says P v v.
Proof. intros H. split; [exact H|]. exists []. rewrite app_nil_r. auto. Qed.
Lemma says_trans a b c : says P a b -> says P b c -> says P a c.
Proof.
  intros A B H. destruct (A H) as (H1 & l1 & E1 & F1). destruct (B H1) as (H2 & l2 & E2 & F2). split; [exact H2|].
  exists (l1 ++ l2). split; [rewrite E2, E1; now rewrite app_assoc|]. apply Forall_app. auto.
Qed.
Lemma says_same v w : v_out w = v_out v -> v_flags w = v_flags v -> says P v w.
Proof. intros E F H. unfold vfl in *. rewrite F. split; [exact H|]. exists []. rewrite app_nil_r. auto. Qed.
Lemma sy_bind v r f : sy_res P v r -> (forall w, says P v w -> sy_res P v (f w)) -> sy_res P v (bind r f).
Proof. intros H F v' E. destruct r as [w|]; cbn [bind] in E; [|discriminate]. exact (F w (H w eq_refl) v' E). Qed.
Lemma sy_ok v w : says P v w -> sy_res P v (Ok w).
Proof. intros H v' E. injection E as <-. exact H. Qed.
Lemma sy_scr v w o : says P v w -> sy_res P v (scr w o).
Proof.
  intros H v' E. unfold scr in E. destruct (step (v_con w) o); cbn [bind] in E; [|discriminate]. injection E as <-.
  eapply says_trans; [exact H|]. now apply says_same.
Qed.
Lemma sy_from v w r : says P v w -> sy_res P w r -> sy_res P v r.
Proof. intros H F v' E. eapply says_trans; [exact H|]. now apply F. Qed.
Lemma sy_sr v b n : n <> VF_PREPEND -> 0 <= n -> says P v (set_reset v b n).
Proof. intros A B H. split; [rewrite sr_other; auto; unfold VF_PREPEND; lia|]. exists []. rewrite app_nil_r. auto. Qed.
Lemma sy_emit v e : okev P e -> says P v (emit v e).
Proof. intros O H. split; [exact H|]. exists [e]. split; [reflexivity|]. constructor; auto. Qed.
Lemma sy_send v bs : P bs -> says P v (vte_send v bs).
Proof.
  intros O H. unfold vte_send. rewrite H. split; [|exists [EWrite bs]; split; [reflexivity|constructor; auto]].
  unfold vfl, set_reset, bit. cbn [w_flags v_flags]. rewrite Z.clearbit_eqb. unfold VF_PREPEND. rewrite Z.eqb_refl. cbn [negb]. apply andb_false_r.
Qed.
Ltac sd := first [ apply says_refl | assumption | (apply sy_sr; vf) | (now apply says_same)
  | (eapply says_trans; [eassumption|]; first [(apply sy_sr; vf) | (now apply says_same)]) ].
Ltac syl := lazymatch goal with |- sy_res _ _ (Ok _) => apply sy_ok; sd | |- sy_res _ _ (scr _ _) => apply sy_scr; sd end.
Ltac nope := intros v' E; discriminate.

Lemma sy_wc v s : sy_res P v (write_console v s).
Proof. unfold write_console. destruct (to_rgb _ _); cbn [bind]; [syl|nope]. Qed.
Lemma sy_restore v : sy_res P v (restore_state v).
Proof.
  unfold restore_state. cbv zeta. apply sy_bind; [syl|]. intros w Hw. destruct (to_rgb _ _) as [a|]; cbn [bind]; [|nope].
  apply sy_bind; [destruct (vfl _ VF_BCE); syl|]. intros x Hx. apply sy_bind.
  - apply sy_scr. eapply says_trans; [exact Hx|]. eapply says_trans; [|apply sy_sr; vf]. now apply says_same.
  - intros y Hy. syl.
Qed.
Lemma sy_reset v : sy_res P v (vte_reset v).
Proof.
  rewrite reset_power. apply sy_bind.
  - apply sy_scr. intros H. split; [reflexivity|]. exists []. rewrite app_nil_r. auto.
  - intros w Hw. apply sy_bind; [syl|]. intros x Hx.
    assert (Hp : says P v (power x)) by (eapply says_trans; [exact Hx|]; now apply says_same).
    revert Hp. generalize (power x). clear x Hx. intros x Hx. destruct (to_rgb _ _); cbn [bind]; [|nope].
    apply sy_bind; [syl|]. intros y Hy. apply sy_ok. eapply says_trans; [exact Hy|]. now apply says_same.
Qed.
Lemma sy_hard v : sy_res P v (vte_hard_reset v).
Proof.
  unfold vte_hard_reset. apply sy_bind; [apply sy_reset|]. intros w Hw. apply sy_bind; [syl|]. intros x Hx. apply sy_bind; [syl|]. intros y Hy. syl.
Qed.
Lemma sy_execute v d : (d = 5 -> P [6]) -> (d = 0x9a -> P PRIMARY_DA) -> sy_res P v (do_execute v d).
Proof.
  intros P1 P2. unfold do_execute, send_primary_da.
  destruct (Z.eqb_spec d 5); [apply sy_ok, sy_send; auto|].
  repeat match goal with |- sy_res _ _ (if ?x =? 0x9a then _ else _) => destruct (Z.eqb_spec x 0x9a); [apply sy_ok, sy_send; auto|] | |- sy_res _ _ (if ?b then _ else _) => destruct b end; try syl. apply sy_wc.
Qed.
Lemma sy_param v d : sy_res P v (do_param v d).
Proof.
  unfold do_param. cbv zeta. destruct (d =? 59); [destruct (_ <? _); syl|]. destruct (_ <=? _); [syl|].
  destruct (zget _ _); cbn [bind]; [|nope]. destruct (_ <? _); [syl|]. destruct (_ && _); [|syl].
  destruct (zmod _ _ _); cbn [bind]; [syl|nope].
Qed.
Lemma sy_esc v d : (d = 90 -> v_cfl v = 0 -> P PRIMARY_DA) -> sy_res P v (do_esc v d).
Proof.
  intros P1. unfold do_esc. destruct (match esc_charset d with Some c => set_charset v c | None => None end) as [w|] eqn:E.
  - apply sy_ok. destruct (esc_charset d) as [c|]; [|discriminate]. unfold set_charset in E.
    repeat match type of E with (if ?b then _ else _) = _ => destruct b end; inversion E; now apply says_same.
  - destruct (_ && _); [syl|]. destruct (_ && _); [syl|]. destruct (Z.eqb_spec (v_cfl v) 0); [|syl].
    unfold do_esc_plain, send_primary_da.
    repeat match goal with |- sy_res _ _ (if ?x =? 90 then _ else _) => destruct (Z.eqb_spec x 90); [apply sy_ok, sy_send; auto|] | |- sy_res _ _ (if ?b then _ else _) => destruct b end; try syl; [apply sy_hard|apply sy_restore].
Qed.
Lemma sy_attribute v : sy_res P v (csi_attribute v).
Proof.
  unfold csi_attribute. cbv zeta. destruct (zget _ _); cbn [bind]; [|nope]. apply sy_bind.
  - destruct (_ && _); [|syl]. destruct (zmod _ _ _); cbn [bind]; [syl|nope].
  - intros w Hw. destruct (sgr_loop _ _ _ _ _ _); cbn [bind]; [|nope]. destruct (to_rgb _ _); cbn [bind]; [|nope].
    destruct (vfl _ VF_BCE); syl.
Qed.
Lemma sy_compat v : sy_res P v (csi_compat_mode v).
Proof.
  unfold csi_compat_mode. apply sy_bind; [apply sy_reset|]. intros w Hw. destruct (zget _ 0); cbn [bind]; [|nope]. destruct (zget _ 1); cbn [bind]; [|nope].
  apply sy_ok. eapply says_trans; [exact Hw|]. clear Hw.
  assert (G : forall y a b, says P w y -> says P w (w_g1 (w_g0 y a) b)) by (intros y a1 b1 Hy; eapply says_trans; [exact Hy|]; now apply says_same).
  repeat match goal with |- context [if ?b then _ else _] => destruct b end; try apply says_refl; apply G; first [apply sy_sr; vf | eapply says_trans; apply sy_sr; vf].
Qed.
Lemma sy_ansi v b x : sy_res P v (csi_mode_ansi v b x).
Proof. unfold csi_mode_ansi, scr_flag. repeat match goal with |- sy_res _ _ (if ?b then _ else _) => destruct b end; syl. Qed.
Lemma sy_dec v b x : sy_res P v (csi_mode_dec v b x).
Proof.
  unfold csi_mode_dec, scr_flag. cbv zeta.
  repeat match goal with |- sy_res _ _ (if ?b then _ else _) => destruct b end; try syl;
    try (apply sy_ok; match goal with |- says _ _ (if ?b then _ else _) => destruct b end; first [now apply says_same | eapply says_trans; [|apply sy_emit; exact I]; now apply says_same]).
  - apply sy_bind; [syl|]. intros w Hw. syl.
  - apply sy_bind; [syl|]. intros w Hw. syl.
  - apply sy_bind; [syl|]. intros w Hw. syl.
Qed.
Lemma sy_for n : forall i f v w, says P v w -> (forall j y, sy_res P y (f j y)) -> sy_res P v (for_n n i f w).
Proof.
  induction n as [|n IH]; intros i f v w H F; cbn [for_n]; [now apply sy_ok|]. apply sy_bind; [eapply sy_from; [exact H|apply F]|].
  intros y Hy. now apply IH.
Qed.
Lemma sy_mode v b : sy_res P v (csi_mode v b).
Proof.
  unfold csi_mode, forz. apply sy_for; [apply says_refl|]. intros j y. destruct (zget _ _); cbn [bind]; [|nope].
  destruct (cfl _ _); [apply sy_dec|apply sy_ansi].
Qed.
Definition cursor_report (c : screen) : list Z := [27; 91] ++ dec (s_cy c + 1) ++ [59] ++ dec (s_cx c + 1) ++ [82].
Lemma dec_digits_len f : forall n acc, (length (dec_digits f n acc) <= f + length acc)%nat.
Proof.
  induction f as [|f IH]; intros n acc; cbn [dec_digits]; [lia|]. destruct (_ =? 0); [cbn [length]; lia|].
  specialize (IH (n / 10) ((48 + n mod 10) :: acc)). cbn [length] in IH. lia.
Qed.
Lemma dsr_eq v : VInv v -> csi_dsr v = do p0 <- zget (v_argv v) 0;
  Ok (if p0 =? 5 then vte_send v STATUS_OK else if p0 =? 6 then vte_send v (cursor_report (v_con v)) else v).
Proof.
  intros H. unfold csi_dsr. cbv zeta. destruct (zget _ 0) as [p0|]; [|reflexivity]. cbn [bind].
  destruct (p0 =? 5); [reflexivity|]. destruct (p0 =? 6); [|reflexivity].
  pose proof (reachable_Inv _ (vi_con v H)) as IC. destruct IC as (I0 & Ix & Iy); inv0 I0. unfold DIM in *.
  rewrite !u32_small by lia.
  set (r := [27; 91] ++ _). assert (L : zlen r < 64).
  { subst r. rewrite !app_length. cbn [length]. unfold dec.
    pose proof (dec_digits_len 10 (s_cy (v_con v) + 1) []). pose proof (dec_digits_len 10 (s_cx (v_con v) + 1) []). cbn [length] in *. lia. }
  replace (64 <=? zlen r) with false by lia. reflexivity.
Qed.
Lemma sy_csi v d : VInv v -> (d = 99 -> P PRIMARY_DA /\ P SECOND_DA) -> (d = 110 -> P STATUS_OK /\ P (cursor_report (v_con v))) -> sy_res P v (do_csi v d).
Proof.
  intros HV P1 P2. unfold do_csi. cbv zeta. set (w := if v_argc v <? CSI_ARG_MAX then _ else v).
  assert (H : says P v w) by (unfold w; destruct (_ <? _); sd).
  assert (HW : VInv w) by now apply VInv_csi. assert (HC : v_con w = v_con v) by (unfold w; destruct (_ <? _); reflexivity). clearbody w.
  destruct (zget _ 0); cbn [bind]; [|nope]. destruct (zget _ 1); cbn [bind]; [|nope].
  repeat match goal with
    | |- sy_res _ _ (if d =? 99 then _ else _) => destruct (Z.eqb_spec d 99) as [E1|_]
    | |- sy_res _ _ (if d =? 110 then _ else _) => destruct (Z.eqb_spec d 110) as [E2|_]
    | |- sy_res _ _ (if ?b then _ else _) => destruct b end;
    first [ syl | eapply sy_from; [exact H|]; first [apply sy_attribute|apply sy_reset|apply sy_compat|apply sy_mode]
          | apply sy_bind; [syl|]; intros y Hy; syl | idtac ].
  - destruct (P1 E1). eapply sy_from; [exact H|]. unfold csi_dev_attr, send_primary_da. destruct (zget _ 0); cbn [bind]; [|nope].
    repeat match goal with |- context [if ?b then _ else _] => destruct b end; first [syl|apply sy_ok, sy_send; assumption].
  - destruct (P2 E2). eapply sy_from; [exact H|]. rewrite (dsr_eq w HW). destruct (zget _ 0); cbn [bind]; [|nope]. rewrite HC.
    repeat match goal with |- context [if ?b then _ else _] => destruct b end; first [syl|apply sy_ok, sy_send; assumption].
Qed.
(* The request that a code point completes. *)
Definition asked (v : vte) (cp : Z) (r : list Z) : Prop :=
  (cp = 5 /\ r = [6]) \/ (cp = 0x9a /\ r = FIRST_DA) \/ ((v_state v = SEsc \/ v_state v = SEscInt) /\ cp = 90 /\ r = FIRST_DA) \/
  ((v_state v = SCsiEntry \/ v_state v = SCsiParam \/ v_state v = SCsiInt) /\
   ((cp = 99 /\ (r = FIRST_DA \/ r = SECOND_DA)) \/ (cp = 110 /\ (r = STATUS_OK \/ r = cursor_report (v_con v))))).
End Says.
Ltac sd P := first [ apply says_refl | assumption | (apply sy_sr; vf) | (now apply says_same)
  | (eapply says_trans; [eassumption|]; first [(apply sy_sr; vf) | (now apply says_same)]) ].
Lemma trans_csi st cp t : trans st cp = (t, ACsi) -> st = SCsiEntry \/ st = SCsiParam \/ st = SCsiInt.
Proof.
  intros E. destruct st; auto; exfalso; unfold trans, trans_any, trans_state in E;
    repeat match type of E with context [if ?b then _ else _] => destruct b end; inversion E.
Qed.
Lemma trans_esc st cp t : trans st cp = (t, AEsc) -> st = SEsc \/ st = SEscInt.
Proof.
  intros E. destruct st; auto; exfalso; unfold trans, trans_any, trans_state in E;
    repeat match type of E with context [if ?b then _ else _] => destruct b end; inversion E.
Qed.
Lemma sy_osc_end P v : sy_res P v (do_osc_end v).
Proof.
  unfold do_osc_end. destruct (v_oscb v); [|apply sy_ok; now apply says_same]. destruct (zmod _ _ _); cbn [bind]; [|intros v' E; discriminate].
  apply sy_ok. eapply says_trans; [|apply sy_emit; exact I]. now apply says_same.
Qed.
Lemma sy_exit P v x s : sy_res P v (do_action v x (exit_action s)).
Proof. destruct s; cbn [exit_action do_action]; try (apply sy_ok, says_refl). apply sy_osc_end. Qed.
Lemma sy_entry P v x s : sy_res P v (do_action v x (entry_action s)).
Proof. destruct s; cbn [entry_action do_action]; apply sy_ok; first [apply says_refl | now apply says_same]. Qed.
Lemma sy_print P v x : VInv v -> sy_res P v (do_action v x APrint).
Proof.
  intros H. cbn [do_action]. rewrite map_eq. cbn [bind fst snd]. eapply sy_from; [|apply sy_wc]. unfold unshift.
  repeat match goal with |- context [if ?b then _ else _] => destruct b end; first [apply says_refl | now apply says_same].
Qed.
Lemma sy_main (P : list Z -> Prop) v w cp a : VInv w -> v_state w = v_state v -> v_con w = v_con v ->
  (exists t, trans (v_state v) cp = (t, a)) -> (forall r, asked v cp r -> P r) -> sy_res P w (do_action w cp a).
Proof.
  intros H E C (t & T) HP. destruct a; try (cbn [do_action]; apply sy_ok; first [apply says_refl | now apply says_same]).
  - now apply sy_print.
  - cbn [do_action]. apply sy_execute; intros ->; apply HP; unfold asked; auto.
  - cbn [do_action]. apply sy_ok. unfold do_collect. destruct (collect_bit cp); first [apply says_refl | now apply says_same].
  - apply sy_param.
  - cbn [do_action]. apply trans_esc in T. apply sy_esc. intros -> _. apply HP. unfold asked. tauto.
  - cbn [do_action]. apply trans_csi in T. apply sy_csi; [exact H|..]; intros ->; rewrite ?C; split; apply HP; unfold asked; tauto.
  - cbn [do_action]. unfold do_osc_collect. cbv zeta. destruct (_ <? _); [apply sy_ok, says_refl|]. destruct (zcopy _ _ _); cbn [bind]; [|intros v' X; discriminate].
    apply sy_ok. now apply says_same.
  - cbn [do_action]. apply sy_osc_end.
Qed.
Lemma sy_parse (P : list Z -> Prop) v cp : VInv v -> (forall r, asked v cp r -> P r) -> sy_res P v (parse_data v cp).
Proof.
  intros H HP. unfold parse_data, do_trans. cbv zeta. destruct (trans (v_state v) cp) as [[t|] a] eqn:T; cbn [fst snd].
  - destruct (exit_eq v cp H) as (l & E). pose proof (sy_exit P v cp (v_state v)) as S. rewrite E in *. cbn [bind].
    assert (HI : VInv (w_osc (osc_event v) l)) by (destruct (exit_safe v cp (v_state v) H) as (y & Ey & Iy); congruence).
    eapply sy_from; [exact (S _ eq_refl)|]. apply sy_bind.
    + apply (sy_main P v); eauto; destruct v; unfold osc_event; cbn; repeat match goal with |- context [if ?b then _ else _] => destruct b | |- context [match ?b with _ => _ end] => destruct b end; reflexivity.
    + intros w Hw. apply sy_bind; [eapply sy_from; [exact Hw|apply sy_entry]|]. intros x Hx. apply sy_ok. eapply says_trans; [exact Hx|]. now apply says_same.
  - apply (sy_main P v); eauto.
Qed.

(* The code point, if any, that a byte completes. *)
Definition delivers (sg : bool) (v : vte) (b : Z) : option Z :=
  if vfl v VF_7BIT then Some (Z.land b 0x7f)
  else if vfl v VF_8BIT then Some (char_to_u32 sg b)
  else umach_out (umach_feed sg (v_mach v) b).
Lemma asked_mach v m cp r : asked (w_mach v m) cp r -> asked v cp r.
Proof. destruct v; exact (fun x => x). Qed.
Lemma sy_byte (P : list Z -> Prop) sg v b : VInv v -> (forall cp r, delivers sg v b = Some cp -> asked v cp r -> P r) -> sy_res P v (input_byte sg v b).
Proof.
  intros H HP. unfold input_byte, delivers in *. destruct (vfl v VF_7BIT); [apply sy_parse; eauto|]. destruct (vfl v VF_8BIT); [apply sy_parse; eauto|].
  cbv zeta. assert (I1 : VInv (w_mach v (umach_feed sg (v_mach v) b))) by now apply VInv_mach.
  assert (S : says P v (w_mach v (umach_feed sg (v_mach v) b))) by now apply says_same.
  destruct (umach_out _) as [cp|] eqn:U; [|now apply sy_ok]. eapply sy_from; [exact S|]. apply sy_parse; [exact I1|].
  intros r A. eapply HP; [reflexivity|]. eapply asked_mach. exact A.
Qed.
Lemma sy_input (P : list Z -> Prop) sg bs : forall v, VInv v ->
  (forall p b q w cp r, bs = p ++ b :: q -> vte_input sg v p = Ok w -> delivers sg w b = Some cp -> asked w cp r -> P r) ->
  sy_res P v (vte_input sg v bs).
Proof.
  induction bs as [|b t IH]; intros v H HP; cbn [vte_input]; [apply sy_ok, says_refl|].
  intros v' E. destruct (input_byte sg v b) as [w|] eqn:B; cbn [bind] in E; [|discriminate].
  assert (I1 : VInv w) by (apply (input_inv sg [b] v w); [exact H|cbn [vte_input]; rewrite B; reflexivity]).
  eapply says_trans.
  - refine (sy_byte P sg v b H _ w B). intros cp r D A. exact (HP [] b t v cp r eq_refl eq_refl D A).
  - refine (IH w I1 _ v' E). intros p b0 q x cp r EQ VI D A. refine (HP (b :: p) b0 q x cp r _ _ D A); [now rewrite EQ|].
    cbn [vte_input]. rewrite B. exact VI.
Qed.
(* Between calls no Alt prefix is pending. *)
Lemma send_noprep v bs : vfl (vte_send v bs) VF_PREPEND = false.
Proof.
  unfold vte_send. generalize (emit (if vfl v VF_PREPEND then emit v (EWrite [27]) else v) (EWrite bs)). intros w.
  unfold vfl, set_reset, bit. cbn [w_flags v_flags]. rewrite Z.clearbit_eqb. unfold VF_PREPEND. rewrite Z.eqb_refl. cbn [negb]. apply andb_false_r.
Qed.
Lemma write_noprep sg v bs v' : vte_write sg v bs = Ok v' -> vfl v' VF_PREPEND = false.
Proof.
  unfold vte_write. intros E. destruct (if vfl v VF_SRM then _ else _) as [w|]; cbn [bind] in E; [|discriminate].
  injection E as <-. apply send_noprep.
Qed.
Lemma sy_palette P v w : says P v w -> sy_res P v (vte_update_palette w).
Proof.
  intros H. unfold vte_update_palette. cbv zeta. destruct (to_rgb _ _) as [a|]; cbn [bind]; [|intros v' E; discriminate]. apply sy_bind.
  - apply sy_scr. eapply says_trans; [exact H|]. now apply says_same.
  - intros x Hx. now apply sy_scr.
Qed.
Lemma step_noprep sg v o v' : VInv v -> vop_args o -> vfl v VF_PREPEND = false -> vstep sg v o = Ok v' -> vfl v' VF_PREPEND = false.
Proof.
  intros H HA HP E. pose (T := fun _ : list Z => True).
  assert (G : forall r, sy_res T v r -> r = Ok v' -> vfl v' VF_PREPEND = false) by (intros r S R; exact (proj1 (S v' R HP))).
  destruct o; cbn [vstep] in E.
  - eapply G; [|exact E]. apply sy_input; [exact H|]. unfold T; auto.
  - destruct (vte_key sg v keysym ascii mods unicode) as [[x b]|] eqn:K; cbn [bind fst] in E; [|discriminate]. injection E as <-.
    unfold vte_key in K. cbv zeta in K. destruct (key_bytes _ _ _ _ _) as [bs|].
    + destruct (vte_write sg _ bs) as [y|] eqn:W; cbn [bind] in K; [|discriminate]. injection K as <- <-. exact (write_noprep _ _ _ _ W).
    + injection K as <- <-. generalize (if bit mods M_ALT then set_reset v true VF_PREPEND else v). intros w.
      unfold vfl, set_reset, bit. cbn [w_flags v_flags]. rewrite Z.clearbit_eqb. unfold VF_PREPEND. rewrite Z.eqb_refl. cbn [negb]. apply andb_false_r.
  - destruct (vte_mouse sg v cx cy px py button event modifiers) as [[x b]|] eqn:K; cbn [bind fst] in E; [|discriminate]. injection E as <-.
    unfold vte_mouse in K. cbv zeta in K.
    repeat (match type of K with (if ?b then _ else _) = _ => destruct b end;
      try (injection K as <- <-; exact HP);
      try (match type of K with bind ?r _ = _ => let W := fresh "W" in destruct r as [y|] eqn:W; cbn [bind] in K; [|discriminate]; injection K as <- <-; exact (write_noprep _ _ _ _ W) end)).
  - eapply G; [|exact E]. apply sy_reset.
  - eapply G; [|exact E]. apply sy_hard.
  - eapply G; [|exact E]. apply sy_palette. now apply says_same.
  - eapply G; [|exact E]. apply sy_palette. now apply says_same.
  - injection E as <-. exact HP.
  - injection E as <-. exact HP.
  - injection E as <-. exact HP.
  - eapply G; [|exact E]. apply sy_scr, says_refl.
Qed.
Lemma run_noprep sg ops : forall v v', VInv v -> Forall vop_args ops -> vfl v VF_PREPEND = false -> vrun sg v ops = Ok v' -> vfl v' VF_PREPEND = false.
Proof.
  induction ops as [|o r IH]; intros v v' H Ha HP E; cbn [vrun] in E; [inversion E; now subst|].
  inversion Ha; subst. destruct (vstep sg v o) as [w|] eqn:S; cbn [bind] in E; [|discriminate].
  refine (IH w v' _ H3 _ E); [eapply vstep_inv; eauto|eapply step_noprep; eauto].
Qed.
Lemma new_from w v : vfl w VF_PREPEND = false -> (do v1 <- vte_reset w; scr v1 (OEraseScreen false)) = Ok v -> vfl v VF_PREPEND = false.
Proof.
  intros N E.
  assert (S : sy_res (fun _ => True) w (do v1 <- vte_reset w; scr v1 (OEraseScreen false)))
    by (apply sy_bind; [apply sy_reset|]; intros x Hx; now apply sy_scr).
  exact (proj1 (S v E N)).
Qed.
Lemma new_noprep con v : vte_new con = Ok v -> vfl v VF_PREPEND = false.
Proof.
  unfold vte_new. cbv zeta. rewrite to_rgb_eq; [|reflexivity|vm_compute; intuition discriminate]. cbn [bind].
  intros E. eapply new_from; [|exact E]. reflexivity.
Qed.
Lemma reach_noprep sg v : vreachable sg v -> vfl v VF_PREPEND = false.
Proof.
  intros (con & v0 & ops & Hc & E & Ha & R). destruct (vte_new_safe con Hc) as (v1 & E1 & I1).
  assert (v1 = v0) by congruence. subst. eapply run_noprep; eauto using new_noprep.
Qed.

(* -- decimal numbers ------------------------------------------------------- *)
Definition seven (b : Z) : Prop := 0 <= b < 128.
Lemma dval_from l : forall n, fold_left (fun n d => 10 * n + (d - 48)) l n = n * 10 ^ Z.of_nat (length l) + dval l.
Proof.
  unfold dval. induction l as [|d l IH]; intros n; cbn [fold_left length]; [rewrite Z.pow_0_r; lia|].
  rewrite IH, (IH (10 * 0 + (d - 48))). rewrite Nat2Z.inj_succ, Z.pow_succ_r by lia. lia.
Qed.
Lemma dval_cons d l : dval (d :: l) = (d - 48) * 10 ^ Z.of_nat (length l) + dval l.
Proof. unfold dval at 1. cbn [fold_left]. rewrite dval_from. lia. Qed.
Lemma dec_dig f : forall n acc, 0 <= n < 10 ^ Z.of_nat f -> Forall digit acc -> (f <> 0)%nat ->
  Forall digit (dec_digits f n acc) /\ dec_digits f n acc <> [] /\ dval (dec_digits f n acc) = n * 10 ^ Z.of_nat (length acc) + dval acc.
Proof.
  induction f as [|f IH]; intros n acc Hn Ha Hf; [congruence|]. cbn [dec_digits].
  assert (D : digit (48 + n mod 10)) by (unfold digit; lia).
  assert (E : n * 10 ^ zlen acc + dval acc = n / 10 * 10 ^ zlen ((48 + n mod 10) :: acc) + dval ((48 + n mod 10) :: acc)).
  { rewrite dval_cons. cbn [length]. rewrite Nat2Z.inj_succ, Z.pow_succ_r by lia. rewrite (Z.div_mod n 10) at 1 by lia. lia. }
  destruct (Z.eqb_spec (n / 10) 0) as [Z0|N0].
  - split; [auto|]. split; [discriminate|]. rewrite E, Z0. lia.
  - rewrite Nat2Z.inj_succ, Z.pow_succ_r in Hn by lia.
    destruct f as [|f]; [cbn in Hn; exfalso; apply N0; lia|].
    destruct (IH (n / 10) ((48 + n mod 10) :: acc)) as (A & B & C); [lia|auto|lia|]. split; [exact A|]. split; [exact B|]. rewrite C, E. lia.
Qed.
Lemma dec_spec n : 0 <= n < 2 ^ 32 -> Forall digit (dec n) /\ dec n <> [] /\ dval (dec n) = n.
Proof.
  intros H. destruct (dec_dig 10 n []) as (A & B & C); [cbn; lia|auto|lia|]. split; [exact A|]. split; [exact B|].
  unfold dec. rewrite C. cbn [length]. change (dval []) with 0. rewrite Z.pow_0_r. lia.
Qed.
Lemma dec_seven n : 0 <= n < 2 ^ 32 -> Forall seven (dec n).
Proof. intros H. destruct (dec_spec n H) as (A & _). eapply Forall_impl; [|exact A]. unfold digit, seven. lia. Qed.
Lemma asked_seven v cp r : VInv v -> asked v cp r -> Forall seven r.
Proof.
  intros H A. assert (C : Forall seven (cursor_report (v_con v))).
  { pose proof (reachable_Inv _ (vi_con v H)) as IC. destruct IC as (I0 & Ix & Iy); inv0 I0. unfold DIM in *. unfold cursor_report.
    repeat (apply Forall_app; split); try (apply dec_seven; lia); repeat constructor; unfold seven; lia. }
  assert (D : Forall seven PRIMARY_DA) by (repeat constructor; unfold seven; lia).
  destruct A as [[_ ->]|[[_ ->]|[(_ & _ & ->)|(_ & [(_ & [->| ->])|(_ & [->| ->])])]]]; auto; repeat constructor; unfold seven; lia.
Qed.

(* Every reply comes from a code point that asks for it, and is 7-bit. *)
Lemma replies sg v bs v' : vreachable sg v -> vte_input sg v bs = Ok v' ->
  exists l, v_out v' = v_out v ++ l /\
    forall r, In (EWrite r) l -> Forall seven r /\
      exists p b q w cp, bs = p ++ b :: q /\ vte_input sg v p = Ok w /\ delivers sg w b = Some cp /\ asked w cp r.
Proof.
  intros R E. pose proof (vreachable_inv _ _ R) as H. pose proof (reach_noprep _ _ R) as N.
  pose (P := fun r => exists p b q w cp, bs = p ++ b :: q /\ vte_input sg v p = Ok w /\ delivers sg w b = Some cp /\ asked w cp r).
  assert (S : sy_res P v (vte_input sg v bs)) by (apply sy_input; [exact H|]; intros p b q w cp r A B C D; exists p, b, q, w, cp; auto).
  destruct (S v' E N) as (_ & l & -> & F). exists l. split; [reflexivity|]. intros r Hr.
  rewrite Forall_forall in F. specialize (F _ Hr). cbn [okev] in F. split; [|exact F].
  destruct F as (p & b & q & w & cp & EQ & VI & _ & A). eapply asked_seven; [|exact A].
  eapply input_inv; [exact H|exact VI].
Qed.

(* -- the requests answered -------------------------------------------------- *)
(* What a control sequence with final n or c is answered with; of the markers
   only > and ? are told apart from none. *)
Definition answer (s : screen) (pri P : list Z) (f : Z) : option (list Z) :=
  if f =? 110 then
    if arg P 0 =? 5 then Some STATUS_OK else if arg P 0 =? 6 then Some (cursor_report s) else None
  else if f =? 99 then
    if (zlen (args P) <=? 1) && (arg P 0 <=? 0) then
      match pri with [62] => Some SECOND_DA | [63] => None | _ => Some FIRST_DA end
    else None
  else None.
Definition answered (v : vte) (r : option (list Z)) : vte := match r with Some bs => emit v (EWrite bs) | None => v end.
Lemma clear_none v : vfl v VF_PREPEND = false -> set_reset v false VF_PREPEND = v.
Proof.
  intros H. unfold set_reset. replace (Z.clearbit (v_flags v) VF_PREPEND) with (v_flags v); [destruct v; reflexivity|].
  apply Z.bits_inj'. intros n Hn. rewrite Z.clearbit_eqb. destruct (Z.eqb_spec VF_PREPEND n); [|cbn [negb]; now rewrite andb_true_r].
  subst n. unfold vfl, bit in H. rewrite H. reflexivity.
Qed.
Lemma send_plain v bs : vfl v VF_PREPEND = false -> vte_send v bs = emit v (EWrite bs).
Proof. intros H. unfold vte_send. rewrite H. apply clear_none. exact H. Qed.
Lemma csi_c v : csi_body v 99 = do p0 <- zget (v_argv v) 0; do p1 <- zget (v_argv v) 1; csi_dev_attr v.
Proof. reflexivity. Qed.
Lemma csi_n v : csi_body v 110 = do p0 <- zget (v_argv v) 0; do p1 <- zget (v_argv v) 1; csi_dsr v.
Proof. reflexivity. Qed.
Lemma core_answer v fl P st r : core (w_state (answered (at_csi v fl P st) r) SGround) = core (answered v r).
Proof. unfold at_csi. generalize (args P). intros q. destruct v, r; reflexivity. Qed.
Lemma marker_cases pri fl : marker pri = Some fl ->
  (fl = 0 /\ (pri = [] \/ pri = [60] \/ pri = [61])) \/ (fl = 8 /\ pri = [62]) \/ (fl = 4 /\ pri = [63]).
Proof.
  intros H. destruct pri as [|c [|d r]]; cbn [marker] in H; [injection H as <-; auto| |discriminate].
  destruct ((60 <=? c) && (c <=? 63)) eqn:R; [|discriminate]. injection H as <-.
  assert (C : c = 60 \/ c = 61 \/ c = 62 \/ c = 63) by lia. destruct C as [->|[->|[->| ->]]]; cbn; auto 6.
Qed.
Lemma dev_attr_at v pri fl P st : marker pri = Some fl -> vfl v VF_PREPEND = false ->
  csi_dev_attr (at_csi v fl P st) = Ok (answered (at_csi v fl P st) (answer (v_con v) pri P 99)).
Proof.
  intros Hm N. unfold csi_dev_attr. rewrite (at_arg v fl P st 0) by lia. cbn [bind]. rewrite at_argc. change (Z.to_nat 0) with 0%nat.
  unfold answer. change (99 =? 110) with false. change (99 =? 99) with true. cbv iota.
  assert (S : forall bs, vte_send (at_csi v fl P st) bs = answered (at_csi v fl P st) (Some bs)) by (intros bs; apply send_plain; exact N).
  unfold cfl. change (v_cfl (at_csi v fl P st)) with fl. unfold send_primary_da. rewrite !S. f_equal.
  destruct (_ && _); [|reflexivity].
  destruct (marker_cases pri fl Hm) as [(-> & [->|[->| ->]])|[(-> & ->)|(-> & ->)]]; reflexivity.
Qed.
Lemma dsr_at v pri fl P st : VInv v -> Forall pchar P -> vfl v VF_PREPEND = false ->
  csi_dsr (at_csi v fl P st) = Ok (answered (at_csi v fl P st) (answer (v_con v) pri P 110)).
Proof.
  intros H HP N. rewrite (dsr_eq (fun _ => True) (at_csi v fl P st)) by (apply VInv_at; assumption). rewrite (at_arg v fl P st 0) by lia. cbn [bind]. change (Z.to_nat 0) with 0%nat.
  unfold answer. change (110 =? 110) with true. cbv iota. change (v_con (at_csi v fl P st)) with (v_con v).
  rewrite !(send_plain (at_csi v fl P st)) by exact N. destruct (_ =? 5); [reflexivity|]. destruct (_ =? 6); reflexivity.
Qed.
Lemma answer_seq sg v pri fl P f : vreachable sg v -> text_mode v -> marker pri = Some fl -> Forall pchar P -> f = 110 \/ f = 99 ->
  exists v', vte_input sg v (csi_bytes pri P f) = Ok v' /\ text_mode v' /\ core v' = core (answered v (answer (v_con v) pri P f)).
Proof.
  intros R Ht Hm HP Hf. pose proof (vreachable_inv _ _ R) as H. pose proof (reach_noprep _ _ R) as N. pose proof Ht as [_ Hr].
  destruct (csi_seq sg v pri fl P f H Hr Hm HP ltac:(destruct Hf; lia)) as (st & _ & E). rewrite (text_event v Ht) in E.
  assert (C : csi_run (at_csi v fl P st) f = Ok (answered (at_csi v fl P st) (answer (v_con v) pri P f))).
  { destruct (args_len P) as [A B]. rewrite csi_run_body by (rewrite at_argc; lia). destruct Hf as [->| ->].
    - rewrite csi_n, (at_arg v fl P st 0), (at_arg v fl P st 1) by lia. cbn [bind]. now apply dsr_at.
    - rewrite csi_c, (at_arg v fl P st 0), (at_arg v fl P st 1) by lia. cbn [bind]. now apply dev_attr_at. }
  rewrite C in E. destruct E as (v' & E & A & T & _). exists v'. split; [exact E|]. split; [exact T|].
  rewrite (core_alike _ _ A). apply core_answer.
Qed.
(* A cursor report reads back as the cursor position. *)
Lemma cursor_report_reads s : 0 <= s_cx s < 2 ^ 31 -> 0 <= s_cy s < 2 ^ 31 ->
  exists r c, cursor_report s = [27; 91] ++ r ++ [59] ++ c ++ [82] /\ Forall digit r /\ Forall digit c /\ r <> [] /\ c <> [] /\
    dval r = s_cy s + 1 /\ dval c = s_cx s + 1.
Proof.
  intros Hx Hy. exists (dec (s_cy s + 1)), (dec (s_cx s + 1)). destruct (dec_spec (s_cy s + 1)) as (A & B & C); [lia|].
  destruct (dec_spec (s_cx s + 1)) as (A' & B' & C'); [lia|]. unfold cursor_report. auto 10.
Qed.
