(* Proofs: every function of the terminal acts on the screen by calls. *)
From Verif Require Import Base BaseProofs Utf8 Symbol Screen ScreenInv ScreenSafe VteData Vte VteKeys VteSpec VteInv VteSafe.
From Verif Require Import ScreenSpec ScreenOps FrameSpec ScreenFrame DriveSpec.

Lemma run_app a b : forall s s1, run s a = Ok s1 -> run s (a ++ b) = run s1 b.
Proof.
  induction a as [|o a IH]; intros s s1; cbn [app run]; [congruence|]. destruct (step s o); [|discriminate]. cbn [bind]. apply IH.
Qed.
Lemma dr_refl v w : v_con w = v_con v -> driven v w.
Proof. intros E. exists []. split; [constructor|]. split; [constructor|]. cbn. congruence. Qed.
Lemma dr_trans a b c : driven a b -> driven b c -> driven a c.
Proof.
  intros (o1 & P1 & A1 & R1) (o2 & P2 & A2 & R2). exists (o1 ++ o2). split; [apply Forall_app; auto|]. split; [apply Forall_app; auto|].
  rewrite (run_app _ _ _ _ R1). exact R2.
Qed.
Definition dv (v : vte) (r : res vte) : Prop := forall v', r = Ok v' -> driven v v'.
Lemma dv_ok v w : v_con w = v_con v -> dv v (Ok w).
Proof. intros E v' X. injection X as <-. now apply dr_refl. Qed.
Lemma dv_bind v r f : ok_inv r -> dv v r -> (forall w, VInv w -> dv w (f w)) -> dv v (bind r f).
Proof.
  intros J R F v' E. destruct r as [w|]; [|discriminate]. exact (dr_trans _ _ _ (R w eq_refl) (F w (J w eq_refl) v' E)).
Qed.
Lemma dv_pure {A} v (r : res A) f : (forall x, r = Ok x -> dv v (f x)) -> dv v (bind r f).
Proof. intros H. destruct r as [x|]; [exact (H x eq_refl)|]. intros v' E. discriminate. Qed.
Lemma dv_scr v w o : v_con w = v_con v -> op_args o -> program_call o = true -> dv v (scr w o).
Proof.
  intros E A P v' X. unfold scr in X. rewrite E in X.
  destruct (step (v_con v) o) as [c|] eqn:S; [|discriminate]. cbn [bind] in X. injection X as <-.
  exists [o]. split; [auto|]. split; [auto|]. cbn [run]. rewrite S. reflexivity.
Qed.
Lemma dv_con v w r : v_con w = v_con v -> dv w r -> dv v r.
Proof. intros E H v' X. exact (dr_trans _ _ _ (dr_refl v w E) (H v' X)). Qed.
Lemma program_if b f : program_call (if b : bool then OSetFlags f else OResetFlags f) = true.
Proof. destruct b; reflexivity. Qed.

Ltac both := repeat match goal with |- dv _ (if ?b then _ else _) => destruct b end.
Ltac fin := apply dv_ok; reflexivity.
Ltac pur := repeat (match goal with |- dv _ (bind _ _) => apply dv_pure end; let x := fresh "x" in let X := fresh "X" in intros x X).
Ltac call := apply dv_scr; [reflexivity|cbn; (exact I || ua || (split; ua) || tauto)|reflexivity].
Lemma dv_flag v w b f : v_con w = v_con v -> u32_arg f -> dv v (scr_flag w b f).
Proof. intros E Hf. unfold scr_flag. apply dv_scr; [exact E|now apply sf_arg|apply program_if]. Qed.
Ltac flag := apply dv_flag; [reflexivity|ua].

Lemma dv_write v w sym : v_con w = v_con v -> dv v (write_console w sym).
Proof. intros E. unfold write_console. pur. apply dv_scr; [exact E|exact I|reflexivity]. Qed.
Lemma dv_restore v : VInv v -> dv v (restore_state v).
Proof.
  intros H. unfold restore_state. cbv zeta.
  assert (Hpos : op_args (OMoveTo (sv_x (v_saved v)) (sv_y (v_saved v)))) by apply H.
  pose proof (vi_svattr v H) as Hsv. generalize dependent (v_saved v). intros sv Hpos Hsv.
  apply dv_bind; [now apply scr_inv|now apply dv_scr|]. intros v1 I1.
  rewrite to_rgb_eq; [|apply I1|exact Hsv]. cbn [bind]. set (a := resolve _ _).
  assert (Ca : colour_ok a) by (now apply resolve_colour). clearbody a.
  assert (I2 : VInv (w_cattr v1 a)) by now apply VInv_cattr.
  apply dv_bind.
  - destruct (vfl _ VF_BCE); [now apply scr_inv|]. apply safe_inv, safe_ok, I2.
  - both; [call|fin].
  - intros v3 I3. apply dv_bind.
    + apply scr_inv; [|now apply sf_arg; ua]. apply VInv_sr. vinv I3. now vset.
    + apply dv_scr; [reflexivity|apply sf_arg; ua|apply program_if].
    + intros v5 I5. apply dv_scr; [reflexivity|apply sf_arg; ua|apply program_if].
Qed.
Lemma dv_reset v : VInv v -> dv v (vte_reset v).
Proof.
  intros H. unfold vte_reset. cbv zeta.
  apply dv_bind; [apply scr_inv; [now apply VInv_flags|exact I]|call|]. intros v1 I1.
  apply dv_bind; [apply scr_inv; [auto|cbn; ua]|call|]. intros v2 I2.
  rewrite to_rgb_eq; [|apply I2|apply I2]. cbn [bind]. apply dv_bind; [|call|].
  - apply scr_inv; [|exact I]. apply VInv_cattr; [vinv I2; now vset|apply resolve_colour, I2].
  - intros v7 I7. fin.
Qed.
Lemma dv_hard v : VInv v -> dv v (vte_hard_reset v).
Proof.
  intros H. unfold vte_hard_reset.
  apply dv_bind; [now apply safe_inv, vte_reset_safe|now apply dv_reset|]. intros v1 I1.
  apply dv_bind; [apply scr_inv; [auto|exact I]|call|]. intros v2 I2.
  apply dv_bind; [apply scr_inv; [auto|exact I]|call|]. intros v3 I3. call.
Qed.
Lemma send_con v bs : v_con (vte_send v bs) = v_con v.
Proof. unfold vte_send. cbv zeta. destruct (vfl v VF_PREPEND); reflexivity. Qed.
Lemma dv_send v w bs : v_con w = v_con v -> dv v (Ok (vte_send w bs)).
Proof. intros E. apply dv_ok. rewrite send_con. exact E. Qed.
Ltac snd_ := apply dv_send; reflexivity.
Lemma dv_exec v d : VInv v -> dv v (do_execute v d).
Proof.
  intros H. unfold do_execute, send_primary_da. both; try fin; try call; try snd_. now apply dv_write.
Qed.
Lemma dv_param v d : dv v (do_param v d).
Proof.
  unfold do_param. destruct (d =? 59); [destruct (_ <? _); fin|]. destruct (CSI_ARG_MAX <=? v_argc v); [fin|].
  pur. destruct (_ <? _); [fin|]. destruct (_ && _); [|fin]. cbv zeta. pur. fin.
Qed.
Lemma dv_esc v d : VInv v -> dv v (do_esc v d).
Proof.
  intros H. unfold do_esc.
  assert (R : dv v (do_esc_plain v d)).
  { unfold do_esc_plain, send_primary_da. both; try fin; try call; try snd_.
    - now apply dv_hard.
    - now apply dv_restore. }
  destruct (esc_charset d) as [k|].
  - unfold set_charset.
    repeat match goal with |- context [if cfl v ?n then _ else _] => destruct (cfl v n) end; try fin; both; try fin; exact R.
  - both; try fin; exact R.
Qed.
Lemma dv_sgr v : dv v (csi_attribute v).
Proof.
  unfold csi_attribute. apply dv_pure. intros p0 _. apply dv_pure. intros w X.
  assert (C : v_con w = v_con v).
  { destruct (_ && _); [|now injection X as <-]. destruct (zmod _ _ _); [|discriminate]. now injection X as <-. }
  apply (dv_con v w); [exact C|]. pur. cbv zeta. both; first [call|fin].
Qed.
Lemma dv_compat v : VInv v -> dv v (csi_compat_mode v).
Proof.
  intros H. unfold csi_compat_mode. apply dv_bind; [now apply safe_inv, vte_reset_safe|now apply dv_reset|]. intros v1 I1.
  pur. apply dv_ok. repeat match goal with |- context [if ?b then _ else _] => destruct b end; reflexivity.
Qed.
Lemma dv_ansi v b p : dv v (csi_mode_ansi v b p).
Proof. unfold csi_mode_ansi. both; try fin; flag. Qed.
Lemma dv_dec v b p : VInv v -> dv v (csi_mode_dec v b p).
Proof.
  intros H. pose proof (vi_alt v H) as Ha. unfold csi_mode_dec. cbv zeta.
  both; try fin; try flag; try call.
  all: try (match goal with |- dv _ (Ok (if ?b then _ else _)) => destruct b end; fin).
  - apply dv_bind; [apply scr_inv; [auto|exact I]|call|]. intros v1 I1. flag.
  - apply dv_bind; [unfold scr_flag; apply scr_inv; [now apply VInv_alt|cbn; ua]|flag|]. intros v1 I1. call.
  - apply dv_bind; [unfold scr_flag; apply scr_inv; [auto|cbn; ua]|flag|]. intros v1 I1. apply dv_scr; [reflexivity|exact Ha|reflexivity].
Qed.
Lemma dv_for n : forall i f v, VInv v ->
  (forall j w, i <= j < i + Z.of_nat n -> VInv w -> ok_inv (f j w)) ->
  (forall j w, i <= j < i + Z.of_nat n -> VInv w -> dv w (f j w)) ->
  dv v (for_n n i f v).
Proof.
  induction n as [|n IH]; intros i f v H Hi Hf; cbn [for_n]; [fin|].
  apply dv_bind; [apply Hi; [lia|auto]|apply Hf; [lia|auto]|]. intros a Ia. apply IH; auto; intros.
  - apply Hi; [lia|auto].
  - apply Hf; [lia|auto].
Qed.
Lemma dv_mode v b : VInv v -> dv v (csi_mode v b).
Proof.
  intros H. pose proof (vi_argc v H). unfold csi_mode, forz. apply dv_for; auto.
  - intros j w Hj Hw. apply safe_inv. destruct (argv_get w j Hw ltac:(lia)) as (p & _ & E & _). rewrite E. cbn [bind].
    destruct (cfl w CSI_WHAT); [now apply mode_dec_safe|now apply mode_ansi_safe].
  - intros j w Hj Hw. pur. both; [now apply dv_dec|now apply dv_ansi].
Qed.
Lemma dv_da v : dv v (csi_dev_attr v).
Proof. unfold csi_dev_attr, send_primary_da. pur. apply dv_ok. repeat match goal with |- context [if ?b then _ else _] => destruct b end; rewrite ?send_con; reflexivity. Qed.
Lemma dv_dsr v : dv v (csi_dsr v).
Proof. unfold csi_dsr. cbv zeta. pur. apply dv_ok. repeat match goal with |- context [if ?b then _ else _] => destruct b end; rewrite ?send_con; reflexivity. Qed.
Lemma dv_csi v0 d : VInv v0 -> dv v0 (do_csi v0 d).
Proof.
  intros H0. unfold do_csi. cbv zeta.
  set (v := if v_argc v0 <? CSI_ARG_MAX then _ else v0).
  assert (H : VInv v) by now apply VInv_csi.
  assert (C : v_con v = v_con v0) by (unfold v; destruct (_ <? _); reflexivity).
  apply (dv_con _ _ _ C).
  clearbody v. clear v0 H0 C.
  destruct (argv_get v 0 H ltac:(lia)) as (p0 & _ & E0 & R0), (argv_get v 1 H ltac:(lia)) as (p1 & _ & E1 & R1).
  rewrite E0. cbn [bind]. rewrite E1. cbn [bind].
  pose proof (cursor_u32 _ (vi_con v H)) as Hcur.
  assert (Rn : 1 <= (if p0 <=? 0 then 1 else p0) <= 655359) by (destruct (Z.leb_spec p0 0); lia).
  set (num := if p0 <=? 0 then 1 else p0) in *. clearbody num.
  assert (Ry : 1 <= (if p1 <=? 0 then 1 else p1) <= 655359) by (destruct (Z.leb_spec p1 0); lia).
  set (num1 := if p1 <=? 0 then 1 else p1) in *. clearbody num1.
  assert (Ru : 0 <= (if p0 <? 0 then 0 else p0) <= 655359) by (destruct (Z.ltb_spec p0 0); lia).
  set (upper := if p0 <? 0 then 0 else p0) in *. clearbody upper.
  assert (Rl : 0 <= (if p1 <? 0 then 0 else p1) <= 655359) by (destruct (Z.ltb_spec p1 0); lia).
  set (lower := if p1 <? 0 then 0 else p1) in *. clearbody lower.
  pose proof (u32_range (s_cy (v_con v) + num)) as Rc.
  set (qq := u32 (s_cy (v_con v) + num)) in *. clearbody qq.
  both; try fin; try call.
  all: try (apply dv_scr; [reflexivity|split; (tauto || ua)|reflexivity]).
  all: try (apply dv_bind; [apply scr_inv; [auto|cbn; ua]|call|]; intros v1 I1; call).
  all: first [now apply dv_sgr|now apply dv_reset|now apply dv_compat|now apply dv_mode|now apply dv_da|now apply dv_dsr|idtac].
Qed.
Lemma dv_action v d a : VInv v -> dv v (do_action v d a).
Proof.
  intros H. destruct a; cbn [do_action]; try fin.
  - destruct (vte_map_ok v d H) as (v1 & k & E & I1 & C1). rewrite E. cbn [bind fst snd]. now apply dv_write.
  - now apply dv_exec.
  - unfold do_collect. destruct (collect_bit d); fin.
  - now apply dv_param.
  - now apply dv_esc.
  - now apply dv_csi.
  - unfold do_osc_collect. cbv zeta. both; [fin|]. pur. fin.
  - unfold do_osc_end. both; [|fin]. pur. fin.
Qed.
Lemma action_inv v d a : VInv v -> ok_inv (do_action v d a).
Proof. intros H. eapply meets_inv. now apply do_action_meets. Qed.
Lemma dv_parse v raw : VInv v -> dv v (parse_data v raw).
Proof.
  intros H. unfold parse_data, do_trans. cbv zeta.
  destruct (trans (v_state v) raw) as [[t|] a]; cbn [fst snd]; [|now apply dv_action].
  apply dv_bind; [now apply action_inv|now apply dv_action|]. intros v1 I1.
  apply dv_bind; [now apply action_inv|now apply dv_action|]. intros v2 I2.
  apply dv_bind; [now apply action_inv|now apply dv_action|]. intros v3 I3. fin.
Qed.
Lemma dv_byte sg v b : VInv v -> dv v (input_byte sg v b).
Proof.
  intros H. unfold input_byte. both; try (now apply dv_parse). cbv zeta.
  destruct (umach_out _); [|fin]. apply (dv_con v (w_mach v (umach_feed sg (v_mach v) b))); [reflexivity|]. apply dv_parse. now apply VInv_mach.
Qed.
Lemma dv_input sg bs : forall v, VInv v -> dv v (vte_input sg v bs).
Proof.
  induction bs as [|b r IH]; intros v H; cbn [vte_input]; [fin|].
  apply dv_bind; [|now apply dv_byte|].
  - eapply meets_inv. now apply byte_meets.
  - intros a Ia. now apply IH.
Qed.
Lemma dv_vwrite sg v bs : VInv v -> dv v (vte_write sg v bs).
Proof.
  intros H. rewrite vte_write_eq.
  apply dv_bind; [intros v' E; now apply (input_inv sg _ v v' H E)|now apply dv_input|]. intros a Ia. snd_.
Qed.
Definition dvb (v : vte) (r : res (vte * bool)) : Prop := forall v' x, r = Ok (v', x) -> driven v v'.
Lemma dvb_bind v r x : dv v r -> dvb v (do w <- r; Ok (w, x)).
Proof. intros H v' y E. destruct r as [w|]; [|discriminate]. cbn [bind] in E. injection E as <- _. now apply H. Qed.
Lemma dvb_ok v w x : v_con w = v_con v -> dvb v (Ok (w, x)).
Proof. intros E v' y X. injection X as <- _. now apply dr_refl. Qed.
Lemma dvb_key sg v k a m u : VInv v -> dvb v (vte_key sg v k a m u).
Proof.
  intros H. unfold vte_key. cbv zeta. set (w := if bit m M_ALT then _ else v).
  assert (Hw : VInv w) by (unfold w; destruct (bit m M_ALT); [now apply VInv_sr|auto]).
  assert (C : v_con w = v_con v) by (unfold w; destruct (bit m M_ALT); reflexivity). clearbody w.
  destruct (key_bytes w k a m u).
  - apply dvb_bind. apply (dv_con _ _ _ C). now apply dv_vwrite.
  - apply dvb_ok. exact C.
Qed.
Lemma dvb_mouse sg v cx cy px py b e m : VInv v -> dvb v (vte_mouse sg v cx cy px py b e m).
Proof.
  intros H. unfold vte_mouse. cbv zeta.
  destruct (_ && _); [now apply dvb_ok|]. destruct (_ =? _); [apply dvb_bind; now apply dv_vwrite|].
  destruct (_ && _).
  - destruct (_ && _ && _); [now apply dvb_ok|]. apply dvb_bind. destruct (bit e EV_MOVED).
    + match goal with |- dv _ (vte_write _ ?w _) => apply (dv_con v w); [reflexivity|] end. apply dv_vwrite. vinv H. now vset.
    + now apply dv_vwrite.
  - destruct (_ && _); [|now apply dvb_ok]. apply dvb_bind. now apply dv_vwrite.
Qed.
Lemma dv_fst v r : dvb v r -> dv v (do x <- r; Ok (fst x)).
Proof. intros H v' E. destruct r as [[w x]|]; [|discriminate]. cbn [bind fst] in E. injection E as <-. exact (H w x eq_refl). Qed.
Lemma dv_palette v : VInv v -> dv v (vte_update_palette v).
Proof.
  intros H. unfold vte_update_palette. cbv zeta.
  assert (I1 : VInv (w_pal v (get_palette (v_pname v) (v_custom v)))).
  { vinv H. vset. now apply get_palette_ok. }
  rewrite to_rgb_eq; [|apply I1|split; cbn; unfold COLOR_FOREGROUND, COLOR_BACKGROUND; lia]. cbn [bind].
  match goal with |- context [OSetDefAttr ?x] => assert (Ca : colour_ok x);
    [apply resolve_colour; split; cbn; unfold COLOR_FOREGROUND, COLOR_BACKGROUND; lia|]; set (a := x) in *; clearbody a end.
  apply dv_bind; [|call|].
  - apply scr_inv; [|exact I]. vinv I1. now vset.
  - intros v2 I2. call.
Qed.
Lemma dv_vstep sg v o : VInv v -> vop_args o -> terminal_call o = true -> dv v (vstep sg v o).
Proof.
  intros H Ha T. destruct o; cbn [vstep]; try discriminate T; try fin.
  - now apply dv_input.
  - now apply dv_fst, dvb_key.
  - now apply dv_fst, dvb_mouse.
  - now apply dv_reset.
  - now apply dv_hard.
  - unfold vte_set_palette. apply (dv_con v (w_pname v n)); [reflexivity|]. apply dv_palette. vinv H. now vset.
  - unfold vte_set_custom. apply (dv_con v (w_custom v p)); [reflexivity|]. apply dv_palette. vinv H. vset. intros q ->. exact Ha.
Qed.
