(* Two terminals that differ in their screens only, and in those only by what
   same_page leaves open. *)
From Verif Require Import Base BaseProofs Utf8 Symbol Screen ScreenInv ScreenSafe VteData Vte VteKeys VteSpec VteInv VteSafe.
From Verif Require Import ScreenSb ScreenSpec ScreenOps Utf8Spec Utf8Proofs FrameSpec ScreenFrame TwinSpec TwinVteSpec TwinProofs TwinStep.

(* A call that does not change the size. *)
Definition fixed (o : op) : bool := match o with OResize _ _ => false | _ => true end.
(* With a width: scrollbacks agree in that many columns, which the screen has. *)
Definition hs (lim : option Z) (s t : screen) : Prop :=
  match lim with Some w => w <= s_sx s /\ same_hist w s t | None => True end.

Section Twin.
Context (lim : option Z).
Definition tw (v : vte) (c : screen) : Prop := same_page (v_con v) c /\ Inv (v_con v) /\ Inv c /\ hs lim (v_con v) c.
Definition rl (r r' : res vte) : Prop :=
  match r, r' with
  | Ok a, Ok b => exists c, b = w_con a c /\ tw a c
  | Ub, Ub => True
  | _, _ => False
  end.

Lemma rl_ok v c : tw v c -> rl (Ok v) (Ok (w_con v c)).
Proof. intros H. exists c. auto. Qed.
Lemma rl_bind r r' f g : ok_inv r -> rl r r' -> (forall a c, VInv a -> tw a c -> rl (f a) (g (w_con a c))) -> rl (bind r f) (bind r' g).
Proof.
  intros I R H. destruct r as [a|], r' as [b|]; try contradiction; [|exact Logic.I].
  destruct R as (c & -> & T). cbn [bind]. apply H; [|exact T]. now apply I.
Qed.
Lemma rl_scr' v c o : tw v c -> op_args o -> (forall w s', lim = Some w -> step (v_con v) o = Ok s' -> w <= s_sx s') ->
  rl (scr v o) (scr (w_con v c) o).
Proof.
  intros (P & H & H' & Q) Ha Hf. unfold scr. cbn [w_con v_con].
  change (v_con (w_con v c)) with c.
  destruct (step (v_con v) o) as [s'|] eqn:E.
  - destruct (page_runs _ _ o s' P H H' Ha E) as (t' & E' & P'). rewrite E'. cbn [bind].
    exists t'. split; [reflexivity|]. split; [exact P'|]. split; [exact (step_Inv _ _ _ H Ha E)|].
    split; [exact (step_Inv _ _ _ H' Ha E')|]. unfold hs in *. destruct lim as [w|]; [|exact I].
    change (v_con (w_con v s')) with s'.
    destruct Q as [Hw Q]. pose proof (Hf w s' eq_refl eq_refl) as Hw'. split; [exact Hw'|].
    exact (hist_step w _ _ P H H' Hw o s' t' Q Ha E E' Hw').
  - destruct (step c o) as [t'|] eqn:E'; [|exact I].
    destruct (page_runs _ _ o t' (page_sym _ _ P) H' H Ha E') as (s' & E'' & _). congruence.
Qed.
Lemma rl_scr v c o : tw v c -> op_args o -> fixed o = true -> rl (scr v o) (scr (w_con v c) o).
Proof.
  intros T Ha Hf. apply rl_scr'; auto. intros w s' L E. destruct T as (P & H & _ & Q). unfold hs in Q. rewrite L in Q.
  pose proof (fr_size _ _ _ (framed_step _ o s' H Ha E)) as F. destruct F as [F _]; [destruct o; try discriminate Hf; reflexivity|]. rewrite F. apply Q.
Qed.
Lemma fixed_if b f : fixed (if b : bool then OSetFlags f else OResetFlags f) = true.
Proof. destruct b; reflexivity. Qed.
(* The same branch on both sides. *)
Ltac both := repeat match goal with
  | |- rl (if ?b then _ else _) (if ?b' then _ else _) => change b' with b; destruct b
  end.
(* Both sides finish, having made the same assignments. *)
Ltac fin := match goal with T : tw ?v ?c |- rl (Ok ?a) (Ok _) => exact (rl_ok a c T) end.
(* Both sides make the same call. *)
Ltac call := match goal with T : tw ?v ?c |- rl (scr ?a ?o) (scr _ _) =>
  refine (rl_scr a c o T _ eq_refl); cbn; (exact I || ua || (split; ua) || tauto) end.

Lemma rl_flag v c b f : tw v c -> u32_arg f -> rl (scr_flag v b f) (scr_flag (w_con v c) b f).
Proof. intros T Hf. unfold scr_flag. apply rl_scr; [exact T|now apply sf_arg|apply fixed_if]. Qed.
Ltac flag := match goal with T : tw ?v ?c |- rl (scr_flag ?a ?b ?f) (scr_flag _ _ _) =>
  refine (rl_flag a c b f T _); ua end.

Lemma rl_write v c sym : VInv v -> tw v c -> rl (write_console v sym) (write_console (w_con v c) sym).
Proof.
  intros H T. unfold write_console. change (v_pal (w_con v c)) with (v_pal v). change (v_cattr (w_con v c)) with (v_cattr v).
  rewrite to_rgb_eq by apply H. cbn [bind]. call.
Qed.
Lemma rl_restore v c : VInv v -> tw v c -> rl (restore_state v) (restore_state (w_con v c)).
Proof.
  intros H T. unfold restore_state. cbv zeta. change (v_saved (w_con v c)) with (v_saved v).
  assert (Hpos : op_args (OMoveTo (sv_x (v_saved v)) (sv_y (v_saved v)))) by apply H.
  pose proof (vi_svattr v H) as Hsv. generalize dependent (v_saved v). intros sv Hpos Hsv.
  apply rl_bind; [now apply scr_inv|now apply rl_scr|]. intros v1 c1 I1 T1.
  change (v_pal (w_con v1 c1)) with (v_pal v1).
  rewrite to_rgb_eq; [|apply I1|exact Hsv]. cbn [bind]. set (a := resolve _ _).
  assert (Ca : colour_ok a) by (now apply resolve_colour). clearbody a.
  assert (I2 : VInv (w_cattr v1 a)) by now apply VInv_cattr.
  apply rl_bind.
  - destruct (vfl _ VF_BCE); [now apply scr_inv|]. apply safe_inv, safe_ok, I2.
  - both; [call|fin].
  - intros v3 c3 I3 T3. apply rl_bind.
    + apply scr_inv; [|now apply sf_arg; ua]. apply VInv_sr. vinv I3. now vset.
    + refine (rl_scr (set_reset (w_gr (w_gl v3 (sv_gl sv)) (sv_gr sv)) (sv_wrap sv) VF_WRAP) c3 _ T3 _ (fixed_if _ _)). apply sf_arg. ua.
    + intros v5 c5 I5 T5. refine (rl_scr (set_reset v5 (sv_origin sv) VF_ORIGIN) c5 _ T5 _ (fixed_if _ _)). apply sf_arg. ua.
Qed.
Lemma rl_reset v c : VInv v -> tw v c -> rl (vte_reset v) (vte_reset (w_con v c)).
Proof.
  intros H T. unfold vte_reset. cbv zeta.
  apply rl_bind; [apply scr_inv; [now apply VInv_flags|exact I]|call|]. intros v1 c1 I1 T1.
  apply rl_bind; [apply scr_inv; [auto|cbn; ua]|call|]. intros v2 c2 I2 T2.
  match goal with |- rl (bind ?x _) (bind ?y _) => change y with x end.
  rewrite to_rgb_eq; [|apply I2|apply I2]. cbn [bind]. apply rl_bind; [|call|].
  - apply scr_inv; [|exact I]. apply VInv_cattr; [vinv I2; now vset|apply resolve_colour, I2].
  - intros v7 c7 I7 T7. fin.
Qed.
Lemma rl_hard v c : VInv v -> tw v c -> rl (vte_hard_reset v) (vte_hard_reset (w_con v c)).
Proof.
  intros H T. unfold vte_hard_reset.
  apply rl_bind; [now apply safe_inv, vte_reset_safe|now apply rl_reset|]. intros v1 c1 I1 T1.
  apply rl_bind; [apply scr_inv; [auto|exact I]|call|]. intros v2 c2 I2 T2.
  apply rl_bind; [apply scr_inv; [auto|exact I]|call|]. intros v3 c3 I3 T3. call.
Qed.
Lemma rl_send v c bs : tw v c -> rl (Ok (vte_send v bs)) (Ok (vte_send (w_con v c) bs)).
Proof.
  intros T. unfold vte_send. cbv zeta. change (vfl (w_con v c) VF_PREPEND) with (vfl v VF_PREPEND).
  destruct (vfl v VF_PREPEND); fin.
Qed.
Lemma rl_exec v c d : VInv v -> tw v c -> rl (do_execute v d) (do_execute (w_con v c) d).
Proof.
  intros H T. unfold do_execute, send_primary_da. both; try fin; try call; try now apply rl_send. now apply rl_write.
Qed.
Lemma rl_param v c d : VInv v -> tw v c -> rl (do_param v d) (do_param (w_con v c) d).
Proof.
  intros H T. unfold do_param. change (v_argv (w_con v c)) with (v_argv v). change (v_argc (w_con v c)) with (v_argc v).
  destruct (d =? 59); [destruct (_ <? _); fin|]. destruct (CSI_ARG_MAX <=? v_argc v); [fin|].
  destruct (zget _ _); [|exact I]. cbn [bind]. destruct (_ <? _); [fin|]. destruct (_ && _); [|fin]. cbv zeta.
  destruct (zmod _ _ _); [|exact I]. cbn [bind]. fin.
Qed.
Lemma rl_esc v c d : VInv v -> tw v c -> rl (do_esc v d) (do_esc (w_con v c) d).
Proof.
  intros H T. unfold do_esc.
  assert (R : rl (do_esc_plain v d) (do_esc_plain (w_con v c) d)).
  { unfold do_esc_plain, send_primary_da. both; try fin; try call; try now apply rl_send.
    - now apply rl_hard.
    - unfold save_state. change (v_con (w_con v c)) with c.
      rewrite (pg_cx _ _ (proj1 T)), (pg_cy _ _ (proj1 T)). fin.
    - now apply rl_restore. }
  destruct (esc_charset d) as [k|].
  - unfold set_charset. change (cfl (w_con v c)) with (cfl v).
    repeat match goal with |- context [if cfl v ?n then _ else _] => destruct (cfl v n) end; try fin; both; try fin; exact R.
  - both; try fin; exact R.
Qed.
Lemma rl_sgr v c : VInv v -> tw v c -> rl (csi_attribute v) (csi_attribute (w_con v c)).
Proof.
  intros H T. unfold csi_attribute. change (v_argv (w_con v c)) with (v_argv v). change (v_argc (w_con v c)) with (v_argc v).
  destruct (zget _ 0) as [p0|]; [|exact I]. cbn [bind].
  assert (K : forall w, tw w c -> rl
    (do a <- sgr_loop (Z.to_nat (v_argc w)) (v_def w) (v_argv w) (v_argc w) (v_cattr w) 0;
     do a1 <- to_rgb (v_pal w) a; (if vfl (w_cattr w a1) VF_BCE then scr (w_cattr w a1) (OSetDefAttr a1) else Ok (w_cattr w a1)))
    (do a <- sgr_loop (Z.to_nat (v_argc (w_con w c))) (v_def (w_con w c)) (v_argv (w_con w c)) (v_argc (w_con w c)) (v_cattr (w_con w c)) 0;
     do a1 <- to_rgb (v_pal (w_con w c)) a;
     (if vfl (w_cattr (w_con w c) a1) VF_BCE then scr (w_cattr (w_con w c) a1) (OSetDefAttr a1) else Ok (w_cattr (w_con w c) a1)))).
  { intros w Tw. match goal with |- rl (bind ?x _) (bind ?y _) => change y with x; destruct x; [|exact I] end. cbn [bind].
    match goal with |- rl (bind ?x _) (bind ?y _) => change y with x; destruct x; [|exact I] end. cbn [bind].
    both; [call|fin]. }
  destruct (_ && _).
  - destruct (zmod _ _ _); [|exact I]. cbn [bind]. exact (K (w_argv (w_argc v 1) a) T).
  - exact (K v T).
Qed.
Lemma rl_compat v c : VInv v -> tw v c -> rl (csi_compat_mode v) (csi_compat_mode (w_con v c)).
Proof.
  intros H T. unfold csi_compat_mode. apply rl_bind; [now apply safe_inv, vte_reset_safe|now apply rl_reset|]. intros v1 c1 I1 T1.
  change (v_argv (w_con v1 c1)) with (v_argv v1).
  destruct (zget _ 0) as [p0|]; [|exact I]. cbn [bind]. destruct (zget _ 1) as [p1|]; [|exact I]. cbn [bind].
  destruct (p0 =? 61); [fin|]. destruct (_ || _); [|fin]. cbv zeta. destruct (_ || _); fin.
Qed.
Lemma rl_ansi v c b p : tw v c -> rl (csi_mode_ansi v b p) (csi_mode_ansi (w_con v c) b p).
Proof. intros T. unfold csi_mode_ansi. both; try fin; flag. Qed.
Lemma rl_dec v c b p : VInv v -> tw v c -> rl (csi_mode_dec v b p) (csi_mode_dec (w_con v c) b p).
Proof.
  intros H T. pose proof (vi_alt v H) as Ha. unfold csi_mode_dec. cbv zeta. change (v_con (w_con v c)) with c.
  rewrite (pg_cx _ _ (proj1 T)), (pg_cy _ _ (proj1 T)).
  both; try fin; try flag; try call.
  all: try (match goal with |- rl (Ok (if ?b then _ else _)) (Ok (if ?b' then _ else _)) => change b' with b; destruct b end; fin).
  - apply rl_bind; [apply scr_inv; [auto|exact I]|call|]. intros v1 c1 I1 T1. flag.
  - apply rl_bind; [unfold scr_flag; apply scr_inv; [now apply VInv_alt|cbn; ua]|flag|]. intros v1 c1 I1 T1. call.
  - apply rl_bind; [unfold scr_flag; apply scr_inv; [auto|cbn; ua]|flag|]. intros v1 c1 I1 T1. apply rl_scr; [exact T1|exact Ha|reflexivity].
Qed.
Lemma rl_for n : forall i f g v c, VInv v -> tw v c ->
  (forall j w, i <= j < i + Z.of_nat n -> VInv w -> ok_inv (f j w)) ->
  (forall j w k, i <= j < i + Z.of_nat n -> VInv w -> tw w k -> rl (f j w) (g j (w_con w k))) ->
  rl (for_n n i f v) (for_n n i g (w_con v c)).
Proof.
  induction n as [|n IH]; intros i f g v c H T Hi Hf; cbn [for_n]; [fin|].
  apply rl_bind; [apply Hi; [lia|auto]|apply Hf; [lia|auto|auto]|]. intros a k Ia Ta. apply IH; auto; intros.
  - apply Hi; [lia|auto].
  - apply Hf; [lia|auto|auto].
Qed.
Lemma rl_mode v c b : VInv v -> tw v c -> rl (csi_mode v b) (csi_mode (w_con v c) b).
Proof.
  intros H T. pose proof (vi_argc v H). unfold csi_mode, forz. change (v_argc (w_con v c)) with (v_argc v). apply rl_for; auto.
  - intros j w Hj Hw. apply safe_inv. destruct (argv_get w j Hw ltac:(lia)) as (p & _ & E & _). rewrite E. cbn [bind].
    destruct (cfl w CSI_WHAT); [now apply mode_dec_safe|now apply mode_ansi_safe].
  - intros j w k Hj Hw Tw. change (v_argv (w_con w k)) with (v_argv w). destruct (zget _ j); [|exact I]. cbn [bind].
    both; [now apply rl_dec|now apply rl_ansi].
Qed.
Lemma rl_da v c : tw v c -> rl (csi_dev_attr v) (csi_dev_attr (w_con v c)).
Proof.
  intros T. unfold csi_dev_attr, send_primary_da. change (v_argv (w_con v c)) with (v_argv v). change (v_argc (w_con v c)) with (v_argc v).
  change (v_cfl (w_con v c)) with (v_cfl v). change (cfl (w_con v c) CSI_GT) with (cfl v CSI_GT).
  destruct (zget _ _); [|exact I]. cbn [bind]. destruct (_ && _); [|fin]. destruct (_ =? _); [now apply rl_send|].
  destruct (cfl _ _); [now apply rl_send|fin].
Qed.
Lemma rl_dsr v c : tw v c -> rl (csi_dsr v) (csi_dsr (w_con v c)).
Proof.
  intros T. unfold csi_dsr. change (v_argv (w_con v c)) with (v_argv v). change (v_con (w_con v c)) with c.
  rewrite (pg_cx _ _ (proj1 T)), (pg_cy _ _ (proj1 T)).
  destruct (zget _ _); [|exact I]. cbn [bind]. destruct (_ =? _); [now apply rl_send|]. destruct (_ =? _); [|fin]. cbv zeta.
  destruct (_ <=? _); now apply rl_send.
Qed.
Lemma rl_csi v0 c d : VInv v0 -> tw v0 c -> rl (do_csi v0 d) (do_csi (w_con v0 c) d).
Proof.
  intros H0 T0. unfold do_csi. cbv zeta. change (v_argc (w_con v0 c)) with (v_argc v0).
  replace (if v_argc v0 <? CSI_ARG_MAX then w_argc (w_con v0 c) (v_argc v0 + 1) else w_con v0 c)
    with (w_con (if v_argc v0 <? CSI_ARG_MAX then w_argc v0 (v_argc v0 + 1) else v0) c) by (destruct (_ <? _); reflexivity).
  set (v := if v_argc v0 <? CSI_ARG_MAX then _ else v0).
  assert (H : VInv v) by now apply VInv_csi.
  assert (T : tw v c) by (unfold v; destruct (_ <? _); exact T0).
  clearbody v. clear v0 H0 T0. change (v_argv (w_con v c)) with (v_argv v). change (v_con (w_con v c)) with c.
  change (cfl (w_con v c)) with (cfl v).
  destruct (argv_get v 0 H ltac:(lia)) as (p0 & _ & E0 & R0), (argv_get v 1 H ltac:(lia)) as (p1 & _ & E1 & R1).
  rewrite E0. cbn [bind]. rewrite E1. cbn [bind].
  pose proof (cursor_u32 _ (vi_con v H)) as Hcur. rewrite (pg_cx _ _ (proj1 T)), (pg_cy _ _ (proj1 T)).
  assert (Rn : 1 <= (if p0 <=? 0 then 1 else p0) <= 655359) by (destruct (Z.leb_spec p0 0); lia).
  set (num := if p0 <=? 0 then 1 else p0) in *. clearbody num.
  assert (Ry : 1 <= (if p1 <=? 0 then 1 else p1) <= 655359) by (destruct (Z.leb_spec p1 0); lia).
  set (num1 := if p1 <=? 0 then 1 else p1) in *. clearbody num1.
  assert (Ru : 0 <= (if p0 <? 0 then 0 else p0) <= 655359) by (destruct (Z.ltb_spec p0 0); lia).
  set (upper := if p0 <? 0 then 0 else p0) in *. clearbody upper.
  assert (Rl : 0 <= (if p1 <? 0 then 0 else p1) <= 655359) by (destruct (Z.ltb_spec p1 0); lia).
  set (lower := if p1 <? 0 then 0 else p1) in *. clearbody lower.
  pose proof (u32_range (s_cy (v_con v) + num)) as Rc.
  set (qq := u32 (s_cy (v_con v) + num)) in *. clearbody qq.
  both; try fin; try call.
  all: try (match goal with T : tw ?v ?c |- rl (scr ?a ?o) (scr _ _) => refine (rl_scr a c o T _ eq_refl); split; (tauto || ua) end).
  all: try (apply rl_bind; [apply scr_inv; [auto|cbn; ua]|call|]; intros v1 c1 I1 T1; call).
  all: first [now apply rl_sgr|now apply rl_reset|now apply rl_compat|now apply rl_mode|now apply rl_da|now apply rl_dsr|idtac].
Qed.
Lemma rl_action v c d a : VInv v -> tw v c -> rl (do_action v d a) (do_action (w_con v c) d a).
Proof.
  intros H T. destruct a; cbn [do_action]; try fin.
  - destruct (vte_map_ok v d H) as (v1 & k & E & I1 & C1). rewrite E.
    assert (E' : vte_map (w_con v c) d = Ok (w_con v1 c, k)).
    { revert E. unfold vte_map, gset. cbn [w_con v_glt v_grt v_gl v_gr v_g0 v_g1 v_g2 v_g3].
      repeat match goal with
      | |- context [if ?b then _ else _] => destruct b
      | |- context [match v_glt v with _ => _ end] => destruct (v_glt v)
      | |- context [match v_grt v with _ => _ end] => destruct (v_grt v)
      end; try (destruct (zget _ _); cbn [bind]); intros X; inversion X; reflexivity. }
    rewrite E'. cbn [bind fst snd]. apply rl_write; [exact I1|]. unfold tw. rewrite C1. exact T.
  - now apply rl_exec.
  - unfold do_collect. destruct (collect_bit d); fin.
  - now apply rl_param.
  - now apply rl_esc.
  - now apply rl_csi.
  - unfold do_osc_collect. cbv zeta. both; [fin|].
    match goal with |- rl (bind ?x _) (bind ?y _) => change y with x; destruct x; [|exact I] end. cbn [bind]. fin.
  - unfold do_osc_end. both; [|fin].
    match goal with |- rl (bind ?x _) (bind ?y _) => change y with x; destruct x; [|exact I] end. cbn [bind]. fin.
Qed.
Lemma action_inv v d a : VInv v -> ok_inv (do_action v d a).
Proof. intros H. eapply meets_inv. now apply do_action_meets. Qed.
Lemma rl_parse v c raw : VInv v -> tw v c -> rl (parse_data v raw) (parse_data (w_con v c) raw).
Proof.
  intros H T. unfold parse_data, do_trans. cbv zeta. change (v_state (w_con v c)) with (v_state v).
  destruct (trans (v_state v) raw) as [[t|] a]; cbn [fst snd]; [|now apply rl_action].
  apply rl_bind; [now apply action_inv|now apply rl_action|]. intros v1 c1 I1 T1.
  apply rl_bind; [now apply action_inv|now apply rl_action|]. intros v2 c2 I2 T2.
  apply rl_bind; [now apply action_inv|now apply rl_action|]. intros v3 c3 I3 T3. fin.
Qed.
Lemma rl_byte sg v c b : VInv v -> tw v c -> rl (input_byte sg v b) (input_byte sg (w_con v c) b).
Proof.
  intros H T. unfold input_byte. both; try (now apply rl_parse). cbv zeta. change (v_mach (w_con v c)) with (v_mach v).
  destruct (umach_out _); [|fin]. exact (rl_parse (w_mach v (umach_feed sg (v_mach v) b)) c z (VInv_mach _ _ H) T).
Qed.
Lemma rl_input sg bs : forall v c, VInv v -> tw v c -> rl (vte_input sg v bs) (vte_input sg (w_con v c) bs).
Proof.
  induction bs as [|b r IH]; intros v c H T; cbn [vte_input]; [fin|].
  apply rl_bind; [|now apply rl_byte|].
  - eapply meets_inv. now apply byte_meets.
  - intros a k Ia Ta. now apply IH.
Qed.
Lemma rl_vwrite sg v c bs : VInv v -> tw v c -> rl (vte_write sg v bs) (vte_write sg (w_con v c) bs).
Proof.
  intros H T. rewrite !vte_write_eq. change (echoed (w_con v c) bs) with (echoed v bs).
  apply rl_bind; [intros v' E; now apply (input_inv sg _ v v' H E)|now apply rl_input|]. intros a k Ia Ta. now apply rl_send.
Qed.

(* A call with a return value: the same value on both sides. *)
Definition rlb (r r' : res (vte * bool)) : Prop :=
  match r, r' with
  | Ok (a, x), Ok (b, y) => y = x /\ exists c, b = w_con a c /\ tw a c
  | Ub, Ub => True
  | _, _ => False
  end.
Lemma rlb_bind r r' x : rl r r' -> rlb (do v <- r; Ok (v, x)) (do v <- r'; Ok (v, x)).
Proof. destruct r, r'; cbn; tauto. Qed.
Lemma rlb_ok v c x : tw v c -> rlb (Ok (v, x)) (Ok (w_con v c, x)).
Proof. intros T. split; [reflexivity|]. exists c. auto. Qed.
Lemma rlb_key sg v c k a m u : VInv v -> tw v c -> rlb (vte_key sg v k a m u) (vte_key sg (w_con v c) k a m u).
Proof.
  intros H T. unfold vte_key. cbv zeta.
  replace (if bit m M_ALT then set_reset (w_con v c) true VF_PREPEND else w_con v c)
    with (w_con (if bit m M_ALT then set_reset v true VF_PREPEND else v) c) by (destruct (bit m M_ALT); reflexivity).
  set (w := if bit m M_ALT then _ else v).
  assert (Hw : VInv w) by (unfold w; destruct (bit m M_ALT); [now apply VInv_sr|auto]).
  assert (Tw : tw w c) by (unfold w; destruct (bit m M_ALT); exact T). clearbody w.
  assert (Ek : key_bytes (w_con w c) k a m u = key_bytes w k a m u) by reflexivity. rewrite Ek. clear Ek.
  destruct (key_bytes w k a m u).
  - apply rlb_bind. now apply rl_vwrite.
  - exact (rlb_ok (set_reset w false VF_PREPEND) c false Tw).
Qed.
Lemma rlb_mouse sg v c cx cy px py b e m : VInv v -> tw v c ->
  rlb (vte_mouse sg v cx cy px py b e m) (vte_mouse sg (w_con v c) cx cy px py b e m).
Proof.
  intros H T. unfold vte_mouse. cbv zeta. change (v_mmode (w_con v c)) with (v_mmode v). change (v_mev (w_con v c)) with (v_mev v).
  change (v_mcol (w_con v c)) with (v_mcol v). change (v_mrow (w_con v c)) with (v_mrow v).
  destruct (_ && _); [now apply rlb_ok|]. destruct (_ =? _); [apply rlb_bind; now apply rl_vwrite|].
  destruct (_ && _).
  - destruct (_ && _ && _); [now apply rlb_ok|]. apply rlb_bind. destruct (bit e EV_MOVED).
    + refine (rl_vwrite sg (w_mrow (w_mcol v _) _) c _ _ T). vinv H. now vset.
    + now apply rl_vwrite.
  - destruct (_ && _); [|now apply rlb_ok]. apply rlb_bind. now apply rl_vwrite.
Qed.
Lemma rlb_fst r r' : rlb r r' -> rl (do x <- r; Ok (fst x)) (do x <- r'; Ok (fst x)).
Proof. destruct r as [[a x]|], r' as [[b y]|]; cbn; tauto. Qed.
Lemma rl_palette v c : VInv v -> tw v c -> rl (vte_update_palette v) (vte_update_palette (w_con v c)).
Proof.
  intros H T. unfold vte_update_palette. cbv zeta.
  change (v_pname (w_con v c)) with (v_pname v). change (v_custom (w_con v c)) with (v_custom v).
  assert (I1 : VInv (w_pal v (get_palette (v_pname v) (v_custom v)))).
  { vinv H. vset. now apply get_palette_ok. }
  match goal with |- rl (bind ?x _) (bind ?y _) => change y with x end.
  rewrite to_rgb_eq; [|apply I1|split; cbn; unfold COLOR_FOREGROUND, COLOR_BACKGROUND; lia]. cbn [bind].
  match goal with |- context [OSetDefAttr ?x] => assert (Ca : colour_ok x);
    [apply resolve_colour; split; cbn; unfold COLOR_FOREGROUND, COLOR_BACKGROUND; lia|]; set (a := x) in *; clearbody a end.
  apply rl_bind; [|call|].
  - apply scr_inv; [|exact I]. vinv I1. now vset.
  - intros v2 c2 I2 T2. call.
Qed.
Lemma rl_vstep sg v c o : VInv v -> tw v c -> vop_args o ->
  (forall w v', lim = Some w -> vstep sg v o = Ok v' -> w <= s_sx (v_con v')) -> rl (vstep sg v o) (vstep sg (w_con v c) o).
Proof.
  intros H T Ha Hw. destruct o; cbn [vstep]; try fin.
  - now apply rl_input.
  - now apply rlb_fst, rlb_key.
  - now apply rlb_fst, rlb_mouse.
  - now apply rl_reset.
  - now apply rl_hard.
  - unfold vte_set_palette. refine (rl_palette (w_pname v n) c _ T). vinv H. now vset.
  - unfold vte_set_custom. refine (rl_palette (w_custom v p) c _ T). vinv H. vset. intros q ->. exact Ha.
  - apply rl_scr'; [exact T|exact Ha|]. intros w s' L E. apply (Hw w (w_con v s') L). cbn [vstep]. unfold scr. now rewrite E.
Qed.
End Twin.

(* -- sessions ------------------------------------------------------------------- *)
Lemma term_refl v : same_term v v.
Proof. split; [destruct v; reflexivity|apply page_refl]. Qed.
Lemma term_tw v u : VInv v -> VInv u -> same_term v u -> u = w_con v (v_con u) /\ tw None v (v_con u).
Proof. intros H H' [E P]. split; [exact E|]. split; [exact P|]. split; [now apply VInv_Inv|]. split; [now apply VInv_Inv|exact I]. Qed.
Lemma rl_term lim r r' v' : rl lim r r' -> r = Ok v' -> exists u', r' = Ok u' /\ same_term v' u' /\ hs lim (v_con v') (v_con u').
Proof.
  intros R ->. destruct r' as [u'|]; [|contradiction]. destruct R as (c & -> & P & _ & _ & Q).
  exists (w_con v' c). split; [reflexivity|]. split; [split; [reflexivity|exact P]|exact Q].
Qed.
(* One call. *)
Lemma term_step sg v u o v' : VInv v -> VInv u -> same_term v u -> vop_args o -> vstep sg v o = Ok v' ->
  exists u', vstep sg u o = Ok u' /\ same_term v' u' /\
    forall w, w <= s_sx (v_con v) -> w <= s_sx (v_con v') -> same_hist w (v_con v) (v_con u) -> same_hist w (v_con v') (v_con u').
Proof.
  intros H H' S0 Ha E. destruct (term_tw v u H H' S0) as [Eu T].
  destruct (rl_term None _ _ v' (rl_vstep None sg v (v_con u) o H T Ha ltac:(discriminate)) E) as (u' & E' & S' & _).
  exists u'. rewrite Eu. split; [exact E'|]. split; [exact S'|]. intros w Hw Hw' Hh.
  assert (T1 : tw (Some w) v (v_con u)) by (destruct T as (A & B & C & _); split; [exact A|]; split; [exact B|]; split; [exact C|]; split; auto).
  destruct (rl_term (Some w) _ _ v' (rl_vstep (Some w) sg v (v_con u) o H T1 Ha ltac:(intros x y X Y; inversion X; subst; rewrite E in Y; inversion Y; now subst)) E)
    as (u2 & E2 & _ & Q). rewrite E' in E2. inversion E2; subst u2. apply Q.
Qed.
(* The value a key press or a mouse event returns. *)
Lemma term_key sg v u k a m c v' x : VInv v -> VInv u -> same_term v u -> vte_key sg v k a m c = Ok (v', x) ->
  exists u', vte_key sg u k a m c = Ok (u', x) /\ same_term v' u'.
Proof.
  intros H H' S0 E. destruct (term_tw v u H H' S0) as [Eu T]. pose proof (rlb_key None sg v (v_con u) k a m c H T) as R.
  rewrite <- Eu, E in R. destruct (vte_key sg u k a m c) as [[u' y]|]; [|contradiction]. destruct R as (-> & c' & -> & P & _).
  eexists. split; [reflexivity|]. split; [reflexivity|exact P].
Qed.
Lemma term_mouse sg v u cx cy px py b e m v' x : VInv v -> VInv u -> same_term v u -> vte_mouse sg v cx cy px py b e m = Ok (v', x) ->
  exists u', vte_mouse sg u cx cy px py b e m = Ok (u', x) /\ same_term v' u'.
Proof.
  intros H H' S0 E. destruct (term_tw v u H H' S0) as [Eu T]. pose proof (rlb_mouse None sg v (v_con u) cx cy px py b e m H T) as R.
  rewrite <- Eu, E in R. destruct (vte_mouse sg u cx cy px py b e m) as [[u' y]|]; [|contradiction]. destruct R as (-> & c' & -> & P & _).
  eexists. split; [reflexivity|]. split; [reflexivity|exact P].
Qed.

Lemma term_look v u v1 : same_term v u -> v1 = w_con v (v_con v1) -> same_page (v_con v) (v_con v1) -> same_term v1 u.
Proof.
  intros [E P] E1 P1. split; [|exact (page_trans _ _ _ (page_sym _ _ P1) P)].
  rewrite E1, E at 1. destruct v; reflexivity.
Qed.
Lemma scr_con v o v1 : scr v o = Ok v1 -> v1 = w_con v (v_con v1) /\ step (v_con v) o = Ok (v_con v1).
Proof. unfold scr. destruct (step (v_con v) o); [|discriminate]. cbn [bind]. intros E. inversion E. auto. Qed.
Lemma wide_head sg w v ops : wide_session sg w v ops -> w <= s_sx (v_con v).
Proof. destruct ops; cbn [wide_session]; lia. Qed.
Lemma term_unwatched sg ops : forall v u v', VInv v -> VInv u -> same_term v u -> Forall vop_args ops -> vrun sg v ops = Ok v' ->
  exists u', vrun sg u (vunwatched ops) = Ok u' /\ same_term v' u' /\
    forall w, wide_session sg w v ops -> same_hist w (v_con v) (v_con u) -> same_hist w (v_con v') (v_con u').
Proof.
  induction ops as [|o r IH]; intros v u v' H H' T Ha E; cbn [vrun wide_session vunwatched filter] in *.
  - inversion E; subst v'. exists u. auto.
  - apply Forall_cons_iff in Ha as [Ha1 Ha2]. destruct (vstep sg v o) as [v1|] eqn:E1; [|discriminate]. cbn [bind] in E.
    pose proof (vstep_inv sg v o v1 H Ha1 E1) as I1. destruct (vwatching o) eqn:W; cbn [negb]; fold (vunwatched r).
    + destruct o as [| | | | | | | | | |o]; try discriminate W. cbn [vstep vwatching vop_args] in *.
      destruct (scr_con v o v1 E1) as [C1 S1]. destruct (watch_step _ o _ W (VInv_Inv v H) Ha1 S1) as (P1 & M1 & B1).
      destruct (IH v1 u v' I1 H' (term_look v u v1 T C1 P1) Ha2 E) as (u' & U & P2 & Q). exists u'. split; [exact U|]. split; [exact P2|].
      intros w [Hw Hr] [Hh1 Hh2]. apply Q; [exact Hr|]. split; [congruence|]. now rewrite B1.
    + cbn [vrun]. destruct (term_step sg v u o v1 H H' T Ha1 E1) as (u1 & U1 & T1 & Q1). rewrite U1. cbn [bind].
      destruct (IH v1 u1 v' I1 (vstep_inv sg u o u1 H' Ha1 U1) T1 Ha2 E) as (u' & U & P2 & Q). exists u'. split; [exact U|]. split; [exact P2|].
      intros w [Hw Hr] Hh. apply Q; [exact Hr|]. apply Q1; auto. now apply wide_head in Hr.
Qed.
Lemma term_unkept sg ops : forall v u v', VInv v -> VInv u -> same_term v u -> Forall vop_args ops -> vrun sg v ops = Ok v' ->
  exists u', vrun sg u (vunkept ops) = Ok u' /\ same_term v' u'.
Proof.
  induction ops as [|o r IH]; intros v u v' H H' T Ha E; cbn [vrun vunkept filter] in *.
  - inversion E; subst v'. exists u. auto.
  - apply Forall_cons_iff in Ha as [Ha1 Ha2]. destruct (vstep sg v o) as [v1|] eqn:E1; [|discriminate]. cbn [bind] in E.
    pose proof (vstep_inv sg v o v1 H Ha1 E1) as I1. destruct (vkeeping o) eqn:W; cbn [negb]; fold (vunkept r).
    + destruct o as [| | | | | | | | | |o]; try discriminate W. cbn [vstep vkeeping vop_args] in *.
      destruct (scr_con v o v1 E1) as [C1 S1]. pose proof (keep_step _ o _ W (VInv_Inv v H) Ha1 S1) as P1.
      exact (IH v1 u v' I1 H' (term_look v u v1 T C1 P1) Ha2 E).
    + cbn [vrun]. destruct (term_step sg v u o v1 H H' T Ha1 E1) as (u1 & U1 & T1 & _). rewrite U1. cbn [bind].
      exact (IH v1 u1 v' I1 (vstep_inv sg u o u1 H' Ha1 U1) T1 Ha2 E).
Qed.
