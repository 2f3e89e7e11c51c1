(* Safety of control sequence dispatch, of the parser and of whole sessions;
   exactly three hazards lead to undefined behaviour. *)
From Verif Require Import Base BaseProofs Utf8 Symbol Screen ScreenInv ScreenSafe VteData Vte VteKeys VteSpec VteInv.
From Verif Require Import ScreenSb ScreenSpec ScreenOps Utf8Spec Utf8Proofs.


(* The parameters of a control sequence at dispatch. *)
Definition params (v : vte) : list Z := zslice (v_argv v) 0 (v_argc v).
(* SGR without parameters means 0. *)
Definition sgr_params (l : list Z) : list Z := match l with [-1] => [0] | _ => l end.

Lemma zslice_full {A} (l : list A) n : zlen l = n -> zslice l 0 n = l.
Proof. intros H. unfold zslice. cbn [Z.to_nat skipn]. apply firstn_all2. lia. Qed.

Lemma list16 (l : list Z) : length l = 16%nat -> exists x y r, l = x :: y :: r.
Proof. destruct l as [|x [|y r]]; cbn; intros; try lia. eauto. Qed.

(* csi_attribute. *)
Lemma csi_attribute_eq v : VInv v -> 1 <= v_argc v -> ~ (v_argc v = 16 /\ sgr_dangling (v_argv v) = true) ->
  exists l n, let a := resolve (v_pal v) (sgr_list (v_def v) (sgr_params (params v)) (v_cattr v)) in
    let v1 := w_cattr (w_argv (w_argc v n) l) a in
    csi_attribute v = (if vfl v VF_BCE then scr v1 (OSetDefAttr a) else Ok v1)
    /\ colour_ok a /\ VInv v1.
Proof.
  intros H Hc Hh. unfold csi_attribute.
  destruct (argv_get v 0 H ltac:(lia)) as (p0 & En & Eg & R0). rewrite Eg. cbn [bind].
  assert (HV : exists v0 l n, (if (v_argc v <=? 1) && (p0 =? -1)
             then do l <- zmod (v_argv v) 0 (fun _ => 0); Ok (w_argv (w_argc v 1) l) else Ok v) = Ok v0
           /\ v0 = w_argv (w_argc v n) l /\ VInv v0 /\ zslice l 0 n = sgr_params (params v)
           /\ ~ (n = 16 /\ sgr_dangling (zslice l 0 n) = true)).
  { destruct ((v_argc v <=? 1) && (p0 =? -1)) eqn:Ec.
    - rewrite zmod_ok by (rewrite (vi_argl v H); lia). cbn [bind].
      eexists _, (zupd (v_argv v) 0 (fun _ => 0)), 1. split; [reflexivity|]. split; [reflexivity|].
      assert (ZS : zslice (zupd (v_argv v) 0 (fun _ => 0)) 0 1 = [0]).
      { destruct (list16 _ (vi_argl v H)) as (x & y & r & ->). reflexivity. }
      split; [|split].
      + vinv H. vset; [lia|now rewrite length_zupd|apply Forall_zupd; auto; intros; lia|].
        intros j x Hj. rewrite znth_zupd. replace (j =? 0) with false by lia. apply Itail. lia.
      + rewrite ZS. unfold params. replace (v_argc v) with 1 by lia.
        rewrite (zslice_cons _ _ _ p0 En) by lia. rewrite zslice_0 by lia. replace p0 with (-1) by lia. reflexivity.
      + intros [X _]. lia.
    - exists v, (v_argv v), (v_argc v). split; [reflexivity|]. split; [destruct v; reflexivity|]. split; [exact H|]. split.
      + unfold sgr_params, params. pose proof (vi_argc v H).
        rewrite (zslice_cons _ _ _ p0 En) by lia.
        destruct (Z.eq_dec p0 (-1)) as [->|Hne].
        * destruct (argv_get v 1 H ltac:(lia)) as (p1 & En1 & _ & _).
          rewrite (zslice_cons _ (0 + 1) _ p1) by (auto || lia). reflexivity.
        * destruct p0 as [|p0|[p0|p0|]]; try reflexivity; lia.
      + intros [X Y]. apply Hh. split; [exact X|]. rewrite X, zslice_full in Y by (rewrite (vi_argl v H); reflexivity). exact Y. }
  destruct HV as (v0 & l & n & E0 & Ev & I0 & ZS & NH). rewrite E0. cbn [bind].
  assert (An : v_argc v0 = n /\ v_argv v0 = l /\ v_def v0 = v_def v /\ v_cattr v0 = v_cattr v /\ v_pal v0 = v_pal v /\ v_flags v0 = v_flags v)
    by (subst v0; auto 10).
  destruct An as (A1 & A2 & A3 & A4 & A5 & A6). pose proof (vi_argc v0 I0) as Rn.
  destruct (sgr_loop_ok (v_def v0) (v_argv v0) (v_argc v0) (vi_argl v0 I0) (vi_args v0 I0) ltac:(lia) (vi_def v0 I0)
    (Z.to_nat (v_argc v0)) (v_cattr v0) 0 ltac:(lia) ltac:(lia) (vi_cattr v0 I0)) as [(E & C & _)|(_ & X & Y)].
  2:{ exfalso. apply NH. rewrite A1, A2 in *. rewrite Z.sub_0_r in Y. auto. }
  rewrite E. cbn [bind]. rewrite to_rgb_eq; [|apply I0|exact C]. cbn [bind].
  rewrite Z.sub_0_r, A1, A2, A3, A4, ZS in *. rewrite A5 in *.
  exists l, n. cbv zeta. rewrite <- Ev. split; [|split].
  - unfold vfl. cbn [w_cattr v_flags]. rewrite A6. reflexivity.
  - now apply resolve_colour.
  - apply VInv_cattr; [auto|]. now apply resolve_colour.
Qed.
Lemma csi_attribute_safe v : VInv v -> 1 <= v_argc v -> ~ (v_argc v = 16 /\ sgr_dangling (v_argv v) = true) -> safe (csi_attribute v).
Proof.
  intros H Hc Hh. destruct (csi_attribute_eq v H Hc Hh) as (l & n & E & C & I1). rewrite E.
  destruct (vfl v VF_BCE); [scall|now apply safe_ok].
Qed.
Lemma csi_attribute_ub v : VInv v -> v_argc v = 16 -> sgr_dangling (v_argv v) = true -> csi_attribute v = Ub.
Proof.
  intros H Hc Hd. unfold csi_attribute. destruct (argv_get v 0 H ltac:(lia)) as (p0 & En & Eg & R0). rewrite Eg. cbn [bind].
  replace (v_argc v <=? 1) with false by lia. cbn [andb bind].
  destruct (sgr_loop_ok (v_def v) (v_argv v) (v_argc v) (vi_argl v H) (vi_args v H) ltac:(lia) (vi_def v H)
    (Z.to_nat (v_argc v)) (v_cattr v) 0 ltac:(lia) ltac:(lia) (vi_cattr v H)) as [(_ & _ & N)|(E & _ & _)].
  - exfalso. apply N. split; [auto|]. rewrite Hc, zslice_full by (rewrite (vi_argl v H); reflexivity). exact Hd.
  - rewrite E. reflexivity.
Qed.

Lemma compat_safe v : VInv v -> safe (csi_compat_mode v).
Proof.
  intros H. unfold csi_compat_mode. apply safe_bind; [now apply vte_reset_safe|]. intros v1 I1.
  destruct (argv_get v1 0 I1 ltac:(lia)) as (p0 & _ & E0 & _), (argv_get v1 1 I1 ltac:(lia)) as (p1 & _ & E1 & _).
  rewrite E0. cbn [bind]. rewrite E1. cbn [bind]. apply safe_ok.
  destruct (p0 =? 61); [vinv I1; now vset|]. destruct (_ || _); [|auto]. destruct (_ || _); vinv I1; now vset.
Qed.

Lemma scr_flag_safe v b f : VInv v -> u32_arg f -> safe (scr_flag v b f).
Proof. intros H Hf. unfold scr_flag. apply scr_safe; [auto|now apply sf_arg|apply sf_haz]. Qed.
Lemma mode_ansi_safe v b p : VInv v -> safe (csi_mode_ansi v b p).
Proof.
  intros H. unfold csi_mode_ansi.
  repeat match goal with |- safe (if ?b then _ else _) => destruct b end;
    try (apply safe_ok; now repeat apply VInv_sr); apply scr_flag_safe; [now apply VInv_sr|ua].
Qed.
Lemma VInv_m v e m : VInv v -> VInv (w_mev (w_mmode v m) e).
Proof. intros H. vinv H. now vset. Qed.
Lemma VInv_me v e : VInv v -> VInv (w_mev v e).
Proof. intros H. vinv H. now vset. Qed.
Lemma VInv_mm v e : VInv v -> VInv (w_mmode v e).
Proof. intros H. vinv H. now vset. Qed.
Lemma VInv_alt v : VInv v -> VInv (w_alty (w_altx v (s_cx (v_con v))) (s_cy (v_con v))).
Proof. intros H. pose proof (cursor_u32 _ (vi_con v H)). vinv H. now vset. Qed.
Lemma mode_dec_safe v b p : VInv v -> safe (csi_mode_dec v b p).
Proof.
  intros H. pose proof (vi_alt v H) as Ha. unfold csi_mode_dec. cbv zeta.
  repeat match goal with |- safe (if ?b then _ else _) => destruct b end;
    try (apply safe_ok; now repeat apply VInv_sr);
    try (apply scr_flag_safe; [now repeat apply VInv_sr|ua]);
    try (apply safe_ok; match goal with |- VInv (if ?b then _ else _) => destruct b end;
         try apply VInv_emit; first [now apply VInv_m|now apply VInv_mm|now apply VInv_me]).
  - apply safe_bind; [scall|]. intros v1 I1. apply scr_flag_safe; [auto|ua].
  - apply safe_ok. now apply VInv_alt.
  - apply scr_safe; [auto|exact Ha|cbn; tauto].
  - apply safe_bind; [apply scr_flag_safe; [now apply VInv_alt|ua]|]. intros v1 I1. scall.
  - destruct (scr_ok v (OResetFlags SF_ALT) H ltac:(cbn; ua) ltac:(cbn; tauto)) as (c & _ & E & I1).
    unfold scr_flag. rewrite E. cbn [bind]. apply scr_safe; [auto|exact Ha|cbn; tauto].
Qed.
Lemma for_n_safe n : forall i f v, VInv v -> (forall j v', i <= j < i + Z.of_nat n -> VInv v' -> safe (f j v')) -> safe (for_n n i f v).
Proof.
  induction n as [|n IH]; intros i f v H Hf; cbn [for_n]; [now apply safe_ok|].
  apply safe_bind; [apply Hf; [lia|auto]|]. intros v1 I1. apply IH; [auto|]. intros j v' Hj. apply Hf. lia.
Qed.
Lemma csi_mode_safe v b : VInv v -> safe (csi_mode v b).
Proof.
  intros H. pose proof (vi_argc v H). unfold csi_mode, forz. apply for_n_safe; [auto|]. intros j v' Hj I'.
  destruct (argv_get v' j I' ltac:(lia)) as (p & _ & E & _). rewrite E. cbn [bind].
  destruct (cfl v' CSI_WHAT); [now apply mode_dec_safe|now apply mode_ansi_safe].
Qed.
Lemma dev_attr_safe v : VInv v -> safe (csi_dev_attr v).
Proof.
  intros H. unfold csi_dev_attr. destruct (argv_get v 0 H ltac:(lia)) as (p & _ & E & _). rewrite E. cbn [bind].
  apply safe_ok. repeat match goal with |- VInv (if ?b then _ else _) => destruct b end; auto; now apply VInv_send.
Qed.
Lemma dsr_safe v : VInv v -> safe (csi_dsr v).
Proof.
  intros H. unfold csi_dsr. destruct (argv_get v 0 H ltac:(lia)) as (p & _ & E & _). rewrite E. cbn [bind].
  apply safe_ok. repeat match goal with |- VInv (if ?b then _ else _) => destruct b end; auto; now apply VInv_send.
Qed.

(* Undefined behaviour at the dispatch of a control sequence. *)
Definition csi_hazard (v : vte) (d : Z) : Prop :=
  (d = 90 /\ zlen (s_tabs (v_con v)) < s_cx (v_con v)) \/
  (d = 109 /\ 15 <= v_argc v /\ sgr_dangling (v_argv v) = true).
Definition meets (P : Prop) (r : res vte) : Prop := (P /\ r = Ub) \/ (~ P /\ safe r).
Lemma meets_safe r (P : Prop) : ~ P -> safe r -> meets P r.
Proof. intros. right. auto. Qed.

Lemma VInv_csi v : VInv v -> VInv (if v_argc v <? CSI_ARG_MAX then w_argc v (v_argc v + 1) else v).
Proof. intros H. unfold CSI_ARG_MAX. destruct (Z.ltb_spec (v_argc v) 16); [now apply VInv_argc1|auto]. Qed.

Lemma do_csi_meets v d : VInv v -> meets (csi_hazard v d) (do_csi v d).
Proof.
  intros H0. unfold do_csi. cbv zeta. set (v1 := if v_argc v <? CSI_ARG_MAX then _ else v).
  assert (H : VInv v1) by now apply VInv_csi.
  assert (Con : v_con v1 = v_con v) by (unfold v1; destruct (_ <? _); reflexivity).
  assert (Arg : v_argv v1 = v_argv v) by (unfold v1; destruct (_ <? _); reflexivity).
  assert (Argc : v_argc v1 = Z.min 16 (v_argc v + 1)).
  { pose proof (vi_argc v H0). unfold v1, CSI_ARG_MAX. destruct (Z.ltb_spec (v_argc v) 16); cbn; lia. }
  clearbody v1.
  destruct (argv_get v1 0 H ltac:(lia)) as (p0 & _ & E0 & R0), (argv_get v1 1 H ltac:(lia)) as (p1 & _ & E1 & R1).
  rewrite E0. cbn [bind]. rewrite E1. cbn [bind].
  pose proof (cursor_u32 _ (vi_con v1 H)) as Hcur.
  assert (Rn : 1 <= (if p0 <=? 0 then 1 else p0) <= 655359) by (destruct (Z.leb_spec p0 0); lia).
  set (num := if p0 <=? 0 then 1 else p0) in *. clearbody num.
  assert (Ry : 1 <= (if p1 <=? 0 then 1 else p1) <= 655359) by (destruct (Z.leb_spec p1 0); lia).
  set (num1 := if p1 <=? 0 then 1 else p1) in *. clearbody num1.
  assert (Ru : 0 <= (if p0 <? 0 then 0 else p0) <= 655359) by (destruct (Z.ltb_spec p0 0); lia).
  set (upper := if p0 <? 0 then 0 else p0) in *. clearbody upper.
  assert (Rl : 0 <= (if p1 <? 0 then 0 else p1) <= 655359) by (destruct (Z.ltb_spec p1 0); lia).
  set (lower := if p1 <? 0 then 0 else p1) in *. clearbody lower.
  pose proof (u32_range (s_cy (v_con v1) + num)) as Rc.
  assert (NZ : d <> 90 -> d <> 109 -> ~ csi_hazard v d) by (unfold csi_hazard; lia).
  Ltac nz NZ := apply meets_safe; [apply NZ; lia|].
  repeat match goal with
  | |- meets _ (if d =? 109 then _ else _) => destruct (Z.eqb_spec d 109)
  | |- meets _ (if d =? 90 then _ else _) => destruct (Z.eqb_spec d 90)
  | |- meets _ (if (d =? ?x) || (d =? ?y) then _ else _) => destruct (Z.eqb_spec d x), (Z.eqb_spec d y); cbn [orb]
  | |- meets _ (if d =? ?x then _ else _) => destruct (Z.eqb_spec d x)
  end.
  all: try (nz NZ; repeat match goal with |- safe (if ?b then _ else _) => destruct b end;
    first [ scall | now apply safe_ok
          | apply scr_safe; [auto|split; (tauto || ua)|cbn; tauto]
          | apply safe_bind; [scall|]; intros v2 I2; scall
          | now apply vte_reset_safe | now apply compat_safe | now apply csi_mode_safe
          | now apply dev_attr_safe | now apply dsr_safe | idtac ]; fail).
  - (* m *) destruct (Z_le_gt_dec 15 (v_argc v)) as [L|L]; [destruct (sgr_dangling (v_argv v)) eqn:D|].
    + left. split; [right; auto|]. apply csi_attribute_ub; [auto|lia|congruence].
    + right. split; [unfold csi_hazard; rewrite D; intros [[X _]|(_ & _ & X)]; [lia|discriminate]|].
      apply csi_attribute_safe; [auto|lia|]. rewrite Arg, D. intros [_ X]; discriminate.
    + right. split; [unfold csi_hazard; lia|]. pose proof (vi_argc v H0).
      apply csi_attribute_safe; [auto|lia|]. intros [X _]. lia.
  - (* Z *) destruct (Z_lt_le_dec (zlen (s_tabs (v_con v))) (s_cx (v_con v))).
    + left. split; [left; auto|]. apply scr_ub; [auto|cbn; ua|]. cbn. rewrite Con. split; [lia|auto].
    + right. split; [unfold csi_hazard; lia|]. apply scr_safe; [auto|cbn; ua|]. cbn. rewrite Con. lia.
Qed.

(* -- printing ------------------------------------------------------------- *)
Lemma cs_len c : length (cs_table c) = 96%nat.
Proof. destruct c; reflexivity. Qed.
Lemma vte_map_ok v val : VInv v -> exists v' c, vte_map v val = Ok (v', c) /\ VInv v' /\ v_con v' = v_con v.
Proof.
  intros H. unfold vte_map.
  assert (G : forall c i, 0 <= i < 96 -> exists x, zget (cs_table c) i = Ok x).
  { intros c i Hi. destruct (znth_some (cs_table c) i) as (x & E); [rewrite cs_len; lia|]. exists x. now apply zget_ok. }
  destruct ((33 <=? val) && (val <=? 126)) eqn:E1.
  - destruct (v_glt v) as [g|].
    + destruct (G (gset v g) (val - 32) ltac:(lia)) as (x & ->). cbn [bind]. eexists _, _. split; [reflexivity|].
      split; [vinv H; now vset|reflexivity].
    + destruct (G (gset v (v_gl v)) (val - 32) ltac:(lia)) as (x & ->). cbn [bind]. eexists _, _. split; [reflexivity|]. auto.
  - destruct ((161 <=? val) && (val <=? 254)) eqn:E2.
    + destruct (v_grt v) as [g|].
      * destruct (G (gset v g) (val - 160) ltac:(lia)) as (x & ->). cbn [bind]. eexists _, _. split; [reflexivity|].
        split; [vinv H; now vset|reflexivity].
      * destruct (G (gset v (v_gr v)) (val - 160) ltac:(lia)) as (x & ->). cbn [bind]. eexists _, _. split; [reflexivity|]. auto.
    + eexists _, _. split; [reflexivity|]. auto.
Qed.
(* The symbol shown for a code point that is printed. *)
Definition shown (v : vte) (raw : Z) : Z := match vte_map v raw with Ok (_, c) => symbol_make c | Ub => 0 end.

(* -- OSC ------------------------------------------------------------------ *)
Lemma utf8_len g : (length (ucs4_to_utf8 g) <= 4)%nat.
Proof.
  unfold ucs4_to_utf8. repeat match goal with |- context [if ?b then _ else _] => destruct b end; cbn; lia.
Qed.
Lemma osc_collect_safe v val : VInv v -> safe (do_osc_collect v val).
Proof.
  intros H. unfold do_osc_collect, OSC_MAX_LEN. cbv zeta. pose proof (vi_osclen v H). pose proof (vi_oscl v H) as L.
  destruct (Z.ltb_spec (128 - 1) (v_osclen v + zlen (ucs4_to_utf8 val))); [now apply safe_ok|].
  rewrite zcopy_ok by lia. cbn [bind]. apply safe_ok. vinv H. vset; [|lia].
  rewrite length_zput; lia.
Qed.
Lemma osc_end_safe v : VInv v -> safe (do_osc_end v).
Proof.
  intros H. unfold do_osc_end. destruct (v_oscb v); [|now apply safe_ok].
  pose proof (vi_osclen v H). rewrite zmod_ok by (rewrite (vi_oscl v H); lia). cbn [bind]. apply safe_ok, VInv_emit.
  vinv H. vset. now rewrite length_zupd.
Qed.

(* -- actions and parser --------------------------------------------------- *)
(* Undefined behaviour on a code point: a double width character in insert mode
   on a one column screen, or one of the two control sequences above. *)
Definition action_hazard (v : vte) (raw : Z) (a : action) : Prop :=
  match a with
  | APrint => wide_hazard (v_con v) (shown v raw)
  | ACsi => csi_hazard v raw
  | _ => False
  end.
Lemma do_action_meets v raw a : VInv v -> meets (action_hazard v raw a) (do_action v raw a).
Proof.
  intros H. destruct a; cbn [do_action action_hazard];
    try (apply meets_safe; [tauto|]; first [now apply safe_ok|now apply execute_safe|now apply safe_ok, VInv_clear
      |now apply safe_ok, VInv_collect|now apply param_safe|now apply esc_safe|now apply osc_collect_safe|now apply osc_end_safe]).
  - unfold shown. destruct (vte_map_ok v raw H) as (v1 & c & E & I1 & C1). rewrite E. cbn [bind fst snd]. rewrite <- C1.
    assert (D : wide_hazard (v_con v1) (symbol_make c) \/ ~ wide_hazard (v_con v1) (symbol_make c))
      by exact (hazard_dec (v_con v1) (OWrite (symbol_make c) attr0)).
    destruct D; [left|right]; (split; [assumption|]).
    + now apply write_console_ub.
    + now apply write_console_safe.
  - now apply do_csi_meets.
Qed.

Lemma exit_safe v raw s : VInv v -> safe (do_action v raw (exit_action s)).
Proof. intros H. destruct s; cbn; try now apply safe_ok. now apply osc_end_safe. Qed.
Lemma entry_safe v raw s : VInv v -> safe (do_action v raw (entry_action s)).
Proof. intros H. destruct s; cbn; try (now apply safe_ok); now apply safe_ok, VInv_clear. Qed.

Definition parse_hazard (v : vte) (raw : Z) : Prop := action_hazard v raw (snd (trans (v_state v) raw)).

(* Printing and dispatch occur only where leaving the state has no effect. *)
Lemma trans_exit s raw t a : trans s raw = (Some t, a) -> a = ACsi \/ a = APrint -> exit_action s = ANone.
Proof.
  intros E Ha. destruct s; try reflexivity; exfalso.
  all: unfold trans, trans_any, trans_state in E;
    repeat match type of E with context [if ?b then _ else _] => destruct b end; inversion E; subst; destruct Ha; discriminate.
Qed.

Lemma parse_meets v raw : VInv v -> meets (parse_hazard v raw) (parse_data v raw).
Proof.
  intros H. unfold parse_data, parse_hazard, do_trans. cbv zeta.
  destruct (trans (v_state v) raw) as [[t|] a] eqn:E; cbn [fst snd]; [|now apply do_action_meets].
  assert (NX : (exists v1, do_action v raw (exit_action (v_state v)) = Ok v1 /\ VInv v1 /\
     (action_hazard v1 raw a <-> action_hazard v raw a))).
  { destruct a; try (destruct (exit_safe v raw (v_state v) H) as (v1 & E1 & I1); exists v1; split; [exact E1|]; split; [exact I1|];
      cbn; tauto).
    - rewrite (trans_exit _ _ _ _ E) by auto. exists v. cbn [do_action]. tauto.
    - rewrite (trans_exit _ _ _ _ E) by auto. exists v. cbn [do_action]. tauto. }
  destruct NX as (v1 & E1 & I1 & Hz). rewrite E1. cbn [bind].
  destruct (do_action_meets v1 raw a I1) as [[Hh Eu]|[Hn (v2 & E2 & I2)]].
  - left. split; [now apply Hz|]. rewrite Eu. reflexivity.
  - right. split; [now rewrite <- Hz|]. rewrite E2. cbn [bind].
    destruct (entry_safe v2 raw t I2) as (v3 & E3 & I3). rewrite E3. cbn [bind].
    apply safe_ok. now apply VInv_state.
Qed.

(* The code point a byte completes, given mode and decoder. *)
Definition byte_cp (sg : bool) (v : vte) (b : Z) : vte * option Z :=
  if vfl v VF_7BIT then (v, Some (Z.land b 0x7f))
  else if vfl v VF_8BIT then (v, Some (char_to_u32 sg b))
  else let m := umach_feed sg (v_mach v) b in (w_mach v m, umach_out m).
Lemma input_byte_eq sg v b : input_byte sg v b =
  match snd (byte_cp sg v b) with Some cp => parse_data (fst (byte_cp sg v b)) cp | None => Ok (fst (byte_cp sg v b)) end.
Proof.
  unfold input_byte, byte_cp. destruct (vfl v VF_7BIT); [reflexivity|]. destruct (vfl v VF_8BIT); reflexivity.
Qed.
Lemma byte_cp_inv sg v b : VInv v -> VInv (fst (byte_cp sg v b)).
Proof.
  intros H. unfold byte_cp. destruct (vfl v VF_7BIT); [auto|]. destruct (vfl v VF_8BIT); [auto|]. now apply VInv_mach.
Qed.
Definition byte_hazard (sg : bool) (v : vte) (b : Z) : Prop :=
  exists cp, snd (byte_cp sg v b) = Some cp /\ parse_hazard v cp.
Lemma parse_hazard_mach v m cp : parse_hazard (w_mach v m) cp <-> parse_hazard v cp.
Proof.
  assert (S : shown (w_mach v m) cp = shown v cp).
  { unfold shown, vte_map, gset. cbn [w_mach v_glt v_grt v_gl v_gr v_g0 v_g1 v_g2 v_g3].
    destruct (_ && _); [destruct (v_glt v); destruct (zget _ _); reflexivity|].
    destruct (_ && _); [destruct (v_grt v); destruct (zget _ _); reflexivity|reflexivity]. }
  unfold parse_hazard. cbn [w_mach v_state]. destruct (snd (trans (v_state v) cp)); cbn [action_hazard]; rewrite ?S; reflexivity.
Qed.
Lemma byte_meets sg v b : VInv v -> meets (byte_hazard sg v b) (input_byte sg v b).
Proof.
  intros H. rewrite input_byte_eq. unfold byte_hazard. pose proof (byte_cp_inv sg v b H) as I1.
  assert (Hz : forall cp, parse_hazard (fst (byte_cp sg v b)) cp <-> parse_hazard v cp).
  { intros cp. unfold byte_cp. destruct (vfl v VF_7BIT); [reflexivity|]. destruct (vfl v VF_8BIT); [reflexivity|].
    apply parse_hazard_mach. }
  destruct (snd (byte_cp sg v b)) as [cp|].
  - destruct (parse_meets _ cp I1) as [[A B]|[A B]].
    + left. split; [|exact B]. exists cp. split; [reflexivity|]. now apply Hz.
    + right. split; [|exact B]. intros (cp' & E & X). inversion E; subst. apply A. now apply Hz.
  - right. split; [intros (cp & E & _); discriminate|]. now apply safe_ok.
Qed.

Lemma input_app sg l1 l2 : forall v, vte_input sg v (l1 ++ l2) = do v1 <- vte_input sg v l1; vte_input sg v1 l2.
Proof.
  induction l1 as [|b r IH]; intros v; cbn [vte_input app bind]; [reflexivity|].
  destruct (input_byte sg v b); cbn [bind]; auto.
Qed.
Lemma input_ub sg bs : forall v, VInv v ->
  (vte_input sg v bs = Ub <-> exists pre b post v1, bs = pre ++ b :: post /\ vte_input sg v pre = Ok v1 /\ byte_hazard sg v1 b).
Proof.
  induction bs as [|b r IH]; intros v H; cbn [vte_input].
  - split; [discriminate|]. intros (pre & b & post & v1 & E & _). now destruct pre.
  - destruct (byte_meets sg v b H) as [[Hz E]|[Hn (v1 & E & I1)]]; rewrite E; cbn [bind].
    + split; [|reflexivity]. intros _. exists [], b, r, v. auto.
    + rewrite (IH v1 I1). split; intros (pre & b' & post & v2 & Eq & R & Hz).
      * exists (b :: pre), b', post, v2. subst r. cbn [app vte_input]. rewrite E. auto.
      * destruct pre as [|b1 pre]; cbn [app vte_input] in *; inversion Eq; subst.
        { inversion R; subst. contradiction. }
        rewrite E in R. cbn [bind] in R. exists pre, b', post, v2. auto.
Qed.
Lemma input_inv sg bs : forall v v', VInv v -> vte_input sg v bs = Ok v' -> VInv v'.
Proof.
  induction bs as [|b r IH]; intros v v' H E; cbn [vte_input] in E; [inversion E; now subst|].
  destruct (byte_meets sg v b H) as [[_ X]|[_ (v1 & X & I1)]]; rewrite X in E; [discriminate|]. cbn [bind] in E. eauto.
Qed.

(* Input that leads to undefined behaviour: a hazard after some prefix. *)
Definition input_hazard (sg : bool) (v : vte) (bs : list Z) : Prop :=
  exists pre b post v1, bs = pre ++ b :: post /\ vte_input sg v pre = Ok v1 /\ byte_hazard sg v1 b.
Lemma input_meets sg v bs : VInv v -> meets (input_hazard sg v bs) (vte_input sg v bs).
Proof.
  intros H. destruct (vte_input sg v bs) as [w|] eqn:E.
  - right. split; [|exists w; split; [reflexivity|]; eapply input_inv; eauto].
    intros X. apply (input_ub sg bs v H) in X. congruence.
  - left. split; [now apply (input_ub sg bs v H)|reflexivity].
Qed.

(* -- creation and settings ------------------------------------------------ *)
Lemma VInv_vte0 con : reachable con -> VInv (w_def (vte0 con) (resolve color_palette_legacy DEF_CODES)).
Proof.
  intros H. constructor; cbn [w_def vte0 v_con v_argc v_argv v_osc v_osclen v_pal v_custom v_def v_cattr v_saved v_altx v_alty sv_x sv_y sv_attr];
    try lia; try reflexivity; auto; try discriminate.
  - apply Forall_forall. intros x Hx. apply repeat_spec in Hx. lia.
  - intros j x Hj Hx. apply znth_In, repeat_spec in Hx. lia.
  - vm_compute. intuition discriminate.
  - vm_compute. intuition discriminate.
  - vm_compute. intuition discriminate.
  - split; ua.
  - split; ua.
Qed.
Lemma vte_new_safe con : reachable con -> safe (vte_new con).
Proof.
  intros H. unfold vte_new. cbv zeta. rewrite to_rgb_eq; [|reflexivity|vm_compute; intuition discriminate]. cbn [bind vte0 v_pal].
  apply safe_bind; [apply vte_reset_safe; now apply VInv_vte0|]. intros v1 I1. scall.
Qed.
Lemma update_palette_safe v : VInv v -> safe (vte_update_palette v).
Proof.
  intros H. unfold vte_update_palette. cbv zeta.
  assert (I1 : VInv (w_pal v (get_palette (v_pname v) (v_custom v)))).
  { vinv H. vset. now apply get_palette_ok. }
  rewrite to_rgb_eq; [|apply I1|split; cbn; unfold COLOR_FOREGROUND, COLOR_BACKGROUND; lia]. cbn [bind].
  assert (Ca : colour_ok (resolve (v_pal (w_pal v (get_palette (v_pname v) (v_custom v))))
    (set_bc (set_fc (v_def (w_pal v (get_palette (v_pname v) (v_custom v)))) COLOR_FOREGROUND) COLOR_BACKGROUND))).
  { apply resolve_colour. split; cbn; unfold COLOR_FOREGROUND, COLOR_BACKGROUND; lia. }
  revert Ca. generalize (resolve (v_pal (w_pal v (get_palette (v_pname v) (v_custom v))))
    (set_bc (set_fc (v_def (w_pal v (get_palette (v_pname v) (v_custom v)))) COLOR_FOREGROUND) COLOR_BACKGROUND)). intros a Ca.
  apply safe_bind; [apply scr_safe; [|exact I|cbn; tauto]|].
  - vinv I1. now vset.
  - intros v2 I2. scall.
Qed.
Lemma set_palette_safe v n : VInv v -> safe (vte_set_palette v n).
Proof. intros H. apply update_palette_safe. vinv H. now vset. Qed.
Lemma set_custom_safe v p : VInv v -> (forall q, p = Some q -> pal_ok q) -> safe (vte_set_custom v p).
Proof. intros H Hp. apply update_palette_safe. vinv H. now vset. Qed.

(* -- sessions ------------------------------------------------------------- *)
(* What local echo feeds back into the terminal. *)
Definition echoed (v : vte) (bs : list Z) : list Z :=
  if vfl v VF_SRM then [] else if vfl v VF_PREPEND then 27 :: bs else bs.
Lemma vte_write_eq sg v bs : vte_write sg v bs = do v1 <- vte_input sg v (echoed v bs); Ok (vte_send v1 bs).
Proof.
  unfold vte_write, echoed. destruct (vfl v VF_SRM); [reflexivity|]. destruct (vfl v VF_PREPEND); [|reflexivity].
  cbn [vte_input]. destruct (input_byte sg v 27); reflexivity.
Qed.
Lemma vte_write_meets sg v bs : VInv v -> meets (input_hazard sg v (echoed v bs)) (vte_write sg v bs).
Proof.
  intros H. rewrite vte_write_eq. destruct (input_meets sg v (echoed v bs) H) as [[A B]|[A (v1 & B & I1)]]; rewrite B; cbn [bind].
  - left. auto.
  - right. split; [auto|]. now apply safe_ok, VInv_send.
Qed.
Lemma no_echo_safe sg v bs : VInv v -> vfl v VF_SRM = true -> vte_write sg v bs = Ok (vte_send v bs).
Proof. intros H E. unfold vte_write. rewrite E. reflexivity. Qed.

(* Arguments the API demands. *)
Definition vop_args (o : vop) : Prop :=
  match o with
  | VSetCustom (Some p) => pal_ok p
  | VScreen o => op_args o
  | _ => True
  end.
Definition ok_inv (r : res vte) : Prop := forall v', r = Ok v' -> VInv v'.
Lemma meets_inv P r : meets P r -> ok_inv r.
Proof. intros [[_ E]|[_ (v & E & H)]] v' E'; rewrite E in E'; [discriminate|]. inversion E'. now subst. Qed.
Lemma safe_inv r : safe r -> ok_inv r.
Proof. intros (v & E & H) v' E'. rewrite E in E'. inversion E'. now subst. Qed.

Lemma key_inv sg v k a m u v' r : VInv v -> vte_key sg v k a m u = Ok (v', r) -> VInv v'.
Proof.
  intros H. unfold vte_key. cbv zeta.
  assert (I1 : VInv (if bit m M_ALT then set_reset v true VF_PREPEND else v)) by (destruct (bit m M_ALT); [now apply VInv_sr|auto]).
  destruct (key_bytes _ k a m u) as [bs|].
  - destruct (vte_write sg _ bs) eqn:E; cbn [bind]; [|discriminate]. intros X. inversion X; subst.
    eapply meets_inv; [|exact E]. now apply vte_write_meets.
  - intros X. inversion X; subst. now apply VInv_sr.
Qed.
Lemma mouse_inv sg v cx cy px py b e m v' r : VInv v -> vte_mouse sg v cx cy px py b e m = Ok (v', r) -> VInv v'.
Proof.
  intros H. assert (W : forall w bs w', VInv w -> vte_write sg w bs = Ok w' -> VInv w').
  { intros w bs w' Hw E. eapply meets_inv; [|exact E]. now apply vte_write_meets. }
  unfold vte_mouse. cbv zeta. intros X.
  repeat match type of X with
  | (if ?b then _ else _) = _ => destruct b
  | bind (vte_write sg ?w ?bs) _ = _ => let E := fresh in destruct (vte_write sg w bs) eqn:E; cbn [bind] in X; [|discriminate]; inversion X; subst; apply W in E; auto
  | Ok _ = Ok _ => inversion X; subst; auto
  end.
  all: repeat match goal with H : context [if ?b then _ else _] |- _ => destruct b end; vinv H; try (now vset).
  all: apply W in X; auto.
Qed.

Lemma inv_ok v v' : VInv v -> Ok v = Ok v' -> VInv v'.
Proof. intros H E. inversion E. now subst. Qed.
Lemma fst_inv (r : res (vte * bool)) : (forall v b, r = Ok (v, b) -> VInv v) -> ok_inv (do x <- r; Ok (fst x)).
Proof. intros H v' E. destruct r as [[v b]|]; cbn [bind fst] in E; [|discriminate]. eapply inv_ok; [|exact E]. eauto. Qed.
Lemma scr_inv v o : VInv v -> op_args o -> ok_inv (scr v o).
Proof.
  intros H Ha v' E. destruct (hazard_dec (v_con v) o) as [Hz|Hz].
  - rewrite (scr_ub v o H Ha Hz) in E. discriminate.
  - exact (safe_inv _ (scr_safe v o H Ha Hz) v' E).
Qed.
Lemma VInv_oscb v b : VInv v -> VInv (w_oscb v b).
Proof. intros H. vinv H. now vset. Qed.
Lemma VInv_mcb v b : VInv v -> VInv (w_mcb v b).
Proof. intros H. vinv H. now vset. Qed.
Lemma VInv_bsd v b : VInv v -> VInv (w_bsd v b).
Proof. intros H. vinv H. now vset. Qed.
Lemma set_custom_inv v p : VInv v -> vop_args (VSetCustom p) -> ok_inv (vte_set_custom v p).
Proof. intros H Ha. apply safe_inv, set_custom_safe; [auto|]. intros q ->. exact Ha. Qed.
Lemma vstep_inv sg v o v' : VInv v -> vop_args o -> vstep sg v o = Ok v' -> VInv v'.
Proof.
  intros H Ha. destruct o.
  - exact (input_inv sg bs v v' H).
  - exact (fst_inv _ (fun v1 b => key_inv sg v _ _ _ _ v1 b H) v').
  - exact (fst_inv _ (fun v1 b => mouse_inv sg v _ _ _ _ _ _ _ v1 b H) v').
  - exact (safe_inv _ (vte_reset_safe v H) v').
  - exact (safe_inv _ (hard_reset_safe v H) v').
  - exact (safe_inv _ (set_palette_safe v n H) v').
  - exact (set_custom_inv v p H Ha v').
  - exact (inv_ok _ v' (VInv_oscb v b H)).
  - exact (inv_ok _ v' (VInv_mcb v b H)).
  - exact (inv_ok _ v' (VInv_bsd v b H)).
  - exact (scr_inv v o H Ha v').
Qed.

(* Terminals that some session on some screen leads to. *)
Definition vreachable (sg : bool) (v : vte) : Prop :=
  exists con v0 ops, reachable con /\ vte_new con = Ok v0 /\ Forall vop_args ops /\ vrun sg v0 ops = Ok v.
Lemma vrun_inv sg ops : forall v v', VInv v -> Forall vop_args ops -> vrun sg v ops = Ok v' -> VInv v'.
Proof.
  induction ops as [|o r IH]; intros v v' H Ha E; cbn [vrun] in E; [inversion E; now subst|].
  inversion Ha; subst. destruct (vstep sg v o) eqn:S; cbn [bind] in E; [|discriminate].
  eapply IH; [|eassumption|exact E]. eapply vstep_inv; eauto.
Qed.
Lemma vreachable_inv sg v : vreachable sg v -> VInv v.
Proof.
  intros (con & v0 & ops & Hc & E & Ha & R). eapply vrun_inv; [|exact Ha|exact R].
  destruct (vte_new_safe con Hc) as (v1 & E1 & I1). congruence.
Qed.
Lemma vrun_app sg a b : forall v, vrun sg v (a ++ b) = do v1 <- vrun sg v a; vrun sg v1 b.
Proof. induction a as [|o r IH]; intros v; cbn [vrun app bind]; [reflexivity|]. destruct (vstep sg v o); cbn [bind]; auto. Qed.
Lemma vreachable_step sg v o v' : vreachable sg v -> vop_args o -> vstep sg v o = Ok v' -> vreachable sg v'.
Proof.
  intros (con & v0 & ops & Hc & E & Ha & R) Ho S. exists con, v0, (ops ++ [o]). split; [auto|]. split; [auto|]. split.
  - apply Forall_app. auto.
  - rewrite vrun_app, R. cbn [bind vrun]. rewrite S. reflexivity.
Qed.

(* Calls other than input, echoed keys and mouse reports, and screen calls never fail. *)
Definition vop_plain (v : vte) (o : vop) : Prop :=
  match o with
  | VInput _ | VScreen _ => False
  | VKey _ _ _ _ | VMouse _ _ _ _ _ _ _ => vfl v VF_SRM = true
  | _ => True
  end.
Lemma sr_other v b n k : 0 <= n -> 0 <= k -> k <> n -> vfl (set_reset v b n) k = vfl v k.
Proof.
  intros. unfold vfl, bit. cbn [set_reset w_flags v_flags]. destruct b; [apply Z.setbit_neq|apply Z.clearbit_neq]; auto.
Qed.
Lemma mouse_plain sg v cx cy px py b e m : vfl v VF_SRM = true -> exists x, vte_mouse sg v cx cy px py b e m = Ok x.
Proof.
  intros Hp. assert (W : forall w bs, vfl w VF_SRM = true -> vte_write sg w bs = Ok (vte_send w bs))
    by (intros w bs E; unfold vte_write; rewrite E; reflexivity).
  unfold vte_mouse. cbv zeta.
  destruct (_ && bit e EV_MOVED); [eauto|]. destruct (v_mmode v =? MOUSE_X10); [rewrite W by exact Hp; cbn [bind]; eauto|].
  destruct (_ && _).
  - destruct (_ && _ && _); [eauto|]. destruct (bit e EV_MOVED); rewrite W by exact Hp; cbn [bind]; eauto.
  - destruct (_ && _); [|eauto]. rewrite W by exact Hp; cbn [bind]; eauto.
Qed.
Lemma key_plain sg v k a m u : vfl v VF_SRM = true -> exists x, vte_key sg v k a m u = Ok x.
Proof.
  intros Hp. unfold vte_key. cbv zeta. destruct (key_bytes _ _ _ _ _); [|eauto]. unfold vte_write.
  replace (vfl (if bit m M_ALT then set_reset v true VF_PREPEND else v) VF_SRM) with true; [cbn [bind]; eauto|].
  destruct (bit m M_ALT); [|auto]. rewrite sr_other; [auto|..]; unfold VF_PREPEND, VF_SRM; lia.
Qed.
Lemma fst_safe (r : res (vte * bool)) : (exists x, r = Ok x) -> (forall v b, r = Ok (v, b) -> VInv v) -> safe (do x <- r; Ok (fst x)).
Proof. intros ((v & b) & ->) H. apply safe_ok. eapply H. reflexivity. Qed.
Lemma custom_safe v p : VInv v -> vop_args (VSetCustom p) -> safe (vte_set_custom v p).
Proof. intros H Ha. apply set_custom_safe; [auto|]. intros q ->. exact Ha. Qed.
Lemma plain_safe sg v o : VInv v -> vop_args o -> vop_plain v o -> safe (vstep sg v o).
Proof.
  intros H Ha Hp. destruct o; try contradiction.
  - exact (fst_safe _ (key_plain sg v _ _ _ _ Hp) (fun v1 b => key_inv sg v _ _ _ _ v1 b H)).
  - exact (fst_safe _ (mouse_plain sg v _ _ _ _ _ _ _ Hp) (fun v1 b => mouse_inv sg v _ _ _ _ _ _ _ v1 b H)).
  - exact (vte_reset_safe v H).
  - exact (hard_reset_safe v H).
  - exact (set_palette_safe v n H).
  - exact (custom_safe v p H Ha).
  - exact (safe_ok _ (VInv_oscb v b H)).
  - exact (safe_ok _ (VInv_mcb v b H)).
  - exact (safe_ok _ (VInv_bsd v b H)).
Qed.
