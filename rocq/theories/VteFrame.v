(* Two terminals that differ only in the UTF-8 decoder and in past events behave
   alike; the decoder stays at a character boundary while ASCII is processed. *)
From Verif Require Import Base BaseProofs Utf8 Symbol Screen ScreenInv ScreenSafe VteData Vte VteKeys VteSpec VteInv VteSafe.
From Verif Require Import Utf8Spec Utf8Proofs.

(* Compare calls of screen functions by their arguments before unfolding them. *)
Strategy 1000 [step scr bind].

(* v with earlier events p and decoder m. *)
Definition alike (p : list event) (v v' : vte) : Prop := exists m, v' = w_mach (w_out v (p ++ v_out v)) m.
Definition alike_res (p : list event) (r r' : res vte) : Prop :=
  match r, r' with Ok v, Ok v' => alike p v v' | Ub, Ub => True | _, _ => False end.

Lemma ar_bind p r r' f f' : alike_res p r r' -> (forall v v', alike p v v' -> alike_res p (f v) (f' v')) ->
  alike_res p (bind r f) (bind r' f').
Proof. intros H F. destruct r, r'; cbn in *; try contradiction; auto. Qed.
Lemma ar_scr p v v' o : alike p v v' -> alike_res p (scr v o) (scr v' o).
Proof.
  intros (m & ->). unfold scr. cbn [w_mach w_out v_con]. destruct (step (v_con v) o); cbn; [|exact I]. exists m. reflexivity.
Qed.
Lemma al_emit p v v' e : alike p v v' -> alike p (emit v e) (emit v' e).
Proof. intros (m & ->). exists m. unfold emit. cbn [w_mach w_out v_out]. rewrite app_assoc. reflexivity. Qed.

Ltac proj := cbn [v_con v_bsd v_state v_argc v_argv v_cfl v_oscb v_osclen v_osc v_mcb v_mmode v_mev v_mcol v_mrow v_pname v_custom
  v_pal v_def v_cattr v_flags v_gl v_gr v_glt v_grt v_g0 v_g1 v_g2 v_g3 v_saved v_altx v_alty
  w_con w_bsd w_mach w_state w_argc w_argv w_cfl w_oscb w_osclen w_osc w_mcb w_mmode w_mev w_mcol w_mrow w_pname w_custom
  w_pal w_def w_cattr w_flags w_gl w_gr w_glt w_grt w_g0 w_g1 w_g2 w_g3 w_saved w_altx w_alty w_out].
Ltac alsolve := match goal with H : alike _ _ _ |- _ => let m := fresh "m" in destruct H as (m & ->); exists m; reflexivity end.

Lemma al_flags p v v' : alike p v v' -> v_flags v' = v_flags v. Proof. now intros (m & ->). Qed.
Lemma al_con p v v' : alike p v v' -> v_con v' = v_con v. Proof. now intros (m & ->). Qed.
Lemma al_argc p v v' : alike p v v' -> v_argc v' = v_argc v. Proof. now intros (m & ->). Qed.
Lemma al_argv p v v' : alike p v v' -> v_argv v' = v_argv v. Proof. now intros (m & ->). Qed.
Lemma al_cfl p v v' : alike p v v' -> v_cfl v' = v_cfl v. Proof. now intros (m & ->). Qed.
Lemma al_pal p v v' : alike p v v' -> v_pal v' = v_pal v. Proof. now intros (m & ->). Qed.
Lemma al_def p v v' : alike p v v' -> v_def v' = v_def v. Proof. now intros (m & ->). Qed.
Lemma al_cattr p v v' : alike p v v' -> v_cattr v' = v_cattr v. Proof. now intros (m & ->). Qed.
Lemma al_saved p v v' : alike p v v' -> v_saved v' = v_saved v. Proof. now intros (m & ->). Qed.
Lemma al_state p v v' : alike p v v' -> v_state v' = v_state v. Proof. now intros (m & ->). Qed.
Lemma al_mmode p v v' : alike p v v' -> v_mmode v' = v_mmode v. Proof. now intros (m & ->). Qed.
Lemma al_mev p v v' : alike p v v' -> v_mev v' = v_mev v. Proof. now intros (m & ->). Qed.
Lemma al_mcb p v v' : alike p v v' -> v_mcb v' = v_mcb v. Proof. now intros (m & ->). Qed.
Lemma al_altx p v v' : alike p v v' -> v_altx v' = v_altx v. Proof. now intros (m & ->). Qed.
Lemma al_alty p v v' : alike p v v' -> v_alty v' = v_alty v. Proof. now intros (m & ->). Qed.
Lemma al_osc p v v' : alike p v v' -> v_osc v' = v_osc v. Proof. now intros (m & ->). Qed.
Lemma al_osclen p v v' : alike p v v' -> v_osclen v' = v_osclen v. Proof. now intros (m & ->). Qed.
Lemma al_oscb p v v' : alike p v v' -> v_oscb v' = v_oscb v. Proof. now intros (m & ->). Qed.
Lemma al_vfl p v v' n : alike p v v' -> vfl v' n = vfl v n. Proof. now intros (m & ->). Qed.
Lemma al_cf p v v' n : alike p v v' -> cfl v' n = cfl v n. Proof. now intros (m & ->). Qed.
Lemma al_set_reset p v v' b n : alike p v v' -> alike p (set_reset v b n) (set_reset v' b n).
Proof. intros; alsolve. Qed.
Lemma al_sr p v v' : alike p v v' -> alike p (reset_state v) (reset_state v').
Proof. intros; alsolve. Qed.
Lemma al_send p v v' bs : alike p v v' -> alike p (vte_send v bs) (vte_send v' bs).
Proof.
  intros H. unfold vte_send. rewrite (al_vfl _ _ _ _ H). destruct (vfl v VF_PREPEND); apply al_set_reset; repeat apply al_emit; exact H.
Qed.

(* The middle of vte_reset: parser, character sets and mouse. *)
Definition power (v2 : vte) : vte :=
  let v3 := w_state (w_mach v2 (umach_reset (v_mach v2))) SGround in
  let v4 := w_grt (w_glt (w_gr (w_gl v3 G0) G1) None) None in
  let v5 := w_g3 (w_g2 (w_g1 (w_g0 v4 CsLower) CsUpper) CsLower) CsUpper in
  w_mrow (w_mcol (w_mev (w_mmode v5 0) 0) 0) 0.
Lemma reset_power v : vte_reset v =
  do v1 <- scr (w_flags v RESET_FLAGS) OReset;
  do v2 <- scr v1 (OSetFlags SF_WRAP);
  do a <- to_rgb (v_pal (power v2)) (v_def (power v2));
  do v7 <- scr (w_cattr (power v2) a) (OSetDefAttr (v_def (power v2)));
  Ok (reset_state v7).
Proof. unfold vte_reset, power. cbv zeta. reflexivity. Qed.

Section Frame.
Context (p : list event).
Notation R := (alike p).
Notation RR := (alike_res p).

Lemma ar_ok v v' : R v v' -> RR (Ok v) (Ok v').
Proof. auto. Qed.
Ltac leaf := lazymatch goal with
  | |- RR (Ok _) _ => apply ar_ok; first [assumption | alsolve | apply al_send; assumption | apply al_set_reset; assumption]
  | |- RR (scr _ _) _ => apply ar_scr; first [assumption | alsolve]
  end.

Lemma ar_wc v v' s : R v v' -> RR (write_console v s) (write_console v' s).
Proof.
  intros H. unfold write_console. rewrite (al_pal _ _ _ H), (al_cattr _ _ _ H).
  destruct (to_rgb _ _); cbn [bind]; [|exact I]. leaf.
Qed.
Lemma ar_restore v v' : R v v' -> RR (restore_state v) (restore_state v').
Proof.
  intros H. unfold restore_state. cbv zeta. rewrite (al_saved _ _ _ H).
  apply ar_bind; [leaf|]. intros w w' Hw. rewrite (al_pal _ _ _ Hw).
  destruct (to_rgb _ _) as [a|]; cbn [bind]; [|exact I].
  apply ar_bind.
  - replace (vfl (w_cattr w' a) VF_BCE) with (vfl (w_cattr w a) VF_BCE) by (destruct Hw as (m & ->); reflexivity).
    destruct (vfl _ VF_BCE); leaf.
  - intros x x' Hx. apply ar_bind; [leaf|]. intros y y' Hy. leaf.
Qed.
Lemma ar_power v v' : R v v' -> R (power v) (power v').
Proof.
  intros (m & ->). exists (umach_reset m). reflexivity.
Qed.
Lemma ar_reset v v' : R v v' -> RR (vte_reset v) (vte_reset v').
Proof.
  intros H. rewrite !reset_power.
  apply ar_bind; [leaf|]. intros w w' Hw. apply ar_bind; [leaf|]. intros x x' Hx. apply ar_power in Hx.
  revert Hx. generalize (power x), (power x'). clear x x'. intros x x' Hx.
  rewrite (al_pal _ _ _ Hx), (al_def _ _ _ Hx). destruct (to_rgb _ _) as [a|]; cbn [bind]; [|exact I].
  apply ar_bind; [leaf|].
  intros y y' Hy. apply ar_ok, al_sr, Hy.
Qed.
Lemma ar_hard v v' : R v v' -> RR (vte_hard_reset v) (vte_hard_reset v').
Proof.
  intros H. unfold vte_hard_reset. apply ar_bind; [now apply ar_reset|]. intros w w' Hw. apply ar_bind; [leaf|]. intros x x' Hx.
  apply ar_bind; [leaf|]. intros y y' Hy. leaf.
Qed.
Lemma ar_execute v v' d : R v v' -> RR (do_execute v d) (do_execute v' d).
Proof.
  intros H. unfold do_execute. rewrite (al_vfl _ _ _ _ H). unfold send_primary_da.
  repeat match goal with |- RR (if ?b then _ else _) _ => destruct b end; try leaf. now apply ar_wc.
Qed.
Lemma ar_collect v v' d : R v v' -> R (do_collect v d) (do_collect v' d).
Proof. intros H. unfold do_collect. rewrite (al_cfl _ _ _ H). destruct (collect_bit d); [alsolve|exact H]. Qed.
Lemma ar_param v v' d : R v v' -> RR (do_param v d) (do_param v' d).
Proof.
  intros H. unfold do_param. cbv zeta. rewrite (al_argc _ _ _ H), (al_argv _ _ _ H).
  destruct (d =? 59); [destruct (_ <? _); leaf|]. destruct (_ <=? _); [leaf|]. destruct (zget _ _) as [c|]; cbn [bind]; [|exact I].
  destruct (_ <? _); [leaf|]. destruct (_ && _); [|leaf]. destruct (zmod _ _ _); cbn [bind]; [leaf|exact I].
Qed.
Lemma ar_esc_plain v v' d : R v v' -> RR (do_esc_plain v d) (do_esc_plain v' d).
Proof.
  intros H. unfold do_esc_plain, send_primary_da.
  repeat match goal with |- RR (if ?b then _ else _) _ => destruct b end; try leaf; [now apply ar_hard|now apply ar_restore].
Qed.
Lemma ar_esc v v' d : R v v' -> RR (do_esc v d) (do_esc v' d).
Proof.
  intros H. unfold do_esc.
  assert (C : match (match esc_charset d with Some c => set_charset v c | None => None end),
                    (match esc_charset d with Some c => set_charset v' c | None => None end) with
              | Some a, Some b => R a b | None, None => True | _, _ => False end).
  { destruct (esc_charset d) as [c|]; [|exact I]. unfold set_charset. rewrite !(al_cf _ _ _ _ H).
    repeat match goal with |- context [if ?b then _ else _] => destruct b end; try exact I; alsolve. }
  destruct (match esc_charset d with Some c => set_charset v c | None => None end),
    (match esc_charset d with Some c => set_charset v' c | None => None end); try contradiction; [exact C|].
  rewrite !(al_cf _ _ _ _ H), (al_cfl _ _ _ H).
  repeat match goal with |- RR (if ?b then _ else _) _ => destruct b end; try leaf. now apply ar_esc_plain.
Qed.
Lemma ar_attribute v v' : R v v' -> RR (csi_attribute v) (csi_attribute v').
Proof.
  intros H. unfold csi_attribute. cbv zeta. rewrite (al_argv _ _ _ H), (al_argc _ _ _ H).
  destruct (zget _ _) as [x|]; cbn [bind]; [|exact I].
  apply ar_bind.
  - destruct (_ && _); [|leaf]. destruct (zmod _ _ _); cbn [bind]; [leaf|exact I].
  - intros w w' Hw. rewrite (al_argv _ _ _ Hw), (al_argc _ _ _ Hw), (al_def _ _ _ Hw), (al_cattr _ _ _ Hw), (al_pal _ _ _ Hw).
    destruct (sgr_loop _ _ _ _ _ _) as [a|]; cbn [bind]; [|exact I]. destruct (to_rgb _ _) as [b|]; cbn [bind]; [|exact I].
    replace (vfl (w_cattr w' b) VF_BCE) with (vfl (w_cattr w b) VF_BCE) by (destruct Hw as (m & ->); reflexivity).
    destruct (vfl _ VF_BCE); leaf.
Qed.
Lemma ar_compat v v' : R v v' -> RR (csi_compat_mode v) (csi_compat_mode v').
Proof.
  intros H. unfold csi_compat_mode. apply ar_bind; [now apply ar_reset|]. intros w w' Hw. rewrite (al_argv _ _ _ Hw).
  destruct (zget _ 0); cbn [bind]; [|exact I]. destruct (zget _ 1); cbn [bind]; [|exact I].
  repeat match goal with |- context [if ?b then _ else _] => destruct b end; leaf.
Qed.
Lemma ar_ansi v v' b x : R v v' -> RR (csi_mode_ansi v b x) (csi_mode_ansi v' b x).
Proof.
  intros H. unfold csi_mode_ansi, scr_flag.
  repeat match goal with |- RR (if ?b then _ else _) _ => destruct b end; leaf.
Qed.
Lemma ar_dec v v' b x : R v v' -> RR (csi_mode_dec v b x) (csi_mode_dec v' b x).
Proof.
  intros H. unfold csi_mode_dec, scr_flag. cbv zeta. proj.
  rewrite !(al_vfl _ _ _ _ H), (al_mcb _ _ _ H), (al_mmode _ _ _ H), (al_mev _ _ _ H), (al_con _ _ _ H), (al_altx _ _ _ H), (al_alty _ _ _ H).
  repeat match goal with |- RR (if ?b then _ else _) _ => destruct b end; try leaf;
    try (apply ar_ok; match goal with |- R (if ?b then _ else _) _ => destruct b end; try apply al_emit; alsolve).
  - apply ar_bind; [leaf|]. intros w w' Hw. leaf.
  - apply ar_bind; [leaf|]. intros w w' Hw. leaf.
  - apply ar_bind; [leaf|]. intros w w' Hw. leaf.
Qed.
Lemma ar_for n : forall i f v v', R v v' -> (forall j w w', R w w' -> RR (f j w) (f j w')) -> RR (for_n n i f v) (for_n n i f v').
Proof.
  induction n as [|n IH]; intros i f v v' H F; cbn [for_n]; [exact H|]. apply ar_bind; [now apply F|]. intros w w' Hw. now apply IH.
Qed.
Lemma ar_mode v v' b : R v v' -> RR (csi_mode v b) (csi_mode v' b).
Proof.
  intros H. unfold csi_mode, forz. rewrite (al_argc _ _ _ H). apply ar_for; [exact H|]. intros j w w' Hw.
  rewrite (al_argv _ _ _ Hw), (al_cf _ _ _ _ Hw). destruct (zget _ _); cbn [bind]; [|exact I].
  destruct (cfl w CSI_WHAT); [now apply ar_dec|now apply ar_ansi].
Qed.
Lemma ar_da v v' : R v v' -> RR (csi_dev_attr v) (csi_dev_attr v').
Proof.
  intros H. unfold csi_dev_attr, send_primary_da. rewrite (al_argv _ _ _ H), (al_argc _ _ _ H), (al_cfl _ _ _ H), (al_cf _ _ _ _ H).
  destruct (zget _ 0); cbn [bind]; [|exact I]. repeat match goal with |- context [if ?b then _ else _] => destruct b end; leaf.
Qed.
Lemma ar_dsr v v' : R v v' -> RR (csi_dsr v) (csi_dsr v').
Proof.
  intros H. unfold csi_dsr. cbv zeta. rewrite (al_argv _ _ _ H), (al_con _ _ _ H).
  destruct (zget _ 0); cbn [bind]; [|exact I]. repeat match goal with |- context [if ?b then _ else _] => destruct b end; leaf.
Qed.
Lemma ar_csi v v' d : R v v' -> RR (do_csi v d) (do_csi v' d).
Proof.
  intros H0. unfold do_csi. cbv zeta. rewrite (al_argc _ _ _ H0).
  assert (H : R (if v_argc v <? CSI_ARG_MAX then w_argc v (v_argc v + 1) else v) (if v_argc v <? CSI_ARG_MAX then w_argc v' (v_argc v + 1) else v'))
    by (destruct (_ <? _); [alsolve|exact H0]).
  set (a := if v_argc v <? CSI_ARG_MAX then w_argc v (v_argc v + 1) else v) in *.
  set (a' := if v_argc v <? CSI_ARG_MAX then w_argc v' (v_argc v + 1) else v') in *. clearbody a a'.
  rewrite (al_argv _ _ _ H), !(al_cf _ _ _ _ H), (al_con _ _ _ H).
  destruct (zget _ 0) as [p0|]; cbn [bind]; [|exact I]. destruct (zget _ 1) as [p1|]; cbn [bind]; [|exact I].
  repeat match goal with |- RR (if ?b then _ else _) _ => destruct b end;
    first [ leaf | now apply ar_attribute | now apply ar_reset | now apply ar_compat | now apply ar_mode | now apply ar_da | now apply ar_dsr
          | apply ar_bind; [leaf|]; intros w w' Hw; leaf ].
Qed.
Lemma ar_map v v' x : R v v' -> match vte_map v x, vte_map v' x with
  | Ok (w, c), Ok (w', c') => R w w' /\ c = c' | Ub, Ub => True | _, _ => False end.
Proof.
  intros H. unfold vte_map, gset.
  assert (E : v_glt v' = v_glt v /\ v_grt v' = v_grt v /\ v_gl v' = v_gl v /\ v_gr v' = v_gr v /\ v_g0 v' = v_g0 v /\ v_g1 v' = v_g1 v /\ v_g2 v' = v_g2 v /\ v_g3 v' = v_g3 v)
    by (destruct H as (m & ->); repeat split).
  destruct E as (-> & -> & -> & -> & -> & -> & -> & ->).
  destruct (_ && _); [destruct (v_glt v); (destruct (zget _ _); cbn [bind]; [split; [|reflexivity]|exact I]); first [exact H|alsolve]|].
  destruct (_ && _); [destruct (v_grt v); (destruct (zget _ _); cbn [bind]; [split; [|reflexivity]|exact I]); first [exact H|alsolve]|].
  auto.
Qed.
Lemma ar_oscc v v' x : R v v' -> RR (do_osc_collect v x) (do_osc_collect v' x).
Proof.
  intros H. unfold do_osc_collect. cbv zeta. rewrite (al_osc _ _ _ H), (al_osclen _ _ _ H).
  destruct (_ <? _); [leaf|]. destruct (zcopy _ _ _); cbn [bind]; [leaf|exact I].
Qed.
Lemma ar_osce v v' : R v v' -> RR (do_osc_end v) (do_osc_end v').
Proof.
  intros H. unfold do_osc_end. rewrite (al_osc _ _ _ H), (al_osclen _ _ _ H), (al_oscb _ _ _ H).
  destruct (v_oscb v); [|leaf]. destruct (zmod _ _ _); cbn [bind]; [|exact I]. apply ar_ok, al_emit. alsolve.
Qed.
Lemma ar_action v v' x a : R v v' -> RR (do_action v x a) (do_action v' x a).
Proof.
  intros H. destruct a; cbn [do_action]; try leaf.
  - pose proof (ar_map v v' x H) as M. destruct (vte_map v x) as [[w c]|], (vte_map v' x) as [[w' c']|]; cbn [bind fst snd]; try contradiction; auto.
    destruct M as [Hw ->]. now apply ar_wc.
  - now apply ar_execute.
  - apply ar_ok, ar_collect, H.
  - now apply ar_param.
  - now apply ar_esc.
  - now apply ar_csi.
  - now apply ar_oscc.
  - now apply ar_osce.
Qed.
Lemma ar_parse v v' x : R v v' -> RR (parse_data v x) (parse_data v' x).
Proof.
  intros H. unfold parse_data, do_trans. cbv zeta. rewrite (al_state _ _ _ H).
  destruct (trans (v_state v) x) as [[t|] a]; cbn [fst snd]; [|now apply ar_action].
  apply ar_bind; [now apply ar_action|]. intros w w' Hw. apply ar_bind; [now apply ar_action|]. intros y y' Hy.
  apply ar_bind; [now apply ar_action|]. intros z z' Hz. leaf.
Qed.
End Frame.

(* -- code points one after the other -------------------------------------- *)
Fixpoint parse_all (v : vte) (cps : list Z) : res vte :=
  match cps with [] => Ok v | c :: r => do v1 <- parse_data v c; parse_all v1 r end.
Lemma parse_all_app a b : forall v, parse_all v (a ++ b) = do v1 <- parse_all v a; parse_all v1 b.
Proof. induction a as [|c r IH]; intros v; cbn [parse_all app bind]; [reflexivity|]. destruct (parse_data v c); cbn [bind]; auto. Qed.
Lemma ar_all p cps : forall v v', alike p v v' -> alike_res p (parse_all v cps) (parse_all v' cps).
Proof. induction cps as [|c r IH]; intros v v' H; cbn [parse_all]; [exact H|]. apply ar_bind; [now apply ar_parse|]. exact IH. Qed.

(* -- the decoder ---------------------------------------------------------- *)
(* Between two characters. *)
Definition ready (v : vte) : Prop := vfl v VF_7BIT = true \/ vfl v VF_8BIT = true \/ idle (v_mach v).
(* How an action treats the decoder and the two mode flags. *)
Definition steady (v v' : vte) : Prop :=
  (v_mach v' = v_mach v /\ (vfl v VF_7BIT = true -> vfl v' VF_7BIT = true) /\ (vfl v VF_8BIT = true -> vfl v' VF_8BIT = true))
  \/ idle (v_mach v').
Definition st_res (v : vte) (r : res vte) : Prop := forall v', r = Ok v' -> steady v v'.
Lemma steady_refl v : steady v v.
Proof. left. auto. Qed.
Lemma steady_trans a b c : steady a b -> steady b c -> steady a c.
Proof. intros [(E & F & G)|H] [(E' & F' & G')|H']; [left|right|right|right]; auto. - split; [congruence|auto]. - now rewrite E'. Qed.
Lemma steady_same v v' : v_mach v' = v_mach v -> v_flags v' = v_flags v -> steady v v'.
Proof. intros E F. left. unfold vfl. rewrite F. auto. Qed.
Lemma st_bind v r f : st_res v r -> (forall w, steady v w -> st_res v (f w)) -> st_res v (bind r f).
Proof. intros H F v' E. destruct r as [w|]; cbn [bind] in E; [|discriminate]. exact (F w (H w eq_refl) v' E). Qed.
Lemma st_ok v w : steady v w -> st_res v (Ok w).
Proof. intros H v' E. inversion E. now subst. Qed.
Lemma st_scr v w o : steady v w -> st_res v (scr w o).
Proof.
  intros H v' E. unfold scr in E. destruct (step (v_con w) o); cbn [bind] in E; [|discriminate]. inversion E; subst.
  eapply steady_trans; [exact H|]. now apply steady_same.
Qed.
Lemma st_from v w r : steady v w -> st_res w r -> st_res v r.
Proof. intros H F v' E. eapply steady_trans; [exact H|]. now apply F. Qed.
Lemma st_sr v b n : n <> VF_7BIT -> n <> VF_8BIT -> 0 <= n -> steady v (set_reset v b n).
Proof. intros A B C. left. split; [reflexivity|]. rewrite !sr_other by (auto; unfold VF_7BIT, VF_8BIT; lia). auto. Qed.
Lemma st_send v bs : steady v (vte_send v bs).
Proof.
  unfold vte_send. eapply steady_trans; [|apply st_sr; unfold VF_PREPEND, VF_7BIT, VF_8BIT; lia].
  destruct (vfl v VF_PREPEND); now apply steady_same.
Qed.
Ltac vf := unfold VF_CURSOR_KEY, VF_KEYPAD_APP, VF_LNM, VF_8BIT, VF_7BIT, VF_USE_C1, VF_KAM, VF_IRM, VF_SRM, VF_TEXT_CURSOR,
  VF_INVERSE, VF_ORIGIN, VF_WRAP, VF_REPEAT, VF_NRC, VF_BCE, VF_PREPEND, VF_TITE; lia.
Ltac std := first [ apply steady_refl | assumption | apply st_send | (apply st_sr; vf) | (now apply steady_same)
  | (eapply steady_trans; [eassumption|]; first [apply st_send | (apply st_sr; vf) | (now apply steady_same)]) ].
Ltac stl := lazymatch goal with |- st_res _ (Ok _) => apply st_ok; std | |- st_res _ (scr _ _) => apply st_scr; std end.

Lemma st_wc v s : st_res v (write_console v s).
Proof. unfold write_console. destruct (to_rgb _ _); cbn [bind]; [stl|intros v' E; discriminate]. Qed.
Lemma st_restore v : st_res v (restore_state v).
Proof.
  unfold restore_state. cbv zeta. apply st_bind; [stl|]. intros w Hw. destruct (to_rgb _ _) as [a|]; cbn [bind]; [|intros v' E; discriminate].
  apply st_bind; [destruct (vfl _ VF_BCE); stl|]. intros x Hx. apply st_bind.
  - apply st_scr. eapply steady_trans; [exact Hx|]. eapply steady_trans; [|apply st_sr; vf]. now apply steady_same.
  - intros y Hy. stl.
Qed.
Lemma scr_mach v o v' : scr v o = Ok v' -> v_mach v' = v_mach v.
Proof. unfold scr. destruct (step _ _); cbn [bind]; [|discriminate]. intros E. inversion E. reflexivity. Qed.
Lemma st_reset v : st_res v (vte_reset v).
Proof.
  intros v' E. right. unfold vte_reset in E. cbv zeta in E.
  destruct (scr _ OReset) as [v1|]; cbn [bind] in E; [|discriminate]. destruct (scr v1 _) as [v2|]; cbn [bind] in E; [|discriminate].
  destruct (to_rgb _ _) as [a|]; cbn [bind] in E; [|discriminate].
  match type of E with bind (scr ?w ?o) _ = _ => destruct (scr w o) as [v7|] eqn:S end; cbn [bind] in E; [|discriminate].
  apply scr_mach in S. inversion E; subst. cbn [reset_state w_saved v_mach]. rewrite S. cbn. exact I.
Qed.
Lemma st_hard v : st_res v (vte_hard_reset v).
Proof.
  unfold vte_hard_reset. apply st_bind; [apply st_reset|]. intros w Hw. apply st_bind; [stl|]. intros x Hx. apply st_bind; [stl|]. intros y Hy. stl.
Qed.
Lemma st_execute v d : st_res v (do_execute v d).
Proof.
  unfold do_execute, send_primary_da. repeat match goal with |- st_res _ (if ?b then _ else _) => destruct b end; try stl. apply st_wc.
Qed.
Lemma st_param v d : st_res v (do_param v d).
Proof.
  unfold do_param. cbv zeta. destruct (d =? 59); [destruct (_ <? _); stl|]. destruct (_ <=? _); [stl|].
  destruct (zget _ _); cbn [bind]; [|intros v' E; discriminate]. destruct (_ <? _); [stl|]. destruct (_ && _); [|stl].
  destruct (zmod _ _ _); cbn [bind]; [stl|intros v' E; discriminate].
Qed.
Lemma st_esc v d : st_res v (do_esc v d).
Proof.
  unfold do_esc. destruct (match esc_charset d with Some c => set_charset v c | None => None end) as [w|] eqn:E.
  - apply st_ok. destruct (esc_charset d) as [c|]; [|discriminate]. unfold set_charset in E.
    repeat match type of E with (if ?b then _ else _) = _ => destruct b end; inversion E; now apply steady_same.
  - unfold do_esc_plain, send_primary_da.
    repeat match goal with |- st_res _ (if ?b then _ else _) => destruct b end; try stl; [apply st_hard|apply st_restore].
Qed.
Lemma st_attribute v : st_res v (csi_attribute v).
Proof.
  unfold csi_attribute. cbv zeta. destruct (zget _ _); cbn [bind]; [|intros v' E; discriminate]. apply st_bind.
  - destruct (_ && _); [|stl]. destruct (zmod _ _ _); cbn [bind]; [stl|intros v' E; discriminate].
  - intros w Hw. destruct (sgr_loop _ _ _ _ _ _); cbn [bind]; [|intros v' E; discriminate]. destruct (to_rgb _ _); cbn [bind]; [|intros v' E; discriminate].
    destruct (vfl _ VF_BCE); stl.
Qed.
(* The compatibility mode resets the decoder and then chooses a mode. *)
Lemma reset_idle v v' : vte_reset v = Ok v' -> idle (v_mach v').
Proof.
  intros E. unfold vte_reset in E. cbv zeta in E.
  destruct (scr _ OReset) as [v1|]; cbn [bind] in E; [|discriminate]. destruct (scr v1 _) as [v2|]; cbn [bind] in E; [|discriminate].
  destruct (to_rgb _ _) as [a|]; cbn [bind] in E; [|discriminate].
  match type of E with bind (scr ?w ?o) _ = _ => destruct (scr w o) as [v7|] eqn:S end; cbn [bind] in E; [|discriminate].
  apply scr_mach in S. inversion E; subst. cbn [reset_state w_saved v_mach]. rewrite S. cbn. exact I.
Qed.
Lemma st_compat v : st_res v (csi_compat_mode v).
Proof.
  intros v' E. right. unfold csi_compat_mode in E. destruct (vte_reset v) as [w|] eqn:X; cbn [bind] in E; [|discriminate].
  apply reset_idle in X. destruct (zget _ 0); cbn [bind] in E; [|discriminate]. destruct (zget _ 1); cbn [bind] in E; [|discriminate].
  inversion E. repeat match goal with |- context [if ?b then _ else _] => destruct b end; exact X.
Qed.
Lemma st_ansi v b x : st_res v (csi_mode_ansi v b x).
Proof.
  unfold csi_mode_ansi, scr_flag. repeat match goal with |- st_res _ (if ?b then _ else _) => destruct b end; stl.
Qed.
Lemma st_dec v b x : st_res v (csi_mode_dec v b x).
Proof.
  unfold csi_mode_dec, scr_flag. cbv zeta.
  repeat match goal with |- st_res _ (if ?b then _ else _) => destruct b end; try stl;
    try (apply st_ok; match goal with |- steady _ (if ?b then _ else _) => destruct b end; now apply steady_same).
  - apply st_bind; [stl|]. intros w Hw. stl.
  - apply st_bind; [stl|]. intros w Hw. stl.
  - apply st_bind; [stl|]. intros w Hw. stl.
Qed.
Lemma st_for n : forall i f v w, steady v w -> (forall j y, st_res y (f j y)) -> st_res v (for_n n i f w).
Proof.
  induction n as [|n IH]; intros i f v w H F; cbn [for_n]; [now apply st_ok|]. apply st_bind; [eapply st_from; [exact H|apply F]|].
  intros y Hy. now apply IH.
Qed.
Lemma st_mode v b : st_res v (csi_mode v b).
Proof.
  unfold csi_mode, forz. apply st_for; [apply steady_refl|]. intros j y. destruct (zget _ _); cbn [bind]; [|intros v' E; discriminate].
  destruct (cfl _ _); [apply st_dec|apply st_ansi].
Qed.
Lemma st_csi v d : st_res v (do_csi v d).
Proof.
  unfold do_csi. cbv zeta. set (w := if v_argc v <? CSI_ARG_MAX then _ else v).
  assert (H : steady v w) by (unfold w; destruct (_ <? _); std). clearbody w.
  destruct (zget _ 0); cbn [bind]; [|intros v' E; discriminate]. destruct (zget _ 1); cbn [bind]; [|intros v' E; discriminate].
  repeat match goal with |- st_res _ (if ?b then _ else _) => destruct b end;
    first [ stl | eapply st_from; [exact H|]; first [apply st_attribute|apply st_reset|apply st_compat|apply st_mode]
          | apply st_bind; [stl|]; intros y Hy; stl | idtac ].
  - eapply st_from; [exact H|]. unfold csi_dev_attr, send_primary_da. destruct (zget _ 0); cbn [bind]; [|intros v' E; discriminate].
    repeat match goal with |- context [if ?b then _ else _] => destruct b end; stl.
  - eapply st_from; [exact H|]. unfold csi_dsr. cbv zeta. destruct (zget _ 0); cbn [bind]; [|intros v' E; discriminate].
    repeat match goal with |- context [if ?b then _ else _] => destruct b end; stl.
Qed.
Lemma st_action v x a : st_res v (do_action v x a).
Proof.
  destruct a; cbn [do_action]; try stl.
  - unfold vte_map. 
    destruct (_ && _); [destruct (v_glt v); (destruct (zget _ _); cbn [bind fst snd]; [|intros v' E; discriminate]); (eapply st_from; [|apply st_wc]); std|].
    destruct (_ && _); [destruct (v_grt v); (destruct (zget _ _); cbn [bind fst snd]; [|intros v' E; discriminate]); (eapply st_from; [|apply st_wc]); std|].
    apply st_wc.
  - apply st_execute.
  - apply st_ok. unfold do_collect. destruct (collect_bit x); std.
  - apply st_param.
  - apply st_esc.
  - apply st_csi.
  - unfold do_osc_collect. cbv zeta. destruct (_ <? _); [stl|]. destruct (zcopy _ _ _); cbn [bind]; [stl|intros v' E; discriminate].
  - unfold do_osc_end. destruct (v_oscb v); [|stl]. destruct (zmod _ _ _); cbn [bind]; [stl|intros v' E; discriminate].
Qed.
Lemma st_parse v x : st_res v (parse_data v x).
Proof.
  unfold parse_data, do_trans. cbv zeta. destruct (trans (v_state v) x) as [[t|] a]; cbn [fst snd]; [|apply st_action].
  apply st_bind; [apply st_action|]. intros w Hw. apply st_bind; [eapply st_from; [exact Hw|apply st_action]|]. intros y Hy.
  apply st_bind; [eapply st_from; [exact Hy|apply st_action]|]. intros z Hz. stl.
Qed.
Lemma ready_steady v v' : ready v -> steady v v' -> ready v'.
Proof. unfold ready. intros [H|[H|H]] [(E & F & G)|I]; auto. rewrite E. auto. Qed.
Lemma ready_parse v x v' : ready v -> parse_data v x = Ok v' -> ready v'.
Proof. intros H E. eapply ready_steady; [exact H|]. now apply (st_parse v x). Qed.

(* -- ASCII input ---------------------------------------------------------- *)
Definition ascii (b : Z) : Prop := 0 <= b < 128.
Lemma land7 b : ascii b -> Z.land b 0x7f = b.
Proof. unfold ascii. intros H. change 0x7f with (Z.ones 7). rewrite Z.land_ones by lia. apply Z.mod_small. lia. Qed.
Lemma ascii_byte sg v b : ready v -> ascii b -> exists m, input_byte sg v b = parse_data (w_mach v m) b /\ ready (w_mach v m).
Proof.
  intros H Hb. unfold input_byte. destruct (vfl v VF_7BIT) eqn:F7; [|destruct (vfl v VF_8BIT) eqn:F8].
  - exists (v_mach v). rewrite land7 by exact Hb. destruct v; auto.
  - exists (v_mach v). unfold char_to_u32. replace (128 <=? b) with false by (unfold ascii in Hb; lia). rewrite andb_false_r. destruct v; auto.
  - destruct H as [H|[H|H]]; try congruence. rewrite (feed_ascii sg _ _ H Hb). exists (mkU UAccept b). split; [reflexivity|].
    right. right. exact I.
Qed.
(* On ASCII the bytes are the code points, whatever the mode. *)
Lemma ascii_input sg bs : forall v, ready v -> Forall ascii bs ->
  alike_res [] (parse_all v bs) (vte_input sg v bs) /\ forall v', vte_input sg v bs = Ok v' -> ready v'.
Proof.
  induction bs as [|b r IH]; intros v H Ha; cbn [parse_all vte_input].
  - split; [|intros v' E; inversion E; now subst]. exists (v_mach v). destruct v; reflexivity.
  - inversion Ha; subst. destruct (ascii_byte sg v b H H2) as (m & E & Hr). rewrite E.
    assert (A : alike [] v (w_mach v m)) by (exists m; destruct v; reflexivity).
    pose proof (ar_parse [] _ _ b A) as P. destruct (parse_data v b) as [v1|] eqn:E1, (parse_data (w_mach v m) b) as [v2|] eqn:E2; cbn in P; try contradiction; cbn [bind].
    + pose proof (ready_parse _ _ _ Hr E2) as R2. destruct (IH v2 R2 H3) as [A2 B2]. split; [|exact B2].
      pose proof (ar_all [] r _ _ P) as A3. destruct (parse_all v1 r) as [a|], (parse_all v2 r) as [b2|], (vte_input sg v2 r) as [c2|]; cbn in *; try contradiction; auto.
      destruct A3 as (m3 & ->), A2 as (m2 & ->). exists m2. destruct a; reflexivity.
    + split; [exact I|discriminate].
Qed.
