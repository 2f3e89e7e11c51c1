(* A terminal keeps its OSC callback, and what it gives to the client is only added
   to. *)
From Verif Require Import Base BaseProofs Utf8 Symbol Screen ScreenSafe VteData Vte VteKeys VteSafe.

Definition grown (v v' : vte) : Prop := v_oscb v' = v_oscb v /\ exists l, v_out v' = v_out v ++ l.
Definition go_res (v : vte) (r : res vte) : Prop := forall v', r = Ok v' -> grown v v'.
Lemma gr_refl v : grown v v.
Proof. split; [reflexivity|]. exists []. now rewrite app_nil_r. Qed.
Lemma gr_trans a b c : grown a b -> grown b c -> grown a c.
Proof. intros [E (l & F)] [E' (l' & F')]. split; [congruence|]. exists (l ++ l'). rewrite F', F. now rewrite app_assoc. Qed.
Lemma gr_same v v' : v_oscb v' = v_oscb v -> v_out v' = v_out v -> grown v v'.
Proof. intros E F. split; [exact E|]. exists []. now rewrite app_nil_r. Qed.
Lemma go_bind v r f : go_res v r -> (forall w, grown v w -> go_res v (f w)) -> go_res v (bind r f).
Proof. intros H F v' E. destruct r as [w|]; cbn [bind] in E; [|discriminate]. exact (F w (H w eq_refl) v' E). Qed.
Lemma go_ok v w : grown v w -> go_res v (Ok w).
Proof. intros H v' E. inversion E. now subst. Qed.
Lemma go_scr v w o : grown v w -> go_res v (scr w o).
Proof.
  intros H v' E. unfold scr in E. destruct (step (v_con w) o); cbn [bind] in E; [|discriminate]. inversion E; subst.
  eapply gr_trans; [exact H|]. now apply gr_same.
Qed.
Lemma go_from v w r : grown v w -> go_res w r -> go_res v r.
Proof. intros H F v' E. eapply gr_trans; [exact H|]. now apply F. Qed.
Lemma go_sr v b n : grown v (set_reset v b n).
Proof. now apply gr_same. Qed.
Lemma go_emit v e : grown v (emit v e).
Proof. split; [reflexivity|]. now exists [e]. Qed.
Lemma go_send v bs : grown v (vte_send v bs).
Proof.
  unfold vte_send. eapply gr_trans; [|apply go_sr]. eapply gr_trans; [|apply go_emit]. destruct (vfl v VF_PREPEND); [apply go_emit|apply gr_refl].
Qed.
Ltac god := first [ apply gr_refl | assumption | apply go_send | apply go_emit | (now apply gr_same)
  | (eapply gr_trans; [eassumption|]; first [apply go_send | apply go_emit | (now apply gr_same)]) ].
Ltac gol := lazymatch goal with |- go_res _ (Ok _) => apply go_ok; god | |- go_res _ (scr _ _) => apply go_scr; god end.

Lemma go_wc v s : go_res v (write_console v s).
Proof. unfold write_console. destruct (to_rgb _ _); cbn [bind]; [gol|intros v' E; discriminate]. Qed.
Lemma go_restore v : go_res v (restore_state v).
Proof.
  unfold restore_state. cbv zeta. apply go_bind; [gol|]. intros w Hw. destruct (to_rgb _ _) as [a|]; cbn [bind]; [|intros v' E; discriminate].
  apply go_bind; [destruct (vfl _ VF_BCE); gol|]. intros x Hx. apply go_bind.
  - apply go_scr. eapply gr_trans; [exact Hx|]. eapply gr_trans; [|apply go_sr]. now apply gr_same.
  - intros y Hy. gol.
Qed.
Lemma go_reset v : go_res v (vte_reset v).
Proof.
  unfold vte_reset. cbv zeta. apply go_bind; [gol|]. intros w Hw. apply go_bind; [gol|]. intros x Hx. destruct (to_rgb _ _) as [a|]; cbn [bind]; [|intros v' E; discriminate].
  apply go_bind; [gol|]. intros y Hy. gol.
Qed.
Lemma go_hard v : go_res v (vte_hard_reset v).
Proof.
  unfold vte_hard_reset. apply go_bind; [apply go_reset|]. intros w Hw. apply go_bind; [gol|]. intros x Hx. apply go_bind; [gol|]. intros y Hy. gol.
Qed.
Lemma go_execute v d : go_res v (do_execute v d).
Proof.
  unfold do_execute, send_primary_da. repeat match goal with |- go_res _ (if ?b then _ else _) => destruct b end; try gol. apply go_wc.
Qed.
Lemma go_param v d : go_res v (do_param v d).
Proof.
  unfold do_param. cbv zeta. destruct (d =? 59); [destruct (_ <? _); gol|]. destruct (_ <=? _); [gol|].
  destruct (zget _ _); cbn [bind]; [|intros v' E; discriminate]. destruct (_ <? _); [gol|]. destruct (_ && _); [|gol].
  destruct (zmod _ _ _); cbn [bind]; [gol|intros v' E; discriminate].
Qed.
Lemma go_esc v d : go_res v (do_esc v d).
Proof.
  unfold do_esc. destruct (match esc_charset d with Some c => set_charset v c | None => None end) as [w|] eqn:E.
  - apply go_ok. destruct (esc_charset d) as [c|]; [|discriminate]. unfold set_charset in E.
    repeat match type of E with (if ?b then _ else _) = _ => destruct b end; inversion E; now apply gr_same.
  - unfold do_esc_plain, send_primary_da.
    repeat match goal with |- go_res _ (if ?b then _ else _) => destruct b end; try gol; [apply go_hard|apply go_restore].
Qed.
Lemma go_attribute v : go_res v (csi_attribute v).
Proof.
  unfold csi_attribute. cbv zeta. destruct (zget _ _); cbn [bind]; [|intros v' E; discriminate]. apply go_bind.
  - destruct (_ && _); [|gol]. destruct (zmod _ _ _); cbn [bind]; [gol|intros v' E; discriminate].
  - intros w Hw. destruct (sgr_loop _ _ _ _ _ _); cbn [bind]; [|intros v' E; discriminate]. destruct (to_rgb _ _); cbn [bind]; [|intros v' E; discriminate].
    destruct (vfl _ VF_BCE); gol.
Qed.
Lemma go_compat v : go_res v (csi_compat_mode v).
Proof.
  unfold csi_compat_mode. apply go_bind; [apply go_reset|]. intros w Hw. destruct (zget _ 0); cbn [bind]; [|intros v' E; discriminate]. destruct (zget _ 1); cbn [bind]; [|intros v' E; discriminate].
  apply go_ok. cbv zeta. repeat match goal with |- context [if ?b then _ else _] => destruct b end; god.
Qed.
Lemma go_ansi v b x : go_res v (csi_mode_ansi v b x).
Proof.
  unfold csi_mode_ansi, scr_flag. repeat match goal with |- go_res _ (if ?b then _ else _) => destruct b end; gol.
Qed.
Lemma go_dec v b x : go_res v (csi_mode_dec v b x).
Proof.
  unfold csi_mode_dec, scr_flag. cbv zeta.
  repeat match goal with |- go_res _ (if ?b then _ else _) => destruct b end; try gol;
    try (apply go_ok; match goal with |- grown _ (if ?b then _ else _) => destruct b end; first [now apply gr_same | eapply gr_trans; [|apply go_emit]; now apply gr_same]).
  - apply go_bind; [gol|]. intros w Hw. gol.
  - apply go_bind; [gol|]. intros w Hw. gol.
  - apply go_bind; [gol|]. intros w Hw. gol.
Qed.
Lemma go_for n : forall i f v w, grown v w -> (forall j y, go_res y (f j y)) -> go_res v (for_n n i f w).
Proof.
  induction n as [|n IH]; intros i f v w H F; cbn [for_n]; [now apply go_ok|]. apply go_bind; [eapply go_from; [exact H|apply F]|].
  intros y Hy. now apply IH.
Qed.
Lemma go_mode v b : go_res v (csi_mode v b).
Proof.
  unfold csi_mode, forz. apply go_for; [apply gr_refl|]. intros j y. destruct (zget _ _); cbn [bind]; [|intros v' E; discriminate].
  destruct (cfl _ _); [apply go_dec|apply go_ansi].
Qed.
Lemma go_csi v d : go_res v (do_csi v d).
Proof.
  unfold do_csi. cbv zeta. set (w := if v_argc v <? CSI_ARG_MAX then _ else v).
  assert (H : grown v w) by (unfold w; destruct (_ <? _); god). clearbody w.
  destruct (zget _ 0); cbn [bind]; [|intros v' E; discriminate]. destruct (zget _ 1); cbn [bind]; [|intros v' E; discriminate].
  repeat match goal with |- go_res _ (if ?b then _ else _) => destruct b end;
    first [ gol | eapply go_from; [exact H|]; first [apply go_attribute|apply go_reset|apply go_compat|apply go_mode]
          | apply go_bind; [gol|]; intros y Hy; gol | idtac ].
  - eapply go_from; [exact H|]. unfold csi_dev_attr, send_primary_da. destruct (zget _ 0); cbn [bind]; [|intros v' E; discriminate].
    repeat match goal with |- context [if ?b then _ else _] => destruct b end; gol.
  - eapply go_from; [exact H|]. unfold csi_dsr. cbv zeta. destruct (zget _ 0); cbn [bind]; [|intros v' E; discriminate].
    repeat match goal with |- context [if ?b then _ else _] => destruct b end; gol.
Qed.
Lemma go_action v x a : go_res v (do_action v x a).
Proof.
  destruct a; cbn [do_action]; try gol.
  - unfold vte_map. 
    destruct (_ && _); [destruct (v_glt v); (destruct (zget _ _); cbn [bind fst snd]; [|intros v' E; discriminate]); (eapply go_from; [|apply go_wc]); god|].
    destruct (_ && _); [destruct (v_grt v); (destruct (zget _ _); cbn [bind fst snd]; [|intros v' E; discriminate]); (eapply go_from; [|apply go_wc]); god|].
    apply go_wc.
  - apply go_execute.
  - apply go_ok. unfold do_collect. destruct (collect_bit x); god.
  - apply go_param.
  - apply go_esc.
  - apply go_csi.
  - unfold do_osc_collect. cbv zeta. destruct (_ <? _); [gol|]. destruct (zcopy _ _ _); cbn [bind]; [gol|intros v' E; discriminate].
  - unfold do_osc_end. destruct (v_oscb v); [|gol]. destruct (zmod _ _ _); cbn [bind]; [apply go_ok; eapply gr_trans; [|apply go_emit]; now apply gr_same|intros v' E; discriminate].
Qed.
Lemma go_parse v x : go_res v (parse_data v x).
Proof.
  unfold parse_data, do_trans. cbv zeta. destruct (trans (v_state v) x) as [[t|] a]; cbn [fst snd]; [|apply go_action].
  apply go_bind; [apply go_action|]. intros w Hw. apply go_bind; [eapply go_from; [exact Hw|apply go_action]|]. intros y Hy.
  apply go_bind; [eapply go_from; [exact Hy|apply go_action]|]. intros z Hz. gol.
Qed.

Lemma go_byte sg v b : go_res v (input_byte sg v b).
Proof.
  unfold input_byte. destruct (vfl v VF_7BIT); [apply go_parse|]. destruct (vfl v VF_8BIT); [apply go_parse|]. cbv zeta. destruct (umach_out _); [|gol].
  eapply go_from; [|apply go_parse]. now apply gr_same.
Qed.
Lemma go_input sg bs : forall v, go_res v (vte_input sg v bs).
Proof. induction bs as [|b r IH]; intros v; cbn [vte_input]; [gol|]. apply go_bind; [apply go_byte|]. intros w Hw. eapply go_from; [exact Hw|apply IH]. Qed.
Lemma go_write sg v bs : go_res v (vte_write sg v bs).
Proof. rewrite vte_write_eq. apply go_bind; [apply go_input|]. intros w Hw. gol. Qed.
Lemma go_key sg v k a m u v' x : vte_key sg v k a m u = Ok (v', x) -> grown v v'.
Proof.
  unfold vte_key. cbv zeta. set (w := if bit m M_ALT then _ else v). assert (H : grown v w) by (unfold w; destruct (bit m M_ALT); god). clearbody w.
  destruct (key_bytes w k a m u).
  - destruct (vte_write _ _ _) as [y|] eqn:E; cbn [bind]; [|discriminate]. intros X. injection X as <- <-. eapply gr_trans; [exact H|]. exact (go_write sg _ _ _ E).
  - intros X. injection X as <- <-. eapply gr_trans; [exact H|]. now apply gr_same.
Qed.
