(* Saving and restoring the cursor. *)
From Verif Require Import Base BaseProofs Utf8 Symbol Screen ScreenInv ScreenSafe VteData Vte VteKeys VteSpec VteView VteInv VteSafe VteFrame VteParse VteCsi VteFx VteText VteStr VteEsc VteReply VteReset.
From Verif Require Import ScreenSb ScreenSpec ScreenOps ScreenCtl ScreenMove ScreenLaws ScreenAlt ScreenHist ScreenRz ScreenThms Utf8Spec Utf8Proofs.

Definition flag_to (F f : Z) (b : bool) : Z := if b then Z.lor F f else Z.ldiff F f.
Lemma restore_full v : VInv v -> u32_arg (s_mt (v_con v) + sv_y (v_saved v)) ->
  exists c, let sv := v_saved v in let s := v_con v in let a := resolve (v_pal v) (sv_attr sv) in
  restore_state v = Ok (w_con (set_reset (set_reset (w_gr (w_gl (w_cattr v a) (sv_gl sv)) (sv_gr sv)) (sv_wrap sv) VF_WRAP) (sv_origin sv) VF_ORIGIN) c) /\
  s_cx c = Z.min (sv_x sv) (s_sx s - 1) /\
  s_cy c = (if fl s F_ORIGIN then Z.min (s_mt s + sv_y sv) (s_mb s) else Z.min (sv_y sv) (s_sy s - 1)) /\
  s_flags c = flag_to (flag_to (s_flags s) SF_WRAP (sv_wrap sv)) SF_ORIGIN (sv_origin sv) /\
  same_text s c /\ s_sb c = s_sb s /\ s_mt c = s_mt s /\ s_mb c = s_mb s.
Proof.
  intros H U. cbv zeta. set (sv := v_saved v) in *. set (s := v_con v) in *. set (a := resolve (v_pal v) (sv_attr sv)).
  pose proof (vi_svx v H) as [X Y]. fold sv in X, Y. pose proof (vi_con v H) as R. fold s in R.
  destruct (motion_r s (OMoveTo (sv_x sv) (sv_y sv)) _ _ R (mo_to s (sv_x sv) (sv_y sv) X Y (proj2 U))) as (s1 & E1 & M1 & M2 & M3 & M4 & M5 & M6 & M7 & M8 & M9).
  assert (R1 : reachable s1) by (refine (reachable_step s _ s1 R _ E1); cbn; auto).
  assert (D : exists s2, (if vfl v VF_BCE then step s1 (OSetDefAttr a) = Ok s2 else s2 = s1) /\ reachable s2 /\ s_cx s2 = s_cx s1 /\ s_cy s2 = s_cy s1 /\
    s_flags s2 = s_flags s1 /\ same_text s1 s2 /\ s_sb s2 = s_sb s1 /\ s_mt s2 = s_mt s1 /\ s_mb s2 = s_mb s1).
  { destruct (vfl v VF_BCE).
    - exists (set_def s1 a). split; [reflexivity|]. split; [exact (reachable_step s1 (OSetDefAttr a) _ R1 I eq_refl)|].
      repeat match goal with |- _ /\ _ => split end; try reflexivity. intros y x; split; reflexivity.
    - exists s1. repeat match goal with |- _ /\ _ => split end; auto. intros y x; split; reflexivity. }
  destruct D as (s2 & E2 & R2 & D1 & D2 & D3 & D4 & D5 & D6 & D7).
  destruct (flags_law s2 (sv_wrap sv) SF_WRAP R2 ltac:(discriminate) eq_refl) as (s3 & E3 & W1 & W2 & W3 & W4 & W5 & _ & _ & W6 & W7 & _).
  assert (R3 : reachable s3) by (refine (reachable_step s2 _ s3 R2 _ E3); destruct (sv_wrap sv); cbn; unfold u32_arg, SF_WRAP; lia).
  destruct (flags_law s3 (sv_origin sv) SF_ORIGIN R3 ltac:(discriminate) eq_refl) as (s4 & E4 & O1 & O2 & O3 & O4 & O5 & _ & _ & O6 & O7 & _).
  exists s4. split.
  - unfold restore_state. cbv zeta. fold sv. unfold scr at 1. fold s. rewrite E1. cbn [bind].
    change (v_pal (w_con v s1)) with (v_pal v). rewrite to_rgb_eq by apply H. cbn [bind]. fold a.
    change (vfl (w_cattr (w_con v s1) a) VF_BCE) with (vfl v VF_BCE).
    assert (Z1 : (if vfl v VF_BCE then scr (w_cattr (w_con v s1) a) (OSetDefAttr a) else Ok (w_cattr (w_con v s1) a)) = Ok (w_cattr (w_con v s2) a)).
    { destruct (vfl v VF_BCE); [|now rewrite E2]. unfold scr. change (v_con (w_cattr (w_con v s1) a)) with s1. rewrite E2. reflexivity. }
    rewrite Z1. cbn [bind]. unfold scr. change (v_con (set_reset (w_gr (w_gl (w_cattr (w_con v s2) a) (sv_gl sv)) (sv_gr sv)) (sv_wrap sv) VF_WRAP)) with s2.
    rewrite E3. cbn [bind]. match goal with |- context [v_con (set_reset (w_con ?x s3) ?b ?n)] => change (v_con (set_reset (w_con x s3) b n)) with s3 end.
    rewrite E4. cbn [bind]. destruct v; reflexivity.
  - split; [congruence|]. split; [congruence|]. split; [unfold flag_to; rewrite O1, W1, D3, M9; reflexivity|].
    split; [eapply same_text_trans; [exact M3|]; eapply same_text_trans; [exact D4|]; eapply same_text_trans; [exact W2|exact O2]|].
    repeat match goal with |- _ /\ _ => split end; congruence.
Qed.

Lemma flag_to_bit F n b k : 0 <= n -> 0 <= k -> bit (flag_to F (2 ^ n) b) k = if k =? n then b else bit F k.
Proof.
  intros Hn Hk. unfold flag_to, bit. destruct b.
  - rewrite Z.lor_spec, Z.pow2_bits_eqb by lia. rewrite (Z.eqb_sym n k). destruct (k =? n); [apply orb_true_r|apply orb_false_r].
  - rewrite Z.ldiff_spec, Z.pow2_bits_eqb by lia. rewrite (Z.eqb_sym n k). destruct (k =? n); cbn [negb]; [apply andb_false_r|apply andb_true_r].
Qed.
Lemma sr_same v b n : 0 <= n -> vfl (set_reset v b n) n = b.
Proof.
  intros H. unfold vfl, bit. cbn [set_reset w_flags v_flags]. destruct b; [now apply Z.setbit_eq|now apply Z.clearbit_eq].
Qed.
(* What a restore brings back, v being the terminal at the save. *)
Record brought_back (v w w' : vte) : Prop := mkBB {
  bb_x : s_cx (v_con w') = Z.min (s_cx (v_con v)) (s_sx (v_con v) - 1);
  bb_y : s_cy (v_con w') = s_cy (v_con v);
  bb_attr : v_cattr w' = resolve (v_pal w) (v_cattr v);
  bb_gl : v_gl w' = v_gl v;
  bb_gr : v_gr w' = v_gr v;
  bb_wrap : vfl w' VF_WRAP = vfl v VF_WRAP /\ fl (v_con w') F_WRAP = vfl v VF_WRAP;
  bb_origin : vfl w' VF_ORIGIN = vfl v VF_ORIGIN /\ fl (v_con w') F_ORIGIN = vfl v VF_ORIGIN;
  bb_text : same_text (v_con w) (v_con w') /\ s_sb (v_con w') = s_sb (v_con w) }.
Definition saved_by (v : vte) : saved := mkSv (s_cx (v_con v)) (s_cy (v_con v)) (v_cattr v) (v_gl v) (v_gr v) (vfl v VF_WRAP) (vfl v VF_ORIGIN).
Lemma save_restore v w : VInv v -> VInv w -> v_saved w = saved_by v -> s_sx (v_con w) = s_sx (v_con v) -> s_sy (v_con w) = s_sy (v_con v) ->
  fl (v_con w) F_ORIGIN = false -> exists w', restore_state w = Ok w' /\ brought_back v w w'.
Proof.
  intros H HW S X Y O.
  assert (G : 0 <= s_cy (v_con v) < s_sy (v_con v) /\ s_sy (v_con v) <= 1073741824 /\ 0 <= s_mt (v_con w) <= 1073741824).
  { pose proof (VInv_Inv v H) as (I0 & Ix & Iy). pose proof (VInv_Inv w HW) as (J0 & Jx & Jy). split; [|split].
    - inv0 I0. lia.
    - inv0 I0. unfold DIM in *. lia.
    - inv0 J0. unfold DIM in *. lia. }
  destruct (restore_full w HW) as (c & E & A); [rewrite S; cbn [saved_by sv_y]; unfold u32_arg; lia|]. rewrite S, O in A. rewrite S in E. cbv zeta in *.
  cbn [saved_by sv_x sv_y sv_wrap sv_origin sv_attr sv_gl sv_gr] in *. destruct A as (A1 & A2 & A3 & A4 & A5 & _).
  eexists. split; [exact E|]. clear E. rewrite X in A1. rewrite Y in A2.
  set (w1 := w_gr _ _).
  constructor; try reflexivity; try assumption.
  - cbn [w_con v_con]. lia.
  - split.
    + change (vfl (set_reset (set_reset w1 (vfl v VF_WRAP) VF_WRAP) (vfl v VF_ORIGIN) VF_ORIGIN) VF_WRAP = vfl v VF_WRAP).
      rewrite sr_other by (unfold VF_WRAP, VF_ORIGIN; lia). apply sr_same. unfold VF_WRAP; lia.
    + cbn [w_con v_con]. unfold fl. rewrite A3. change SF_ORIGIN with (2 ^ F_ORIGIN). change SF_WRAP with (2 ^ F_WRAP).
      rewrite !flag_to_bit by (unfold F_ORIGIN, F_WRAP; lia). reflexivity.
  - split.
    + change (vfl (set_reset (set_reset w1 (vfl v VF_WRAP) VF_WRAP) (vfl v VF_ORIGIN) VF_ORIGIN) VF_ORIGIN = vfl v VF_ORIGIN).
      apply sr_same. unfold VF_ORIGIN; lia.
    + cbn [w_con v_con]. unfold fl. rewrite A3. change SF_ORIGIN with (2 ^ F_ORIGIN). 
      rewrite !flag_to_bit by (unfold F_ORIGIN, F_WRAP; lia). reflexivity.
  - split; assumption.
Qed.

(* -- what changes the saved state ------------------------------------------- *)
Definition ks (v : vte) (r : res vte) : Prop := forall v', r = Ok v' -> v_saved v' = v_saved v.
Lemma ks_ok v w : v_saved w = v_saved v -> ks v (Ok w).
Proof. intros H v' E. injection E as <-. exact H. Qed.
Lemma ks_bind v r f : ks v r -> (forall w, v_saved w = v_saved v -> ks v (f w)) -> ks v (bind r f).
Proof. intros H F v' E. destruct r as [w|]; cbn [bind] in E; [|discriminate]. exact (F w (H w eq_refl) v' E). Qed.
Lemma ks_scr v w o : v_saved w = v_saved v -> ks v (scr w o).
Proof. intros H v' E. unfold scr in E. destruct (step (v_con w) o); cbn [bind] in E; [|discriminate]. injection E as <-. exact H. Qed.
Lemma ks_from v w r : v_saved w = v_saved v -> ks w r -> ks v r.
Proof. intros H F v' E. rewrite (F v' E). exact H. Qed.
Lemma ks_send v bs : v_saved (vte_send v bs) = v_saved v.
Proof. unfold vte_send. destruct (vfl v VF_PREPEND); reflexivity. Qed.
Ltac kx := let X := fresh "X" in intros ? X; discriminate.
Ltac ksl := lazymatch goal with
  | |- ks _ (Ok _) => apply ks_ok; first [reflexivity | assumption | apply ks_send | (rewrite ks_send; assumption)]
  | |- ks _ (scr _ _) => apply ks_scr; first [reflexivity | assumption] end.
Ltac kif := repeat match goal with |- ks _ (if ?b then _ else _) => destruct b end.
Lemma ks_wc v s : ks v (write_console v s).
Proof. unfold write_console. destruct (to_rgb _ _); cbn [bind]; [ksl|kx]. Qed.
Lemma ks_restore v : ks v (restore_state v).
Proof.
  unfold restore_state. cbv zeta. apply ks_bind; [ksl|]. intros w Hw. destruct (to_rgb _ _) as [a|]; cbn [bind]; [|kx].
  apply ks_bind; [destruct (vfl _ VF_BCE); ksl|]. intros x Hx. apply ks_bind; [ksl|]. intros y Hy. ksl.
Qed.
Lemma ks_execute v d : ks v (do_execute v d).
Proof. unfold do_execute, send_primary_da. kif; try ksl. apply ks_wc. Qed.
Lemma ks_param v d : ks v (do_param v d).
Proof.
  unfold do_param. cbv zeta. destruct (d =? 59); [destruct (_ <? _); ksl|]. destruct (_ <=? _); [ksl|].
  destruct (zget _ _); cbn [bind]; [|kx]. destruct (_ <? _); [ksl|]. destruct (_ && _); [|ksl].
  destruct (zmod _ _ _); cbn [bind]; [ksl|kx].
Qed.
Lemma ks_esc v d : d <> 55 -> d <> 99 -> ks v (do_esc v d).
Proof.
  intros N1 N2. unfold do_esc. destruct (match esc_charset d with Some c => set_charset v c | None => None end) as [w|] eqn:E.
  - apply ks_ok. destruct (esc_charset d) as [c|]; [|discriminate]. unfold set_charset in E.
    repeat match type of E with (if ?b then _ else _) = _ => destruct b end; inversion E; reflexivity.
  - destruct (_ && _); [ksl|]. destruct (_ && _); [ksl|]. destruct (_ =? 0); [|ksl].
    unfold do_esc_plain, send_primary_da. replace (d =? 55) with false by lia. replace (d =? 99) with false by lia.
    kif; try ksl; apply ks_restore.
Qed.
Lemma ks_attribute v : ks v (csi_attribute v).
Proof.
  unfold csi_attribute. cbv zeta. destruct (zget _ _); cbn [bind]; [|kx]. apply ks_bind.
  - destruct (_ && _); [|ksl]. destruct (zmod _ _ _); cbn [bind]; [ksl|kx].
  - intros w Hw. destruct (sgr_loop _ _ _ _ _ _); cbn [bind]; [|kx]. destruct (to_rgb _ _); cbn [bind]; [|kx].
    destruct (vfl _ VF_BCE); ksl.
Qed.
Lemma ks_ansi v b x : ks v (csi_mode_ansi v b x).
Proof. unfold csi_mode_ansi, scr_flag. kif; ksl. Qed.
Lemma ks_dec v b x : ks v (csi_mode_dec v b x).
Proof.
  unfold csi_mode_dec, scr_flag. cbv zeta. kif; try ksl;
    try (apply ks_ok; match goal with |- v_saved (if ?b then _ else _) = _ => destruct b end; reflexivity).
  - apply ks_bind; [ksl|]. intros w Hw. ksl.
  - apply ks_bind; [ksl|]. intros w Hw. ksl.
  - apply ks_bind; [ksl|]. intros w Hw. ksl.
Qed.
Lemma ks_for n : forall i f v w, v_saved w = v_saved v -> (forall j y, ks y (f j y)) -> ks v (for_n n i f w).
Proof.
  induction n as [|n IH]; intros i f v w H F; cbn [for_n]; [now apply ks_ok|]. apply ks_bind; [eapply ks_from; [exact H|apply F]|].
  intros y Hy. now apply IH.
Qed.
Lemma ks_mode v b : ks v (csi_mode v b).
Proof.
  unfold csi_mode, forz. apply ks_for; [reflexivity|]. intros j y. destruct (zget _ _); cbn [bind]; [|kx].
  destruct (cfl _ _); [apply ks_dec|apply ks_ansi].
Qed.
Lemma ks_csi v d : d <> 112 -> ks v (do_csi v d).
Proof.
  intros N. unfold do_csi. cbv zeta. set (w := if v_argc v <? CSI_ARG_MAX then _ else v).
  assert (H : v_saved w = v_saved v) by (unfold w; destruct (_ <? _); reflexivity). clearbody w.
  destruct (zget _ 0); cbn [bind]; [|kx]. destruct (zget _ 1); cbn [bind]; [|kx]. replace (d =? 112) with false by lia.
  kif; first [ ksl | eapply ks_from; [exact H|]; first [apply ks_attribute|apply ks_mode]
          | apply ks_bind; [ksl|]; intros y Hy; ksl | idtac ].
  - eapply ks_from; [exact H|]. unfold csi_dev_attr, send_primary_da. destruct (zget _ 0); cbn [bind]; [|kx].
    repeat match goal with |- context [if ?b then _ else _] => destruct b end; ksl.
  - eapply ks_from; [exact H|]. unfold csi_dsr. cbv zeta. destruct (zget _ 0); cbn [bind]; [|kx].
    repeat match goal with |- context [if ?b then _ else _] => destruct b end; ksl.
Qed.
(* The code points that save or reset, in the states in which they do. *)
Definition saves (v : vte) (cp : Z) : Prop :=
  ((v_state v = SEsc \/ v_state v = SEscInt) /\ (cp = 55 \/ cp = 99)) \/
  ((v_state v = SCsiEntry \/ v_state v = SCsiParam \/ v_state v = SCsiInt) /\ cp = 112).
Lemma ks_action v w cp a : v_state w = v_state v -> (exists t, trans (v_state v) cp = (t, a)) -> ~ saves v cp -> ks w (do_action w cp a).
Proof.
  intros E (t & T) N. destruct a; cbn [do_action]; try (apply ks_ok; reflexivity).
  - rewrite map_eq. cbn [bind fst snd]. eapply ks_from; [|apply ks_wc]. unfold unshift. destruct (_ && _); [reflexivity|]. destruct (_ && _); reflexivity.
  - apply ks_execute.
  - apply ks_ok. unfold do_collect. destruct (collect_bit cp); reflexivity.
  - apply ks_param.
  - apply trans_esc in T. apply ks_esc; intros ->; apply N; left; auto.
  - apply trans_csi in T. apply ks_csi; intros ->; apply N; right; auto.
  - unfold do_osc_collect. cbv zeta. destruct (_ <? _); [ksl|]. destruct (zcopy _ _ _); cbn [bind]; [ksl|kx].
  - unfold do_osc_end. destruct (v_oscb w); [|ksl]. destruct (zmod _ _ _); cbn [bind]; [ksl|kx].
Qed.
Lemma ks_exit v x s : ks v (do_action v x (exit_action s)).
Proof.
  destruct s; cbn [exit_action do_action]; try (apply ks_ok; reflexivity).
  unfold do_osc_end. destruct (v_oscb v); [|ksl]. destruct (zmod _ _ _); cbn [bind]; [ksl|kx].
Qed.
Lemma ks_entry v x s : ks v (do_action v x (entry_action s)).
Proof. destruct s; cbn [entry_action do_action]; apply ks_ok; reflexivity. Qed.
Lemma ks_parse v cp : VInv v -> ~ saves v cp -> ks v (parse_data v cp).
Proof.
  intros H N. unfold parse_data, do_trans. cbv zeta. destruct (trans (v_state v) cp) as [[t|] a] eqn:T; cbn [fst snd].
  - destruct (exit_eq v cp H) as (l & E). pose proof (ks_exit v cp (v_state v)) as S. rewrite E in *. cbn [bind].
    eapply ks_from; [exact (S _ eq_refl)|]. apply ks_bind.
    + apply (ks_action v); eauto. destruct v; unfold osc_event; cbn. repeat match goal with |- context [match ?b with _ => _ end] => destruct b end; reflexivity.
    + intros w Hw. apply ks_bind; [eapply ks_from; [exact Hw|apply ks_entry]|]. intros x Hx. ksl.
  - apply (ks_action v); eauto.
Qed.
Lemma ks_byte sg v b : VInv v -> (forall cp, delivers sg v b = Some cp -> ~ saves v cp) -> ks v (input_byte sg v b).
Proof.
  intros H N. unfold input_byte, delivers in *. destruct (vfl v VF_7BIT); [apply ks_parse; auto|]. destruct (vfl v VF_8BIT); [apply ks_parse; auto|].
  cbv zeta. assert (I1 : VInv (w_mach v (umach_feed sg (v_mach v) b))) by now apply VInv_mach.
  destruct (umach_out _) as [cp|] eqn:U; [|now apply ks_ok]. eapply ks_from; [|apply ks_parse; [exact I1|]]; [reflexivity|].
  exact (N cp eq_refl).
Qed.
Lemma ks_input sg bs : forall v, VInv v ->
  (forall p b q w cp, bs = p ++ b :: q -> vte_input sg v p = Ok w -> delivers sg w b = Some cp -> ~ saves w cp) -> ks v (vte_input sg v bs).
Proof.
  induction bs as [|b t IH]; intros v H N; cbn [vte_input]; [now apply ks_ok|].
  intros v' E. destruct (input_byte sg v b) as [w|] eqn:B; cbn [bind] in E; [|discriminate].
  assert (I1 : VInv w) by (apply (input_inv sg [b] v w); [exact H|cbn [vte_input]; rewrite B; reflexivity]).
  rewrite <- (ks_byte sg v b H (fun cp D => N [] b t v cp eq_refl eq_refl D) w B).
  refine (IH w I1 _ v' E). intros p b0 q x cp EQ VI D. refine (N (b :: p) b0 q x cp _ _ D); [now rewrite EQ|].
  cbn [vte_input]. rewrite B. exact VI.
Qed.
Lemma bb_core v w w' x : brought_back v w w' -> core x = core w' -> brought_back v w x.
Proof.
  intros [A1 A2 A3 A4 A5 A6 A7 A8] C.
  assert (F1 : v_con x = v_con w') by now apply con_core.
  assert (F2 : v_cattr x = v_cattr w') by (change (v_cattr (core x) = v_cattr (core w')); now rewrite C).
  assert (F3 : v_gl x = v_gl w') by (change (v_gl (core x) = v_gl (core w')); now rewrite C).
  assert (F4 : v_gr x = v_gr w') by (change (v_gr (core x) = v_gr (core w')); now rewrite C).
  assert (F5 : v_flags x = v_flags w') by (change (v_flags (core x) = v_flags (core w')); now rewrite C).
  unfold vfl in *. constructor; unfold vfl; rewrite ?F1, ?F2, ?F3, ?F4, ?F5; assumption.
Qed.
(* ESC 7, any input without another save or reset, ESC 8. *)
Lemma save_input_restore sg v bs v1 v2 : VInv v -> text_mode v -> vte_input sg v [27; 55] = Ok v1 ->
  (forall p b q w cp, bs = p ++ b :: q -> vte_input sg v1 p = Ok w -> delivers sg w b = Some cp -> ~ saves w cp) ->
  vte_input sg v1 bs = Ok v2 -> text_mode v2 -> s_sx (v_con v2) = s_sx (v_con v) -> s_sy (v_con v2) = s_sy (v_con v) -> fl (v_con v2) F_ORIGIN = false ->
  exists v3, vte_input sg v2 [27; 56] = Ok v3 /\ text_mode v3 /\ brought_back v v2 v3.
Proof.
  intros H T E1 N E2 T2 X Y O.
  destruct (save_seq sg v [27; 55] H T (encodes_low sg _ [27; 55] ltac:(repeat constructor; unfold ascii; lia))) as (v1' & E1' & C1 & T1 & I1).
  assert (v1' = v1) by congruence. subst v1'. pose proof (ks_input sg bs v1 I1 N v2 E2) as S.
  assert (SB : v_saved v1 = saved_by v) by (change (v_saved (core v1) = v_saved (core (save_state v))); now rewrite C1).
  pose proof (input_inv sg bs v1 v2 I1 E2) as I2.
  destruct (save_restore v v2 H I2 ltac:(congruence) X Y O) as (w' & R & B).
  pose proof (restore_seq sg v2 [27; 56] I2 T2 (encodes_low sg _ [27; 56] ltac:(repeat constructor; unfold ascii; lia))) as G. rewrite R in G.
  destruct G as (v3 & E3 & C3 & T3 & _). exists v3. split; [exact E3|]. split; [exact T3|]. exact (bb_core _ _ _ _ B C3).
Qed.
