(* C59, C60: what is stored was given, and ids identify what is drawn. *)
From Verif Require Import Base BaseProofs Symbol Wcwidth Screen ScreenInv ScreenSb ScreenSpec ScreenOps ScreenResize ScreenSafe ScreenHist ScreenThms
  Render RenderSpec RenderProofs RenderAge RenderThms SeenSpec SeenProofs.

Theorem stored_given ops s g : run scr_init ops = Ok s -> stored s g -> given ops g.
Proof.
  intros E S. apply (clean_stored (given ops) s); [|exact S].
  assert (Q0 : forall c w a, given ops (c, w, a) -> given ops (c, 0, a)).
  { intros c w a [(A & B & C)|(A & n & B & C & D)]; [left; auto|right; split; [exact A|]; exists n; auto]. }
  refine (q_run (given ops) (fun _ _ _ _ _ => Q0) ops scr_init _ _ s E).
  - apply q_init; left; (split; [reflexivity|]; split; [now right|]); unfold colours; auto.
  - apply Forall_forall. intros o I. destruct o; cbn [brings]; auto.
    + left. split; [reflexivity|]. split; [now right|]. unfold colours. auto.
    + intros n W N. right. split; [exact I|]. exists n. split; [exact W|]. split; [|now right]. destruct (scr_width_ok ch) as (n' & E' & R). assert (n' = n) by congruence. lia.
Qed.

(* -- ids ---------------------------------------------------------------------------------------------------- *)
Lemma lor_pow x n : 0 <= n -> 0 <= x < 2 ^ n -> Z.lor x (Z.shiftl 1 n) = x + 2 ^ n.
Proof.
  intros N X. rewrite Z.shiftl_1_l. assert (L : Z.land x (2 ^ n) = 0).
  { apply Z.bits_inj'. intros m M. rewrite Z.land_spec, Z.bits_0, Z.pow2_bits_eqb by lia. destruct (Z.eqb_spec n m) as [<-|]; [|apply andb_false_r]. rewrite andb_true_r.
    destruct (Z.eq_dec x 0) as [->|X0]; [apply Z.bits_0|]. apply Z.bits_above_log2; [lia|]. apply Z.log2_lt_pow2; lia. }
  rewrite Z.add_nocarry_lxor by exact L. symmetry. now apply Z.lxor_lor.
Qed.
Lemma id_sum ch a : 0 <= ch < 2 ^ 31 -> draw_id ch a = ch + 2 ^ 31 * (Z.b2z (a_bold a) + 2 * Z.b2z (a_italic a) + 4 * Z.b2z (a_underline a) + 8 * Z.b2z (a_inverse a) + 16 * Z.b2z (a_blink a)).
Proof.
  intros C. unfold draw_id. change (2 ^ 31) with 2147483648 in *.
  assert (S : forall (b : bool) n x, 0 <= n -> 0 <= x < 2 ^ n -> (if b then Z.lor x (Z.shiftl 1 n) else x) = x + 2 ^ n * Z.b2z b) by (intros b n x N X; destruct b; cbn [Z.b2z]; [rewrite (lor_pow x n N X)|]; lia).
  assert (B : forall b, 0 <= Z.b2z b <= 1) by (intros []; cbn; lia).
  pose proof (B (a_bold a)). pose proof (B (a_italic a)). pose proof (B (a_underline a)). pose proof (B (a_inverse a)). pose proof (B (a_blink a)). cbv zeta beta.
  rewrite (S (a_bold a) 31) by lia. change (2 ^ 31) with 2147483648.
  rewrite (S (a_italic a) 32) by (change (2 ^ 32) with 4294967296; lia). change (2 ^ 32) with 4294967296.
  rewrite (S (a_underline a) 33) by (change (2 ^ 33) with 8589934592; lia). change (2 ^ 33) with 8589934592.
  rewrite (S (a_inverse a) 34) by (change (2 ^ 34) with 17179869184; lia). change (2 ^ 34) with 17179869184.
  rewrite (S (a_blink a) 35) by (change (2 ^ 35) with 34359738368; lia). change (2 ^ 35) with 34359738368. lia.
Qed.
Lemma b2z_inj a b : Z.b2z a = Z.b2z b -> a = b.
Proof. destruct a, b; cbn; congruence. Qed.
Lemma id_inj ch a ch' a' : 0 <= ch < 2 ^ 31 -> 0 <= ch' < 2 ^ 31 -> (draw_id ch a = draw_id ch' a' <-> ch = ch' /\ style a = style a').
Proof.
  intros C C'. rewrite (id_sum ch a C), (id_sum ch' a' C'). change (2 ^ 31) with 2147483648 in *.
  assert (B : forall b, 0 <= Z.b2z b <= 1) by (intros []; cbn; lia).
  pose proof (B (a_bold a)). pose proof (B (a_italic a)). pose proof (B (a_underline a)). pose proof (B (a_inverse a)). pose proof (B (a_blink a)).
  pose proof (B (a_bold a')). pose proof (B (a_italic a')). pose proof (B (a_underline a')). pose proof (B (a_inverse a')). pose proof (B (a_blink a')). split.
  - set (u := Z.b2z (a_bold a) + _ + _ + _ + _). set (u' := Z.b2z (a_bold a') + _ + _ + _ + _). intros E. assert (EU : ch = ch' /\ u = u') by (clearbody u u'; lia). destruct EU as [-> EU]. split; [reflexivity|]. clear E C C'. unfold u, u' in EU. clear u u'. unfold style.
    assert (E0 : a_bold a = a_bold a') by (apply b2z_inj; lia). rewrite E0 in EU.
    assert (E1 : a_italic a = a_italic a') by (apply b2z_inj; lia). rewrite E1 in EU.
    assert (E2 : a_underline a = a_underline a') by (apply b2z_inj; lia). rewrite E2 in EU.
    assert (E3 : a_inverse a = a_inverse a') by (apply b2z_inj; lia). rewrite E3 in EU.
    assert (E4 : a_blink a = a_blink a') by (apply b2z_inj; lia). congruence.
  - unfold style. intros (-> & E). injection E as -> -> -> -> ->. reflexivity.
Qed.

(* -- the characters drawn ----------------------------------------------------------------------------------- *)
Definition code (g : glyph) : Prop := let '(c, _, _) := g in 0 <= c < 2 ^ 31.
Lemma wide_code ch n : 0 <= ch -> scr_width ch = Ok n -> n <> 0 -> ch < 2 ^ 31.
Proof.
  intros C W N. change (2 ^ 31) with 2147483648. destruct (Z.lt_ge_cases ch 2147483648); [assumption|]. exfalso. unfold scr_width, symbol_width, symbol_get in W. replace (ch <=? UCS4_MAX) with false in W by (unfold UCS4_MAX; lia).
  assert (X : match znth (t_index symtab_new) (u32 (ch - (UCS4_MAX + 1))) with Some (Some s) => s | _ => [0] end = [0]).
  { unfold symtab_new. cbn [t_index]. unfold znth. destruct (_ <? 0); [reflexivity|]. destruct (Z.to_nat _) as [|[|k]]; reflexivity. }
  rewrite X in W. vm_compute in W. congruence.
Qed.
Lemma play_clean acts : forall k k', clean code (k_scr k) -> Forall act_chars acts -> Forall act_args acts -> Inv (k_scr k) -> play k acts = Ok k' -> clean code (k_scr k').
Proof.
  assert (Q0 : forall c w a, code (c, w, a) -> code (c, 0, a)) by auto.
  assert (BR : forall o, act_chars (ACall o) -> brings code o).
  { intros o A. destruct o; cbn [brings]; auto; [unfold code, blank_glyph; lia|]. cbn [act_chars] in A. unfold u32_arg in A. intros n W N. unfold code. split; [lia|]. apply (wide_code ch n); auto; lia. }
  induction acts as [|a r IH]; intros k k' C AC AA D E; cbn [play] in E; [assert (X : k = k') by congruence; now rewrite <- X|].
  inversion AC as [|? ? AC1 AC2]; subst. inversion AA as [|? ? AA1 AA2]; subst. destruct (act_step k a) as [k1|] eqn:E1; [|discriminate]. cbn [bind] in E.
  assert (D1 : Inv (k_scr k1)) by (eapply act_Inv; eauto).
  apply (IH k1 k'); auto. destruct a as [o| |x y]; cbn [act_step] in E1.
  - destruct (step (k_scr k) o) as [s1|] eqn:ES; [|discriminate]. cbn [bind] in E1. assert (X : k_scr k1 = s1) by (assert (Y : k1 = mkCl s1 (k_last k) (k_inc k) (k_full k)) by congruence; now rewrite Y). rewrite X. exact (q_step code (fun _ _ _ _ _ => Q0) (k_scr k) o C (BR o AC1) s1 ES).
  - destruct (draw_lit (k_scr k) D) as (ds & ED & _). rewrite ED in E1. cbn [bind] in E1. assert (X : k_scr k1 = set_rst (k_scr k) false) by (match type of E1 with Ok ?t = _ => assert (Y : k1 = t) by congruence end; now rewrite Y). rewrite X. revert C. now apply clean_same.
  - destruct (step (k_scr k) (OResize x y)) as [s1|] eqn:ES; [|discriminate]. cbn [bind] in E1. assert (X : k_scr k1 = s1) by (assert (Y : k1 = mkCl s1 0 (fun _ _ => None) (fun _ _ => None)) by congruence; now rewrite Y). rewrite X. exact (q_step code (fun _ _ _ _ _ => Q0) (k_scr k) (OResize x y) C I s1 ES).
Qed.
Lemma shown_code s i x : clean code s -> code (shown_cell s i x).
Proof.
  intros C. unfold shown_cell. assert (B : code (blank_glyph (s_def s))) by apply C. destruct (shown_line s i) as [l|] eqn:L; [|exact B]. unfold row_at. destruct (znth (l_cells l) x) as [c|] eqn:E; cbn [option_map]; [|exact B].
  unfold shown_line in L. apply znth_In in L. apply znth_In in E. apply (clean_stored code s); [exact C|]. exists l, c. split; [|auto]. apply in_app_or in L. unfold lines in L. destruct (s_act s); tauto.
Qed.
Lemma drawn_code s ds s' age d : Inv s -> clean code s -> draw s = Ok (ds, s', age) -> In d ds ->
  exists ch, 0 <= ch < 2 ^ 31 /\ d_ch d = [ch] /\ d_id d = draw_id ch (d_attr d).
Proof.
  intros H C E I. destruct (draw_lit s H) as (ds' & E' & L & N). assert (X : ds = ds') by congruence. subst ds'. apply In_znth in I. destruct I as (i & I).
  pose proof (znth_Some_range _ _ _ I) as R. destruct H as (H0 & _). pose proof (i_sx _ H0) as SX. pose proof (Z.div_mod i (s_sx s) ltac:(lia)) as DM. pose proof (Z.mod_pos_bound i (s_sx s) ltac:(lia)) as MB.
  assert (RY : 0 <= i / s_sx s < s_sy s) by (split; [apply Z.div_pos; lia|apply Z.div_lt_upper_bound; lia]).
  specialize (N (i / s_sx s) (i mod s_sx s)). rewrite <- (Z.mul_comm (s_sx s)), <- DM, I in N. specialize (N (conj RY MB)). assert (Y : d = expected s (lit s (i / s_sx s) (i mod s_sx s)) (i / s_sx s) (i mod s_sx s)) by congruence.
  unfold expected, dcall_of in Y. pose proof (shown_code s (i / s_sx s) (i mod s_sx s) C) as K. destruct (shown_cell s (i / s_sx s) (i mod s_sx s)) as [[ch w] a]. rewrite Y. cbn [d_ch d_id d_attr]. exists ch. split; [exact K|]. split; [|reflexivity].
  unfold symbol_get. cbn [code] in K. change (2 ^ 31) with 2147483648 in K. replace (ch <=? UCS4_MAX) with true by (unfold UCS4_MAX; lia). reflexivity.
Qed.
Theorem ids_identify acts k acts' k' ds s age ds' s' age' d d' :
  Forall act_args acts -> Forall act_chars acts -> play (client0 scr_init) acts = Ok k -> draw (k_scr k) = Ok (ds, s, age) -> In d ds ->
  Forall act_args acts' -> Forall act_chars acts' -> play (client0 scr_init) acts' = Ok k' -> draw (k_scr k') = Ok (ds', s', age') -> In d' ds' ->
  (d_id d = d_id d' <-> d_ch d = d_ch d' /\ style (d_attr d) = style (d_attr d')).
Proof.
  assert (G : forall acts k ds s age d, Forall act_args acts -> Forall act_chars acts -> play (client0 scr_init) acts = Ok k -> draw (k_scr k) = Ok (ds, s, age) -> In d ds ->
    exists ch, 0 <= ch < 2 ^ 31 /\ d_ch d = [ch] /\ d_id d = draw_id ch (d_attr d)).
  { clear. intros acts k ds s age d A C P D I. refine (drawn_code (k_scr k) ds s age d _ _ D I); [exact (play_Inv acts (client0 scr_init) k scr_init_Inv A P)|].
    refine (play_clean acts (client0 scr_init) k _ C A scr_init_Inv P). apply q_init; auto; unfold code, blank_glyph; lia. }
  intros A C P D I A' C' P' D' I'. destruct (G acts k ds s age d A C P D I) as (ch & R & E & F). destruct (G acts' k' ds' s' age' d' A' C' P' D' I') as (ch' & R' & E' & F').
  rewrite F, F', E, E', (id_inj ch (d_attr d) ch' (d_attr d') R R'). intuition congruence.
Qed.
