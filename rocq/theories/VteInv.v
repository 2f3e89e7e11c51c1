(* Invariant of the terminal and absence of undefined behaviour, outside three
   hazards, for every function of Vte.v. *)
From Verif Require Import Base BaseProofs Utf8 Symbol Screen ScreenInv ScreenSafe VteData Vte VteKeys VteSpec.
From Verif Require Import ScreenSb ScreenSpec ScreenOps Utf8Spec Utf8Proofs.

Definition colour_ok (a : attr) : Prop := -1 <= a_fc a <= 17 /\ -1 <= a_bc a <= 17.
Definition pal_ok (p : palette) : Prop := length p = 18%nat.

Record VInv (v : vte) : Prop := mkVI {
  vi_con : reachable (v_con v);
  vi_argc : 0 <= v_argc v <= 16;
  vi_argl : length (v_argv v) = 16%nat;
  vi_args : Forall (fun a => -1 <= a <= 655359) (v_argv v);
  vi_tail : forall j x, v_argc v < j -> znth (v_argv v) j = Some x -> x <= 0;
  vi_oscl : length (v_osc v) = 128%nat;
  vi_osclen : 0 <= v_osclen v <= 127;
  vi_pal : pal_ok (v_pal v);
  vi_custom : forall p, v_custom v = Some p -> pal_ok p;
  vi_def : colour_ok (v_def v);
  vi_cattr : colour_ok (v_cattr v);
  vi_svattr : colour_ok (sv_attr (v_saved v));
  vi_svx : u32_arg (sv_x (v_saved v)) /\ u32_arg (sv_y (v_saved v));
  vi_alt : u32_arg (v_altx v) /\ u32_arg (v_alty v)
}.
Ltac vinv H := destruct H as [Icon Iargc Iargl Iargs Itail Ioscl Iosclen Ipal Icustom Idef Icattr Isvattr Isvx Ialt].
(* VInv after assignments to fields. *)
Ltac vset := constructor; cbn [v_con v_argc v_argv v_osc v_osclen v_pal v_custom v_def v_cattr v_saved v_altx v_alty
  w_con w_bsd w_mach w_state w_argc w_argv w_cfl w_oscb w_osclen w_osc w_mcb w_mmode w_mev w_mcol w_mrow w_pname w_custom
  w_pal w_def w_cattr w_flags w_gl w_gr w_glt w_grt w_g0 w_g1 w_g2 w_g3 w_saved w_altx w_alty w_out set_reset emit
  sv_x sv_y sv_attr]; try assumption.

Definition safe (r : res vte) : Prop := exists v', r = Ok v' /\ VInv v'.
Lemma safe_ok v : VInv v -> safe (Ok v).
Proof. intros. exists v. auto. Qed.
Lemma safe_bind r f : safe r -> (forall v', VInv v' -> safe (f v')) -> safe (bind r f).
Proof. intros (v1 & -> & I) H. now apply H. Qed.

Lemma VInv_Inv v : VInv v -> Inv (v_con v).
Proof. intros H. apply reachable_Inv, H. Qed.

Lemma scr_ok v o : VInv v -> op_args o -> ~ op_hazard (v_con v) o ->
  exists c, step (v_con v) o = Ok c /\ scr v o = Ok (w_con v c) /\ VInv (w_con v c).
Proof.
  intros H Ha Hh. destruct (step_ok _ _ (VInv_Inv v H) Ha Hh) as (c & E & I).
  exists c. split; [exact E|]. unfold scr. rewrite E. cbn [bind]. split; [reflexivity|].
  pose proof (reachable_step _ _ _ (vi_con v H) Ha E) as R. vinv H. now vset.
Qed.
Lemma scr_safe v o : VInv v -> op_args o -> ~ op_hazard (v_con v) o -> safe (scr v o).
Proof. intros H Ha Hh. destruct (scr_ok v o H Ha Hh) as (c & _ & E & I). rewrite E. now apply safe_ok. Qed.
Lemma scr_ub v o : VInv v -> op_args o -> op_hazard (v_con v) o -> scr v o = Ub.
Proof. intros H Ha Hh. unfold scr. now rewrite (hazard_ub _ _ (VInv_Inv v H) Ha Hh). Qed.

Lemma VInv_state v s : VInv v -> VInv (w_state v s).
Proof. intros H. vinv H. now vset. Qed.
Lemma VInv_mach v s : VInv v -> VInv (w_mach v s).
Proof. intros H. vinv H. now vset. Qed.
Lemma VInv_flags v s : VInv v -> VInv (w_flags v s).
Proof. intros H. vinv H. now vset. Qed.
Lemma VInv_sr v b n : VInv v -> VInv (set_reset v b n).
Proof. apply VInv_flags. Qed.
Lemma VInv_emit v e : VInv v -> VInv (emit v e).
Proof. intros H. vinv H. now vset. Qed.
Lemma VInv_send v bs : VInv v -> VInv (vte_send v bs).
Proof.
  intros H. unfold vte_send. apply VInv_sr, VInv_emit. destruct (vfl v VF_PREPEND); [now apply VInv_emit|auto].
Qed.
Lemma VInv_cattr v a : VInv v -> colour_ok a -> VInv (w_cattr v a).
Proof. intros H Ha. vinv H. now vset. Qed.

(* -- colours -------------------------------------------------------------- *)
Lemma pal_get p i : pal_ok p -> 0 <= i < 18 -> exists r g b, znth p i = Some (r, g, b).
Proof.
  intros Hp Hi. destruct (znth_some p i) as (((r & g) & b) & E); [unfold pal_ok in Hp; lia|]. eauto.
Qed.
(* The palette entry that a colour code selects. *)
Definition fg_entry (a : attr) : Z :=
  if a_bold a && (a_fc a <? 8) then a_fc a + 8 else a_fc a.
Definition rgb_of (p : palette) (i : Z) : Z * Z * Z := match znth p i with Some c => c | None => (0, 0, 0) end.
Definition resolve (p : palette) (a : attr) : attr :=
  let a1 := if 0 <=? a_fc a then
              let '(r, g, b) := rgb_of p (fg_entry a) in set_fcolor a (a_fc a) r g b else a in
  if 0 <=? a_bc a1 then let '(r, g, b) := rgb_of p (a_bc a1) in set_bcolor a1 (a_bc a1) r g b else a1.
Lemma to_rgb_eq p a : pal_ok p -> colour_ok a -> to_rgb p a = Ok (resolve p a).
Proof.
  intros Hp [Hf Hb]. unfold to_rgb, resolve.
  assert (F : to_rgb_f p a = Ok (if 0 <=? a_fc a then
              let '(r, g, b) := rgb_of p (fg_entry a) in set_fcolor a (a_fc a) r g b else a)).
  { unfold to_rgb_f. cbv zeta. destruct (Z.leb_spec 0 (a_fc a)); [|reflexivity]. unfold fg_entry, rgb_of.
    destruct (a_bold a && (a_fc a <? 8)) eqn:E.
    - unfold i8. rewrite Z.mod_small by lia. replace (a_fc a + 8 + 128 - 128) with (a_fc a + 8) by lia.
      unfold COLOR_NUM. replace (18 <=? a_fc a + 8) with false by lia.
      destruct (pal_get p (a_fc a + 8) Hp ltac:(lia)) as (r & g & b & Eg). unfold zget. rewrite Eg. reflexivity.
    - unfold COLOR_NUM. replace (18 <=? a_fc a) with false by lia.
      destruct (pal_get p (a_fc a) Hp ltac:(lia)) as (r & g & b & Eg). unfold zget. rewrite Eg. reflexivity. }
  rewrite F. cbn [bind]. set (a1 := if 0 <=? a_fc a then _ else a).
  assert (B : a_bc a1 = a_bc a).
  { subst a1. destruct (0 <=? a_fc a); [|reflexivity]. destruct (rgb_of _ _) as ((r & g) & b). reflexivity. }
  clearbody a1. unfold to_rgb_b. cbv zeta. rewrite B.
  destruct (Z.leb_spec 0 (a_bc a)); [|reflexivity]. unfold rgb_of, COLOR_NUM. replace (18 <=? a_bc a) with false by lia.
  destruct (pal_get p (a_bc a) Hp ltac:(lia)) as (r & g & b & Eg). unfold zget. rewrite Eg. reflexivity.
Qed.
Lemma resolve_colour p a : colour_ok a -> colour_ok (resolve p a).
Proof.
  intros [Hf Hb]. unfold resolve. destruct (0 <=? a_fc a); [destruct (rgb_of p (fg_entry a)) as ((r & g) & b)|];
    cbv zeta; cbn [set_fcolor a_bc a_fc]; (destruct (0 <=? a_bc a); [destruct (rgb_of p (a_bc a)) as ((r' & g') & b')|]); split; cbn; lia.
Qed.

Lemma legacy_ok : pal_ok color_palette_legacy.
Proof. reflexivity. Qed.
Lemma get_palette_ok n c : (forall p, c = Some p -> pal_ok p) -> pal_ok (get_palette n c).
Proof. intros H. destruct n; cbn; try reflexivity. destruct c; [now apply H|reflexivity]. Qed.

(* -- actions -------------------------------------------------------------- *)
(* A symbol that can be written on any screen in any mode. *)
Definition wide_hazard (c : screen) (sym : Z) : Prop :=
  fl c F_INSERT = true /\ s_sx c = 1 /\ scr_width sym = Ok 2.

Lemma write_console_eq v sym : VInv v ->
  write_console v sym = scr (w_cattr v (resolve (v_pal v) (v_cattr v))) (OWrite sym (resolve (v_pal v) (v_cattr v))).
Proof. intros H. unfold write_console. rewrite to_rgb_eq by apply H. reflexivity. Qed.
Lemma write_console_safe v sym : VInv v -> ~ wide_hazard (v_con v) sym -> safe (write_console v sym).
Proof.
  intros H Hw. rewrite write_console_eq by exact H. apply scr_safe; [|exact I|exact Hw].
  apply VInv_cattr; [exact H|]. apply resolve_colour, H.
Qed.
Lemma write_console_ub v sym : VInv v -> wide_hazard (v_con v) sym -> write_console v sym = Ub.
Proof.
  intros H Hw. rewrite write_console_eq by exact H. apply scr_ub; [|exact I|exact Hw].
  apply VInv_cattr; [exact H|]. apply resolve_colour, H.
Qed.

Lemma VInv_reset_state v : VInv v -> VInv (reset_state v).
Proof.
  intros H. vinv H. unfold reset_state. vset. split; split; lia.
Qed.
Lemma cursor_u32 c : reachable c -> u32_arg (s_cx c) /\ u32_arg (s_cy c).
Proof.
  intros H. apply reachable_Inv in H as (H0 & Hx & Hy). inv0 H0. unfold u32_arg, DIM in *. lia.
Qed.
Lemma VInv_save v : VInv v -> VInv (save_state v).
Proof. intros H. pose proof (cursor_u32 _ (vi_con v H)). vinv H. unfold save_state. now vset. Qed.

Lemma arg_small n : 0 <= n < 4294967296 -> u32_arg n.
Proof. exact (fun x => x). Qed.
Ltac ua := unfold u32_arg, SF_INSERT, SF_WRAP, SF_ORIGIN, SF_INVERSE, SF_HIDE, SF_ALT; lia.

Lemma sf_arg b f : u32_arg f -> op_args (if b : bool then OSetFlags f else OResetFlags f).
Proof. destruct b; auto. Qed.
Lemma sf_haz c b f : ~ op_hazard c (if b : bool then OSetFlags f else OResetFlags f).
Proof. destruct b; cbn; tauto. Qed.

Lemma restore_safe v : VInv v -> safe (restore_state v).
Proof.
  intros H. unfold restore_state. cbv zeta.
  assert (Hpos : op_args (OMoveTo (sv_x (v_saved v)) (sv_y (v_saved v)))) by apply H.
  destruct (scr_ok v _ H Hpos ltac:(cbn; tauto)) as (c & Ec & E1 & I1).
  rewrite E1. cbn [bind].
  rewrite to_rgb_eq; [|apply I1|apply H]. cbn [bind].
  set (a := resolve _ _). assert (Ca : colour_ok a) by (apply resolve_colour, H). clearbody a.
  apply safe_bind.
  - destruct (vfl _ VF_BCE); [apply scr_safe|apply safe_ok]; try apply VInv_cattr; auto; cbn; tauto.
  - intros v3 I3. apply safe_bind.
    + apply scr_safe; [|apply sf_arg; ua|apply sf_haz]. apply VInv_sr. vinv I3. now vset.
    + intros v5 I5. apply scr_safe; [now apply VInv_sr|apply sf_arg; ua|apply sf_haz].
Qed.

Lemma vte_reset_safe v : VInv v -> safe (vte_reset v).
Proof.
  intros H. unfold vte_reset. cbv zeta. apply safe_bind; [apply scr_safe; [now apply VInv_flags|exact I|cbn; tauto]|].
  intros v1 I1. apply safe_bind; [apply scr_safe; [auto|cbn; ua|cbn; tauto]|]. intros v2 I2.
  rewrite to_rgb_eq; [|apply I2|apply I2]. cbn [bind].
  apply safe_bind.
  - apply scr_safe; [|exact I|cbn; tauto]. apply VInv_cattr; [vinv I2; now vset|apply resolve_colour, I2].
  - intros v7 I7. now apply safe_ok, VInv_reset_state.
Qed.
Lemma hard_reset_safe v : VInv v -> safe (vte_hard_reset v).
Proof.
  intros H. unfold vte_hard_reset. apply safe_bind; [now apply vte_reset_safe|]. intros v1 I1.
  apply safe_bind; [apply scr_safe; [auto|exact I|cbn; tauto]|]. intros v2 I2.
  apply safe_bind; [apply scr_safe; [auto|exact I|cbn; tauto]|]. intros v3 I3.
  apply scr_safe; [auto|cbn; ua|cbn; tauto].
Qed.

Ltac scall := apply scr_safe; [auto|cbn; (exact I || ua || (split; ua))|cbn; tauto].

Lemma width_bf : scr_width 0xbf = Ok 1.
Proof. vm_compute. reflexivity. Qed.
Lemma execute_safe v d : VInv v -> safe (do_execute v d).
Proof.
  intros H. unfold do_execute.
  repeat match goal with |- safe (if ?b then _ else _) => destruct b end;
    try scall; try (apply safe_ok; first [exact H|now apply VInv_send|vinv H; now vset]).
  apply write_console_safe; [auto|]. intros (_ & _ & W). rewrite width_bf in W. discriminate.
Qed.
Lemma VInv_clear v : VInv v -> VInv (do_clear v).
Proof.
  intros H. vinv H. unfold do_clear. vset; try lia; try reflexivity.
  - apply Forall_forall. intros x Hx. apply repeat_spec in Hx. lia.
  - intros j x Hj Hx. apply znth_In, repeat_spec in Hx. lia.
Qed.
Lemma VInv_collect v d : VInv v -> VInv (do_collect v d).
Proof. intros H. unfold do_collect. destruct (collect_bit d); [|auto]. vinv H. now vset. Qed.

Lemma argv_get v i : VInv v -> 0 <= i < 16 -> exists x, znth (v_argv v) i = Some x /\ zget (v_argv v) i = Ok x /\ -1 <= x <= 655359.
Proof.
  intros H Hi. destruct (znth_some (v_argv v) i) as (x & E); [rewrite (vi_argl v H); lia|].
  exists x. split; [exact E|]. split; [now apply zget_ok|]. exact (Forall_get _ _ _ _ (vi_args v H) E).
Qed.
Lemma VInv_argc1 v : VInv v -> v_argc v < 16 -> VInv (w_argc v (v_argc v + 1)).
Proof. intros H Hl. vinv H. vset; [lia|]. intros j x Hj. apply Itail. lia. Qed.
Lemma param_safe v d : VInv v -> safe (do_param v d).
Proof.
  intros H. unfold do_param, CSI_ARG_MAX. destruct (d =? 59).
  - apply safe_ok. destruct (Z.ltb_spec (v_argc v) 16); [now apply VInv_argc1|auto].
  - destruct (Z.leb_spec 16 (v_argc v)); [now apply safe_ok|].
    pose proof (vi_argc v H). destruct (argv_get v (v_argc v) H ltac:(lia)) as (cur & En & E & R). rewrite E. cbn [bind].
    destruct (Z.ltb_spec 65535 cur); [now apply safe_ok|].
    destruct ((48 <=? d) && (d <=? 57)) eqn:Ed; [|now apply safe_ok]. cbv zeta.
    rewrite zmod_ok by (rewrite (vi_argl v H); lia). cbn [bind]. apply safe_ok.
    set (new := if cur <=? 0 then _ else _).
    assert (Hn : -1 <= new <= 655359).
    { subst new. destruct (Z.leb_spec cur 0); [rewrite i32_small; lia|]. rewrite u32_small, i32_small by lia. lia. }
    clearbody new. vinv H. vset.
    + now rewrite length_zupd.
    + apply Forall_zupd; auto.
    + intros j x Hj. rewrite znth_zupd. replace (j =? v_argc v) with false by lia. now apply Itail.
Qed.

Lemma set_charset_inv v c v' : VInv v -> set_charset v c = Some v' -> VInv v'.
Proof.
  intros H. unfold set_charset.
  repeat match goal with |- (if ?b then _ else _) = _ -> _ => destruct b end; intros E; inversion E; vinv H; now vset.
Qed.
Lemma esc_safe v d : VInv v -> safe (do_esc v d).
Proof.
  intros H. unfold do_esc. destruct (match esc_charset d with Some c => set_charset v c | None => None end) eqn:E.
  - destruct (esc_charset d); [|discriminate]. apply safe_ok. eapply set_charset_inv; eauto.
  - destruct (_ && _); [now apply safe_ok, VInv_sr|]. destruct (_ && _); [now apply safe_ok, VInv_sr|].
    destruct (v_cfl v =? 0); [|now apply safe_ok]. unfold do_esc_plain.
    repeat match goal with |- safe (if ?b then _ else _) => destruct b end;
      try scall; try (apply safe_ok; first [exact H|now apply VInv_send|now apply VInv_sr|now apply VInv_save|vinv H; now vset]).
    + now apply hard_reset_safe.
    + now apply restore_safe.
Qed.

(* -- SGR ------------------------------------------------------------------ *)
Lemma zslice_cons {A} (l : list A) i n x : znth l i = Some x -> 0 < n -> zslice l i n = x :: zslice l (i + 1) (n - 1).
Proof.
  intros E Hn. pose proof (znth_Some_range _ _ _ E). unfold zslice.
  rewrite znth_pos in E by lia. replace (Z.to_nat (i + 1)) with (S (Z.to_nat i)) by lia.
  replace (Z.to_nat n) with (S (Z.to_nat (n - 1))) by lia.
  revert E. generalize (Z.to_nat i), (Z.to_nat (n - 1)). clear. intros k m. revert l.
  induction k as [|k IH]; intros [|y l] E; try discriminate; cbn in *; [now inversion E|now apply IH].
Qed.
Lemma zslice_0 {A} (l : list A) i n : n <= 0 -> zslice l i n = [].
Proof. intros Hn. unfold zslice. replace (Z.to_nat n) with O by lia. reflexivity. Qed.
Lemma length_zslice' {A} (l : list A) i n : 0 <= i -> 0 <= n -> i + n <= zlen l -> zlen (zslice l i n) = n.
Proof. intros. unfold zslice. rewrite firstn_length, skipn_length. lia. Qed.
Lemma cube_bval k : 0 <= k < 6 -> zget bval k = Ok (cube_level k).
Proof.
  intros H. assert (k = 0 \/ k = 1 \/ k = 2 \/ k = 3 \/ k = 4 \/ k = 5) as C by lia.
  repeat (destruct C as [->|C]; [reflexivity|]). subst. reflexivity.
Qed.

Lemma simple_eq def p a : (p =? 38) || (p =? 48) = false ->
  forall argv argc i, zget argv i = Ok p -> sgr1 def argv argc a i = Ok (sgr_simple def p a, i).
Proof.
  intros Hp argv argc i G. unfold sgr1. rewrite G. cbn [bind]. rewrite Hp.
  repeat match goal with |- (if ?b then Ok ?x else ?y) = _ =>
    let E := fresh "E" in destruct b eqn:E;
    [apply f_equal; apply f_equal2; [|reflexivity]; try apply Z.eqb_eq in E; subst; try reflexivity|] end.
  all: try (assert (R : p = 30 \/ p = 31 \/ p = 32 \/ p = 33 \/ p = 34 \/ p = 35 \/ p = 36 \/ p = 37) by lia;
    repeat (destruct R as [->|R]; [reflexivity|]); subst; reflexivity).
  all: try (assert (R : p = 40 \/ p = 41 \/ p = 42 \/ p = 43 \/ p = 44 \/ p = 45 \/ p = 46 \/ p = 47) by lia;
    repeat (destruct R as [->|R]; [reflexivity|]); subst; reflexivity).
  all: try (assert (R : p = 90 \/ p = 91 \/ p = 92 \/ p = 93 \/ p = 94 \/ p = 95 \/ p = 96 \/ p = 97) by lia;
    repeat (destruct R as [->|R]; [reflexivity|]); subst; reflexivity).
  all: try (assert (R : p = 100 \/ p = 101 \/ p = 102 \/ p = 103 \/ p = 104 \/ p = 105 \/ p = 106 \/ p = 107) by lia;
    repeat (destruct R as [->|R]; [reflexivity|]); subst; reflexivity).
  apply f_equal. apply f_equal2; [|reflexivity]. unfold sgr_simple, on_off.
  repeat match goal with H : (_ && _) = false |- _ => rewrite H; clear H | H : (_ =? _) = false |- _ => rewrite H; clear H end.
  destruct a. reflexivity.
Qed.
Lemma simple_colour def p a : colour_ok def -> colour_ok a -> colour_ok (sgr_simple def p a).
Proof.
  intros [D1 D2] [A1 A2]. unfold sgr_simple. split; cbn [a_fc a_bc].
  - destruct (_ && _) eqn:E; [lia|]. clear E. destruct (_ && _) eqn:E; [lia|]. destruct (_ || _); auto.
  - destruct (_ && _) eqn:E; [lia|]. clear E. destruct (_ && _) eqn:E; [lia|]. destruct (_ || _); auto.
Qed.
Lemma put_colour_ok f c x a : -1 <= c <= 17 -> colour_ok a -> colour_ok (put_colour f (c, x) a).
Proof. intros Hc [A B]. destruct x as ((r & g) & b). destruct f; split; cbn; lia. Qed.

(* One parameter at index i < argc: undefined exactly if it is 38 or 48 at the
   last index of the parameter array, otherwise as the specification says. *)
Lemma sgr1_ok def argv argc a i : length argv = 16%nat -> Forall (fun x => -1 <= x <= 655359) argv ->
  0 <= i < argc -> argc <= 16 -> colour_ok def -> colour_ok a ->
  (exists a' i', sgr1 def argv argc a i = Ok (a', i') /\ colour_ok a' /\ i <= i' < argc
     /\ sgr_list def (zslice argv i (argc - i)) a = sgr_list def (zslice argv (i' + 1) (argc - (i' + 1))) a'
     /\ (argc = 16 -> sgr_dangling (zslice argv i (argc - i)) = sgr_dangling (zslice argv (i' + 1) (argc - (i' + 1))))) \/
  (sgr1 def argv argc a i = Ub /\ argc = 16 /\ sgr_dangling (zslice argv i (argc - i)) = true).
Proof.
  intros Hl Hf Hi Ha Cd Ca.
  assert (G : forall j, 0 <= j < 16 -> exists x, znth argv j = Some x /\ zget argv j = Ok x /\ -1 <= x <= 655359).
  { intros j Hj. destruct (znth_some argv j) as (x & E); [rewrite Hl; lia|]. exists x.
    split; [exact E|]. split; [now apply zget_ok|]. exact (Forall_get _ _ _ _ Hf E). }
  destruct (G i ltac:(lia)) as (p & Ep & Gp & Rp).
  rewrite (zslice_cons argv i (argc - i) p Ep) by lia. cbn [sgr_list sgr_dangling].
  replace (argc - i - 1) with (argc - (i + 1)) by lia.
  destruct ((p =? 38) || (p =? 48)) eqn:Ex.
  2:{ left. exists (sgr_simple def p a), i. split; [now apply simple_eq|]. split; [now apply simple_colour|].
      split; [lia|]. auto. }
  assert (S1 : sgr1 def argv argc a i = do x <- sgr_ext argv argc i;
    match x with
    | None => Ok (a, i)
    | Some (code, r, g, b, i') =>
      Ok (if p =? 38 then set_fcolor a (i8 code) r g b else set_bcolor a (i8 code) r g b, i')
    end).
  { unfold sgr1. rewrite Gp. cbn [bind]. rewrite Ex.
    repeat match goal with |- (if ?b then _ else _) = _ => replace b with false by lia end. reflexivity. }
  rewrite S1. clear S1. unfold sgr_ext. destruct (Z.eq_dec i 15) as [->|Hi15].
  { right. unfold zget at 1. rewrite znth_ge by (rewrite Hl; lia). split; [reflexivity|]. split; [lia|].
    rewrite zslice_0 by lia. reflexivity. }
  left. destruct (G (i + 1) ltac:(lia)) as (m & Em & Gm & Rm). rewrite Gm. cbn [bind].
  set (rest := zslice argv (i + 1) (argc - (i + 1))).
  assert (Rest : (argc = i + 1 /\ rest = []) \/ (i + 1 < argc /\ rest = m :: zslice argv (i + 2) (argc - (i + 2)))).
  { destruct (Z.eq_dec argc (i + 1)); [left; split; [auto|]; apply zslice_0; lia|right; split; [lia|]].
    unfold rest. rewrite (zslice_cons _ _ _ m Em) by lia. f_equal. f_equal; lia. }
  assert (SK : (sgr_list def (p :: rest) a = sgr_list def rest a) -> (argc = 16 -> sgr_dangling (p :: rest) = sgr_dangling rest) ->
    exists a' i', Ok (a, i) = Ok (a', i') /\ colour_ok a' /\ i <= i' < argc /\
    sgr_list def (p :: rest) a = sgr_list def (zslice argv (i' + 1) (argc - (i' + 1))) a' /\
    (argc = 16 -> sgr_dangling (p :: rest) = sgr_dangling (zslice argv (i' + 1) (argc - (i' + 1))))).
  { intros Q1 Q2. exists a, i. split; [reflexivity|]. split; [auto|]. split; [lia|]. split; auto. }
  cbn [sgr_list sgr_dangling] in SK. rewrite Ex in SK.
  assert (P38 : forall code r g b, -1 <= code <= 17 ->
     (if p =? 38 then set_fcolor a (i8 code) r g b else set_bcolor a (i8 code) r g b) = put_colour (p =? 38) (code, (r, g, b)) a).
  { intros. unfold put_colour, set_fcolor, set_bcolor, i8. rewrite Z.mod_small by lia.
    replace (code + 128 - 128) with code by lia. destruct (p =? 38); reflexivity. }
  destruct (Z.eqb_spec m 5) as [->|N5].
  - destruct (Z.leb_spec argc (i + 2)).
    { destruct Rest as [[E ->]|[E ->]]; [apply SK; [reflexivity|lia]|].
      rewrite zslice_0 in * by lia. apply SK; reflexivity. }
    destruct Rest as [[E _]|[_ Rest]]; [lia|].
    destruct (G (i + 2) ltac:(lia)) as (n & En & Gn & Rn). rewrite Gn. cbn [bind].
    rewrite (zslice_cons _ _ _ n En) in Rest by lia. rewrite Rest in *.
    replace (argc - (i + 2) - 1) with (argc - (i + 2 + 1)) in * by lia.
    destruct (Z.ltb_spec n 0); [replace (0 <=? n) with false in * by lia; apply SK; reflexivity|].
    replace (0 <=? n) with true by lia. clear SK.
    unfold indexed. destruct (Z.ltb_spec n 16).
    + cbn [bind]. rewrite P38 by lia. eexists _, _. split; [reflexivity|]. split; [apply put_colour_ok; auto; lia|].
      split; [lia|]. auto.
    + destruct (Z.ltb_spec n 232).
      * rewrite (cube_bval ((n - 16) mod 6)) by lia. cbn [bind]. rewrite cube_bval by lia. cbn [bind].
        rewrite cube_bval by lia. cbn [bind]. rewrite P38 by lia.
        eexists _, _. split; [reflexivity|]. split; [apply put_colour_ok; auto; lia|].
        split; [lia|]. unfold xterm_rgb. replace (n <? 232) with true by lia.
        replace ((n - 16) / 6 / 6 mod 6) with ((n - 16) / 36) by lia. auto.
      * cbn [bind]. rewrite P38 by lia. eexists _, _. split; [reflexivity|]. split; [apply put_colour_ok; auto; lia|].
        split; [lia|]. unfold xterm_rgb. replace (n <? 232) with false by lia. cbv zeta.
        unfold u8. rewrite u32_small by lia. replace ((n - 232) * 10 + 8) with (8 + 10 * (n - 232)) by lia. auto.
  - destruct (Z.eqb_spec m 2) as [->|N2].
    + destruct (Z.leb_spec argc (i + 4)).
      { destruct Rest as [[E ->]|[E ->]]; [apply SK; [reflexivity|lia]|].
        assert (L : zlen (zslice argv (i + 2) (argc - (i + 2))) < 3) by (rewrite length_zslice'; lia).
        destruct (zslice argv (i + 2) (argc - (i + 2))) as [|x1 [|x2 [|x3 l]]]; cbn [length] in L; try lia; apply SK; reflexivity. }
      destruct Rest as [[E _]|[_ Rest]]; [lia|].
      destruct (G (i + 2) ltac:(lia)) as (r & Er & Gr & Rr). rewrite Gr. cbn [bind].
      destruct (G (i + 3) ltac:(lia)) as (g & Eg & Gg & Rg).
      destruct (G (i + 4) ltac:(lia)) as (b & Eb & Gb & Rb).
      rewrite (zslice_cons _ _ _ r Er) in Rest by lia. replace (i + 2 + 1) with (i + 3) in Rest by lia.
      rewrite (zslice_cons _ _ _ g Eg) in Rest by lia. replace (i + 3 + 1) with (i + 4) in Rest by lia.
      rewrite (zslice_cons _ _ _ b Eb) in Rest by lia. rewrite Rest in *.
      replace (argc - (i + 2) - 1 - 1 - 1) with (argc - (i + 4 + 1)) in * by lia.
      destruct (Z.ltb_spec r 0); [replace (0 <=? r) with false in * by lia; apply SK; reflexivity|].
      rewrite Gg. cbn [bind].
      destruct (Z.ltb_spec g 0); [replace (0 <=? g) with false in * by lia; rewrite andb_false_r in *; apply SK; reflexivity|].
      rewrite Gb. cbn [bind].
      destruct (Z.ltb_spec b 0); [replace (0 <=? b) with false in * by lia; rewrite andb_false_r in *; apply SK; reflexivity|].
      replace ((0 <=? r) && (0 <=? g) && (0 <=? b)) with true by lia. cbn [bind]. rewrite P38 by lia.
      eexists _, _. split; [reflexivity|]. split; [apply put_colour_ok; auto; lia|].
      split; [lia|]. auto.
    + assert (Q : (match rest with
        | 5 :: n :: r' => if 0 <=? n then sgr_list def r' (put_colour (p =? 38) (indexed n) a) else sgr_list def rest a
        | 2 :: cr :: cg :: cb :: r' =>
          if (0 <=? cr) && (0 <=? cg) && (0 <=? cb)
          then sgr_list def r' (put_colour (p =? 38) (-1, (cr mod 256, cg mod 256, cb mod 256)) a)
          else sgr_list def rest a
        | _ => sgr_list def rest a end) = sgr_list def rest a).
      { destruct Rest as [[_ ->]|[_ ->]]; [reflexivity|].
        destruct m as [|[m|m|]|m]; try reflexivity; try (destruct m as [m|[m|m|]|]; try reflexivity; lia). }
      assert (Q2 : argc = 16 -> (match rest with
        | [] => true
        | 5 :: n :: r' => if 0 <=? n then sgr_dangling r' else sgr_dangling rest
        | 2 :: cr :: cg :: cb :: r' =>
          if (0 <=? cr) && (0 <=? cg) && (0 <=? cb) then sgr_dangling r' else sgr_dangling rest
        | _ => sgr_dangling rest end) = sgr_dangling rest).
      { intros A. destruct Rest as [[E _]|[_ ->]]; [lia|].
        destruct m as [|[m|m|]|m]; try reflexivity; try (destruct m as [m|[m|m|]|]; try reflexivity; lia). }
      apply SK; auto.
Qed.

Lemma sgr_loop_ok def argv argc : length argv = 16%nat -> Forall (fun x => -1 <= x <= 655359) argv ->
  argc <= 16 -> colour_ok def -> forall fuel a i, 0 <= i <= argc -> argc - i <= Z.of_nat fuel -> colour_ok a ->
  (sgr_loop fuel def argv argc a i = Ok (sgr_list def (zslice argv i (argc - i)) a)
    /\ colour_ok (sgr_list def (zslice argv i (argc - i)) a)
    /\ ~ (argc = 16 /\ sgr_dangling (zslice argv i (argc - i)) = true)) \/
  (sgr_loop fuel def argv argc a i = Ub /\ argc = 16 /\ sgr_dangling (zslice argv i (argc - i)) = true).
Proof.
  intros Hl Hf Ha Cd. induction fuel as [|f IH]; intros a i Hi Hfu Ca; cbn [sgr_loop].
  - replace (i <? argc) with false by lia. left. rewrite zslice_0 by lia. cbn. split; auto. split; auto. intros [_ X]; discriminate.
  - destruct (Z.ltb_spec i argc).
    2:{ left. rewrite zslice_0 by lia. cbn. split; auto. split; auto. intros [_ X]; discriminate. }
    destruct (sgr1_ok def argv argc a i Hl Hf ltac:(lia) Ha Cd Ca) as [(a' & i' & E & C' & R & L & D)|(E & A & D)].
    + rewrite E. cbn [bind fst snd]. rewrite L.
      destruct (IH a' (i' + 1) ltac:(lia) ltac:(lia) C') as [(E' & C2 & N)|(E' & A' & D')].
      * left. split; [exact E'|]. split; [exact C2|]. intros [X Y]. apply N. split; [auto|]. now rewrite <- (D X).
      * right. split; [exact E'|]. split; [exact A'|]. now rewrite (D A').
    + right. rewrite E. auto.
Qed.
