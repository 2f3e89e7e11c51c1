(* Text: decoding, character sets, writing; strings that are skipped or handed
   to the client; recovery. *)
From Verif Require Import Base BaseProofs Utf8 Symbol Screen ScreenInv ScreenSafe VteData Vte VteKeys VteSpec VteView VteInv VteSafe VteFrame VteParse VteCsi.
From Verif Require Import ScreenSb ScreenSpec ScreenOps ScreenThms Utf8Spec Utf8Proofs.

Definition utf8_mode (v : vte) : Prop := vfl v VF_7BIT = false /\ vfl v VF_8BIT = false /\ idle (v_mach v).
Lemma utf8_ready v : utf8_mode v -> ready v.
Proof. intros (_ & _ & H). right. now right. Qed.
Lemma ready_utf8 v : ready v -> vfl v VF_7BIT = false -> vfl v VF_8BIT = false -> utf8_mode v.
Proof. intros [H|[H|H]] A B; [congruence..|]. split; auto. Qed.

Lemma run_input sg cp : forall bs v m' n, vfl v VF_7BIT = false -> vfl v VF_8BIT = false ->
  umach_run sg (v_mach v) bs = (m', repeat None n ++ [Some cp]) -> vte_input sg v bs = parse_data (w_mach v m') cp.
Proof.
  induction bs as [|b r IH]; intros v m' n F7 F8 E; cbn [umach_run] in E.
  - destruct n; discriminate.
  - cbn [vte_input]. unfold input_byte. rewrite F7, F8. cbv zeta.
    destruct (umach_run sg (umach_feed sg (v_mach v) b) r) as [m2 o2] eqn:E2. injection E as -> E.
    destruct n as [|n]; cbn [repeat app] in E.
    + injection E as Eo ->. rewrite Eo. destruct r as [|b2 r2]; [|cbn [umach_run] in E2; destruct (umach_run _ _ r2); discriminate].
      cbn [umach_run] in E2. injection E2 as <-. destruct (parse_data _ cp); reflexivity.
    + injection E as Eo ->. rewrite Eo. cbn [bind]. rewrite (IH (w_mach v (umach_feed sg (v_mach v) b)) m' n F7 F8 E2). reflexivity.
Qed.
Lemma cp_input sg v cp : utf8_mode v -> 0 <= cp <= 0x10FFFF -> vte_input sg v (utf8 cp) = parse_data (w_mach v (mkU UAccept cp)) cp.
Proof. intros (F7 & F8 & Hi) Hc. exact (run_input sg cp (utf8 cp) v _ _ F7 F8 (run_utf8 sg (v_mach v) cp Hi Hc)). Qed.

(* One code point in the mode that the flags select. *)
Lemma enc1 sg v cp bs : ready v -> encodes sg (v_flags v) [cp] bs -> exists m, vte_input sg v bs = parse_data (w_mach v m) cp /\ ready (w_mach v m).
Proof.
  intros R E. unfold encodes in E. fold (vfl v VF_7BIT) (vfl v VF_8BIT) in E. destruct (vfl v VF_7BIT) eqn:F7; [|destruct (vfl v VF_8BIT) eqn:F8].
  - destruct bs as [|b [|? ?]]; try discriminate. injection E as E. exists (v_mach v). cbn [vte_input]. unfold input_byte. rewrite F7, E.
    replace (w_mach v (v_mach v)) with v by (destruct v; reflexivity). split; [|exact R]. destruct (parse_data v cp); reflexivity.
  - destruct bs as [|b [|? ?]]; try discriminate. injection E as E. exists (v_mach v). cbn [vte_input]. unfold input_byte. rewrite F7, F8, E.
    replace (w_mach v (v_mach v)) with v by (destruct v; reflexivity). split; [|exact R]. destruct (parse_data v cp); reflexivity.
  - destruct E as [-> E]. inversion E; subst. exists (mkU UAccept cp). cbn [utf8_text flat_map]. rewrite app_nil_r.
    split; [apply cp_input; auto; now apply ready_utf8|right; right; exact I].
Qed.
Lemma enc_nil sg F bs : encodes sg F [] bs -> bs = [].
Proof. unfold encodes. destruct (bit F _); [destruct bs; easy|]. destruct (bit F _); [destruct bs; easy|]. now intros [-> _]. Qed.
Lemma enc_cons sg F cp cps bs : encodes sg F (cp :: cps) bs -> exists b1 b2, bs = b1 ++ b2 /\ encodes sg F [cp] b1 /\ encodes sg F cps b2.
Proof.
  unfold encodes. destruct (bit F _); [|destruct (bit F _)].
  - destruct bs as [|b r]; [discriminate|]. cbn [map]. intros E. injection E as <- <-. exists [b], r. auto.
  - destruct bs as [|b r]; [discriminate|]. cbn [map]. intros E. injection E as <- <-. exists [b], r. auto.
  - intros [-> E]. inversion E; subst. exists (utf8 cp), (utf8_text cps). split; [reflexivity|]. split; split; auto. cbn [utf8_text flat_map]. now rewrite app_nil_r.
Qed.
Lemma alike_w v m : alike [] v (w_mach v m).
Proof. exists m. destruct v; reflexivity. Qed.
Lemma alike_tr a b c : alike [] a b -> alike [] b c -> alike [] a c.
Proof. intros (m & ->) (m' & ->). exists m'. destruct a; reflexivity. Qed.

(* A string of code points, as long as K holds; the last one may end K. *)
Section Enc.
Context (F : Z) (K : vte -> Prop) (Q : Z -> Prop).
Hypothesis K_mach : forall v m, K v -> K (w_mach v m).
Hypothesis K_flags : forall v, K v -> v_flags v = F.
Hypothesis K_step : forall v cp v', Q cp -> K v -> parse_data v cp = Ok v' -> K v'.
Lemma enc_input sg cps : forall v bs, K v -> ready v -> Forall Q cps -> encodes sg F cps bs ->
  alike_res [] (parse_all v cps) (vte_input sg v bs) /\
  forall v', vte_input sg v bs = Ok v' -> K v' /\ ready v'.
Proof.
  induction cps as [|cp r IH]; intros v bs H Hi Ha He.
  - rewrite (enc_nil _ _ _ He). cbn [parse_all vte_input]. split; [|intros v' E; injection E as <-; auto]. exists (v_mach v). destruct v; reflexivity.
  - inversion Ha as [|? ? Hq Hr]; subst. apply enc_cons in He. destruct He as (b1 & b2 & -> & E1 & E2).
    pose proof (K_flags v H) as HF. rewrite <- HF in E1. destruct (enc1 sg v cp b1 Hi E1) as (m & X & Rm).
    rewrite input_app, X. cbn [parse_all]. set (w := w_mach v m) in *.
    pose proof (ar_parse [] _ _ cp (alike_w v m)) as P. fold w in P.
    destruct (parse_data v cp) as [v1|] eqn:P1, (parse_data w cp) as [v2|] eqn:P2; cbn in P; try contradiction; cbn [bind].
    + assert (K2 : K v2) by (apply (K_step w cp); auto; subst w; auto).
      destruct (IH v2 b2 K2 (ready_parse w cp v2 Rm P2) Hr E2) as [A2 B2]. split; [|exact B2].
      pose proof (ar_all [] r _ _ P) as A3. destruct (parse_all v1 r) as [a|], (parse_all v2 r) as [b3|], (vte_input sg v2 b2) as [c2|]; cbn in *; try contradiction; auto.
      now apply (alike_tr _ b3).
    + split; [exact I|discriminate].
Qed.
Lemma enc_app sg cps cps' bs : encodes sg F (cps ++ cps') bs -> exists b1 b2, bs = b1 ++ b2 /\ encodes sg F cps b1 /\ encodes sg F cps' b2.
Proof.
  revert bs. induction cps as [|c r IH]; intros bs E.
  - exists [], bs. split; [reflexivity|]. split; [|exact E]. unfold encodes. destruct (bit F _); [reflexivity|]. destruct (bit F _); [reflexivity|]. split; [reflexivity|constructor].
  - cbn [app] in E. apply enc_cons in E. destruct E as (b1 & b2 & -> & E1 & E2). apply IH in E2. destruct E2 as (b3 & b4 & -> & E3 & E4).
    exists (b1 ++ b3), b4. split; [now rewrite app_assoc|]. split; [|exact E4]. clear -E1 E3. unfold encodes in *.
    destruct (bit F _); [rewrite map_app, E1, E3; reflexivity|]. destruct (bit F _); [rewrite map_app, E1, E3; reflexivity|].
    destruct E1 as [-> E1], E3 as [-> E3]. split; [cbn [utf8_text flat_map]; now rewrite app_nil_r|]. inversion E1; subst. now constructor.
Qed.
Lemma enc_last sg cps c v bs : K v -> ready v -> Forall Q cps -> encodes sg F (cps ++ [c]) bs ->
  alike_res [] (parse_all v (cps ++ [c])) (vte_input sg v bs) /\ forall v', vte_input sg v bs = Ok v' -> ready v'.
Proof.
  intros H R Ha He. apply enc_app in He. destruct He as (b1 & b2 & -> & E1 & E2).
  destruct (enc_input sg cps v b1 H R Ha E1) as [A B]. rewrite parse_all_app, input_app.
  destruct (parse_all v cps) as [a|], (vte_input sg v b1) as [w|]; cbn in A; try contradiction; [|split; [exact I|discriminate]].
  destruct (B w eq_refl) as [Kw Rw]. cbn [bind parse_all]. pose proof (K_flags w Kw) as HF. rewrite <- HF in E2.
  destruct (enc1 sg w c b2 Rw E2) as (m & X & Rm). rewrite X.
  pose proof (ar_parse [] _ _ c (alike_tr _ _ _ A (alike_w w m))) as P.
  destruct (parse_data a c) as [v1|] eqn:P1, (parse_data (w_mach w m) c) as [v2|] eqn:P2; cbn in P; try contradiction; cbn [bind].
  - split; [exact P|]. intros v' E. injection E as <-. exact (ready_parse _ c v2 Rm P2).
  - split; [exact I|discriminate].
Qed.
End Enc.

(* -- one graphic character ------------------------------------------------- *)
Lemma map_eq v cp : vte_map v cp = Ok (unshift v cp, mapped v cp).
Proof.
  unfold vte_map, unshift, mapped, set_at.
  assert (G : forall g i, 0 <= i < 96 -> exists x, znth (cs_table (gset v g)) i = Some x).
  { intros g i Hi. apply znth_some. rewrite cs_len. lia. }
  destruct ((33 <=? cp) && (cp <=? 126)) eqn:E1; [|destruct ((161 <=? cp) && (cp <=? 254)) eqn:E2; [|reflexivity]].
  - destruct (v_glt v) as [g|] eqn:Eg.
    + destruct (G g (cp - 32) ltac:(lia)) as (x & Ex). unfold zget. rewrite Ex. reflexivity.
    + destruct (G (v_gl v) (cp - 32) ltac:(lia)) as (x & Ex). unfold zget. rewrite Ex. cbn [bind]. destruct v; cbn in Eg; subst; reflexivity.
  - destruct (v_grt v) as [g|] eqn:Eg.
    + destruct (G g (cp - 160) ltac:(lia)) as (x & Ex). unfold zget. rewrite Ex. reflexivity.
    + destruct (G (v_gr v) (cp - 160) ltac:(lia)) as (x & Ex). unfold zget. rewrite Ex. cbn [bind]. destruct v; cbn in Eg; subst; reflexivity.
Qed.
Lemma cs_range c i x : znth (cs_table c) i = Some x -> 0 <= x <= 0x10FFFF.
Proof.
  assert (A : Forall (fun y => (0 <=? y) && (y <=? 0x10FFFF) = true) (cs_table c)).
  { apply Forall_forall. intros y Hy. destruct c; cbn [cs_table] in Hy;
    match type of Hy with In y ?l => assert (F : forallb (fun y => (0 <=? y) && (y <=? 0x10FFFF)) l = true) by (vm_compute; reflexivity) end;
    exact (proj1 (forallb_forall _ _) F y Hy). }
  unfold znth. destruct (i <? 0); [discriminate|]. intros E. apply nth_error_In in E. rewrite Forall_forall in A. specialize (A x E). lia.
Qed.
Lemma mapped_range v cp : 0 <= cp <= 0x10FFFF -> 0 <= mapped v cp <= 0x10FFFF.
Proof.
  intros H. unfold mapped, set_at. repeat match goal with |- context [if ?b then _ else _] => destruct b end; try exact H.
  all: destruct (znth _ _) eqn:E; [exact (cs_range _ _ _ E)|lia].
Qed.
Lemma make_id c : 0 <= c <= 0x10FFFF -> symbol_make c = c.
Proof. intros H. unfold symbol_make. destruct (UCS4_MAX <? c) eqn:E; [unfold UCS4_MAX in E; lia|reflexivity]. Qed.

Definition pick (p : palette) (code entry : Z) (old : Z * Z * Z) : Z * Z * Z := if 0 <=? code then rgb_of p entry else old.
Lemma resolve_flat p a : resolve p a =
  (let '(fr, fg, fb) := pick p (a_fc a) (fg_entry a) (a_fr a, a_fg a, a_fb a) in
   let '(br, bg, bb) := pick p (a_bc a) (a_bc a) (a_br a, a_bg a, a_bb a) in
   mkA (a_fc a) (a_bc a) fr fg fb br bg bb (a_bold a) (a_italic a) (a_underline a) (a_inverse a) (a_protect a) (a_blink a)).
Proof.
  unfold resolve, pick. destruct (0 <=? a_fc a); [destruct (rgb_of p (fg_entry a)) as ((r & g) & b)|];
    cbn [set_fcolor a_bc]; (destruct (0 <=? a_bc a); [destruct (rgb_of p (a_bc a)) as ((r' & g') & b')|]); destruct a; reflexivity.
Qed.
Lemma resolve_idem p a : resolve p (resolve p a) = resolve p a.
Proof.
  rewrite (resolve_flat p a). destruct (pick p (a_fc a) _ _) as ((fr & fg) & fb) eqn:E1, (pick p (a_bc a) _ _) as ((br & bg) & bb) eqn:E2.
  rewrite resolve_flat. cbn [a_fc a_bc a_fr a_fg a_fb a_br a_bg a_bb a_bold a_italic a_underline a_inverse a_protect a_blink].
  unfold fg_entry. cbn [a_bold a_fc]. fold (fg_entry a).
  replace (pick p (a_fc a) (fg_entry a) (fr, fg, fb)) with (fr, fg, fb) by (unfold pick in *; destruct (0 <=? a_fc a); congruence).
  replace (pick p (a_bc a) (a_bc a) (br, bg, bb)) with (br, bg, bb) by (unfold pick in *; destruct (0 <=? a_bc a); congruence).
  reflexivity.
Qed.

Definition cur_attr (v : vte) : attr := resolve (v_pal v) (v_cattr v).
Definition writes (a : attr) (cs : list Z) : list op := map (fun c => OWrite c a) cs.

Lemma graphic_trans cp : graphic cp -> trans SGround cp = (None, APrint).
Proof.
  intros [A B]. unfold trans, trans_any, trans_state, c0, rng.
  repeat match goal with |- context [?x =? ?y] => replace (x =? y) with false by lia end.
  repeat match goal with |- context [(?x <=? cp) && (cp <=? ?y)] => replace ((x <=? cp) && (cp <=? y)) with false by lia end.
  reflexivity.
Qed.
Lemma unshift_VInv v cp : VInv v -> VInv (unshift v cp).
Proof. intros H. unfold unshift. repeat match goal with |- context [if ?b then _ else _] => destruct b end; auto; destruct H; constructor; auto. Qed.
Lemma unshift_con v cp c a : unshift (w_con (w_cattr v a) c) cp = w_con (w_cattr (unshift v cp) a) c.
Proof. unfold unshift. repeat match goal with |- context [if ?b then _ else _] => destruct b end; reflexivity. Qed.
Lemma mapped_con v cp c a : mapped (w_con (w_cattr v a) c) cp = mapped v cp.
Proof. reflexivity. Qed.
Lemma unshift_keep v cp : v_pal (unshift v cp) = v_pal v /\ v_cattr (unshift v cp) = v_cattr v /\ v_con (unshift v cp) = v_con v /\ v_state (unshift v cp) = v_state v /\ v_flags (unshift v cp) = v_flags v /\ v_mach (unshift v cp) = v_mach v.
Proof. unfold unshift. repeat match goal with |- context [if ?b then _ else _] => destruct b end; auto 10. Qed.

Lemma print_eq v cp : VInv v -> v_state v = SGround -> graphic cp ->
  parse_data v cp = scr (w_cattr (unshift v cp) (cur_attr v)) (OWrite (mapped v cp) (cur_attr v)).
Proof.
  intros H Es Hg. unfold parse_data. rewrite Es, graphic_trans by exact Hg. cbv zeta. cbn [fst snd do_trans do_action].
  rewrite map_eq. cbn [bind fst snd]. rewrite write_console_eq by now apply unshift_VInv.
  destruct Hg as [Hr _]. rewrite make_id by (apply mapped_range; lia).
  destruct (unshift_keep v cp) as (A & B & _). rewrite A, B. reflexivity.
Qed.

Lemma shown_con cps : forall v c a, shown_text (w_con (w_cattr v a) c) cps = shown_text v cps.
Proof. induction cps as [|x r IH]; intros v c a; [reflexivity|]. cbn [shown_text]. rewrite mapped_con, unshift_con, IH. reflexivity. Qed.
Lemma unshifts_con cps : forall v c a, unshifts (w_con (w_cattr v a) c) cps = w_con (w_cattr (unshifts v cps) a) c.
Proof. unfold unshifts. induction cps as [|x r IH]; intros v c a; [reflexivity|]. cbn [fold_left]. rewrite unshift_con, IH. reflexivity. Qed.
Lemma unshifts_keep cps : forall v, v_pal (unshifts v cps) = v_pal v /\ v_cattr (unshifts v cps) = v_cattr v /\ v_con (unshifts v cps) = v_con v /\ v_state (unshifts v cps) = v_state v /\ v_flags (unshifts v cps) = v_flags v /\ v_mach (unshifts v cps) = v_mach v.
Proof.
  unfold unshifts. induction cps as [|x r IH]; intros v; [auto 10|]. cbn [fold_left].
  destruct (IH (unshift v x)) as (A & B & C & D & E & F), (unshift_keep v x) as (A' & B' & C' & D' & E' & F').
  rewrite A, B, C, D, E, F. auto 10.
Qed.

Lemma text_parse cps : forall v, VInv v -> v_state v = SGround -> Forall graphic cps -> v_cattr v = cur_attr v ->
  parse_all v cps = do c <- run (v_con v) (writes (cur_attr v) (shown_text v cps)); Ok (w_con (unshifts v cps) c).
Proof.
  induction cps as [|cp r IH]; intros v H Es Hg Hc.
  - cbn [parse_all shown_text writes map run bind]. now destruct v.
  - inversion Hg as [|? ? Hg1 Hg2]; subst. cbn [parse_all shown_text writes map run].
    pose proof (print_eq v cp H Es Hg1) as P. pose proof (parse_meets v cp H) as M. rewrite P in *. unfold scr in *.
    destruct (unshift_keep v cp) as (A & B & C & D & E & F).
    change (v_con (w_cattr (unshift v cp) (cur_attr v))) with (v_con (unshift v cp)) in *. rewrite C in *.
    destruct (step (v_con v) (OWrite (mapped v cp) (cur_attr v))) as [c|]; cbn [bind] in *; [|reflexivity].
    destruct M as [[_ M]|[_ (v1 & M1 & I1)]]; [discriminate|]. injection M1 as <-.
    set (v1 := w_con (w_cattr (unshift v cp) (cur_attr v)) c) in *.
    assert (R : cur_attr v1 = cur_attr v).
    { unfold cur_attr at 1. change (v_pal v1) with (v_pal (unshift v cp)). change (v_cattr v1) with (cur_attr v). rewrite A. unfold cur_attr. apply resolve_idem. }
    rewrite (IH v1 I1 (eq_trans D Es) Hg2 (eq_sym R)). change (v_con v1) with c. rewrite R. subst v1. rewrite shown_con.
    destruct (run c _) as [c'|]; [|reflexivity]. cbn [bind]. rewrite unshifts_con.
    change (unshifts v (cp :: r)) with (unshifts (unshift v cp) r).
    destruct (unshifts_keep r (unshift v cp)) as (_ & B2 & _). rewrite B in B2. rewrite Hc in B2.
    destruct (unshifts (unshift v cp) r). cbn in B2. subst. reflexivity.
Qed.
Lemma cur_cattr v : w_cattr (w_cattr v (cur_attr v)) (cur_attr v) = w_cattr v (cur_attr v).
Proof. destruct v; reflexivity. Qed.
Lemma text_parse1 v cps : VInv v -> v_state v = SGround -> Forall graphic cps -> cps <> [] ->
  parse_all v cps = do c <- run (v_con v) (writes (cur_attr v) (shown_text v cps)); Ok (w_con (w_cattr (unshifts v cps) (cur_attr v)) c).
Proof.
  intros H Es Hg Hn. destruct cps as [|cp r]; [easy|]. inversion Hg as [|? ? Hg1 Hg2]; subst.
  set (w := w_cattr v (cur_attr v)).
  assert (R : cur_attr w = cur_attr v) by (unfold w, cur_attr; cbn [w_cattr v_pal v_cattr]; apply resolve_idem).
  assert (E : parse_all v (cp :: r) = parse_all w (cp :: r)).
  { cbn [parse_all]. rewrite (print_eq v cp H Es Hg1). rewrite (print_eq w cp).
    - rewrite R. f_equal. f_equal.
      unfold w, unshift. repeat match goal with |- context [if ?b then _ else _] => destruct b end; reflexivity.
    - apply VInv_cattr; [exact H|]. apply resolve_colour, H.
    - exact Es.
    - exact Hg1. }
  rewrite E, (text_parse (cp :: r) w).
  - rewrite R. unfold w. rewrite <- (shown_con (cp :: r) v (v_con v) (cur_attr v)). change (v_con (w_cattr v (cur_attr v))) with (v_con v).
    replace (w_con (w_cattr v (cur_attr v)) (v_con v)) with (w_cattr v (cur_attr v)) by (destruct v; reflexivity).
    destruct (run _ _) as [c|]; [|reflexivity]. cbn [bind]. 
    pose proof (unshifts_con (cp :: r) v (v_con v) (cur_attr v)) as U.
    replace (w_con (w_cattr v (cur_attr v)) (v_con v)) with (w_cattr v (cur_attr v)) in U by (destruct v; reflexivity).
    rewrite U. destruct (unshifts v (cp :: r)); reflexivity.
  - apply VInv_cattr; [exact H|]. apply resolve_colour, H.
  - exact Es.
  - exact Hg.
  - rewrite R. reflexivity.
Qed.

(* Text at the level of bytes. *)
Definition ground_in (F : Z) (v : vte) : Prop := VInv v /\ v_state v = SGround /\ v_flags v = F.
Lemma ground_step F v cp v' : graphic cp -> ground_in F v -> parse_data v cp = Ok v' -> ground_in F v'.
Proof.
  intros Hg (H & Es & Ef) E. pose proof (parse_meets v cp H) as M. rewrite (print_eq v cp H Es Hg) in E, M.
  destruct M as [[_ M]|[_ (v1 & M1 & I1)]]; [congruence|]. rewrite M1 in E. injection E as <-. unfold scr in M1.
  destruct (step _ _) as [c|]; [|discriminate]. cbn [bind] in M1. injection M1 as <-.
  destruct (unshift_keep v cp) as (_ & _ & _ & D & X & _). split; [exact I1|]. split; [exact (eq_trans D Es)|exact (eq_trans X Ef)].
Qed.
Lemma text_acts sg v cps bs : VInv v -> text_mode v -> cps <> [] -> Forall graphic cps -> encodes sg (v_flags v) cps bs ->
  match run (v_con v) (writes (cur_attr v) (shown_text v cps)) with
  | Ok c => exists v', vte_input sg v bs = Ok v' /\ text_mode v' /\ VInv v' /\
      core v' = core (w_con (w_cattr (unshifts v cps) (cur_attr v)) c)
  | Ub => vte_input sg v bs = Ub
  end.
Proof.
  intros H [Es R] Hn Hg He.
  destruct (enc_input (v_flags v) (ground_in (v_flags v)) graphic
     (fun w m K => conj (VInv_mach w m (proj1 K)) (proj2 K)) (fun w K => proj2 (proj2 K)) (ground_step (v_flags v))
     sg cps v bs (conj H (conj Es eq_refl)) R Hg He) as [A B].
  rewrite (text_parse1 v cps H Es Hg Hn) in A. destruct (run _ _) as [c|]; cbn [bind] in A.
  - destruct (vte_input sg v bs) as [v'|]; [|contradiction]. destruct (B v' eq_refl) as [(I' & S' & _) R']. exists v'.
    split; [reflexivity|]. split; [split; auto|]. split; [exact I'|]. exact (core_alike _ _ A).
  - destruct (vte_input sg v bs); [contradiction|reflexivity].
Qed.
