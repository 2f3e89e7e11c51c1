(* More laws of the terminal over reachable states: cursor addressing,
   parameters, rendition, character sets, colours. *)
From Verif Require Import Base BaseProofs Utf8 Utf8Spec Utf8Proofs Symbol SymbolProofs Screen ScreenInv ScreenSpec ScreenOps ScreenSafe ScreenThms VteData Vte VteKeys VteSpec VteInv VteSafe VteFrame VteView VteParse VteCsi VteFx VteText VteStr VteEsc VteReply VteReset VteSave VteDevSpec VteDev VteThms.

(* -- cursor addressing ------------------------------------------------------ *)
(* The terminal changed in nothing but the cursor. *)
Record went (v v' : vte) (x y : Z) : Prop := mkWent {
  wn_rest : core v' = core (w_con v (v_con v'));
  wn_mode : text_mode v';
  wn_x : s_cx (v_con v') = x;
  wn_y : s_cy (v_con v') = y;
  wn_text : same_text (v_con v) (v_con v') /\ s_sb (v_con v') = s_sb (v_con v);
  wn_size : s_sx (v_con v') = s_sx (v_con v) /\ s_sy (v_con v') = s_sy (v_con v);
  wn_region : s_mt (v_con v') = s_mt (v_con v) /\ s_mb (v_con v') = s_mb (v_con v) /\ s_flags (v_con v') = s_flags (v_con v)
}.
Definition goes (sg : bool) (v : vte) (bs : list Z) (x y : Z) : Prop := exists v', vte_input sg v bs = Ok v' /\ went v v' x y.
Lemma acts_goes sg v bs ops c x y : acts sg v bs ops -> run (v_con v) ops = Ok c -> s_cx c = x -> s_cy c = y ->
  same_text (v_con v) c -> s_sb c = s_sb (v_con v) -> s_sx c = s_sx (v_con v) -> s_sy c = s_sy (v_con v) ->
  s_mt c = s_mt (v_con v) -> s_mb c = s_mb (v_con v) -> s_flags c = s_flags (v_con v) -> goes sg v bs x y.
Proof.
  unfold acts. intros A E Ex Ey T B Sx Sy Mt Mb Fl. rewrite E in A. destruct A as (v' & I & C & M). exists v'. split; [exact I|].
  assert (Con : v_con v' = c) by exact (con_core _ _ C). constructor; rewrite ?Con; auto.
Qed.
Lemma one_motion sg v pri fl0 P f o x y : vreachable sg v -> text_mode v -> marker pri = Some fl0 -> Forall pchar P -> 64 <= f <= 126 ->
  screen_calls (v_con v) pri P f = Some [o] -> motion (v_con v) o x y -> goes sg v (csi_bytes pri P f) x y.
Proof.
  intros R T M HP Hf C Mo. pose proof (seq_acts sg v pri fl0 P f [o] (vreachable_inv sg v R) T M HP Hf C) as A.
  destruct (motion_r (v_con v) o x y (reach_con sg v R) Mo) as (c & E & Ex & Ey & Tx & B & Sx & Sy & Mt & Mb & Fl).
  apply (acts_goes sg v _ [o] c x y A); auto. cbn [run]. rewrite E. reflexivity.
Qed.
Lemma same_text_tr s t u : same_text s t -> same_text t u -> same_text s u.
Proof. unfold same_text. intros A B y x. destruct (A y x), (B y x). split; congruence. Qed.
Lemma two_motions sg v pri fl0 P f o x y : vreachable sg v -> text_mode v -> marker pri = Some fl0 -> Forall pchar P -> 64 <= f <= 126 ->
  screen_calls (v_con v) pri P f = Some [o; OLineHome] -> op_args o -> motion (v_con v) o x y -> goes sg v (csi_bytes pri P f) 0 y.
Proof.
  intros R T M HP Hf C Ho Mo. pose proof (seq_acts sg v pri fl0 P f _ (vreachable_inv sg v R) T M HP Hf C) as A.
  destruct (motion_r (v_con v) o x y (reach_con sg v R) Mo) as (c & E & Ex & Ey & Tx & B & Sx & Sy & Mt & Mb & Fl).
  pose proof (reachable_step _ _ _ (reach_con sg v R) Ho E) as Rc.
  destruct (motion_r c OLineHome 0 (s_cy c) Rc (mo_home c)) as (d & E2 & Ex2 & Ey2 & Tx2 & B2 & Sx2 & Sy2 & Mt2 & Mb2 & Fl2).
  apply (acts_goes sg v _ _ d 0 y A); try congruence.
  - cbn [run]. rewrite E. cbn [bind]. rewrite E2. reflexivity.
  - exact (same_text_tr _ _ _ Tx Tx2).
Qed.
Lemma arg1_range P k : Forall pchar P -> 1 <= arg1 P k <= 655359.
Proof. intros H. pose proof (arg_range P k H). unfold arg1. destruct (Z.leb_spec (arg P k) 0); lia. Qed.
(* Where each cursor sequence goes. *)
Definition origin_row (s : screen) (y : Z) : Z := if fl s F_ORIGIN then Z.min (s_mt s + y) (s_mb s) else Z.min y (s_sy s - 1).
Definition cursor_target (s : screen) (P : list Z) (f : Z) : option (Z * Z) :=
  let n := arg1 P 0 in
  if f =? 65 (* CUU *) then Some (s_cx s, Z.max (s_cy s - n) (ceil_row s))
  else if f =? 66 (* CUD *) then Some (s_cx s, Z.min (s_cy s + n) (floor_row s))
  else if f =? 67 (* CUF *) then Some (Z.min (s_cx s + n) (s_sx s - 1), s_cy s)
  else if f =? 68 (* CUB *) then Some (Z.max 0 (cursor_col s - n), s_cy s)
  else if f =? 69 (* CNL *) then Some (0, Z.min (s_cy s + n) (floor_row s))
  else if f =? 70 (* CPL *) then Some (0, Z.max (s_cy s - n) (ceil_row s))
  else if f =? 71 (* CHA *) then Some (Z.min (n - 1) (s_sx s - 1), origin_row s (s_cy s))
  else if (f =? 72) || (f =? 102) (* CUP, HVP *) then Some (Z.min (arg1 P 1 - 1) (s_sx s - 1), origin_row s (n - 1))
  else if f =? 100 (* VPA *) then Some (cursor_col s, origin_row s (n - 1))
  else if f =? 101 (* VPR *) then Some (cursor_col s, origin_row s (s_cy s + n))
  else None.
Lemma screen_bounds s : reachable s -> 0 <= s_cx s < 2 ^ 31 /\ 0 <= s_cy s < s_sy s /\ s_sy s <= 2 ^ 30 /\ 0 <= s_mt s < 2 ^ 30.
Proof.
  intros H. apply reachable_Inv in H. destruct H as (H & Cx & Cy). inv0 H. unfold DIM in *. lia.
Qed.
Lemma cursor_goes sg v pri fl0 P f x y : vreachable sg v -> text_mode v -> marker pri = Some fl0 -> Forall pchar P ->
  cursor_target (v_con v) P f = Some (x, y) -> goes sg v (csi_bytes pri P f) x y.
Proof.
  intros R T M HP C. pose proof (arg1_range P 0 HP) as A0. pose proof (arg1_range P 1 HP) as A1.
  pose proof (screen_bounds (v_con v) (reach_con sg v R)) as (B1 & B2 & B3 & B4).
  assert (U : forall z, 0 <= z < 2 ^ 31 + 655360 -> u32_arg z) by (intros z Hz; unfold u32_arg; lia).
  unfold cursor_target in C. cbv zeta in C.
  destruct (Z.eqb_spec f 65) as [->|N1].
  { injection C as <- <-. apply (one_motion sg v pri fl0 P 65 _ _ _ R T M HP ltac:(lia) eq_refl). apply mo_up. apply U. lia. }
  destruct (Z.eqb_spec f 66) as [->|N2].
  { injection C as <- <-. apply (one_motion sg v pri fl0 P 66 _ _ _ R T M HP ltac:(lia) eq_refl). apply mo_down. apply U. lia. }
  destruct (Z.eqb_spec f 67) as [->|N3].
  { injection C as <- <-. apply (one_motion sg v pri fl0 P 67 _ _ _ R T M HP ltac:(lia) eq_refl). apply mo_right; [apply U|]; lia. }
  destruct (Z.eqb_spec f 68) as [->|N4].
  { injection C as <- <-. apply (one_motion sg v pri fl0 P 68 _ _ _ R T M HP ltac:(lia) eq_refl). apply mo_left; [apply U|]; lia. }
  destruct (Z.eqb_spec f 69) as [->|N5].
  { injection C as <- <-. apply (two_motions sg v pri fl0 P 69 _ (s_cx (v_con v)) _ R T M HP ltac:(lia) eq_refl);
      [apply U; lia|apply mo_down; apply U; lia]. }
  destruct (Z.eqb_spec f 70) as [->|N6].
  { injection C as <- <-. apply (two_motions sg v pri fl0 P 70 _ (s_cx (v_con v)) _ R T M HP ltac:(lia) eq_refl);
      [apply U; lia|apply mo_up; apply U; lia]. }
  destruct (Z.eqb_spec f 71) as [->|N7].
  { injection C as <- <-. apply (one_motion sg v pri fl0 P 71 _ _ _ R T M HP ltac:(lia) eq_refl). apply mo_to; [apply U|apply U|]; lia. }
  destruct ((f =? 72) || (f =? 102)) eqn:N8.
  { injection C as <- <-. assert (D : f = 72 \/ f = 102) by lia.
    destruct D as [->| ->]; [apply (one_motion sg v pri fl0 P 72 _ _ _ R T M HP ltac:(lia) eq_refl)|apply (one_motion sg v pri fl0 P 102 _ _ _ R T M HP ltac:(lia) eq_refl)];
      (apply mo_to; [apply U|apply U|]; lia). }
  destruct (Z.eqb_spec f 100) as [->|N9].
  { injection C as <- <-. apply (one_motion sg v pri fl0 P 100 _ _ _ R T M HP ltac:(lia) eq_refl). apply mo_to; [apply U|apply U|]; lia. }
  destruct (Z.eqb_spec f 101) as [->|N10].
  { injection C as <- <-. apply (one_motion sg v pri fl0 P 101 _ _ _ R T M HP ltac:(lia) eq_refl). apply mo_to; [apply U|apply U|]; lia. }
  discriminate.
Qed.

(* -- parameters ------------------------------------------------------------- *)
Lemma vals_args P : Forall pchar P -> vals (-1) P = map argval (split P).
Proof.
  intros HP. unfold vals. pose proof (VteParse.split_digits P HP) as SD. destruct (split P) as [|h t]; [reflexivity|].
  cbn [map]. inversion SD; subst. now rewrite argval_fold.
Qed.
(* The parameter array before the final character of a sequence. *)
Lemma collected sg v pri fl0 P : vreachable sg v -> ready v -> marker pri = Some fl0 -> Forall pchar P ->
  exists w, vte_input sg v (27 :: 91 :: pri ++ P) = Ok w /\ in_csi_state w /\
    v_argv w = firstn 16 (map argval (split P) ++ repeat (-1) 16) /\ v_argc w = Z.min 16 (zlen (split P) - 1) /\
    core w = core (osc_event v).
Proof.
  intros R Hr Hm HP. pose proof (vreachable_inv sg v R) as H.
  assert (E : exists s', in_csi s' /\ parse_all v (27 :: 91 :: pri ++ P) =
    Ok (withp (w_cfl (do_clear (osc_event v)) fl0) (Z.min 16 (zlen (split P) - 1)) (firstn 16 (map argval (split P) ++ repeat (-1) 16)) s')).
  { cbn [parse_all]. rewrite (esc_eq v H). cbn [bind].
    rewrite csi_intro by reflexivity. cbn [bind]. rewrite parse_all_app.
    destruct (marker_run pri fl0 _ Hm (eq_refl : v_state (w_state (do_clear (w_state (do_clear (osc_event v)) SEsc)) SCsiEntry) = _) eq_refl) as (s & Hs & ->).
    cbn [bind]. set (w := w_state (w_cfl _ fl0) s).
    destruct (param_run P w [] (-1) HP) as (s' & Hs' & ->); [cbn; lia|lia|exact Hs|reflexivity|reflexivity|].
    exists s'. split; [exact Hs'|]. rewrite (vals_args P HP). cbn [app length]. change (Z.of_nat 0) with 0.
    replace (0 + zlen (split P) - 1) with (zlen (split P) - 1) by lia.
    subst w. generalize (osc_event v). intros u. reflexivity. }
  destruct E as (s' & Hs' & E).
  assert (A : Forall ascii (27 :: 91 :: pri ++ P)).
  { pose proof (csi_ascii pri fl0 P 65 Hm HP ltac:(lia)) as A. unfold csi_bytes in A. rewrite app_assoc in A.
    inversion A as [|? ? A1 A2]; subst. inversion A2 as [|? ? A3 A4]; subst. apply Forall_app in A4. destruct A4 as [A4 _]. auto. }
  destruct (ascii_input sg (27 :: 91 :: pri ++ P) v Hr A) as [B _]. rewrite E in B.
  destruct (vte_input sg v (27 :: 91 :: pri ++ P)) as [w|]; cbn in B; [|contradiction]. destruct B as (m & ->).
  eexists. split; [reflexivity|]. split; [destruct Hs' as [-> | ->]; [left|right; left]; reflexivity|]. split; [reflexivity|]. split; [reflexivity|].
  generalize (osc_event v). intros u. reflexivity.
Qed.
(* The values. *)
Lemma argval_exact ds : Forall digit ds -> ds <> [] -> dval ds <= 655359 -> argval ds = dval ds.
Proof. intros D N L. unfold argval. destruct ds; [congruence|]. unfold clip, dval. apply clip_exact; auto; lia. Qed.
Lemma argval_large ds : Forall digit ds -> 65535 < dval ds -> 65535 < argval ds <= 655359.
Proof.
  intros D L. split; [|apply argval_range; exact D]. unfold argval. destruct ds; [cbn in L; lia|]. unfold clip. apply clip_large; auto; lia.
Qed.

(* -- rendition --------------------------------------------------------------- *)
Definition fg_of (a : attr) := (a_fc a, a_fr a, a_fg a, a_fb a).
Definition bg_of (a : attr) := (a_bc a, a_br a, a_bg a, a_bb a).
Lemma keeps_style (g : attr -> bool) on off def :
  (forall p a, g (sgr_simple def p a) = on_off on off p (g a)) -> (forall b c a, g (put_colour b c a) = g a) ->
  forall l a, ~ In 0 l -> ~ In on l -> ~ In off l -> g (sgr_list def l a) = g a.
Proof.
  intros G1 G2 l a N0 N1 N2.
  apply (sgr_keeps g (fun p => (p =? 0) || (p =? on) || (p =? off))).
  - intros p b B _ _. rewrite G1. unfold on_off. destruct (p =? 0), (p =? on), (p =? off); try discriminate; reflexivity.
  - intros p c b _ _. apply G2.
  - intros p Hp. destruct (Z.eqb_spec p 0) as [->|]; [contradiction|]. destruct (Z.eqb_spec p on) as [->|]; [contradiction|].
    destruct (Z.eqb_spec p off) as [->|]; [contradiction|]. reflexivity.
Qed.
Lemma put_bool (g : attr -> bool) : (forall fc bc r1 g1 b1 r2 g2 b2 a, g (mkA fc bc r1 g1 b1 r2 g2 b2 (a_bold a) (a_italic a) (a_underline a) (a_inverse a) (a_protect a) (a_blink a)) = g a) ->
  forall b c a, g (put_colour b c a) = g a.
Proof. intros H b c a. destruct c as (code & ((r & g0) & b0)). unfold put_colour. destruct b; apply H. Qed.
Lemma sgr_unmentioned def l a : ~ In 0 l ->
  (~ In 1 l -> ~ In 22 l -> a_bold (sgr_list def l a) = a_bold a) /\
  (~ In 3 l -> ~ In 23 l -> a_italic (sgr_list def l a) = a_italic a) /\
  (~ In 4 l -> ~ In 24 l -> a_underline (sgr_list def l a) = a_underline a) /\
  (~ In 7 l -> ~ In 27 l -> a_inverse (sgr_list def l a) = a_inverse a) /\
  (~ In 5 l -> ~ In 25 l -> a_blink (sgr_list def l a) = a_blink a) /\
  a_protect (sgr_list def l a) = a_protect a /\
  ((forall p, In p l -> ~ (30 <= p <= 39) /\ ~ (90 <= p <= 97)) -> fg_of (sgr_list def l a) = fg_of a) /\
  ((forall p, In p l -> ~ (40 <= p <= 49) /\ ~ (100 <= p <= 107)) -> bg_of (sgr_list def l a) = bg_of a).
Proof.
  intros N0. repeat match goal with |- _ /\ _ => split end.
  - intros N1 N2. apply (keeps_style a_bold 1 22); auto. apply put_bool. reflexivity.
  - intros N1 N2. apply (keeps_style a_italic 3 23); auto. apply put_bool. reflexivity.
  - intros N1 N2. apply (keeps_style a_underline 4 24); auto. apply put_bool. reflexivity.
  - intros N1 N2. apply (keeps_style a_inverse 7 27); auto. apply put_bool. reflexivity.
  - intros N1 N2. apply (keeps_style a_blink 5 25); auto. apply put_bool. reflexivity.
  - apply (sgr_keeps a_protect (fun _ => false)); auto. intros. apply put_bool. reflexivity.
  - intros N. apply (sgr_keeps fg_of (fun p => from_to 30 39 p || from_to 90 97 p || (p =? 0))).
    + intros p b B _ _. unfold fg_of, sgr_simple, from_to in *. cbn [a_fc a_fr a_fg a_fb].
      replace ((30 <=? p) && (p <=? 37)) with false by lia. replace ((90 <=? p) && (p <=? 97)) with false by lia.
      replace (p =? 39) with false by lia. replace (p =? 0) with false by lia. reflexivity.
    + intros p c b [->| ->] B; [discriminate|]. destruct c as (code & ((r & g0) & b0)). reflexivity.
    + intros p Hp. destruct (N p Hp). unfold from_to. destruct (Z.eqb_spec p 0) as [->|]; [contradiction|]. lia.
  - intros N. apply (sgr_keeps bg_of (fun p => from_to 40 49 p || from_to 100 107 p || (p =? 0))).
    + intros p b B _ _. unfold bg_of, sgr_simple, from_to in *. cbn [a_bc a_br a_bg a_bb].
      replace ((40 <=? p) && (p <=? 47)) with false by lia. replace ((100 <=? p) && (p <=? 107)) with false by lia.
      replace (p =? 49) with false by lia. replace (p =? 0) with false by lia. reflexivity.
    + intros p c b [->| ->] B; [|discriminate]. destruct c as (code & ((r & g0) & b0)). reflexivity.
    + intros p Hp. destruct (N p Hp). unfold from_to. destruct (Z.eqb_spec p 0) as [->|]; [contradiction|]. lia.
Qed.
Lemma sgr_r sg v pri fl0 P : vreachable sg v -> text_mode v -> marker pri = Some fl0 -> Forall pchar P -> ~ sgr_overrun P ->
  exists v' c, vte_input sg v (csi_bytes pri P 109) = Ok v' /\ text_mode v' /\
    core v' = core (w_con (w_cattr v (resolve (v_pal v) (sgr_list (v_def v) (sgr_params (args P)) (v_cattr v)))) c) /\
    (if vfl v VF_BCE then step (v_con v) (OSetDefAttr (v_cattr v')) = Ok c else c = v_con v).
Proof.
  intros R T M HP O. destruct (sgr_seq sg v pri fl0 P (vreachable_inv sg v R) T M HP O) as (v' & c & E & T' & _ & S & C).
  exists v', c. split; [exact E|]. split; [exact T'|]. split; [exact C|].
  assert (A : v_cattr v' = sgr_result v P) by exact (f_equal v_cattr C). rewrite A. exact S.
Qed.

(* -- character sets ----------------------------------------------------------- *)
Lemma table_id c off : (c = CsLower /\ off = 32 \/ c = CsUpper /\ off = 160) -> forall i, 1 <= i <= 94 -> znth (cs_table c) i = Some (off + i).
Proof.
  intros C i Hi.
  assert (K : forallb (fun i => match znth (cs_table CsLower) i, znth (cs_table CsUpper) i with Some a, Some b => (a =? 32 + i) && (b =? 160 + i) | _, _ => false end) (zrange 1 94) = true)
    by (vm_compute; reflexivity).
  pose proof (all_in _ _ _ K i ltac:(lia)) as A. cbv beta in A.
  destruct (znth (cs_table CsLower) i) as [a|] eqn:EL; [|discriminate]. destruct (znth (cs_table CsUpper) i) as [b|] eqn:EU; [|discriminate].
  destruct C as [[-> ->]|[-> ->]]; [rewrite EL|rewrite EU]; f_equal; lia.
Qed.
Lemma mapped_default v cp : default_sets v -> mapped v cp = cp.
Proof.
  intros (L & Rr & GL & GR). unfold mapped. rewrite GL, GR. unfold set_at. rewrite L, Rr.
  destruct ((33 <=? cp) && (cp <=? 126)) eqn:A; [rewrite (table_id CsLower 32) by (auto; lia); lia|].
  destruct ((161 <=? cp) && (cp <=? 254)) eqn:B; [rewrite (table_id CsUpper 160) by (auto; lia); lia|reflexivity].
Qed.
Lemma unshift_default v cp : default_sets v -> unshift v cp = v.
Proof.
  intros (L & Rr & GL & GR). unfold unshift. destruct ((33 <=? cp) && (cp <=? 126)); [destruct v; cbn in GL; subst; reflexivity|].
  destruct ((161 <=? cp) && (cp <=? 254)); [destruct v; cbn in GR; subst; reflexivity|reflexivity].
Qed.
Lemma shown_default v cps : default_sets v -> shown_text v cps = cps /\ unshifts v cps = v.
Proof.
  intros D. unfold unshifts. induction cps as [|c r IH]; [auto|]. cbn [shown_text fold_left]. rewrite mapped_default, unshift_default by exact D.
  destruct IH as [-> ->]. auto.
Qed.
(* A single shift and the two characters after it. *)
Lemma single_shift v g c d r : 33 <= c <= 126 -> 33 <= d <= 126 ->
  shown_text (w_glt v (Some g)) (c :: d :: r) = set_at v g (c - 32) :: set_at v (v_gl v) (d - 32) :: shown_text (w_glt v None) r.
Proof.
  intros Hc Hd. cbn [shown_text]. unfold mapped, unshift.
  replace ((33 <=? c) && (c <=? 126)) with true by lia. replace ((33 <=? d) && (d <=? 126)) with true by lia. reflexivity.
Qed.
(* Without one every character goes through the locked set. *)
Lemma locked_text v cps : v_glt v = None -> Forall (fun c => 33 <= c <= 126) cps -> shown_text v cps = map (fun c => set_at v (v_gl v) (c - 32)) cps.
Proof.
  intros G H. induction H as [|c r Hc _ IH]; [reflexivity|]. cbn [shown_text map]. unfold mapped at 1. rewrite G.
  replace ((33 <=? c) && (c <=? 126)) with true by lia. f_equal.
  assert (U : unshift v c = v).
  { unfold unshift. replace ((33 <=? c) && (c <=? 126)) with true by lia. destruct v; cbn in G; subst; reflexivity. }
  rewrite U. exact IH.
Qed.
Lemma text_r sg v cps bs : vreachable sg v -> text_mode v -> cps <> [] -> Forall graphic cps -> encodes sg (v_flags v) cps bs ->
  match run (v_con v) (map (fun c => OWrite c (resolve (v_pal v) (v_cattr v))) (shown_text v cps)) with
  | Ok c => exists v', vte_input sg v bs = Ok v' /\ text_mode v' /\
      core v' = core (w_con (w_cattr (unshifts v cps) (resolve (v_pal v) (v_cattr v))) c)
  | Ub => vte_input sg v bs = Ub
  end.
Proof.
  intros R T N G E. pose proof (text_acts sg v cps bs (vreachable_inv sg v R) T N G E) as A. unfold writes, cur_attr in A.
  destruct (run (v_con v) _) as [c|]; [|exact A]. destruct A as (v' & A1 & A2 & _ & A3). exists v'. auto.
Qed.

(* -- colours ------------------------------------------------------------------ *)
Definition rgb_at (p : palette) (code : Z) : Z * Z * Z := match znth p code with Some c => c | None => (0, 0, 0) end.
Lemma resolve_says p a :
  let r := resolve p a in
  a_fc r = a_fc a /\ a_bc r = a_bc a /\ a_bold r = a_bold a /\ a_italic r = a_italic a /\ a_underline r = a_underline a /\
  a_inverse r = a_inverse a /\ a_protect r = a_protect a /\ a_blink r = a_blink a /\
  (a_fr r, a_fg r, a_fb r) = (if 0 <=? a_fc a then rgb_at p (if a_bold a && (a_fc a <? 8) then a_fc a + 8 else a_fc a) else (a_fr a, a_fg a, a_fb a)) /\
  (a_br r, a_bg r, a_bb r) = (if 0 <=? a_bc a then rgb_at p (a_bc a) else (a_br a, a_bg a, a_bb a)).
Proof.
  cbv zeta. unfold resolve, rgb_at, fg_entry. fold (rgb_of p). destruct a as [fc bc fr fg fb br bg bb bo it un iv pr bl]; cbn [a_fc a_bc a_bold].
  destruct (0 <=? fc).
  - unfold rgb_of. destruct (match znth p (if bo && (fc <? 8) then fc + 8 else fc) with Some c => c | None => (0, 0, 0) end) as ((r & g) & b).
    unfold set_fcolor. cbn [a_bc a_fc]. destruct (0 <=? bc).
    + destruct (match znth p bc with Some c => c | None => (0, 0, 0) end) as ((r2 & g2) & b2). cbn. auto 12.
    + cbn. auto 12.
  - cbn [a_bc]. destruct (0 <=? bc).
    + unfold rgb_of. destruct (match znth p bc with Some c => c | None => (0, 0, 0) end) as ((r2 & g2) & b2). cbn. auto 12.
    + cbn. auto 12.
Qed.
Lemma colours_r sg v : vreachable sg v ->
  zlen (v_pal v) = 18 /\ -1 <= a_fc (v_cattr v) <= 17 /\ -1 <= a_bc (v_cattr v) <= 17.
Proof.
  intros R. pose proof (vreachable_inv sg v R) as H. pose proof (vi_pal v H) as P. destruct (vi_cattr v H) as [F B].
  unfold pal_ok in P. split; [|split]; lia.
Qed.
