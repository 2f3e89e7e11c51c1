(* Laws of the terminal in the form in which the property files state them,
   over reachable terminals. *)
From Verif Require Import Base BaseProofs Utf8 Utf8Spec Utf8Proofs Symbol SymbolProofs Screen ScreenInv ScreenSpec ScreenOps ScreenSafe ScreenThms VteData Vte VteKeys VteSpec VteInv VteSafe VteFrame VteView VteParse VteCsi VteFx VteText VteStr VteEsc VteReply VteReset VteSave VteDevSpec VteDev.

Lemma reach_con sg v : vreachable sg v -> reachable (v_con v).
Proof. intros R. exact (vi_con v (vreachable_inv sg v R)). Qed.
Lemma reach_input sg v bs v' : vreachable sg v -> vte_input sg v bs = Ok v' -> vreachable sg v'.
Proof. intros R E. exact (vreachable_step sg v (VInput bs) v' R I E). Qed.

(* -- the three hazards ------------------------------------------------------ *)
Definition in_csi_state (v : vte) : Prop := v_state v = SCsiEntry \/ v_state v = SCsiParam \/ v_state v = SCsiInt.
(* A wide character in insert mode on a screen of one column. *)
Definition wide_insert (v : vte) (cp : Z) : Prop :=
  v_state v = SGround /\ fl (v_con v) F_INSERT = true /\ s_sx (v_con v) = 1 /\ scr_width (symbol_make (mapped v cp)) = Ok 2.
(* CSI Z with the cursor beyond the end of the tab ruler. *)
Definition tab_beyond (v : vte) (cp : Z) : Prop :=
  in_csi_state v /\ cp = 90 /\ zlen (s_tabs (v_con v)) < s_cx (v_con v).
(* CSI m whose sixteenth parameter is a colour introducer. *)
Definition sgr_beyond (v : vte) (cp : Z) : Prop :=
  in_csi_state v /\ cp = 109 /\ 15 <= v_argc v /\ sgr_dangling (v_argv v) = true.
Definition hazard (sg : bool) (v : vte) (b : Z) : Prop :=
  exists cp, delivers sg v b = Some cp /\ (wide_insert v cp \/ tab_beyond v cp \/ sgr_beyond v cp).

Lemma narrow_controls : forallb (fun c => match scr_width (symbol_make c) with Ok 2 => false | Ok _ => true | Ub => true end) (zrange 0 33 ++ zrange 127 33) = true.
Proof. vm_compute. reflexivity. Qed.
Lemma ground_print cp : snd (trans SGround cp) = APrint \/ (0 <= cp <= 32 \/ 127 <= cp <= 159).
Proof.
  unfold trans, trans_any, trans_state, c0, rng.
  repeat match goal with |- context [if ?b then _ else _] => destruct b eqn:? end; auto; right; lia.
Qed.
Lemma print_ground st cp : snd (trans st cp) = APrint -> st = SGround.
Proof.
  intros E. destruct st; auto; exfalso; unfold trans, trans_any, trans_state in E;
    repeat match type of E with context [if ?b then _ else _] => destruct b end; discriminate.
Qed.
Lemma csi_final st cp : st = SCsiEntry \/ st = SCsiParam \/ st = SCsiInt -> cp = 90 \/ cp = 109 -> snd (trans st cp) = ACsi.
Proof. intros [->|[->| ->]] [->| ->]; reflexivity. Qed.
Lemma wide_prints v cp : wide_insert v cp -> snd (trans SGround cp) = APrint.
Proof.
  intros (_ & _ & _ & W). destruct (ground_print cp) as [E|R]; [exact E|exfalso].
  assert (M : mapped v cp = cp).
  { unfold mapped. destruct ((33 <=? cp) && (cp <=? 126)) eqn:A; [lia|]. destruct ((161 <=? cp) && (cp <=? 254)) eqn:B; [lia|reflexivity]. }
  rewrite M in W. pose proof narrow_controls as N. rewrite forallb_forall in N.
  assert (I0 : In cp (zrange 0 33 ++ zrange 127 33)) by (apply in_or_app; destruct R; [left|right]; apply zrange_in; lia).
  specialize (N cp I0). cbv beta in N. rewrite W in N. discriminate.
Qed.
Lemma delivers_cp sg v b : delivers sg v b = snd (byte_cp sg v b).
Proof.
  unfold delivers, byte_cp. destruct (vfl v VF_7BIT); [reflexivity|]. destruct (vfl v VF_8BIT); [reflexivity|]. reflexivity.
Qed.
Lemma hazard_iff sg v b : byte_hazard sg v b <-> hazard sg v b.
Proof.
  unfold byte_hazard, hazard. split; intros (cp & D & H); exists cp; rewrite delivers_cp in *; (split; [exact D|]).
  - unfold parse_hazard in H. destruct (trans (v_state v) cp) as [t a] eqn:T. cbn [snd] in H. destruct a; cbn [action_hazard] in H; try contradiction.
    + left. pose proof (print_ground (v_state v) cp) as G. rewrite T in G. unfold wide_hazard, shown in H. rewrite map_eq in H.
      destruct H as (A & B & C). unfold wide_insert. auto.
    + right. apply trans_csi in T. destruct H as [[E L]|(E & L & G)]; [left|right]; unfold tab_beyond, sgr_beyond, in_csi_state; auto.
  - unfold parse_hazard. destruct H as [W|[T|S]].
    + pose proof (wide_prints v cp W) as P. destruct W as (G & A & B & C). rewrite G, P. cbn [action_hazard]. unfold wide_hazard, shown. rewrite map_eq. auto.
    + destruct T as (C & -> & L). rewrite (csi_final _ 90 C) by auto. left. auto.
    + destruct S as (C & -> & L & G). rewrite (csi_final _ 109 C) by auto. right. auto.
Qed.
Lemma input_exact sg v bs : vreachable sg v ->
  (vte_input sg v bs = Ub <-> exists pre b post w, bs = pre ++ b :: post /\ vte_input sg v pre = Ok w /\ hazard sg w b).
Proof.
  intros R. pose proof (vreachable_inv sg v R) as H. rewrite (input_ub sg bs v H). split; intros (p & b & q & w & A & B & C); exists p, b, q, w;
    (split; [exact A|]); (split; [exact B|]); now apply hazard_iff.
Qed.

(* -- modes ------------------------------------------------------------------ *)
Definition flag_call (F : Z) (o : op) : Z := match o with OSetFlags f => Z.lor F f | OResetFlags f => Z.ldiff F f | _ => F end.
Definition flags_after (l : list op) (F : Z) : Z := fold_left flag_call l F.
Lemma only_self s : only_flags s s (s_flags s).
Proof. unfold only_flags. repeat match goal with |- _ /\ _ => split end; auto. intros y x; split; reflexivity. Qed.
Lemma one_call s (set : bool) f : reachable s -> f <> 0 -> bit f F_ALT = false ->
  exists c, run s [if set then OSetFlags f else OResetFlags f] = Ok c /\
    only_flags s c (flags_after [if set then OSetFlags f else OResetFlags f] (s_flags s)).
Proof.
  intros R N B. destruct (flags_law s set f R N B) as (c & E & O). exists c. split; [cbn [run]; rewrite E; reflexivity|].
  destruct set; exact O.
Qed.
Lemma mode_call s dec set n : reachable s -> exists c,
  run s (mode_screen dec set n) = Ok c /\ only_flags s c (flags_after (mode_screen dec set n) (s_flags s)).
Proof.
  intros R. assert (S0 : exists c, run s [] = Ok c /\ only_flags s c (flags_after [] (s_flags s)))
    by (exists s; split; [reflexivity|apply only_self]).
  unfold mode_screen. destruct dec.
  - repeat match goal with |- context [match ?x with _ => _ end] => is_var x; match type of x with Z => idtac | positive => idtac end; destruct x; try exact S0 end; apply one_call; auto; discriminate.
  - repeat match goal with |- context [match ?x with _ => _ end] => is_var x; match type of x with Z => idtac | positive => idtac end; destruct x; try exact S0 end; apply one_call; auto; discriminate.
Qed.
Lemma split_one P : Forall digit P -> split P = [P].
Proof. apply VteDev.split_digits. Qed.
Lemma args_one P : Forall digit P -> args P = [argval P].
Proof. intros H. unfold args. rewrite split_one by exact H. reflexivity. Qed.
Lemma digit_pchar P : Forall digit P -> Forall pchar P.
Proof. intros H. eapply Forall_impl; [|exact H]. unfold pchar. auto. Qed.
Lemma modes_one dec set n v : modes dec set [n] v = mode1 dec v set n.
Proof. cbn [modes]. destruct (mode1 dec v set n); reflexivity. Qed.
(* What a mode that is a flag does. *)
Record switched (v v' : vte) (b : Z) (set : bool) (calls : list op) : Prop := mkSw {
  sw_flag : forall k, 0 <= k -> vfl v' k = if k =? b then set else vfl v k;
  sw_rest : core v' = core (w_con (w_flags v (v_flags v')) (v_con v'));
  sw_screen : only_flags (v_con v) (v_con v') (flags_after calls (s_flags (v_con v)))
}.
Lemma sr_bit v set b k : 0 <= b -> 0 <= k -> vfl (set_reset v set b) k = if k =? b then set else vfl v k.
Proof. intros Hb Hk. destruct (Z.eqb_spec k b) as [->|N]; [now apply sr_same|now apply sr_other]. Qed.
Lemma mode_flag_range dec n b : mode_flag dec n = Some b -> 0 <= b.
Proof.
  unfold mode_flag. intros H. repeat match type of H with context [match ?x with _ => _ end] => destruct x; try discriminate end;
    injection H as <-; discriminate.
Qed.
Lemma flag_mode sg v pri fl0 P set b : vreachable sg v -> text_mode v -> marker pri = Some fl0 -> Forall digit P ->
  mode_flag (private pri) (argval P) = Some b ->
  exists v', vte_input sg v (mode_bytes pri P set) = Ok v' /\ text_mode v' /\ switched v v' b set (mode_screen (private pri) set (argval P)).
Proof.
  intros R T M D F. pose proof (vreachable_inv sg v R) as H.
  destruct (mode_seq sg v pri fl0 P set H T M (digit_pchar P D)) as (v' & E & T' & I' & C).
  rewrite args_one, modes_one, (mode_flag_eq _ _ set _ b F) in C by exact D.
  destruct (mode_call (v_con v) (private pri) set (argval P) (reach_con sg v R)) as (c & Ec & O).
  unfold calls in C. change (v_con (set_reset (core v) set b)) with (v_con v) in C. rewrite Ec in C. cbn [bind] in C.
  assert (C' : core v' = w_con (set_reset (core v) set b) c) by congruence.
  assert (Cv : core v' = core (w_con (set_reset v set b) c)) by (rewrite C'; reflexivity).
  exists v'. split; [exact E|]. split; [exact T'|].
  assert (Con : v_con v' = c) by exact (con_core _ _ Cv).
  assert (Fl : v_flags v' = v_flags (set_reset v set b)) by exact (f_equal v_flags Cv).
  constructor.
  - intros k Hk. unfold vfl. rewrite Fl. apply sr_bit; [exact (mode_flag_range _ _ _ F)|exact Hk].
  - rewrite Con, Fl. exact Cv.
  - rewrite Con. exact O.
Qed.
Lemma ignored_mode sg v pri fl0 P set : vreachable sg v -> text_mode v -> marker pri = Some fl0 -> Forall digit P ->
  mode_flag (private pri) (argval P) = None -> (private pri = true -> ~ alt_mode (argval P) /\ ~ mouse_mode (argval P)) ->
  exists v', vte_input sg v (mode_bytes pri P set) = Ok v' /\ text_mode v' /\ core v' = core v.
Proof.
  intros R T M D F N. pose proof (vreachable_inv sg v R) as H.
  destruct (mode_seq sg v pri fl0 P set H T M (digit_pchar P D)) as (v' & E & T' & I' & C).
  rewrite args_one, modes_one, (mode_none_eq _ _ set _ F N) in C by exact D. exists v'. split; [exact E|]. split; [exact T'|]. congruence.
Qed.
Lemma mouse_modes sg v P set : vreachable sg v -> text_mode v -> Forall digit P -> mouse_mode (argval P) ->
  exists v', vte_input sg v (mode_bytes [63] P set) = Ok v' /\ text_mode v' /\ core v' = core (mouse_after v set (argval P)).
Proof.
  intros R T D N. pose proof (vreachable_inv sg v R) as H.
  destruct (mode_seq sg v [63] _ P set H T eq_refl (digit_pchar P D)) as (v' & E & T' & I' & C).
  change (private [63]) with true in C.
  rewrite args_one, modes_one, (mode_mouse_eq _ set _ N) in C by exact D.
  exists v'. split; [exact E|]. split; [exact T'|]. rewrite mouse_core. congruence.
Qed.
Lemma alt_modes sg v P set : vreachable sg v -> text_mode v -> Forall digit P -> alt_mode (argval P) ->
  exists v' c, vte_input sg v (mode_bytes [63] P set) = Ok v' /\ text_mode v' /\
    run (v_con v) (alt_calls v set (argval P)) = Ok c /\
    core v' = core (w_con (if alt_saves v set (argval P) then w_alty (w_altx v (s_cx (v_con v))) (s_cy (v_con v)) else v) c).
Proof.
  intros R T D N. pose proof (vreachable_inv sg v R) as H.
  destruct (mode_seq sg v [63] _ P set H T eq_refl (digit_pchar P D)) as (v' & E & T' & I' & C).
  change (private [63]) with true in C.
  rewrite args_one, modes_one, <- mode1_core, (mode_alt_eq _ set _ N) in C by exact D.
  set (u := if alt_saves v set (argval P) then w_alty (w_altx v (s_cx (v_con v))) (s_cy (v_con v)) else v) in *.
  assert (U : v_con u = v_con v) by (unfold u; destruct (alt_saves v set (argval P)); reflexivity).
  unfold calls in C. rewrite U in C. destruct (run (v_con v) (alt_calls v set (argval P))) as [c|]; cbn [bind rcore] in C; [|discriminate].
  exists v', c. split; [exact E|]. split; [exact T'|]. split; [reflexivity|]. unfold rcore in C. cbn [bind] in C. congruence.
Qed.

Lemma lor_twice F f : Z.lor (Z.lor F f) f = Z.lor F f.
Proof. rewrite <- Z.lor_assoc, Z.lor_diag. reflexivity. Qed.
Lemma ldiff_twice F f : Z.ldiff (Z.ldiff F f) f = Z.ldiff F f.
Proof. rewrite Z.ldiff_ldiff_l, Z.lor_diag. reflexivity. Qed.
Lemma ldiff_lor F f : Z.ldiff (Z.lor F f) f = Z.ldiff F f.
Proof. apply Z.bits_inj'. intros n Hn. rewrite !Z.ldiff_spec, Z.lor_spec. destruct (Z.testbit F n), (Z.testbit f n); reflexivity. Qed.
Lemma lor_ldiff F f : Z.lor (Z.ldiff F f) f = Z.lor F f.
Proof. apply Z.bits_inj'. intros n Hn. rewrite !Z.lor_spec, Z.ldiff_spec. destruct (Z.testbit F n), (Z.testbit f n); reflexivity. Qed.
Lemma screen_shape dec n : (forall set, mode_screen dec set n = []) \/
  (exists f, forall set, mode_screen dec set n = [if set then OSetFlags f else OResetFlags f]) \/
  (exists f, forall set, mode_screen dec set n = [if negb set then OSetFlags f else OResetFlags f]).
Proof.
  unfold mode_screen. destruct dec;
  repeat match goal with |- context [match ?x with _ => _ end] => is_var x; match type of x with Z => idtac | positive => idtac end; destruct x; try (left; reflexivity) end;
    right; first [left; eexists; intros set; reflexivity|right; eexists; intros set; reflexivity].
Qed.
Lemma flags_last dec n set set' F :
  flags_after (mode_screen dec set' n) (flags_after (mode_screen dec set n) F) = flags_after (mode_screen dec set' n) F.
Proof.
  destruct (screen_shape dec n) as [E|[(f & E)|(f & E)]]; rewrite !E; [reflexivity| |];
    destruct set, set'; unfold flags_after; cbn [fold_left negb flag_call];
    auto using lor_twice, ldiff_twice, ldiff_lor, lor_ldiff.
Qed.
Lemma only_trans s t u f g : only_flags s t f -> only_flags t u g -> only_flags s u g.
Proof.
  unfold only_flags, same_text. intros (A1 & A2 & A3 & A4 & A5 & A6 & A7 & A8 & A9 & A10 & A11) (B1 & B2 & B3 & B4 & B5 & B6 & B7 & B8 & B9 & B10 & B11).
  repeat match goal with |- _ /\ _ => split end; try congruence.
  intros y x. destruct (A2 y x), (B2 y x). split; congruence.
Qed.
(* The last of several changes of the same mode counts. *)
Lemma mode_last v v1 v2 w b dec n set set' :
  switched v v1 b set (mode_screen dec set n) -> switched v1 v2 b set' (mode_screen dec set' n) -> switched v w b set' (mode_screen dec set' n) ->
  v_flags v2 = v_flags w /\ core v2 = core (w_con w (v_con v2)) /\ only_flags (v_con v) (v_con v2) (s_flags (v_con w)) /\
  only_flags (v_con v) (v_con w) (s_flags (v_con w)).
Proof.
  intros [F1 C1 O1] [F2 C2 O2] [F3 C3 O3].
  assert (E : v_flags v2 = v_flags w).
  { apply Z.bits_inj'. intros k Hk. pose proof (F1 k Hk) as A. pose proof (F2 k Hk) as B. pose proof (F3 k Hk) as C.
    unfold vfl, bit in *. rewrite B, C, A. destruct (k =? b); reflexivity. }
  split; [exact E|]. split.
  - rewrite C2, E.
    transitivity (w_con (w_flags (core v1) (v_flags w)) (v_con v2)); [reflexivity|].
    transitivity (w_con (core w) (v_con v2)); [|reflexivity]. rewrite C1, C3. reflexivity.
  - assert (FS : s_flags (v_con w) = flags_after (mode_screen dec set' n) (s_flags (v_con v))) by exact (proj1 O3).
    split; [|rewrite FS; exact O3]. rewrite FS, <- (flags_last dec n set set'), <- (proj1 O1). exact (only_trans _ _ _ _ _ O1 O2).
Qed.
Lemma mode_twice v v1 v2 b dec n set :
  switched v v1 b set (mode_screen dec set n) -> switched v1 v2 b set (mode_screen dec set n) ->
  v_flags v2 = v_flags v1 /\ core v2 = core (w_con v1 (v_con v2)) /\ only_flags (v_con v1) (v_con v2) (s_flags (v_con v1)).
Proof.
  intros S1 S2. destruct (mode_last v v1 v2 v1 b dec n set set S1 S2 S1) as (A & B & _ & _). split; [exact A|]. split; [exact B|].
  destruct S2 as [_ _ O2]. destruct S1 as [_ _ O1].
  assert (FS : s_flags (v_con v1) = flags_after (mode_screen dec set n) (s_flags (v_con v1)))
    by (rewrite (proj1 O1), flags_last; reflexivity).
  rewrite FS at 1. exact O2.
Qed.
(* Several parameters. *)
Lemma split_app P Q : split (P ++ 59 :: Q) = split P ++ split Q.
Proof.
  induction P as [|c P IH]; [reflexivity|]. cbn [split app]. destruct (c =? 59); [now rewrite IH|].
  rewrite IH. destruct (split P) as [|h t] eqn:E; [now apply split_ne in E|]. reflexivity.
Qed.
Lemma args_app P Q : zlen (split P) + zlen (split Q) <= 16 -> args (P ++ 59 :: Q) = args P ++ args Q.
Proof.
  intros L. unfold args. rewrite split_app, map_app.
  rewrite !firstn_all2; auto; rewrite ?app_length, ?map_length; lia.
Qed.
Lemma several_modes sg v pri fl0 P Q set : vreachable sg v -> text_mode v -> marker pri = Some fl0 -> Forall pchar P -> Forall pchar Q ->
  zlen (split P) + zlen (split Q) <= 16 ->
  exists v' v1 v2, vte_input sg v (mode_bytes pri (P ++ 59 :: Q) set) = Ok v' /\
    vte_input sg v (mode_bytes pri P set) = Ok v1 /\ vte_input sg v1 (mode_bytes pri Q set) = Ok v2 /\ core v' = core v2.
Proof.
  intros R T M HP HQ L. pose proof (vreachable_inv sg v R) as H.
  assert (HPQ : Forall pchar (P ++ 59 :: Q)) by (apply Forall_app; split; [exact HP|constructor; [right; reflexivity|exact HQ]]).
  destruct (mode_seq sg v pri fl0 (P ++ 59 :: Q) set H T M HPQ) as (v' & E & T' & I' & C).
  destruct (mode_seq sg v pri fl0 P set H T M HP) as (v1 & E1 & T1 & I1 & C1).
  destruct (mode_seq sg v1 pri fl0 Q set I1 T1 M HQ) as (v2 & E2 & T2 & I2 & C2).
  exists v', v1, v2. split; [exact E|]. split; [exact E1|]. split; [exact E2|].
  rewrite args_app, modes_app, C1 in C by exact L. cbn [bind] in C. congruence.
Qed.
