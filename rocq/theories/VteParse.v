(* What the parser does with control sequences, escape sequences and text. *)
From Verif Require Import Base BaseProofs Utf8 Symbol Screen ScreenInv ScreenSafe VteData Vte VteKeys VteSpec VteView VteInv VteSafe VteFrame.
From Verif Require Import ScreenSb ScreenSpec ScreenOps Utf8Spec Utf8Proofs.

(* Ready for plain text. *)
Definition text_mode (v : vte) : Prop := v_state v = SGround /\ ready v.

Lemma core_alike v v' : alike [] v v' -> core v' = core v.
Proof. intros (m & ->). reflexivity. Qed.
Lemma core_state v s : core (w_state v s) = core v.
Proof. reflexivity. Qed.

(* -- ESC ------------------------------------------------------------------ *)
(* The callback for a string cut off by another control. *)
Definition osc_event (v : vte) : vte :=
  match v_state v with
  | SOsc => if v_oscb v then emit v (EOsc (zslice (v_osc v) 0 (v_osclen v))) else v
  | _ => v
  end.
Lemma zslice_upd (l : list Z) n f : 0 <= n -> zslice (zupd l n f) 0 n = zslice l 0 n.
Proof.
  intros H. unfold zslice, zupd, mapi. cbn [Z.to_nat skipn].
  assert (G : forall k l a, a + Z.of_nat k <= n -> firstn k (mapi_from a (fun k x => if k =? n then f x else x) l) = firstn k l).
  { induction k as [|k IH]; intros [|x l'] a Ha; cbn [mapi_from firstn]; try reflexivity.
    replace (a =? n) with false by lia. f_equal. apply IH. lia. }
  apply G. lia.
Qed.
Lemma osc_end_eq v : VInv v -> v_state v = SOsc -> exists l, do_osc_end v = Ok (w_osc (osc_event v) l) /\ length l = 128%nat.
Proof.
  intros H E. unfold do_osc_end, osc_event. rewrite E. pose proof (vi_osclen v H). pose proof (vi_oscl v H) as L.
  destruct (v_oscb v).
  - rewrite zmod_ok by (rewrite L; lia). cbn [bind]. rewrite zslice_upd by lia.
    exists (zupd (v_osc v) (v_osclen v) (fun _ => 0)). split; [destruct v; reflexivity|]. now rewrite length_zupd.
  - exists (v_osc v). split; [destruct v; reflexivity|exact L].
Qed.
Lemma exit_eq v x : VInv v -> exists l, do_action v x (exit_action (v_state v)) = Ok (w_osc (osc_event v) l).
Proof.
  intros H. destruct (v_state v) eqn:E; cbn [exit_action do_action];
    try (exists (v_osc v); unfold osc_event; rewrite E; destruct v; reflexivity).
  destruct (osc_end_eq v H E) as (l & -> & _). eauto.
Qed.
Lemma esc_eq v : VInv v -> parse_data v 27 = Ok (w_state (do_clear (osc_event v)) SEsc).
Proof.
  intros H. unfold parse_data, do_trans. cbv zeta. replace (trans (v_state v) 27) with (Some SEsc, ANone) by reflexivity. cbn [fst snd].
  destruct (exit_eq v 27 H) as (l & ->). cbn [bind do_action entry_action].
  destruct (osc_event v); reflexivity.
Qed.
Lemma csi_intro v : v_state v = SEsc -> parse_data v 91 = Ok (w_state (do_clear v) SCsiEntry).
Proof. intros E. destruct v; cbn in E; subst. reflexivity. Qed.
Lemma osc_event_ground v : v_state v <> SOsc -> osc_event v = v.
Proof. intros H. unfold osc_event. destruct (v_state v); congruence. Qed.

(* -- parameters ----------------------------------------------------------- *)
Definition pdig (cur d : Z) : Z := if 65535 <? cur then cur else if cur <=? 0 then d - 48 else 10 * cur + (d - 48).
Definition argv16 (D : list Z) (cur : Z) : list Z := firstn 16 (D ++ cur :: repeat (-1) 16).
Lemma pdig_range cur d : -1 <= cur <= 655359 -> digit d -> 0 <= pdig cur d <= 655359.
Proof. unfold pdig, digit. intros. destruct (Z.ltb_spec 65535 cur); [lia|]. destruct (Z.leb_spec cur 0); lia. Qed.
Lemma clip_from ds : forall c, 0 <= c -> Forall digit ds ->
  fold_left pdig ds c = fold_left (fun n d => if 65535 <? n then n else 10 * n + (d - 48)) ds c.
Proof.
  induction ds as [|d r IH]; intros c Hc Hd; cbn [fold_left]; [reflexivity|]. inversion Hd; subst. unfold digit in *.
  assert (E : pdig c d = (if 65535 <? c then c else 10 * c + (d - 48))).
  { unfold pdig. destruct (65535 <? c); [reflexivity|]. destruct (Z.leb_spec c 0); [|reflexivity]. replace c with 0 by lia. lia. }
  rewrite <- E. apply IH; [|auto]. unfold pdig. destruct (Z.ltb_spec 65535 c); [lia|]. destruct (Z.leb_spec c 0); lia.
Qed.
Lemma argval_fold ds : Forall digit ds -> fold_left pdig ds (-1) = argval ds.
Proof.
  intros H. destruct ds as [|d r]; [reflexivity|]. inversion H; subst. unfold argval, clip. cbn [fold_left].
  replace (pdig (-1) d) with (d - 48) by reflexivity. change (if 65535 <? 0 then 0 else 10 * 0 + (d - 48)) with (d - 48).
  apply clip_from; [unfold digit in *; lia|auto].
Qed.
Lemma clip_range ds : forall c, 0 <= c <= 655359 -> Forall digit ds ->
  0 <= fold_left (fun n d => if 65535 <? n then n else 10 * n + (d - 48)) ds c <= 655359.
Proof.
  induction ds as [|d r IH]; intros c Hc Hd; cbn [fold_left]; [lia|]. inversion Hd; subst. unfold digit in *.
  apply IH; [|auto]. destruct (Z.ltb_spec 65535 c); lia.
Qed.
Lemma argval_range ds : Forall digit ds -> -1 <= argval ds <= 655359.
Proof. intros H. unfold argval. destruct ds; [lia|]. pose proof (clip_range (z :: ds) 0 ltac:(lia) H). unfold clip. lia. Qed.
Lemma dval_ge ds : forall c, 0 <= c -> Forall digit ds -> c <= fold_left (fun n d => 10 * n + (d - 48)) ds c.
Proof.
  induction ds as [|d r IH]; intros c Hc Hd; cbn [fold_left]; [lia|]. inversion Hd; subst. unfold digit in *.
  specialize (IH (10 * c + (d - 48)) ltac:(lia) H2). lia.
Qed.
(* Exactly the decimal value up to 655359; otherwise still above 65535. *)
Lemma clip_exact ds : forall c, 0 <= c -> Forall digit ds -> fold_left (fun n d => 10 * n + (d - 48)) ds c <= 655359 ->
  fold_left (fun n d => if 65535 <? n then n else 10 * n + (d - 48)) ds c = fold_left (fun n d => 10 * n + (d - 48)) ds c.
Proof.
  induction ds as [|d r IH]; intros c Hc Hd Hv; cbn [fold_left] in *; [reflexivity|]. inversion Hd; subst. unfold digit in *.
  pose proof (dval_ge r (10 * c + (d - 48)) ltac:(lia) H2).
  destruct (Z.ltb_spec 65535 c); [lia|]. apply IH; auto; lia.
Qed.
Lemma clip_large ds : forall c, 0 <= c -> Forall digit ds -> 65535 < fold_left (fun n d => 10 * n + (d - 48)) ds c ->
  65535 < fold_left (fun n d => if 65535 <? n then n else 10 * n + (d - 48)) ds c.
Proof.
  induction ds as [|d r IH]; intros c Hc Hd Hv; cbn [fold_left] in *; [lia|]. inversion Hd; subst. unfold digit in *.
  destruct (Z.ltb_spec 65535 c); [|apply IH; auto; lia].
  clear -H. revert c H. induction r as [|x r IH]; intros c H; cbn [fold_left]; [lia|]. replace (65535 <? c) with true by lia. auto.
Qed.

Lemma split_digits P : Forall pchar P -> Forall (Forall digit) (split P).
Proof.
  induction P as [|c r IH]; intros H; cbn [split]; [repeat constructor|]. inversion H; subst.
  destruct (Z.eqb_spec c 59) as [->|Hne]; [constructor; auto|]. assert (D : digit c) by (destruct H2; [auto|contradiction]).
  specialize (IH H3). destruct (split r) as [|h t]; [constructor; [constructor; auto|constructor]|].
  inversion IH; subst. constructor; [constructor; auto|auto].
Qed.
Lemma split_ne P : split P <> [].
Proof. destruct P as [|c r]; cbn [split]; [discriminate|]. destruct (c =? 59); [discriminate|]. destruct (split r); discriminate. Qed.

Lemma length_argv16 D cur : zlen D <= 15 -> length (argv16 D cur) = 16%nat.
Proof. intros H. unfold argv16. rewrite firstn_length, app_length. cbn [length]. rewrite repeat_length. lia. Qed.
Lemma argv16_split D cur : zlen D <= 15 -> argv16 D cur = D ++ cur :: repeat (-1) (15 - length D).
Proof.
  intros H. unfold argv16. rewrite firstn_app. rewrite firstn_all2 by lia. f_equal.
  destruct (16 - length D)%nat as [|k] eqn:E; [lia|]. cbn [firstn]. f_equal.
  replace (15 - length D)%nat with k by lia. clear -E. assert (K : (k <= 15)%nat) by lia. clear E. revert K.
  intros K. replace (repeat (-1) 16) with (repeat (-1) k ++ repeat (-1) (16 - k)).
  - rewrite firstn_app, repeat_length, Nat.sub_diag, firstn_O, app_nil_r. apply firstn_all2. now rewrite repeat_length.
  - rewrite <- repeat_app. f_equal. lia.
Qed.
Lemma argv16_get D cur : zlen D <= 15 -> zget (argv16 D cur) (zlen D) = Ok cur.
Proof.
  intros H. apply zget_ok. rewrite argv16_split by exact H. unfold znth. replace (zlen D <? 0) with false by lia.
  rewrite Nat2Z.id. rewrite nth_error_app2 by lia. rewrite Nat.sub_diag. reflexivity.
Qed.
Lemma argv16_set D cur x : zlen D <= 15 -> zmod (argv16 D cur) (zlen D) (fun _ => x) = Ok (argv16 D x).
Proof.
  intros H. rewrite zmod_ok by (rewrite length_argv16; lia). f_equal. rewrite !argv16_split by exact H.
  generalize (repeat (-1) (15 - length D)). clear. intros r. unfold zupd, mapi.
  assert (G : forall D a, mapi_from a (fun k y => if k =? a + zlen D then x else y) (D ++ cur :: r) = D ++ x :: r).
  { clear D. induction D as [|d D IH]; intros a; cbn [app mapi_from length].
    - replace (a =? a + Z.of_nat 0) with true by lia. f_equal.
      assert (G2 : forall b, a + Z.of_nat 0 < b -> mapi_from b (fun k y => if k =? a + Z.of_nat 0 then x else y) r = r).
      { induction r as [|y r IH]; intros b Hb; cbn [mapi_from]; [reflexivity|]. replace (b =? a + Z.of_nat 0) with false by lia. f_equal. apply IH. lia. }
      apply G2. lia.
    - replace (a =? a + Z.of_nat (S (length D))) with false by lia. f_equal.
      rewrite <- (IH (a + 1)). replace (a + Z.of_nat (S (length D))) with (a + 1 + zlen D) by lia. reflexivity. }
  exact (G D 0).
Qed.
Lemma argv16_next D cur : zlen D <= 14 -> argv16 D cur = argv16 (D ++ [cur]) (-1).
Proof.
  intros H. rewrite !argv16_split by (rewrite ?app_length; cbn [length]; lia). rewrite <- app_assoc. cbn [app]. f_equal. f_equal.
  rewrite app_length. cbn [length]. replace (15 - length D)%nat with (S (15 - (length D + 1)))%nat by lia. reflexivity.
Qed.

Definition in_csi (s : pstate) : Prop := s = SCsiEntry \/ s = SCsiParam.
Definition withp (v : vte) (a : Z) (l : list Z) (s : pstate) : vte := w_state (w_argv (w_argc v a) l) s.
Lemma withp_self v : v = withp v (v_argc v) (v_argv v) (v_state v).
Proof. destruct v; reflexivity. Qed.
Lemma withp_withp v a l s a' l' s' : withp (withp v a l s) a' l' s' = withp v a' l' s'.
Proof. reflexivity. Qed.

Lemma pchar_trans s c : in_csi s -> pchar c -> exists t, trans s c = (t, AParam) /\ (t = Some SCsiParam \/ t = None /\ s = SCsiParam).
Proof.
  intros Hs Hc. assert (R : 48 <= c <= 59 /\ c <> 58) by (unfold pchar, digit in Hc; lia).
  assert (T : trans_any c = None).
  { unfold trans_any, rng. repeat match goal with |- context [if ?b then _ else _] => replace b with false by lia end. reflexivity. }
  unfold trans. rewrite T. destruct Hs as [->| ->]; cbn [trans_state]; unfold c0, rng.
  - repeat match goal with |- context [if ?b then _ else _] => first [replace b with false by lia | replace b with true by lia] end. eauto.
  - repeat match goal with |- context [if ?b then _ else _] => first [replace b with false by lia | replace b with true by lia] end. eauto.
Qed.
Lemma param_parse v c w : in_csi (v_state v) -> pchar c -> do_param v c = Ok w -> v_state w = v_state v ->
  parse_data v c = Ok (w_state w SCsiParam).
Proof.
  intros Hs Hc E Hw. destruct (pchar_trans _ c Hs Hc) as (t & T & Ht). unfold parse_data, do_trans. cbv zeta. rewrite T. cbn [fst snd].
  assert (X : do_action v c (exit_action (v_state v)) = Ok v) by (destruct Hs as [->| ->]; reflexivity).
  destruct Ht as [->|[-> Es]].
  - rewrite X. cbn [bind do_action]. rewrite E. cbn [bind]. reflexivity.
  - cbn [do_action]. rewrite E. f_equal. rewrite Es in Hw. clear -Hw. destruct w; cbn in Hw; subst. reflexivity.
Qed.
Lemma full_run P : forall v, in_csi (v_state v) -> v_argc v = 16 -> Forall pchar P ->
  exists s, in_csi s /\ parse_all v P = Ok (w_state v s).
Proof.
  induction P as [|c r IH]; intros v Hs Ha Hp; cbn [parse_all].
  - exists (v_state v). split; [auto|]. destruct v; reflexivity.
  - inversion Hp; subst. assert (E : do_param v c = Ok v).
    { unfold do_param, CSI_ARG_MAX. rewrite Ha. destruct (c =? 59); reflexivity. }
    rewrite (param_parse v c v Hs H1 E eq_refl). cbn [bind].
    destruct (IH (w_state v SCsiParam)) as (s & Hs' & E'); [right; reflexivity|exact Ha|auto|].
    exists s. split; [auto|]. rewrite E'. reflexivity.
Qed.

Definition vals (cur : Z) (P : list Z) : list Z :=
  match split P with h :: t => fold_left pdig h cur :: map argval t | [] => [] end.
Lemma param_run P : forall v D cur, Forall pchar P -> zlen D <= 15 -> -1 <= cur <= 655359 -> in_csi (v_state v) ->
  v_argc v = zlen D -> v_argv v = argv16 D cur ->
  exists s, in_csi s /\ parse_all v P =
    Ok (withp v (Z.min 16 (zlen D + zlen (split P) - 1)) (firstn 16 (D ++ vals cur P ++ repeat (-1) 16)) s).
Proof.
  induction P as [|c r IH]; intros v D cur Hp HD Hc Hs Ea Ev.
  - exists (v_state v). split; [auto|]. cbn [parse_all split vals fold_left map app length].
    replace (Z.min 16 (zlen D + Z.of_nat 1 - 1)) with (v_argc v) by lia.
    replace (firstn 16 (D ++ cur :: repeat (-1) 16)) with (v_argv v) by exact Ev. f_equal. apply withp_self.
  - inversion Hp; subst. cbn [parse_all]. pose proof (split_ne r) as NE. unfold vals. cbn [split].
    destruct (Z.eqb_spec c 59) as [->|Hne].
    + assert (E : do_param v 59 = Ok (w_argc v (zlen D + 1))).
      { unfold do_param, CSI_ARG_MAX. rewrite Ea. replace (zlen D <? 16) with true by lia. reflexivity. }
      rewrite (param_parse v 59 _ Hs H1 E eq_refl). cbn [bind].
      cbn [fold_left length]. destruct (Z_le_gt_dec (zlen D) 14) as [L|L].
      * destruct (IH (w_state (w_argc v (zlen D + 1)) SCsiParam) (D ++ [cur]) (-1)) as (s & Hs' & E'); auto.
        { rewrite app_length. cbn [length]. lia. } { lia. } { right. reflexivity. }
        { cbn. rewrite app_length. cbn [length]. lia. }
        { cbn. rewrite Ev. now apply argv16_next. }
        exists s. split; [auto|]. rewrite E'. f_equal. unfold withp.
        rewrite app_length. cbn [length map].
        assert (V : vals (-1) r = map argval (split r)).
        { unfold vals. pose proof (split_digits r H2) as SD. destruct (split r) as [|h t]; [reflexivity|]. cbn [map]. inversion SD; subst. now rewrite argval_fold. }
        rewrite V. rewrite <- app_assoc. cbn [app].
        replace (Z.min 16 (Z.of_nat (length D + 1) + zlen (split r) - 1)) with (Z.min 16 (zlen D + Z.of_nat (S (length (split r))) - 1)) by lia.
        reflexivity.
      * destruct (full_run r (w_state (w_argc v (zlen D + 1)) SCsiParam)) as (s & Hs' & E'); auto; [right; reflexivity|cbn; lia|].
        exists s. split; [auto|]. rewrite E'. f_equal. unfold withp. cbn [map].
        replace (Z.min 16 (zlen D + Z.of_nat (S (length (split r))) - 1)) with (zlen D + 1).
        2:{ destruct (split r); [contradiction|]. cbn [length]. lia. }
        replace (firstn 16 (D ++ (cur :: map argval (split r)) ++ repeat (-1) 16)) with (v_argv v).
        { destruct v; reflexivity. }
        rewrite Ev. unfold argv16. rewrite !firstn_app. f_equal. replace (16 - length D)%nat with 1%nat by lia. reflexivity.
    + assert (Hd : digit c) by (destruct H1; [auto|contradiction]).
      assert (E : do_param v c = Ok (w_argv v (argv16 D (pdig cur c)))).
      { unfold do_param, CSI_ARG_MAX. rewrite Ea, Ev. replace (c =? 59) with false by lia. replace (16 <=? zlen D) with false by lia.
        rewrite argv16_get by exact HD. cbn [bind]. unfold pdig. unfold digit in Hd.
        destruct (Z.ltb_spec 65535 cur); [rewrite <- Ev; destruct v; reflexivity|].
        replace ((48 <=? c) && (c <=? 57)) with true by lia. rewrite argv16_set by exact HD. cbn [bind].
        destruct (Z.leb_spec cur 0); [rewrite i32_small by lia; reflexivity|].
        replace (cur * 10 + c - 48) with (10 * cur + (c - 48)) by lia. rewrite u32_small by lia. rewrite i32_small by lia. reflexivity. }
      rewrite (param_parse v c _ Hs H1 E eq_refl). cbn [bind].
      destruct (IH (w_state (w_argv v (argv16 D (pdig cur c))) SCsiParam) D (pdig cur c)) as (s & Hs' & E'); auto.
      { pose proof (pdig_range cur c Hc Hd). lia. } { right. reflexivity. }
      exists s. split; [auto|]. rewrite E'. f_equal. unfold withp, vals.
      destruct (split r) as [|h t]; [contradiction|]. reflexivity.
Qed.

(* -- control sequences ---------------------------------------------------- *)
(* The flag of a private marker. *)
Definition marker (pri : list Z) : option Z :=
  match pri with
  | [] => Some 0
  | [c] => if (60 <=? c) && (c <=? 63) then Some (match collect_bit c with Some n => Z.setbit 0 n | None => 0 end) else None
  | _ => None
  end.
(* The terminal when the final character comes in. *)
Definition at_csi (v : vte) (fl : Z) (P : list Z) (st : pstate) : vte :=
  withp (w_cfl (do_clear v) fl) (zlen (args P)) (firstn 16 (args P ++ repeat (-1) 16)) st.

Lemma firstn_pad (l r : list Z) n : firstn n (firstn n l ++ r) = firstn n (l ++ r).
Proof.
  rewrite !firstn_app, firstn_firstn, Nat.min_id, firstn_length. f_equal. f_equal. lia.
Qed.
Lemma args_len P : 1 <= zlen (args P) <= 16 /\ zlen (args P) = Z.min 16 (zlen (split P)).
Proof.
  unfold args. rewrite firstn_length, map_length. pose proof (split_ne P). destruct (split P); [contradiction|]. cbn [length]. lia.
Qed.

(* do_csi after argc was increased. *)
Definition csi_run (v : vte) (d : Z) : res vte :=
  do_csi (if v_argc v <? 16 then w_argc v (v_argc v - 1) else v) d.
Lemma do_csi_16 v d : v_argc v = 16 -> do_csi (w_argc v 15) d = do_csi v d.
Proof.
  intros E. unfold do_csi, CSI_ARG_MAX. cbn [w_argc v_argc]. rewrite E. change (15 <? 16) with true. change (16 <? 16) with false.
  cbv iota. replace (w_argc (w_argc v 15) (15 + 1)) with v by (destruct v; cbn in *; subst; reflexivity). reflexivity.
Qed.
Lemma withp_inj v a l s : withp v a l s = w_argc (withp v 0 l s) a.
Proof. reflexivity. Qed.
Lemma dispatch_eq v fl P s f : do_csi (withp (w_cfl (do_clear v) fl) (Z.min 16 (zlen (split P) - 1)) (firstn 16 (map argval (split P) ++ repeat (-1) 16)) s) f =
  csi_run (at_csi v fl P s) f.
Proof.
  destruct (args_len P) as [A B]. unfold csi_run, at_csi. cbn [withp w_state w_argv w_argc v_argc].
  replace (firstn 16 (args P ++ repeat (-1) 16)) with (firstn 16 (map argval (split P) ++ repeat (-1) 16)) by (unfold args; now rewrite firstn_pad).
  generalize (firstn 16 (map argval (split P) ++ repeat (-1) 16)). intros l.
  destruct (Z.ltb_spec (zlen (args P)) 16).
  - replace (Z.min 16 (zlen (split P) - 1)) with (zlen (args P) - 1) by lia. reflexivity.
  - replace (zlen (args P)) with 16 by lia. destruct (Z.eq_dec (zlen (split P)) 16) as [E|E].
    + replace (Z.min 16 (zlen (split P) - 1)) with 15 by lia. change (do_csi (w_argc (withp (w_cfl (do_clear v) fl) 16 l s) 15) f = do_csi (withp (w_cfl (do_clear v) fl) 16 l s) f).
      apply do_csi_16. reflexivity.
    + replace (Z.min 16 (zlen (split P) - 1)) with 16 by lia. reflexivity.
Qed.

Lemma VInv_event v : VInv v -> VInv (osc_event v).
Proof. intros H. unfold osc_event. destruct (v_state v), (v_oscb v); auto; now apply VInv_emit. Qed.
Lemma VInv_at v fl P st : VInv v -> Forall pchar P -> VInv (at_csi v fl P st).
Proof.
  intros H HP. destruct (args_len P) as [A B]. pose proof (VInv_clear v H) as C. unfold at_csi, withp.
  assert (L : length (firstn 16 (args P ++ repeat (-1) 16)) = 16%nat).
  { rewrite firstn_length, app_length, repeat_length. lia. }
  assert (R : Forall (fun a => -1 <= a <= 655359) (args P)).
  { unfold args. apply Forall_forall. intros x Hx.
    assert (Hi : In x (map argval (split P))) by (rewrite <- (firstn_skipn 16 (map argval (split P))); apply in_or_app; now left).
    apply in_map_iff in Hi. destruct Hi as (ds & <- & Hd). apply argval_range.
    pose proof (split_digits P HP) as SD. rewrite Forall_forall in SD. now apply SD. }
  clear H. vinv C. vset; auto.
  - lia.
  - apply Forall_forall. intros x Hx.
    assert (Hi : In x (args P ++ repeat (-1) 16)) by (rewrite <- (firstn_skipn 16 (args P ++ repeat (-1) 16)); apply in_or_app; now left).
    apply in_app_or in Hi. destruct Hi as [Hi|Hi]; [rewrite Forall_forall in R; now apply R|]. apply repeat_spec in Hi. lia.
  - intros j x Hj Hx. assert (Hi : In x (repeat (-1) 16)); [|apply repeat_spec in Hi; lia].
    rewrite firstn_app in Hx. rewrite (firstn_all2 (args P)) in Hx by lia.
    unfold znth in Hx. destruct (Z.ltb_spec j 0); [discriminate|]. rewrite nth_error_app2 in Hx by lia.
    apply nth_error_In in Hx. rewrite <- (firstn_skipn (16 - length (args P)) (repeat (-1) 16)). apply in_or_app. now left.
Qed.

Lemma final_trans s f : in_csi s -> 64 <= f <= 126 -> trans s f = (Some SGround, ACsi).
Proof.
  intros Hs Hf.
  assert (T : trans_any f = None).
  { unfold trans_any, rng. repeat match goal with |- context [if ?b then _ else _] => replace b with false by lia end. reflexivity. }
  unfold trans. rewrite T. destruct Hs as [->| ->]; cbn [trans_state]; unfold c0, rng;
  repeat match goal with |- context [if ?b then _ else _] => first [replace b with false by lia | replace b with true by lia] end; reflexivity.
Qed.
Lemma final_eq v f : in_csi (v_state v) -> 64 <= f <= 126 -> parse_data v f = do w <- do_csi v f; Ok (w_state w SGround).
Proof.
  intros Hs Hf. unfold parse_data, do_trans. cbv zeta. rewrite (final_trans _ f Hs Hf). cbn [fst snd].
  assert (X : do_action v f (exit_action (v_state v)) = Ok v) by (destruct Hs as [->| ->]; reflexivity).
  rewrite X. cbn [bind do_action entry_action]. destruct (do_csi v f); reflexivity.
Qed.
Lemma marker_run pri fl v : marker pri = Some fl -> v_state v = SCsiEntry -> v_cfl v = 0 ->
  exists s, in_csi s /\ parse_all v pri = Ok (w_state (w_cfl v fl) s).
Proof.
  intros Hm Hs Hc. destruct pri as [|c [|? ?]]; cbn [marker] in Hm; try discriminate.
  - inversion Hm; subst. exists SCsiEntry. split; [left; reflexivity|]. cbn [parse_all]. destruct v; cbn in *; subst. reflexivity.
  - destruct ((60 <=? c) && (c <=? 63)) eqn:E; [|discriminate]. inversion Hm as [Ef]. exists SCsiParam. split; [right; reflexivity|].
    assert (R : c = 60 \/ c = 61 \/ c = 62 \/ c = 63) by lia. cbn [parse_all].
    destruct v; cbn in Hs, Hc; subst. destruct R as [->|[->|[->| ->]]]; reflexivity.
Qed.

Lemma csi_parse v pri fl P f : VInv v -> marker pri = Some fl -> Forall pchar P -> 64 <= f <= 126 ->
  exists st, in_csi st /\ parse_all v (csi_bytes pri P f) = do w <- csi_run (at_csi (osc_event v) fl P st) f; Ok (w_state w SGround).
Proof.
  intros H Hm HP Hf. unfold csi_bytes. cbn [parse_all]. rewrite (esc_eq v H). cbn [bind].
  rewrite csi_intro by reflexivity. cbn [bind]. rewrite parse_all_app.
  destruct (marker_run pri fl _ Hm (eq_refl : v_state (w_state (do_clear (w_state (do_clear (osc_event v)) SEsc)) SCsiEntry) = _) eq_refl) as (s & Hs & ->).
  cbn [bind]. rewrite parse_all_app.
  set (w := w_state (w_cfl _ fl) s).
  destruct (param_run P w [] (-1) HP) as (s' & Hs' & ->); [cbn; lia|lia|exact Hs|reflexivity|reflexivity|].
  cbn [bind parse_all app length]. change (Z.of_nat 0) with 0.
  assert (V : vals (-1) P = map argval (split P)).
  { unfold vals. pose proof (split_digits P HP) as SD. destruct (split P) as [|h t]; [reflexivity|]. cbn [map]. inversion SD; subst. now rewrite argval_fold. }
  rewrite V. exists s'. split; [exact Hs'|]. rewrite final_eq by auto.
  replace (0 + zlen (split P) - 1) with (zlen (split P) - 1) by lia.
  assert (W : forall a l t, withp w a l t = withp (w_cfl (do_clear (osc_event v)) fl) a l t).
  { intros. subst w. generalize (osc_event v). intros u. reflexivity. }
  rewrite W. rewrite (dispatch_eq (osc_event v) fl P s' f). generalize (csi_run (at_csi (osc_event v) fl P s') f). intros r. destruct r; reflexivity.
Qed.

Lemma pchar_ascii P : Forall pchar P -> Forall ascii P.
Proof. apply Forall_impl. unfold pchar, digit, ascii. lia. Qed.
Lemma csi_ascii pri fl P f : marker pri = Some fl -> Forall pchar P -> 64 <= f <= 126 -> Forall ascii (csi_bytes pri P f).
Proof.
  intros Hm HP Hf. unfold csi_bytes. do 2 (constructor; [unfold ascii; lia|]). apply Forall_app. split; [|apply Forall_app; split].
  - destruct pri as [|c [|? ?]]; cbn [marker] in Hm; try discriminate; [constructor|].
    destruct ((60 <=? c) && (c <=? 63)) eqn:E; [|discriminate]. constructor; [unfold ascii; lia|constructor].
  - now apply pchar_ascii.
  - constructor; [unfold ascii; lia|constructor].
Qed.

(* What a control sequence does from any parser state. *)
Lemma csi_seq sg v pri fl P f : VInv v -> ready v -> marker pri = Some fl -> Forall pchar P -> 64 <= f <= 126 ->
  exists st, in_csi st /\
  match csi_run (at_csi (osc_event v) fl P st) f with
  | Ok w => exists v', vte_input sg v (csi_bytes pri P f) = Ok v' /\ alike [] (w_state w SGround) v' /\ text_mode v' /\ VInv v'
  | Ub => vte_input sg v (csi_bytes pri P f) = Ub
  end.
Proof.
  intros H Hr Hm HP Hf. destruct (csi_parse v pri fl P f H Hm HP Hf) as (st & Hst & E). exists st. split; [exact Hst|].
  destruct (ascii_input sg (csi_bytes pri P f) v Hr (csi_ascii _ _ _ _ Hm HP Hf)) as [A R]. rewrite E in A. clear E.
  destruct (csi_run _ f) as [w|]; cbn [bind] in A.
  - destruct (vte_input sg v (csi_bytes pri P f)) as [v'|] eqn:Ei; cbn in A; [|contradiction].
    exists v'. split; [reflexivity|]. split; [exact A|]. split; [split; [|now apply R]|now apply (input_inv sg _ v v' H Ei)].
    destruct A as (m & ->). reflexivity.
  - destruct (vte_input sg v (csi_bytes pri P f)); [contradiction|reflexivity].
Qed.
