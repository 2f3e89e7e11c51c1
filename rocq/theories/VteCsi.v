(* Control sequences as calls of the screen, attributes, modes, replies. *)
From Verif Require Import Base BaseProofs Utf8 Symbol Screen ScreenInv ScreenSafe VteData Vte VteKeys VteSpec VteView VteInv VteSafe VteFrame VteParse.
From Verif Require Import ScreenSb ScreenSpec ScreenOps ScreenThms Utf8Spec Utf8Proofs.

(* do_csi once the number of parameters is known. *)
Definition csi_body (v : vte) (d : Z) : res vte :=
  let protect := cfl v CSI_WHAT in
  do p0 <- zget (v_argv v) 0;
  do p1 <- zget (v_argv v) 1;
  let num := if p0 <=? 0 then 1 else p0 in
  if d =? 65 (* A *) then scr v (OMoveUp num false)
  else if d =? 66 (* B *) then scr v (OMoveDown num false)
  else if d =? 67 (* C *) then scr v (OMoveRight num)
  else if d =? 68 (* D *) then scr v (OMoveLeft num)
  else if d =? 100 (* d *) then scr v (OMoveTo (s_cx (v_con v)) (num - 1))
  else if d =? 69 (* E *) then do v1 <- scr v (OMoveDown num false); scr v1 OLineHome
  else if d =? 101 (* e *) then scr v (OMoveTo (s_cx (v_con v)) (u32 (s_cy (v_con v) + num)))
  else if d =? 70 (* F *) then do v1 <- scr v (OMoveUp num false); scr v1 OLineHome
  else if (d =? 72) (* H *) || (d =? 102) (* f *) then
    scr v (OMoveTo ((if p1 <=? 0 then 1 else p1) - 1) (num - 1))
  else if d =? 71 (* G *) then scr v (OMoveTo (num - 1) (s_cy (v_con v)))
  else if d =? 74 (* J *) then
    if p0 <=? 0 then scr v (OEraseCursorToScreen protect)
    else if p0 =? 1 then scr v (OEraseScreenToCursor protect)
    else if p0 =? 2 then scr v (OEraseScreen protect)
    else Ok v
  else if d =? 75 (* K *) then
    if p0 <=? 0 then scr v (OEraseToEnd protect)
    else if p0 =? 1 then scr v (OEraseHome protect)
    else if p0 =? 2 then scr v (OEraseLine protect)
    else Ok v
  else if d =? 88 (* X *) then scr v (OEraseChars num)
  else if d =? 109 (* m *) then csi_attribute v
  else if d =? 112 (* p *) then
    if cfl v CSI_GT then vte_reset v
    else if cfl v CSI_BANG then vte_reset v
    else if cfl v CSI_CASH then Ok v
    else csi_compat_mode v
  else if d =? 104 (* h *) then csi_mode v true
  else if d =? 108 (* l *) then csi_mode v false
  else if d =? 114 (* r *) then
    scr v (OSetMargins (if p0 <? 0 then 0 else p0) (if p1 <? 0 then 0 else p1))
  else if d =? 99 (* c *) then csi_dev_attr v
  else if d =? 76 (* L *) then scr v (OInsLines num)
  else if d =? 77 (* M *) then scr v (ODelLines num)
  else if d =? 103 (* g *) then
    if p0 <=? 0 then scr v OResetTabstop
    else if p0 =? 3 then scr v OResetAllTabstops
    else Ok v
  else if d =? 64 (* @ *) then scr v (OInsChars num)
  else if d =? 80 (* P *) then scr v (ODelChars num)
  else if d =? 90 (* Z *) then scr v (OTabLeft num)
  else if d =? 73 (* I *) then scr v (OTabRight num)
  else if d =? 110 (* n *) then csi_dsr v
  else if d =? 83 (* S *) then scr v (OScrollUp num)
  else if d =? 84 (* T *) then scr v (OScrollDown num)
  else Ok v.
Lemma do_csi_body v d : do_csi v d = csi_body (if v_argc v <? CSI_ARG_MAX then w_argc v (v_argc v + 1) else v) d.
Proof. reflexivity. Qed.
Lemma csi_run_body v d : v_argc v <= 16 -> csi_run v d = csi_body v d.
Proof.
  intros H. unfold csi_run. rewrite do_csi_body. unfold CSI_ARG_MAX. destruct (Z.ltb_spec (v_argc v) 16).
  - cbn [w_argc v_argc]. replace (v_argc v - 1 <? 16) with true by lia. 
    replace (v_argc v - 1 + 1) with (v_argc v) by lia. change (w_argc (w_argc v (v_argc v - 1)) (v_argc v)) with (w_argc v (v_argc v)).
    replace (w_argc v (v_argc v)) with v by (destruct v; reflexivity). reflexivity.
  - replace (v_argc v <? 16) with false by lia. reflexivity.
Qed.
Lemma at_argc v fl P st : v_argc (at_csi v fl P st) = zlen (args P).
Proof. reflexivity. Qed.
Lemma at_arg v fl P st k : 0 <= k < 16 -> zget (v_argv (at_csi v fl P st)) k = Ok (arg P (Z.to_nat k)).
Proof.
  intros Hk. cbn [at_csi withp w_state w_argv w_argc v_argv]. destruct (args_len P) as [A B]. apply zget_ok.
  unfold arg, znth. replace (k <? 0) with false by lia. rewrite firstn_app, (firstn_all2 (args P)) by lia.
  destruct (Nat.lt_ge_cases (Z.to_nat k) (length (args P))) as [L|L].
  - rewrite nth_error_app1 by lia. now apply nth_error_nth'.
  - rewrite nth_error_app2 by lia. rewrite (nth_overflow (args P)) by lia.
    assert (R : forall n m, (m < n)%nat -> nth_error (repeat (-1) n) m = Some (-1)).
    { induction n as [|n IH]; intros [|m] Hm; cbn; try lia; auto. apply IH. lia. }
    rewrite <- (R 16%nat (Z.to_nat k - length (args P))%nat) by lia.
    rewrite <- (firstn_skipn (16 - length (args P)) (repeat (-1) 16)) at 2. rewrite nth_error_app1; [reflexivity|].
    rewrite firstn_length, repeat_length. lia.
Qed.
Lemma at_params v fl P st : params (at_csi v fl P st) = args P.
Proof.
  change (params (at_csi v fl P st)) with (zslice (firstn 16 (args P ++ repeat (-1) 16)) 0 (zlen (args P))). destruct (args_len P) as [A B].
  unfold zslice. change (Z.to_nat 0) with 0%nat. cbn [skipn]. rewrite Nat2Z.id, firstn_firstn, Nat.min_l by lia.
  rewrite firstn_app, firstn_all, Nat.sub_diag. cbn [firstn]. apply app_nil_r.
Qed.
Lemma core_at v fl P st : core (at_csi v fl P st) = core v.
Proof. reflexivity. Qed.
Lemma core_con v w c : core v = core w -> core (w_con v c) = core (w_con w c).
Proof. intros H. change (w_con (core v) c = w_con (core w) c). now rewrite H. Qed.
Lemma con_core v w : core v = core w -> v_con v = v_con w.
Proof. intros H. change (v_con (core v) = v_con (core w)). now rewrite H. Qed.

(* Input bs has the effect of the screen calls ops and no other. *)
Definition acts (sg : bool) (v : vte) (bs : list Z) (ops : list op) : Prop :=
  match run (v_con v) ops with
  | Ok c => exists v', vte_input sg v bs = Ok v' /\ core v' = core (w_con v c) /\ text_mode v'
  | Ub => vte_input sg v bs = Ub
  end.
Definition calls (v : vte) (ops : list op) : res vte := do c <- run (v_con v) ops; Ok (w_con v c).
Lemma scr_calls v o : scr v o = calls v [o].
Proof. unfold scr, calls. cbn [run]. destruct (step (v_con v) o); reflexivity. Qed.
Lemma scr_calls2 v o o' : (do v1 <- scr v o; scr v1 o') = calls v [o; o'].
Proof.
  unfold scr, calls. cbn [run]. destruct (step (v_con v) o) as [c|]; [|reflexivity]. cbn [bind w_con v_con].
  destruct (step c o'); reflexivity.
Qed.
Lemma calls_nil v : Ok v = calls v [].
Proof. unfold calls. cbn [run bind]. now destruct v. Qed.

Lemma marker_what pri fl : marker pri = Some fl -> bit fl CSI_WHAT = match pri with [63] => true | _ => false end.
Proof.
  intros Hm. destruct pri as [|c [|? ?]]; cbn [marker] in Hm; try discriminate; [inversion Hm; reflexivity|].
  destruct ((60 <=? c) && (c <=? 63)) eqn:E; [|discriminate]. inversion Hm as [Ef].
  assert (R : c = 60 \/ c = 61 \/ c = 62 \/ c = 63) by lia. destruct R as [->|[->|[->| ->]]]; reflexivity.
Qed.
Lemma arg_range P k : Forall pchar P -> -1 <= arg P k <= 655359.
Proof.
  intros H. unfold arg, args. pose proof (split_digits P H) as SD. generalize dependent (split P). intros l SD.
  destruct (Nat.lt_ge_cases k (length (firstn 16 (map argval l)))) as [L|L]; [|rewrite nth_overflow by lia; lia].
  pose proof (nth_In (firstn 16 (map argval l)) (-1) L) as I.
  assert (Hi : In (nth k (firstn 16 (map argval l)) (-1)) (map argval l)).
  { rewrite <- (firstn_skipn 16 (map argval l)) at 2. apply in_or_app. now left. }
  apply in_map_iff in Hi. destruct Hi as (ds & <- & Hd). apply argval_range. rewrite Forall_forall in SD. now apply SD.
Qed.

(* Decide comparisons of numerals. *)
Ltac eqbs := repeat match goal with |- context [Zpos ?a =? Zpos ?b] =>
  let c := eval compute in (Zpos a =? Zpos b) in rewrite (eq_refl : (Zpos a =? Zpos b) = c) end.
Lemma csi_tab w pri P f ops : zget (v_argv w) 0 = Ok (arg P 0) -> zget (v_argv w) 1 = Ok (arg P 1) ->
  cfl w CSI_WHAT = match pri with [63] => true | _ => false end -> -1 <= arg P 0 <= 655359 -> -1 <= arg P 1 <= 655359 ->
  0 <= s_cy (v_con w) < 1073741824 ->
  screen_calls (v_con w) pri P f = Some ops -> csi_body w f = calls w ops.
Proof.
  intros E0 E1 EW R0 R1 CY Hs. unfold csi_body. cbv zeta. rewrite E0, E1, EW. cbn [bind].
  unfold screen_calls, arg1, arg0 in Hs. cbv zeta in Hs.
  repeat match goal with
  | Hs : (if f =? ?k then _ else _) = Some _ |- _ => destruct (Z.eqb_spec f k) as [->|?];
     [clear -Hs R0 R1 CY; eqbs; cbn [orb]|]
  end; [..|discriminate].
  all: try (injection Hs as <-; first [apply scr_calls | apply scr_calls2]).
  - injection Hs as <-. rewrite u32_small by (destruct (Z.leb_spec (arg P 0) 0); lia). apply scr_calls.
  - destruct (Z.leb_spec (arg P 0) 0); [replace (Z.max 0 (arg P 0)) with 0 in Hs by lia; injection Hs as <-; apply scr_calls|].
    rewrite Z.max_r in Hs by lia.
    destruct (Z.eqb_spec (arg P 0) 1) as [E|?]; [rewrite E in Hs; injection Hs as <-; apply scr_calls|].
    destruct (Z.eqb_spec (arg P 0) 2) as [E|?]; [rewrite E in Hs; injection Hs as <-; apply scr_calls|].
    destruct (arg P 0) as [|p|p]; try lia. destruct p as [p|[p|p|]|]; try lia; injection Hs as <-; apply calls_nil.
  - destruct (Z.leb_spec (arg P 0) 0); [replace (Z.max 0 (arg P 0)) with 0 in Hs by lia; injection Hs as <-; apply scr_calls|].
    rewrite Z.max_r in Hs by lia.
    destruct (Z.eqb_spec (arg P 0) 1) as [E|?]; [rewrite E in Hs; injection Hs as <-; apply scr_calls|].
    destruct (Z.eqb_spec (arg P 0) 2) as [E|?]; [rewrite E in Hs; injection Hs as <-; apply scr_calls|].
    destruct (arg P 0) as [|p|p]; try lia. destruct p as [p|[p|p|]|]; try lia; injection Hs as <-; apply calls_nil.
  - injection Hs as <-. replace (if arg P 0 <? 0 then 0 else arg P 0) with (Z.max 0 (arg P 0)) by (destruct (Z.ltb_spec (arg P 0) 0); lia).
    replace (if arg P 1 <? 0 then 0 else arg P 1) with (Z.max 0 (arg P 1)) by (destruct (Z.ltb_spec (arg P 1) 0); lia). apply scr_calls.
  - destruct (Z.leb_spec (arg P 0) 0); [replace (Z.max 0 (arg P 0)) with 0 in Hs by lia; injection Hs as <-; apply scr_calls|].
    rewrite Z.max_r in Hs by lia.
    destruct (Z.eqb_spec (arg P 0) 3) as [E|?]; [rewrite E in Hs; injection Hs as <-; apply scr_calls|].
    destruct (arg P 0) as [|p|p]; try lia. destruct p as [[p|p|]|p|]; try lia; injection Hs as <-; apply calls_nil.
Qed.

Lemma csi_calls v pri fl P f st ops : VInv v -> marker pri = Some fl -> Forall pchar P ->
  screen_calls (v_con v) pri P f = Some ops -> csi_run (at_csi v fl P st) f = calls (at_csi v fl P st) ops.
Proof.
  intros H Hm HP Hs. rewrite csi_run_body by (rewrite at_argc; destruct (args_len P); lia).
  pose proof (reachable_Inv _ (vi_con v H)) as IC.
  apply (csi_tab (at_csi v fl P st) pri P f ops).
  - now apply (at_arg v fl P st 0).
  - now apply (at_arg v fl P st 1).
  - exact (marker_what pri fl Hm).
  - now apply arg_range.
  - now apply arg_range.
  - destruct IC as (I0 & Ix & Iy); inv0 I0; unfold DIM in *. change (v_con (at_csi v fl P st)) with (v_con v). lia.
  - exact Hs.
Qed.

Lemma text_event v : text_mode v -> osc_event v = v.
Proof. intros [E _]. apply osc_event_ground. congruence. Qed.
Lemma seq_acts sg v pri fl P f ops : VInv v -> text_mode v -> marker pri = Some fl -> Forall pchar P ->
  64 <= f <= 126 -> screen_calls (v_con v) pri P f = Some ops -> acts sg v (csi_bytes pri P f) ops.
Proof.
  intros H Ht Hm HP Hf Hs. pose proof Ht as [_ Hr].
  destruct (csi_seq sg v pri fl P f H Hr Hm HP Hf) as (st & _ & E). rewrite (text_event v Ht) in E.
  rewrite (csi_calls v pri fl P f st ops H Hm HP Hs) in E. unfold acts, calls in *.
  change (v_con (at_csi v fl P st)) with (v_con v) in E.
  destruct (run (v_con v) ops) as [c|]; cbn [bind] in E; [|exact E].
  destruct E as (v' & E & A & T & _). exists v'. split; [exact E|]. split; [|exact T].
  rewrite (core_alike _ _ A). reflexivity.
Qed.
