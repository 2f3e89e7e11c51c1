(* Clients of the renderer: pictures of the screen and what keeps them right. *)
From Verif Require Import Base BaseProofs Symbol Screen ScreenInv ScreenSb ScreenScroll ScreenSpec ScreenOps ScreenMove ScreenCtl ScreenResize ScreenSafe.
From Verif Require Import Render RenderSpec RenderProofs RenderAge.

(* -- drawing into a picture --------------------------------------------------------- *)
Definition sits (d : dcall) (i x : Z) : Prop := d_y d = i /\ d_x d = x.
Lemma sits_dec d i x : sits d i x \/ ~ sits d i x.
Proof. unfold sits. lia. Qed.
Lemma put_hit f d i x : sits d i x -> put f d i x = Some (what d).
Proof. intros [A B]. unfold put. replace (_ && _) with true by lia. reflexivity. Qed.
Lemma put_miss f d i x : ~ sits d i x -> put f d i x = f i x.
Proof. intros A. unfold sits in A. unfold put. replace (_ && _) with false by lia. reflexivity. Qed.
Lemma fold_miss l : forall f i x, (forall d, In d l -> ~ sits d i x) -> fold_left put l f i x = f i x.
Proof.
  induction l as [|d l IH]; intros f i x H; cbn [fold_left]; [reflexivity|].
  rewrite IH by (intros; apply H; now right). apply put_miss, H. now left.
Qed.
Lemma fold_keep l w : forall f i x, (forall d, In d l -> sits d i x -> what d = w) -> f i x = Some w -> fold_left put l f i x = Some w.
Proof.
  induction l as [|d l IH]; intros f i x H Hf; cbn [fold_left]; [exact Hf|].
  apply IH; [intros; apply H; [now right|assumption]|].
  destruct (sits_dec d i x) as [S|S]; [rewrite put_hit by auto; f_equal; apply H; [now left|exact S]|now rewrite put_miss].
Qed.
Lemma fold_hit l w : forall f i x, (forall d, In d l -> sits d i x -> what d = w) -> (exists d, In d l /\ sits d i x) ->
  fold_left put l f i x = Some w.
Proof.
  induction l as [|d l IH]; intros f i x H (d0 & I0 & S0); [destruct I0|]. cbn [fold_left].
  destruct I0 as [->|I0].
  - apply fold_keep; [intros; apply H; [now right|assumption]|]. rewrite put_hit by auto. f_equal. apply H; [now left|exact S0].
  - apply IH; [intros; apply H; [now right|assumption]|]. eauto.
Qed.

(* The calls of one draw. *)
Definition grid (s : screen) (ds : list dcall) : Prop :=
  zlen ds = s_sy s * s_sx s /\ forall y x, on_screen s y x -> znth ds (y * s_sx s + x) = Some (expected s (lit s y x) y x).
Lemma expected_sits s q y x : sits (expected s q y x) y x.
Proof. unfold expected, dcall_of. destruct (shown_cell s y x) as [[ch w] a]. split; reflexivity. Qed.
Lemma expected_age s q y x : d_age (expected s q y x) = reported_age s y x.
Proof. unfold expected, dcall_of. destruct (shown_cell s y x) as [[ch w] a]. reflexivity. Qed.
Lemma grid_in s ds d : 0 < s_sx s -> grid s ds -> In d ds -> exists y x, on_screen s y x /\ d = expected s (lit s y x) y x.
Proof.
  intros Hx [L G] I. apply In_nth_error in I as [n En].
  assert (Ez : znth ds (Z.of_nat n) = Some d) by (rewrite znth_of_nat; exact En).
  apply znth_Some_range in Ez as R. set (j := Z.of_nat n) in *.
  assert (O : on_screen s (j / s_sx s) (j mod s_sx s)).
  { split; [split; [apply Z.div_pos; lia|apply Z.div_lt_upper_bound; lia]|apply Z.mod_pos_bound; lia]. }
  exists (j / s_sx s), (j mod s_sx s). split; [exact O|]. pose proof (G _ _ O) as E.
  replace (j / s_sx s * s_sx s + j mod s_sx s) with j in E by (pose proof (Z.div_mod j (s_sx s)); lia). congruence.
Qed.
Lemma grid_at s ds y x d : 0 < s_sx s -> grid s ds -> In d ds -> sits d y x -> on_screen s y x /\ d = expected s (lit s y x) y x.
Proof.
  intros Hx G I [Sy Sx]. destruct (grid_in s ds d Hx G I) as (y' & x' & O & E).
  destruct (expected_sits s (lit s y' x') y' x') as [A B]. rewrite <- E in A, B. subst y' x'. rewrite Sy, Sx in *. auto.
Qed.
Lemma grid_has s ds y x : grid s ds -> on_screen s y x -> In (expected s (lit s y x) y x) ds.
Proof. intros [_ G] O. specialize (G y x O). unfold znth in G. destruct (_ <? 0); [discriminate|]. eapply nth_error_In; eauto. Qed.

Lemma redraw_at s ds f y x : 0 < s_sx s -> grid s ds -> on_screen s y x -> redraw ds f y x = Some (drawn_at s y x).
Proof.
  intros Hx G O. apply fold_hit.
  - intros d I S. destruct (grid_at s ds y x d Hx G I S) as [_ ->]. reflexivity.
  - exists (expected s (lit s y x) y x). split; [now apply grid_has|apply expected_sits].
Qed.
Lemma update_at s ds f last y x : 0 < s_sx s -> grid s ds -> on_screen s y x ->
  update last ds f y x = if negb (reported_age s y x =? 0) && (reported_age s y x <=? last) then f y x else Some (drawn_at s y x).
Proof.
  intros Hx G O. unfold update. set (e := expected s (lit s y x) y x).
  assert (F : fresh last e = negb (negb (reported_age s y x =? 0) && (reported_age s y x <=? last))).
  { unfold fresh, e. now rewrite expected_age. }
  destruct (_ && _) eqn:Ea; cbn [negb] in F.
  - apply fold_miss. intros d I S. apply filter_In in I as [I Fd].
    destruct (grid_at s ds y x d Hx G I S) as [_ E]. fold e in E. congruence.
  - apply fold_hit.
    + intros d I S. apply filter_In in I as [I _]. destruct (grid_at s ds y x d Hx G I S) as [_ ->]. reflexivity.
    + exists e. split; [|apply expected_sits]. apply filter_In. split; [now apply grid_has|exact F].
Qed.

(* -- states of a session ------------------------------------------------------------ *)
Lemma Inv_rst s b : Inv s -> Inv (set_rst s b).
Proof. intros (H & X & Y). split; [|exact (conj X Y)]. inv0 H. constructor; sredg; auto. Qed.
Lemma act_Inv k a k' : Inv (k_scr k) -> act_args a -> act_step k a = Ok k' -> Inv (k_scr k').
Proof.
  intros H Ha E. destruct a as [o| |x y]; unfold act_step in E; cbn [act_args] in Ha.
  - destruct (step (k_scr k) o) as [s|] eqn:Es; [|discriminate]. cbn [bind] in E. assert (Ek : k' = mkCl s (k_last k) (k_inc k) (k_full k)) by congruence.
    subst k'. cbn [k_scr]. now apply (step_Inv (k_scr k) o).
  - destruct (draw_lit (k_scr k) H) as (ds & Ed & _). rewrite Ed in E. cbn [bind] in E.
    match type of E with Ok ?t = _ => assert (Ek : k' = t) by congruence end. subst k'. cbn [k_scr]. now apply Inv_rst.
  - destruct (step (k_scr k) (OResize x y)) as [s|] eqn:Es; [|discriminate]. cbn [bind] in E.
    match type of E with Ok ?t = _ => assert (Ek : k' = t) by congruence end. subst k'. cbn [k_scr]. exact (step_Inv (k_scr k) (OResize x y) s H Ha Es).
Qed.
Lemma play_Inv acts : forall k k', Inv (k_scr k) -> Forall act_args acts -> play k acts = Ok k' -> Inv (k_scr k').
Proof.
  induction acts as [|a r IH]; intros k k' H Ha E; cbn [play] in E; [assert (k' = k) by congruence; now subst|].
  apply Forall_cons_iff in Ha as [A1 A2]. destruct (act_step k a) as [k1|] eqn:E1; [|discriminate]. cbn [bind] in E.
  apply (IH k1 k'); auto. eapply act_Inv; eauto.
Qed.
Lemma drawn_Inv s : drawn_reachable s -> Inv s.
Proof.
  intros (acts & k & A & E & <-). exact (play_Inv acts (client0 scr_init) k scr_init_Inv A E).
Qed.

(* -- the age of the whole screen is never negative ------------------------------------ *)
Lemma resized_age s s' x y : Inv0 s -> resized s s' x y -> 0 <= s_age s -> 0 <= s_age s'.
Proof.
  intros H [(s8 & P & I8 & ->)] A.
  assert (A7 : s_age (rz_s7 s x y) = s_age s).
  { assert (W : s_age (rz_wide s x y) = s_age s).
    { unfold rz_wide. generalize (rz_tabs s x) (rz_main s x y) (rz_alt s x y). intros tt mm aa. sredg. rewrite inc_age_eq. reflexivity. }
    unfold rz_s7. destruct (x <=? s_cx s); [rewrite moved_age|]; exact W. }
  assert (A8 : 0 <= s_age s8).
  { destruct (y <? s_sy s).
    - destruct P as (t & P & E8). rewrite E8, moved_age, (su_age _ _ _ P).
      pose proof (i_cnt _ (su_inv _ _ _ P)) as C. pose proof (f_cnt _ _ (su_env _ _ _ P)). lia.
    - subst s8. lia. }
  cbv zeta. destruct (y <=? s_cy s8); [rewrite moved_age|]; exact A8.
Qed.
Lemma resize_age s x y s' : Inv s -> op_args (OResize x y) -> step s (OResize x y) = Ok s' -> 0 <= s_age s -> 0 <= s_age s'.
Proof.
  intros H Ha E A. cbn [op_args] in Ha. unfold step in E.
  destruct ((x =? 0) || (y =? 0) || (s_sx s =? x) && (s_sy s =? y)) eqn:Et.
  - assert (Er : exists c, scr_resize s x y = Ok (s, c)).
    { unfold scr_resize. destruct ((x =? 0) || (y =? 0)); [eauto|]. cbn [orb] in Et. rewrite Et. eauto. }
    destruct Er as (c & Er). rewrite Er in E. cbn [bind fst] in E. replace s' with s by congruence. exact A.
  - destruct (resize_ok s x y H ltac:(lia) ltac:(lia) ltac:(lia)) as (s1 & E1 & P & _). rewrite E1 in E. cbn [bind fst] in E.
    replace s' with s1 by congruence. eapply resized_age; eauto. apply H.
Qed.

(* -- what a client that skips knows -------------------------------------------------- *)
Definition in_step (k : client) : Prop :=
  let s := k_scr k in
  Inv s /\ 0 <= s_age s /\
  (s_rst s = true \/ k_last k = 0 \/
   k_last k <= s_cnt s /\
   forall y x, on_screen s y x -> k_inc k y x = Some (drawn_at s y x) \/ k_last k < shown_age s y x).

Lemma drawn_at_rst s b y x : Inv s -> drawn_at (set_rst s b) y x = drawn_at s y x.
Proof.
  intros H. unfold drawn_at. rewrite (same_lit s (set_rst s b) y x); [|apply H|apply (Inv_rst s b H)|constructor; reflexivity].
  unfold expected, dcall_of. change (shown_cell (set_rst s b) y x) with (shown_cell s y x).
  destruct (shown_cell s y x) as [[ch w] a]. reflexivity.
Qed.

Lemma draw_step k : in_step k -> exists k', act_step k ADraw = Ok k' /\ in_step k' /\
  k_scr k' = set_rst (k_scr k) false /\
  forall y x, on_screen (k_scr k) y x ->
    k_inc k' y x = Some (drawn_at (k_scr k) y x) /\ k_full k' y x = Some (drawn_at (k_scr k) y x).
Proof.
  intros (H & A & P). set (s := k_scr k) in *. destruct (draw_lit s H) as (ds & Ed & G).
  fold (grid s ds) in G. pose proof (i_sx _ (proj1 H)) as Isx.
  set (k' := mkCl (set_rst s false) (if s_rst s then 0 else s_cnt s) (update (k_last k) ds (k_inc k)) (redraw ds (k_full k))).
  assert (B : forall y x, on_screen s y x -> k_inc k' y x = Some (drawn_at s y x) /\ k_full k' y x = Some (drawn_at s y x)).
  { intros y x O. cbn [k_inc k_full k']. split; [|apply redraw_at; auto; lia].
    rewrite (update_at s) by (auto; lia). destruct (shown_some0 s y (proj1 H) (proj1 O)) as [l El].
    assert (As : 0 <= shown_age s y x) by (unfold shown_age; rewrite El; lia).
    unfold reported_age. destruct (s_rst s) eqn:R; [reflexivity|].
    destruct P as [P|[P|[P1 P2]]]; [congruence| |].
    - rewrite P. destruct (_ && _) eqn:Eb; [lia|reflexivity].
    - destruct (P2 y x O) as [-> |L]; [now destruct (_ && _)|].
      replace (_ && _) with false by lia. reflexivity. }
  exists k'. split; [|split; [|split; [reflexivity|exact B]]].
  - cbn [act_step]. fold s. rewrite Ed. reflexivity.
  - split; [apply (Inv_rst s false H)|]. split; [exact A|]. destruct (s_rst s) eqn:R; [right; left; reflexivity|].
    right. right. split; [cbn [k' k_last k_scr]; sredg; lia|]. intros y x O. left.
    change (k_scr k') with (set_rst s false). rewrite drawn_at_rst by auto. now apply B.
Qed.

Lemma call_step k a k' : in_step k -> act_args a -> act_aged (k_scr k) a -> act_step k a = Ok k' -> in_step k'.
Proof.
  intros I Ha Hg E. destruct a as [o| |x y].
  - destruct I as (H & A & P). pose proof (act_Inv _ _ _ H Ha E) as H'. cbn [act_step act_args] in *.
    destruct (step (k_scr k) o) as [s'|] eqn:Es; [|discriminate]. cbn [bind] in E.
    assert (Ek : k' = mkCl s' (k_last k) (k_inc k) (k_full k)) by congruence. subst k'.
    destruct (ages_step (k_scr k) o s' H Ha Hg Es) as [G AG]. split; [exact H'|]. split; [exact (G A)|].
    cbn [k_scr k_last k_inc] in *. destruct AG as [R|(R & C & X & Y & Q)]; [left; exact R|].
    destruct P as [P|[P|[P1 P2]]]; [congruence|right; left; exact P|]. right. right. split; [lia|].
    intros y x O. destruct (Q y x O) as [[Q1 Q2]|Q1]; [|right; lia].
    assert (O' : on_screen (k_scr k) y x) by (unfold on_screen in *; rewrite X, Y in O; exact O).
    rewrite Q1. destruct (P2 y x O'); [left; assumption|right; lia].
  - destruct (draw_step k I) as (k1 & E1 & I1 & _). assert (k' = k1) by congruence. now subst.
  - destruct I as (H & A & P). pose proof (act_Inv _ _ _ H Ha E) as H'. cbn [act_step act_args] in *.
    destruct (step (k_scr k) (OResize x y)) as [s'|] eqn:Es; [|discriminate]. cbn [bind] in E.
    assert (Ek : k' = mkCl s' 0 (fun _ _ => None) (fun _ _ => None)) by congruence. subst k'.
    split; [exact H'|]. split; [exact (resize_age _ x y s' H Ha Es A)|]. right. left. reflexivity.
Qed.
Lemma play_step acts : forall k k', in_step k -> Forall act_args acts -> play_aged k acts -> play k acts = Ok k' -> in_step k'.
Proof.
  induction acts as [|a r IH]; intros k k' H Ha Hg E; cbn [play] in E; [assert (k' = k) by congruence; now subst|].
  apply Forall_cons_iff in Ha as [A1 A2]. cbn [play_aged] in Hg. destruct Hg as [G1 G2].
  destruct (act_step k a) as [k1|] eqn:E1; [|discriminate]. cbn [bind] in E.
  apply (IH k1 k'); auto. eapply call_step; eauto.
Qed.
Lemma init_in_step : in_step (client0 scr_init).
Proof.
  split; [exact scr_init_Inv|]. split; [vm_compute; discriminate|]. right. left. reflexivity.
Qed.

(* -- C20 ------------------------------------------------------------------------------ *)
Lemma redraw_sound acts k : Forall act_args acts -> play_aged (client0 scr_init) acts ->
  play (client0 scr_init) acts = Ok k -> exists k', act_step k ADraw = Ok k' /\
  forall y x, on_screen (k_scr k) y x -> k_inc k' y x = k_full k' y x /\ k_full k' y x <> None.
Proof.
  intros Ha Hg E. destruct (draw_step k (play_step acts _ _ init_in_step Ha Hg E)) as (k' & E' & _ & _ & B).
  exists k'. split; [exact E'|]. intros y x O. destruct (B y x O) as [B1 B2]. rewrite B1, B2. split; [reflexivity|discriminate].
Qed.

(* -- C21 ------------------------------------------------------------------------------ *)
Lemma draw_covers s : drawn_reachable s -> exists ds age,
  draw s = Ok (ds, set_rst s false, age) /\ zlen ds = s_sy s * s_sx s /\
  forall y x, on_screen s y x ->
    exists q, (s_sela s = false -> q = false) /\ znth ds (y * s_sx s + x) = Some (expected s q y x).
Proof. intros H. destruct (draw_any s (drawn_Inv s H)) as (ds & A & B & C). eauto 10. Qed.
Lemma draw_selection s : drawn_reachable s -> (s_sela s = true -> end_shown s (s_sel1 s) /\ end_shown s (s_sel2 s)) ->
  exists ds age, draw s = Ok (ds, set_rst s false, age) /\ zlen ds = s_sy s * s_sx s /\
  forall y x, on_screen s y x -> znth ds (y * s_sx s + x) = Some (expected s (selected s y x) y x).
Proof.
  intros H P. pose proof (drawn_Inv s H) as I. destruct (s_sela s) eqn:E.
  - destruct (P eq_refl) as [P1 P2]. destruct (draw_sel s I E P1 P2) as (ds & A & B & C). eauto 10.
  - destruct (draw_any s I) as (ds & A & B & C). exists ds. eexists. split; [exact A|]. split; [exact B|].
    intros y x O. destruct (C y x O) as (q & Q & D). rewrite (Q E) in D. unfold selected. rewrite E. exact D.
Qed.

(* -- concrete sessions ---------------------------------------------------------------- *)
Lemma play_calls ops : forall k s', run (k_scr k) ops = Ok s' ->
  play k (map ACall ops) = Ok (mkCl s' (k_last k) (k_inc k) (k_full k)).
Proof.
  induction ops as [|o r IH]; intros k s' E; cbn [run map play] in *.
  - assert (Es : s' = k_scr k) by congruence. subst s'. destruct k; reflexivity.
  - unfold act_step. destruct (step (k_scr k) o) as [s1|]; [|discriminate]. cbn [bind] in *. now rewrite (IH (mkCl s1 (k_last k) (k_inc k) (k_full k)) s').
Qed.
Lemma drawn_run ops s : Forall op_args ops -> run scr_init ops = Ok s -> drawn_reachable s.
Proof.
  intros A E. exists (map ACall ops). eexists. split; [|split; [apply (play_calls ops (client0 scr_init) s E)|reflexivity]].
  apply Forall_map. exact A.
Qed.
Lemma play_app a b k : play k (a ++ b) = do k' <- play k a; play k' b.
Proof.
  revert k. induction a as [|x r IH]; intros k; cbn [app play bind]; [reflexivity|]. destruct (act_step k x); cbn [bind]; auto.
Qed.

(* A position drawn otherwise than the selection asks for. *)
Definition drawn_wrong (s : screen) (y x : Z) : bool :=
  match draw s with
  | Ok (ds, _, _) =>
    match znth ds (y * s_sx s + x) with
    | Some d => (0 <=? y) && (y <? s_sy s) && (0 <=? x) && (x <? s_sx s) &&
                negb (Bool.eqb (a_inverse (d_attr d)) (a_inverse (d_attr (expected s (selected s y x) y x))))
    | None => false
    end
  | Ub => false
  end.
Definition ops_wrong (ops : list op) (y x : Z) : bool :=
  match run scr_init ops with Ok s => drawn_wrong s y x | Ub => false end.
Definition draws_selection (s : screen) : Prop := exists ds age, draw s = Ok (ds, set_rst s false, age) /\
  forall y x, on_screen s y x -> znth ds (y * s_sx s + x) = Some (expected s (selected s y x) y x).
Lemma ops_wrong_refutes ops y x : Forall op_args ops -> ops_wrong ops y x = true ->
  exists s, run scr_init ops = Ok s /\ drawn_reachable s /\ ~ draws_selection s.
Proof.
  intros A W. unfold ops_wrong in W. destruct (run scr_init ops) as [s|] eqn:E; [|discriminate].
  exists s. split; [reflexivity|]. split; [eapply drawn_run; eauto|]. intros (ds & age & Ed & G). unfold drawn_wrong in W. rewrite Ed in W.
  destruct (znth ds (y * s_sx s + x)) as [d|] eqn:Ez; [|discriminate].
  apply andb_prop in W as [W1 W2]. assert (O : on_screen s y x) by (unfold on_screen; lia).
  rewrite (G y x O) in Ez. assert (Ed2 : d = expected s (selected s y x) y x) by congruence. subst d.
  rewrite Bool.eqb_reflx in W2. discriminate.
Qed.

(* A position at which the two pictures differ in an attribute. *)
Definition attr_of (f : picture) (y x : Z) : option attr := match f y x with Some (_, _, _, _, a) => Some a | None => None end.
Definition play_wrong (acts : list act) (y x : Z) : bool :=
  match play (client0 scr_init) (acts ++ [ADraw]) with
  | Ok k => (0 <=? y) && (y <? s_sy (k_scr k)) && (0 <=? x) && (x <? s_sx (k_scr k)) &&
            match attr_of (k_inc k) y x, attr_of (k_full k) y x with
            | Some a, Some b => negb (Bool.eqb (a_inverse a) (a_inverse b) && (a_fr a =? a_fr b))
            | _, _ => false
            end
  | Ub => false
  end.
Lemma play_wrong_refutes acts y x : play_wrong acts y x = true ->
  exists k, play (client0 scr_init) (acts ++ [ADraw]) = Ok k /\ on_screen (k_scr k) y x /\ k_inc k y x <> k_full k y x.
Proof.
  unfold play_wrong. destruct (play _ _) as [k|]; [|discriminate]. intros W. exists k. split; [reflexivity|].
  apply andb_prop in W as [W1 W2]. split; [unfold on_screen; lia|]. intros E. unfold attr_of in W2. rewrite E in W2.
  destruct (k_full k y x) as [[[[[? ?] ?] ?] a]|]; [|discriminate]. rewrite Bool.eqb_reflx, Z.eqb_refl in W2. discriminate.
Qed.

(* The age counter does overflow. *)
Lemma home_cnt s : Inv s -> s_cnt s + 1 < 18446744073709551616 ->
  exists s', step s OLineHome = Ok s' /\ Inv s' /\ s_cnt s' = s_cnt s + 1.
Proof.
  intros H C. destruct (line_home_ok s H) as [E I]. eexists. split; [exact E|]. split; [exact I|].
  rewrite (e_cnt _ _ (env_moved (inc_age s) 0 (s_cy s))), inc_age_eq. unfold next_cnt. sredg.
  pose proof (i_cnt _ (proj1 H)). unfold u64. rewrite Z.mod_small by lia. now replace (_ =? 0) with false by lia.
Qed.
Lemma home_many n : forall k, Inv (k_scr k) -> s_cnt (k_scr k) + Z.of_nat n < 18446744073709551616 ->
  exists k', play k (repeat (ACall OLineHome) n) = Ok k' /\ Inv (k_scr k') /\ s_cnt (k_scr k') = s_cnt (k_scr k) + Z.of_nat n /\
    k_last k' = k_last k /\ play_aged k (repeat (ACall OLineHome) n).
Proof.
  induction n as [|n IH]; intros k H C; cbn [repeat play play_aged].
  - exists k. split; [reflexivity|]. split; [exact H|]. split; [lia|auto].
  - destruct (home_cnt (k_scr k) H ltac:(lia)) as (s1 & E1 & I1 & C1). unfold act_step. rewrite E1. cbn [bind].
    destruct (IH (mkCl s1 (k_last k) (k_inc k) (k_full k)) I1 ltac:(cbn [k_scr]; lia)) as (k' & E' & I' & C' & L' & G').
    cbn [k_scr k_last] in *. exists k'. split; [exact E'|]. split; [exact I'|]. split; [lia|]. split; [exact L'|]. split; [exact I|exact G'].
Qed.
Lemma play_aged_app a b k : play_aged k a -> (forall k', play k a = Ok k' -> play_aged k' b) -> play_aged k (a ++ b).
Proof.
  revert k. induction a as [|x r IH]; intros k Ha Hb; cbn [app play play_aged] in *; [now apply Hb|].
  destruct Ha as [A1 A2]. split; [exact A1|]. destruct (act_step k x) as [k1|]; [|exact I]. cbn [bind] in *. now apply IH.
Qed.
Lemma overflow_from s0 : in_step (client0 s0) -> s_rst s0 = false -> exists acts k, Forall act_args acts /\ play_aged (client0 s0) acts /\
  play (client0 s0) acts = Ok k /\ 0 < k_last k /\ s_cnt (k_scr k) = 1 /\ s_rst (k_scr k) = true.
Proof.
  intros I00 R0. pose proof (proj1 I00) as IS0. cbn [client0 k_scr] in IS0.
  destruct (draw_step (client0 s0) I00) as (k0 & E0 & I0 & S0 & _).
  assert (L0 : k_last k0 = s_cnt s0).
  { destruct (draw_lit s0 IS0) as (ds & Ed & _). unfold act_step in E0. change (k_scr (client0 s0)) with s0 in E0.
    rewrite Ed in E0. cbn [bind] in E0. match type of E0 with Ok ?t = _ => assert (Ek : k0 = t) by congruence end. rewrite Ek. cbn [k_last].
    now rewrite R0. }
  change (k_scr (client0 s0)) with s0 in S0.
  assert (C0 : s_cnt (k_scr k0) = s_cnt s0) by (rewrite S0; reflexivity).
  pose proof (i_cnt _ (proj1 IS0)) as CI.
  destruct (home_many (Z.to_nat (18446744073709551615 - s_cnt s0)) k0 (proj1 I0) ltac:(lia)) as (k1 & E1 & I1 & C1 & L1 & G1).
  remember (repeat (ACall OLineHome) (Z.to_nat (18446744073709551615 - s_cnt s0))) as hs eqn:Ehs.
  assert (Ah : Forall act_args hs) by (subst hs; apply Forall_forall; intros a Ha; apply repeat_spec in Ha; subst a; exact I).
  destruct (line_home_ok (k_scr k1) I1) as [E2 I2].
  exists (ADraw :: hs ++ [ACall OLineHome]). eexists.
  assert (EP : play (client0 s0) (ADraw :: hs ++ [ACall OLineHome]) =
    Ok (mkCl (moved (inc_age (k_scr k1)) 0 (s_cy (k_scr k1))) (k_last k1) (k_inc k1) (k_full k1))).
  { cbn [play]. rewrite E0. cbn [bind]. rewrite play_app, E1. cbn [bind play]. unfold act_step.
    change (step (k_scr k1) OLineHome) with (scr_line_home (k_scr k1)). rewrite E2. reflexivity. }
  split; [|split; [|split; [exact EP|]]].
  - apply Forall_cons; [exact I|]. apply Forall_app. split; [exact Ah|]. apply Forall_cons; [exact I|apply Forall_nil].
  - cbn [play_aged]. split; [exact I|]. rewrite E0. apply play_aged_app; [exact G1|]. intros k' _. cbn [play_aged]. split; [exact I|].
    destruct (act_step k' (ACall OLineHome)); exact I.
  - cbn [k_last k_scr]. pose proof (env_moved (inc_age (k_scr k1)) 0 (s_cy (k_scr k1))) as EM. rewrite (e_cnt _ _ EM), (e_rst _ _ EM).
    rewrite inc_age_eq. unfold next_cnt, next_rst. sredg.
    assert (Z0 : u64 (s_cnt (k_scr k1) + 1) =? 0 = true) by (unfold u64; lia). rewrite Z0. split; [lia|]. split; reflexivity.
Qed.
Lemma overflow_happens : exists acts k, Forall act_args acts /\ play_aged (client0 scr_init) acts /\
  play (client0 scr_init) acts = Ok k /\ 0 < k_last k /\ s_cnt (k_scr k) = 1 /\ s_rst (k_scr k) = true.
Proof. apply (overflow_from scr_init init_in_step). vm_compute. reflexivity. Qed.
