(* A widget with cells of 2 by 3 pixels for examples and witnesses. *)
From Verif Require Import Base BaseProofs Screen ScreenSpec ScreenResize ScreenSafe Render RenderSpec VteData Vte VteKeys Gadget GadgetSpec.

Notation px n := (n * 1024).
Definition dwell (r : res gadget) (es : list gev) : res gadget := do h <- r; on_gevs true h es.
(* A window of 8 by 3 cells. *)
Definition start : list gev := [EvFork 2 3; EvConfigure 16 9].
Definition hello : list gev := start ++ [EvSbSize 9; EvSays [97; 13; 10; 98; 13; 10; 99; 13; 10; 100; 13; 10; 101]; EvRead 99; EvFrame].
Definition back : list gev := hello ++ [EvKey true 1 0xff52 (Some (0xff52, 0)) 0; EvFrame].
Definition glance (o : option (list (Z * Z * drawn))) : list (list Z) :=
  match o with Some l => map (fun d => let '(_, _, (_, ch, _, _, _)) := d in ch) l | None => [] end.
Definition differ (a b : list (list Z)) : bool := if list_eq_dec (list_eq_dec Z.eq_dec) a b then false else true.
Lemma differ_ne a b : differ a b = true -> a <> b.
Proof. unfold differ. destruct (list_eq_dec _ a b); [discriminate|auto]. Qed.

Definition stale (r : res gadget) (es1 es2 : list gev) : bool :=
  match dwell r (es1 ++ [EvFrame]) with
  | Ok h => match on_gevs true h es2 with Ok h' => negb (h_queued h') && differ (glance (looks (v_con (h_vte h')))) (glance (looks (v_con (h_vte h)))) | Ub => false end
  | Ub => false
  end.
Lemma stale_refutes r es1 es2 : stale r es1 es2 = true -> ~ In EvFrame es2 ->
  ~ (forall sg h0 es1 h es2 h', r = Ok h0 -> on_gevs sg h0 (es1 ++ [EvFrame]) = Ok h -> ~ In EvFrame es2 -> on_gevs sg h es2 = Ok h' -> h_queued h' = false ->
     looks (v_con (h_vte h')) = looks (v_con (h_vte h))).
Proof.
  intros S N H. unfold stale, dwell in S. destruct r as [h0|]; [|discriminate]. cbn [bind] in S. destruct (on_gevs true h0 (es1 ++ [EvFrame])) as [h|] eqn:E1; [|discriminate].
  destruct (on_gevs true h es2) as [h'|] eqn:E2; [|discriminate]. apply andb_prop in S. destruct S as [Q D]. apply negb_true_iff in Q. apply differ_ne in D. apply D. now rewrite (H true h0 es1 h es2 h' eq_refl E1 N E2 Q).
Qed.
Definition wrapped (r : res gadget) (es : list gev) (t x y : Z) : bool :=
  match dwell r es with
  | Ok h => match h_face h with Some _ => match on_gevs true h [EvButton Down 1 t x y; EvButton Up 1 t x y] with Ok h' => s_sela (v_con (h_vte h')) | Ub => false end | None => false end
  | Ub => false
  end.
Lemma wrapped_refutes r es t x y : wrapped r es t x y = true -> 0 <= t < 4294967296 ->
  ~ (forall sg h f t x y h', h_face h = Some f -> 0 <= t < 4294967296 -> on_gevs sg h [EvButton Down 1 t x y; EvButton Up 1 t x y] = Ok h' -> s_sela (v_con (h_vte h')) = false).
Proof.
  intros W T H. unfold wrapped in W. destruct (dwell r es) as [h|]; [|discriminate]. destruct (h_face h) as [f|] eqn:F; [|discriminate]. destruct (on_gevs true h _) as [h'|] eqn:E; [|discriminate].
  rewrite (H true h f t x y h' F T E) in W. discriminate.
Qed.
Definition jumped (r : res gadget) (es : list gev) (t x0 y0 x y cx0 cy0 cx cy : Z) : bool :=
  match dwell r es with
  | Ok h =>
    match h_face h, on_gevs true h [EvButton Down 1 t x0 y0; EvMotion x y; EvButton Up 1 t x y], run (v_con (h_vte h)) [OSelStart cx0 cy0; OSelTarget cx cy] with
    | Some (2, 3), Ok h', Ok s => negb (p_x (s_sel2 (v_con (h_vte h'))) =? p_x (s_sel2 s))
    | _, _, _ => false
    end
  | Ub => false
  end.
Lemma jumped_refutes r es t x0 y0 x y cx0 cy0 cx cy : jumped r es t x0 y0 x y cx0 cy0 cx cy = true -> in_cell x0 2 cx0 -> in_cell y0 3 cy0 -> in_cell x 2 cx -> in_cell y 3 cy -> far x0 y0 x y ->
  ~ (forall sg h w hh t x0 y0 x y cx0 cy0 cx cy h' s, h_face h = Some (w, hh) -> in_cell x0 w cx0 -> in_cell y0 hh cy0 -> in_cell x w cx -> in_cell y hh cy -> far x0 y0 x y ->
     on_gevs sg h [EvButton Down 1 t x0 y0; EvMotion x y; EvButton Up 1 t x y] = Ok h' -> run (v_con (h_vte h)) [OSelStart cx0 cy0; OSelTarget cx cy] = Ok s -> same_but_age (v_con (h_vte h')) s).
Proof.
  intros J A B C D F H. unfold jumped in J. destruct (dwell r es) as [h|]; [|discriminate]. destruct (h_face h) as [[w hh]|] eqn:Fc; [|discriminate].
  destruct (on_gevs true h _) as [h'|] eqn:E1; [|destruct w as [|[p|[p|p|]|]|]; try discriminate; destruct hh as [|[[p|p|]|p|]|]; discriminate].
  destruct (run (v_con (h_vte h)) _) as [s|] eqn:E2; [|destruct w as [|[p|[p|p|]|]|]; try discriminate; destruct hh as [|[[p|p|]|p|]|]; discriminate].
  assert (w = 2 /\ hh = 3 /\ negb (p_x (s_sel2 (v_con (h_vte h'))) =? p_x (s_sel2 s)) = true) as (-> & -> & N).
  { destruct w as [|[p|[p|p|]|]|]; try discriminate; destruct hh as [|[[p|p|]|p|]|]; try discriminate. auto. }
  pose proof (H true h 2 3 t x0 y0 x y cx0 cy0 cx cy h' s Fc A B C D F E1 E2) as S. assert (s_sel2 (v_con (h_vte h')) = s_sel2 s) as S' by (change (s_sel2 (unaged (v_con (h_vte h'))) = s_sel2 (unaged s)); now rewrite S).
  rewrite S', Z.eqb_refl in N. discriminate.
Qed.
Definition lost (r : res gadget) (bs : list Z) (es : list gev) : bool :=
  match r with
  | Ok h0 =>
    match on_gevs true h0 (EvFork 2 3 :: EvSays bs :: EvExit :: es), vte_input true (h_vte h0) bs with
    | Ok h, Ok v => differ (glance (looks (v_con (h_vte h)))) (glance (looks (v_con v)))
    | _, _ => false
    end
  | Ub => false
  end.
Lemma lost_refutes r bs n : lost r bs [EvRead n] = true -> (length bs <= n)%nat ->
  ~ (forall sg h0 bs n h v, r = Ok h0 -> on_gevs sg h0 [EvFork 2 3; EvSays bs; EvExit; EvRead n] = Ok h -> (length bs <= n)%nat -> vte_input sg (h_vte h0) bs = Ok v ->
     looks (v_con (h_vte h)) = looks (v_con v)).
Proof.
  intros L G H. unfold lost in L. destruct r as [h0|]; [|discriminate].
  destruct (on_gevs true h0 _) as [h|] eqn:E1; [|discriminate]. destruct (vte_input true (h_vte h0) bs) as [v|] eqn:E2; [|discriminate].
  apply differ_ne in L. apply L. now rewrite (H true h0 bs n h v eq_refl E1 G E2).
Qed.
Definition out_of (r : res gadget) (es1 es2 : list gev) : bool := match dwell r (es1 ++ es2) with Ub => true | Ok _ => false end.
Lemma out_refutes r es1 es2 : out_of r es1 es2 = true -> Forall mild es2 ->
  match r with Ok _ => true | Ub => false end = true -> ~ (forall sg h0 es, r = Ok h0 -> Forall mild es -> on_gevs sg h0 (es1 ++ es) <> Ub).
Proof.
  intros O M K H. destruct r as [h0|]; [|discriminate]. apply (H true h0 es2 eq_refl M). unfold out_of, dwell in O. cbn [bind] in O. destruct (on_gevs true h0 (es1 ++ es2)); [discriminate|reflexivity].
Qed.
