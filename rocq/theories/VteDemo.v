(* Concrete terminals for the examples: a screen of 8 by 3 cells and what some
   bytes make of it. *)
From Verif Require Import Base Screen ScreenResize ScreenInv ScreenSafe ScreenSpec ScreenThms VteData Vte VteKeys VteSafe.

(* The value of a computation that succeeds. *)
Definition vget (r : res vte) : vte := match r with Ok v => v | Ub => vte0 scr_init end.
Definition okb {A} (r : res A) : bool := match r with Ok _ => true | Ub => false end.
(* The characters of a row of the screen, its first eight columns. *)
Definition row8 (v : vte) (y : Z) : list Z :=
  map (fun x => match at_ (v_con v) y x with Some g => fst (fst g) | None => -1 end) [0; 1; 2; 3; 4; 5; 6; 7].
Notation small := (run scr_init [OResize 8 3]).
Definition session (r : res screen) (sg : bool) (ops : list vop) : res vte :=
  do c <- r; do v <- vte_new c; vrun sg v ops.
Notation demo_run sg ops := (session small sg ops).
Notation demo sg ops := (vget (session small sg ops)).
Lemma bind_ok {A B} (x : res A) (f : A -> res B) b : (do a <- x; f a) = Ok b -> exists a, x = Ok a /\ f a = Ok b.
Proof. destruct x as [a|]; cbn [bind]; [eauto|discriminate]. Qed.
Lemma vget_ok r : okb r = true -> r = Ok (vget r).
Proof. destruct r; [reflexivity|discriminate]. Qed.
Lemma made sg (r : res screen) ops w : (forall c, r = Ok c -> reachable c) -> Forall vop_args ops ->
  session r sg ops = Ok w -> vreachable sg w.
Proof.
  intros Hr Ha E. unfold session in E. destruct (bind_ok _ _ _ E) as (c & C & E1). destruct (bind_ok _ _ _ E1) as (v & N & E2).
  exact (ex_intro _ c (ex_intro _ v (ex_intro _ ops (conj (Hr c C) (conj N (conj Ha E2)))))).
Qed.
Lemma small_screen : Forall op_args [OResize 8 3].
Proof. args. Qed.
Lemma run_reachable ops c : Forall op_args ops -> run scr_init ops = Ok c -> reachable c.
Proof. intros A C. exists ops. auto. Qed.
Lemma demo_reachable sg ops : Forall vop_args ops -> okb (demo_run sg ops) = true -> vreachable sg (demo sg ops).
Proof. intros Ha E. exact (made sg small ops _ (fun c => run_reachable _ c small_screen) Ha (vget_ok _ E)). Qed.
