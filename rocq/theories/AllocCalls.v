(* The calls that scroll, when lines may be refused: the page is the one the
   calls of Screen.v give, the scrollback gets some of the rows. *)
From Verif Require Import Base BaseProofs Wcwidth Symbol Screen ScreenInv ScreenSb ScreenScroll ScreenSpec ScreenOps ScreenMove ScreenCtl ScreenResize
  ScreenSafe ScreenLaws ScreenAlt ScreenHist ScreenRz TwinSpec TwinProofs Alloc AllocSpec AllocProofs.

(* -- pages ---------------------------------------------------------------- *)
Lemma page_env2 s a b : env2 s a -> env2 s b -> Inv0 a -> Inv0 b ->
  (forall y x, on_screen s y x -> at_ b y x = at_ a y x) -> same_page a b.
Proof.
  intros A B IA IB P.
  assert (O : forall y x, on_screen a y x -> on_screen s y x) by (intros y x; unfold on_screen; now rewrite (f_sx _ _ A), (f_sy _ _ A)).
  pose proof (at_active a IA) as QA. pose proof (at_active b IB) as QB.
  assert (FA : fl a F_ALT = s_act s) by (rewrite <- (i_act _ IA); apply A).
  assert (FB : fl b F_ALT = s_act s) by (rewrite <- (i_act _ IB); apply B).
  rewrite FA in QA. rewrite FB in QB. pose proof (f_other _ _ A) as OA. pose proof (f_other _ _ B) as OB.
  destruct A, B. constructor; try congruence; intros y x Hy.
  - destruct (s_act s); [unfold main_at; congruence|]. rewrite <- QA, <- QB. auto.
  - destruct (s_act s); [|unfold alt_at; congruence]. rewrite <- QA, <- QB. auto.
Qed.
Lemma page_scrolled s a b n : Inv0 s -> 0 <= n <= s_mb s + 1 - s_mt s -> scrolled_up s a n -> fscrolled s b n -> same_page a b.
Proof.
  intros H Hn A B. apply (page_env2 s); [apply A|apply B|apply A|apply B|]. intros y x O.
  rewrite (scrolled_up_at s a n), (fscrolled_at s b n) by auto. reflexivity.
Qed.
Lemma page_moved a b x y : same_page a b -> same_page (moved a x y) (moved b x y).
Proof.
  intros P. pose proof (env_moved a x y) as A. pose proof (env_moved b x y) as B.
  pose proof (same_text_moved a x y) as TA. pose proof (same_text_moved b x y) as TB. destruct P.
  assert (O : forall j i, on_screen (moved a x y) j i -> on_screen a j i) by (intros j i; unfold on_screen; now rewrite (e_sx _ _ A), (e_sy _ _ A)).
  constructor; rewrite ?moved_cx, ?moved_cy; auto.
  - now rewrite (e_sx _ _ A), (e_sx _ _ B).
  - now rewrite (e_sy _ _ A), (e_sy _ _ B).
  - now rewrite (e_flags _ _ A), (e_flags _ _ B).
  - now rewrite (e_mt _ _ A), (e_mt _ _ B).
  - now rewrite (e_mb _ _ A), (e_mb _ _ B).
  - now rewrite (e_def _ _ A), (e_def _ _ B).
  - now rewrite (e_defm _ _ A), (e_defm _ _ B).
  - intros k. rewrite (e_tabs _ _ A), (e_tabs _ _ B), (e_sx _ _ A). auto.
  - intros j i Hj. rewrite (proj1 (TA j i)), (proj1 (TB j i)). auto.
  - intros j i Hj. rewrite (proj2 (TA j i)), (proj2 (TB j i)). auto.
Qed.
Lemma page_written a b x y ch w t : Inv0 a -> Inv0 b -> same_page a b -> 0 <= x < s_sx a -> 0 <= y < s_sy a -> 1 <= w -> write_fits a w ->
  same_page (written a x y ch w t) (written b x y ch w t).
Proof.
  intros IA IB P Hx Hy Hw Hf. pose proof (env_set_lines a (zupd (lines a) y (wr_line a x ch w t))) as A. fold (written a x y ch w t) in A.
  pose proof (env_set_lines b (zupd (lines b) y (wr_line b x ch w t))) as B. fold (written b x y ch w t) in B.
  assert (CA : s_cx (written a x y ch w t) = s_cx a /\ s_cy (written a x y ch w t) = s_cy a) by (split; reflexivity).
  assert (CB : s_cx (written b x y ch w t) = s_cx b /\ s_cy (written b x y ch w t) = s_cy b) by (split; reflexivity).
  assert (W : forall j i, on_screen a j i -> at_ (written b x y ch w t) j i = at_ (written a x y ch w t) j i).
  { assert (Q : forall j i, on_screen a j i -> at_ b j i = at_ a j i).
    { intros j i O. rewrite (at_active a IA), (at_active b IB), (pg_fl a b P). destruct (fl a F_ALT); [now apply (pg_alt _ _ P)|now apply (pg_main _ _ P)]. }
    intros j i O. assert (Ob : on_screen b j i) by (unfold on_screen in *; now rewrite (pg_sx _ _ P), (pg_sy _ _ P)).
    rewrite (written_at a) by auto. rewrite (written_at b); auto.
    - rewrite (pg_fl a b P). rewrite (Q j i O). destruct (j =? y) eqn:E; [|reflexivity].
      destruct (i <? x); [reflexivity|]. destruct (i =? x); [reflexivity|]. destruct (i <? x + w) eqn:E2; [reflexivity|].
      destruct (fl a F_INSERT); [|reflexivity]. apply Q. unfold on_screen in *. lia.
    - now rewrite (pg_sx _ _ P).
    - now rewrite (pg_sy _ _ P).
    - unfold write_fits in *. now rewrite (pg_fl a b P), (pg_sx _ _ P). }
  pose proof (Inv0_written a x y ch w t IA Hx Hw) as IA'.
  pose proof (Inv0_written b x y ch w t IB ltac:(rewrite (pg_sx _ _ P); lia) Hw) as IB'.
  assert (O : forall j i, on_screen (written a x y ch w t) j i -> on_screen a j i) by (intros j i; unfold on_screen; now rewrite (e_sx _ _ A), (e_sy _ _ A)).
  pose proof (at_active _ IA') as QA. pose proof (at_active _ IB') as QB.
  assert (FA : fl (written a x y ch w t) F_ALT = s_act a) by (rewrite <- (i_act _ IA'); apply A).
  assert (AB : s_act b = s_act a) by (rewrite (i_act _ IA), (i_act _ IB); apply (pg_fl a b P)).
  assert (FB : fl (written b x y ch w t) F_ALT = s_act a) by (rewrite <- (i_act _ IB'), <- AB; apply B).
  rewrite FA in QA. rewrite FB in QB. pose proof (e_other _ _ A) as OA. pose proof (e_other _ _ B) as OB. rewrite AB in OB.
  destruct CA as [CA1 CA2], CB as [CB1 CB2]. 
  set (wa := written a x y ch w t) in *. set (wb := written b x y ch w t) in *. clearbody wa wb.
  destruct P as [P1 P2 P3 P4 P5 P6 P7 P8 P9 P10 P11 P12]. destruct A, B. constructor; try congruence.
  - intros k Hk. rewrite e_tabs, e_tabs0. apply P8. congruence.
  - intros j i Hj. destruct (s_act a).
    + unfold main_at. rewrite OA, OB. apply P11. auto.
    + rewrite <- QA, <- QB. auto.
  - intros j i Hj. destruct (s_act a).
    + rewrite <- QA, <- QB. auto.
    + unfold alt_at. rewrite OA, OB. apply P12. auto.
Qed.

(* -- scrollback ------------------------------------------------------------- *)
Lemma fhist_moved s t r x y : fhist s t r -> fhist s (moved t x y) r.
Proof. intros K. apply (fhist_eq s t); auto; apply (env_moved t x y). Qed.
Lemma fhist_inc s t r : fhist (inc_age s) t r -> fhist s t r.
Proof. unfold fhist, sb_text. now rewrite inc_sb, inc_sbmax. Qed.
Lemma fhist_up_call s s' n : Inv s -> fscrolled (inc_age s) s' n -> fhist s s' (if fl s F_ALT then [] else top_rows s n).
Proof.
  intros H F. apply fhist_inc. pose proof (fs_sb _ _ _ F) as K.
  rewrite (frame_fl _ _ _ (frame_inc s)), (g_mt _ _ (frame_inc s)), lines_inc_age in K. destruct (fl s F_ALT) eqn:E; [exact K|].
  unfold top_rows. rewrite <- (main_lines s (proj1 H) E). exact K.
Qed.

(* What is shown of every call: it is defined, keeps the invariant, hands over
   rows, and the page is that of the call without failures. *)
Definition fine (s : screen) (o : op) (al : verdicts) : Prop :=
  exists s1 c al1, fstep s o al = Ok (s1, c, al1) /\ Inv s1 /\
    ((c = ENOMEM_RET /\ unchanged s s1) \/
     (c = ok_ret o /\ (scrolling o = true -> fhist s s1 (off s o)) /\ forall s2, step s o = Ok s2 -> same_page s2 s1)).

Lemma fcalls_ok s n al : Inv s -> 0 < n -> exists s' al', f_scroll_up (inc_age s) n al = Ok (s', al') /\
  fscrolled (inc_age s) s' (Z.min n (s_mb s + 1 - s_mt s)) /\ Inv s'.
Proof.
  intros H Hn. pose proof (Inv_inc s H) as (HI & Hx & Hy). incs s.
  destruct (f_scroll_up_ok (inc_age s) n al HI Hn) as (s' & al' & E & P). rewrite INmb, INmt in P.
  exists s', al'. split; [exact E|]. split; [exact P|]. pose proof (fs_env _ _ _ P) as V.
  split; [apply P|]. rewrite (f_cx _ _ V), (f_cy _ _ V), (f_sx _ _ V), (f_sy _ _ V). auto.
Qed.
Lemma ret_neq o : ok_ret o <> ENOMEM_RET.
Proof. destruct o; try discriminate. cbn [ok_ret]. destruct (_ || _); discriminate. Qed.

Lemma fine_scroll s n al : Inv s -> u32_arg n -> fine s (OScrollUp n) al.
Proof.
  intros H Hn. unfold fine. cbn [fstep]. unfold f_scroll_up_call. destruct (n =? 0) eqn:En.
  - exists s, 0, al. split; [reflexivity|]. split; [auto|]. right. split; [reflexivity|]. split; [intros _; now apply fhist_refl, H|].
    intros s2 E. cbn [step] in E. unfold scr_scroll_up in E. rewrite En in E. apply ok_inj in E. subst. apply page_refl.
  - unfold u32_arg in Hn. destruct (fcalls_ok s n al H ltac:(lia)) as (s1 & al1 & E1 & F1 & I1). rewrite E1. cbn [bind fst snd].
    exists s1, 0, al1. split; [reflexivity|]. split; [exact I1|]. right. split; [reflexivity|]. split.
    + intros _. unfold off. replace (region s) with (s_mb s + 1 - s_mt s) by (unfold region; lia). now apply fhist_up_call.
    + intros s2 E. cbn [step] in E. unfold scr_scroll_up in E. rewrite En in E.
      destruct (scroll_call_up s n H ltac:(lia)) as (t & E2 & S & _). rewrite E2 in E. apply ok_inj in E. subst t.
      pose proof (i_mt _ (proj1 H)). incs s.
      apply (page_scrolled (inc_age s) s2 s1 (Z.min n (s_mb s + 1 - s_mt s)) (proj1 (Inv_inc s H))); auto. rewrite INmb, INmt. lia.
Qed.

Lemma f_move_down_ok s n (sc : bool) al : Inv s -> 0 < n ->
  let i := inc_age s in
  if bot_stop s - s_cy s <? n then
    if sc then exists s1 al1, fscrolled i s1 (Z.min (n - (bot_stop s - s_cy s)) (s_mb s + 1 - s_mt s)) /\
       f_move_down s n sc al = Ok (moved s1 (s_cx s) (bot_stop s), al1) /\ Inv (moved s1 (s_cx s) (bot_stop s))
    else f_move_down s n sc al = Ok (moved i (s_cx s) (bot_stop s), al) /\ Inv (moved i (s_cx s) (bot_stop s))
  else f_move_down s n sc al = Ok (moved i (s_cx s) (s_cy s + n), al) /\ Inv (moved i (s_cx s) (s_cy s + n)).
Proof.
  intros (H & Hcx & Hcy) Hn. pose proof H as H0. inv0 H0. incs s. unfold DIM in *.
  pose proof (Inv0_inc s H) as HI. cbv zeta. unfold f_move_down. replace (n =? 0) with false by lia.
  rewrite INmb, INcy, INcx, INsy.
  assert (Ht : s_cy s <= bot_stop s < s_sy s) by (unfold bot_stop; destruct (s_cy s <=? s_mb s) eqn:E; lia).
  replace (if s_cy s <=? s_mb s then u32 (s_mb s + 1) else s_sy s) with (bot_stop s + 1).
  2:{ unfold bot_stop. rewrite u32_small by lia. destruct (s_cy s <=? s_mb s); lia. }
  replace (bot_stop s + 1 - s_cy s - 1) with (bot_stop s - s_cy s) by lia.
  replace (bot_stop s + 1 - 1) with (bot_stop s) by lia.
  rewrite (u32_small (bot_stop s - s_cy s)), (u32_small (bot_stop s)) by lia.
  destruct (bot_stop s - s_cy s <? n) eqn:E; [destruct sc|].
  - destruct (f_scroll_up_ok (inc_age s) (n - (bot_stop s - s_cy s)) al HI ltac:(lia)) as (s1 & al1 & E1 & P1).
    rewrite INmb, INmt in P1. exists s1, al1. split; [exact P1|]. rewrite E1. cbn [bind].
    pose proof (fs_inv _ _ _ P1) as I1. pose proof (fs_env _ _ _ P1) as V1.
    rewrite (f_cx _ _ V1), INcx, move_cursor_ok by (auto; lia). split; [reflexivity|].
    apply Inv_moved; auto; rewrite ?(f_sx _ _ V1), ?(f_sy _ _ V1), ?INsx, ?INsy; lia.
  - cbn [bind]. rewrite INcx, move_cursor_ok by (auto; lia). split; [reflexivity|]. apply Inv_moved; auto; lia.
  - rewrite u32_small by lia. rewrite move_cursor_ok by (auto; lia). split; [reflexivity|]. apply Inv_moved; auto; lia.
Qed.
Lemma f_down s n (sc : bool) al : Inv s -> u32_arg n -> exists s1 al1, f_move_down s n sc al = Ok (s1, al1) /\ Inv s1 /\
  fhist s s1 (if fl s F_ALT then [] else if sc then top_rows s (over_down s n) else []) /\
  forall s2, scr_move_down s n sc = Ok s2 -> same_page s2 s1.
Proof.
  intros H Hn. unfold u32_arg in Hn. pose proof (floor_row_ok s H) as Hf. pose proof (i_mt _ (proj1 H)) as Hm.
  destruct (Z.eq_dec n 0) as [->|Hne].
  - exists s, al. split; [reflexivity|]. split; [exact H|]. split; [apply fhist_refl, H|]. intros s2 E. apply ok_inj in E. subst. apply page_refl.
  - pose proof (f_move_down_ok s n sc al H ltac:(lia)) as M. pose proof (move_down_ok s n sc H ltac:(lia)) as M'. cbv zeta in M, M'.
    change (bot_stop s) with (floor_row s) in M, M'. destruct (floor_row s - s_cy s <? n) eqn:E0; [destruct sc|].
    + destruct M as (s1 & al1 & S & E1 & I). exists (moved s1 (s_cx s) (floor_row s)), al1. split; [exact E1|]. split; [exact I|]. split.
      * apply fhist_moved.
        replace (over_down s n) with (Z.min (n - (floor_row s - s_cy s)) (s_mb s + 1 - s_mt s)) by (unfold over_down, region; lia).
        now apply fhist_up_call.
      * intros s2 E. destruct M' as (t & S' & E1' & _). rewrite E1' in E. apply ok_inj in E. subst s2. apply page_moved.
        incs s. refine (page_scrolled (inc_age s) t s1 _ (proj1 (Inv_inc s H)) _ S' S). rewrite INmb, INmt. lia.
    + destruct M as (E1 & I). eexists _, _. split; [exact E1|]. split; [exact I|]. split.
      * apply fhist_moved, fhist_inc, fhist_refl, Inv_inc, H.
      * intros s2 E. destruct M' as (E1' & _). rewrite E1' in E. apply ok_inj in E. subst s2. apply page_refl.
    + destruct M as (E1 & I). eexists _, _. split; [exact E1|]. split; [exact I|]. split.
      * apply fhist_moved, fhist_inc, fhist_refl, Inv_inc, H.
      * intros s2 E. destruct M' as (E1' & _). rewrite E1' in E. apply ok_inj in E. subst s2. apply page_refl.
Qed.
Lemma fine_down s n b al : Inv s -> u32_arg n -> fine s (OMoveDown n b) al.
Proof.
  intros H Hn. destruct (f_down s n b al H Hn) as (s1 & al1 & E1 & I1 & K & P). unfold fine. cbn [fstep]. rewrite E1. cbn [bind fst snd].
  exists s1, 0, al1. split; [reflexivity|]. split; [auto|]. right. split; [reflexivity|]. split; [|exact P].
  intros _. unfold off. destruct (fl s F_ALT); auto.
Qed.
Lemma fine_newline s al : Inv s -> fine s ONewline al.
Proof.
  intros H. assert (H1 : u32_arg 1) by (unfold u32_arg; lia).
  destruct (f_down (inc_age s) 1 true al (Inv_inc s H) H1) as (s1 & al1 & E1 & I1 & K & P). unfold fine. cbn [fstep]. unfold f_newline. rewrite E1. cbn [bind fst snd].
  destruct (line_home_ok s1 I1) as [E2 I2]. rewrite E2. cbn [bind fst snd].
  eexists _, 0, al1. split; [reflexivity|]. split; [exact I2|]. right. split; [reflexivity|]. split.
  - intros _. rewrite (frame_fl _ _ _ (frame_inc s)), over_down_inc, top_rows_inc in K. unfold off. apply fhist_inc, fhist_moved.
    pose proof (proj1 (Inv_inc s1 I1)) as J. destruct K as [K1 (k & K2 & K3)]. split; [rewrite inc_sbmax; exact K1|]. exists k. split; auto.
    unfold sb_text in *. rewrite inc_sb. exact K3.
  - intros s2 E. cbn [step] in E. unfold scr_newline in E.
    destruct (scr_move_down (inc_age s) 1 true) as [t|] eqn:Et; [|discriminate]. cbn [bind] in E. specialize (P t eq_refl).
    destruct (move_down_any (inc_age s) 1 true (Inv_inc s H) ltac:(lia)) as (t' & Et' & It). rewrite Et in Et'. apply ok_inj in Et'. subst t'.
    destruct (line_home_ok t It) as [E3 _]. rewrite E3 in E. apply ok_inj in E. subst s2. rewrite (pg_cy _ _ P). apply page_moved.
    pose proof (frame_inc t) as F. pose proof (frame_inc s1) as F1. pose proof (same_text_inc t) as T. pose proof (same_text_inc s1) as T1.
    destruct P as [P1 P2 P3 P4 P5 P6 P7 P8 P9 P10 P11 P12].
    constructor; rewrite ?inc_sx, ?inc_sy, ?inc_cx, ?inc_cy; auto.
    + now rewrite (g_flags _ _ F), (g_flags _ _ F1).
    + now rewrite (g_mt _ _ F), (g_mt _ _ F1).
    + now rewrite (g_mb _ _ F), (g_mb _ _ F1).
    + now rewrite (g_def _ _ F), (g_def _ _ F1).
    + now rewrite (g_defm _ _ F), (g_defm _ _ F1).
    + intros k Hk. rewrite (g_tabs _ _ F), (g_tabs _ _ F1). auto.
    + intros j i Hj. rewrite (proj1 (T j i)), (proj1 (T1 j i)). apply P11. now apply on_screen_inc.
    + intros j i Hj. rewrite (proj2 (T j i)), (proj2 (T1 j i)). apply P12. now apply on_screen_inc.
Qed.

(* -- writing ------------------------------------------------------------------ *)
Record fwrote (s s' : screen) (ch len : Z) (a : attr) : Prop := mkFwrote {
  fwr_s2 : exists s2,
    (if wr_last s <? s_cy (wr_s1 s)
     then fscrolled (moved (wr_s1 s) (s_cx (wr_s1 s)) (wr_last s)) s2 1 else s2 = wr_s1 s) /\
    Inv0 s2 /\ 0 <= s_cx s2 < s_sx s2 /\ 0 <= s_cy s2 < s_sy s2 /\
    s' = moved (written s2 (s_cx s2) (s_cy s2) ch len a) (s_cx s2 + len) (s_cy s2)
}.
Lemma f_write_ok s ch a len al : Inv s -> scr_width ch = Ok len -> 0 < len -> write_fits s len ->
  exists s' al', f_write s ch a al = Ok (s', al') /\ fwrote (inc_age s) s' ch len a /\ Inv s'.
Proof.
  intros HI Ew Hpos Hfit. unfold f_write. rewrite Ew. cbn [bind]. replace (len =? 0) with false by lia.
  assert (Hlen : 1 <= len <= 2).
  { destruct (scr_width_ok ch) as (w & E & Hw). rewrite E in Ew. inversion Ew; subst. lia. }
  pose proof (Inv_inc s HI) as HI1.
  assert (Hfit1 : write_fits (inc_age s) len).
  { unfold write_fits in *. rewrite (frame_fl _ _ _ (frame_inc s)), (g_sx _ _ (frame_inc s)). exact Hfit. }
  clear HI Hfit. set (s0 := inc_age s) in *. clearbody s0. clear s.
  destruct HI1 as (H & Hcx & Hcy). pose proof H as H0. inv0 H0. unfold DIM in *.
  replace (if (s_cy s0 <=? s_mb s0) || (s_sy s0 <=? s_cy s0) then s_mb s0 else u32 (s_sy s0 - 1)) with (wr_last s0).
  2:{ unfold wr_last. rewrite u32_small by lia. replace (s_sy s0 <=? s_cy s0) with false by lia. now rewrite orb_false_r. }
  assert (E1 : (if s_sx s0 <=? s_cx s0
       then if fl s0 F_WRAP then move_cursor s0 0 (u32 (s_cy s0 + 1)) else move_cursor s0 (u32 (s_sx s0 - 1)) (s_cy s0)
       else Ok s0) = Ok (wr_s1 s0)).
  { unfold wr_s1. rewrite !u32_small by lia. destruct (s_sx s0 <=? s_cx s0); auto.
    destruct (fl s0 F_WRAP); apply move_cursor_ok; auto; lia. }
  rewrite E1. cbn [bind]. pose proof (Inv0_wr_s1 s0 H) as HS1. pose proof (env_wr_s1 s0) as ES1.
  pose proof (wr_s1_cx s0) as CX1. pose proof (wr_s1_cy s0) as CY1.
  assert (Hl : 0 <= wr_last s0 < s_sy s0 /\ (s_cy s0 <= wr_last s0)).
  { unfold wr_last. destruct (s_cy s0 <=? s_mb s0) eqn:E; lia. }
  assert (Hx1 : 0 <= s_cx (wr_s1 s0) < s_sx s0).
  { rewrite CX1. destruct (s_sx s0 <=? s_cx s0) eqn:E; [destruct (fl s0 F_WRAP)|]; lia. }
  assert (exists s2 al2, (if wr_last s0 <? s_cy (wr_s1 s0)
              then do s' <- move_cursor (wr_s1 s0) (s_cx (wr_s1 s0)) (wr_last s0); f_scroll_up s' 1 al
              else Ok (wr_s1 s0, al)) = Ok (s2, al2) /\
     (if wr_last s0 <? s_cy (wr_s1 s0)
     then fscrolled (moved (wr_s1 s0) (s_cx (wr_s1 s0)) (wr_last s0)) s2 1 else s2 = wr_s1 s0) /\
    Inv0 s2 /\ 0 <= s_cx s2 < s_sx s2 /\ 0 <= s_cy s2 < s_sy s2 /\ s_flags s2 = s_flags s0 /\ s_sx s2 = s_sx s0)
    as (s2 & al2 & E2 & P2 & I2 & X2 & Y2 & F2 & SX2).
  { destruct (wr_last s0 <? s_cy (wr_s1 s0)) eqn:E.
    - rewrite move_cursor_ok by (auto; lia). cbn [bind].
      assert (HM : Inv0 (moved (wr_s1 s0) (s_cx (wr_s1 s0)) (wr_last s0))) by (apply Inv0_moved; auto; lia).
      destruct (f_scroll_up_ok _ 1 al HM ltac:(lia)) as (s2 & al2 & E2 & P2).
      rewrite Z.min_l in P2 by (pose proof (i_mt _ HM); lia).
      exists s2, al2. split; [exact E2|]. split; [exact P2|]. split; [apply P2|].
      pose proof (fs_env _ _ _ P2) as PE. pose proof (env_moved (wr_s1 s0) (s_cx (wr_s1 s0)) (wr_last s0)) as EM.
      rewrite (f_cx _ _ PE), (f_cy _ _ PE), (f_sx _ _ PE), (f_sy _ _ PE), (f_flags _ _ PE), moved_cx, moved_cy.
      rewrite (e_sx _ _ EM), (e_sy _ _ EM), (e_flags _ _ EM), (e_sx _ _ ES1), (e_sy _ _ ES1), (e_flags _ _ ES1).
      repeat split; lia.
    - exists (wr_s1 s0), al. split; [reflexivity|]. split; [reflexivity|]. split; [exact HS1|].
      rewrite (e_sx _ _ ES1), (e_sy _ _ ES1), (e_flags _ _ ES1). pose proof (i_cy _ HS1). repeat split; lia. }
  rewrite E2. cbn [bind].
  rewrite screen_write_ok; auto.
  2:{ unfold write_fits, fl in *. rewrite F2, SX2. exact Hfit1. }
  cbn [bind]. pose proof (Inv0_written s2 (s_cx s2) (s_cy s2) ch len a I2 X2 ltac:(lia)) as IW.
  change (s_cx (written s2 (s_cx s2) (s_cy s2) ch len a)) with (s_cx s2).
  change (s_cy (written s2 (s_cx s2) (s_cy s2) ch len a)) with (s_cy s2).
  rewrite u32_small by (pose proof (i_sx _ I2); unfold DIM in *; lia).
  rewrite move_cursor_ok by (auto; lia). cbn [bind].
  eexists _, _; split; [reflexivity|]. split.
  - constructor. exists s2. auto.
  - split; [apply Inv0_moved; auto; lia|]. rewrite moved_cx, moved_cy.
    pose proof (env_moved (written s2 (s_cx s2) (s_cy s2) ch len a) (s_cx s2 + len) (s_cy s2)) as EM.
    rewrite (e_sx _ _ EM), (e_sy _ _ EM). change (s_sx (written s2 (s_cx s2) (s_cy s2) ch len a)) with (s_sx s2).
    change (s_sy (written s2 (s_cx s2) (s_cy s2) ch len a)) with (s_sy s2). lia.
Qed.
Lemma Inv0_wr_m s : Inv s -> Inv0 (moved (wr_s1 s) (s_cx (wr_s1 s)) (wr_last s)) /\ s_mb s + 1 - s_mt s >= 1.
Proof.
  intros H. pose proof H as (H0 & Hcx & Hcy). pose proof H0 as H1. inv0 H1.
  assert (HL : wr_last s = floor_row s) by reflexivity. pose proof (floor_row_ok s H) as HF.
  split; [|lia]. apply Inv0_moved; [now apply Inv0_wr_s1| |rewrite HL; lia].
  rewrite wr_s1_cx. destruct (s_sx s <=? s_cx s); [destruct (fl s F_WRAP)|]; lia.
Qed.
Lemma page_wrote s a b ch w t : Inv s -> 1 <= w -> write_fits s w -> wrote s a ch w t -> fwrote s b ch w t -> same_page a b.
Proof.
  intros H Hw Hf [(s2 & E2 & I2 & X2 & Y2 & ->)] [(t2 & F2 & J2 & X3 & Y3 & ->)].
  destruct (Inv0_wr_m s H) as [IM Hm]. pose proof (env_wr_s1 s) as ES.
  assert (P : same_page s2 t2 /\ write_fits s2 w).
  { unfold write_fits in *. destruct (wr_last s <? s_cy (wr_s1 s)).
    - pose proof (env_moved (wr_s1 s) (s_cx (wr_s1 s)) (wr_last s)) as EM. pose proof (su_env _ _ _ E2) as V. split.
      + refine (page_scrolled _ _ _ _ IM _ E2 F2). rewrite (e_mb _ _ EM), (e_mt _ _ EM), (e_mb _ _ ES), (e_mt _ _ ES). lia.
      + unfold fl in *. rewrite (f_flags _ _ V), (e_flags _ _ EM), (e_flags _ _ ES), (f_sx _ _ V), (e_sx _ _ EM), (e_sx _ _ ES). exact Hf.
    - subst. split; [apply page_refl|]. unfold fl in *. rewrite (e_flags _ _ ES), (e_sx _ _ ES). exact Hf. }
  destruct P as [P Hf2]. rewrite (pg_cx _ _ P), (pg_cy _ _ P). apply page_moved. apply page_written; auto.
Qed.
Lemma fhist_wrote s s' ch w a : Inv s -> fwrote s s' ch w a ->
  fhist s s' (if fl s F_ALT then [] else if write_scrolls s then top_rows s 1 else []).
Proof.
  intros H [(s2 & E2 & I2 & X2 & Y2 & ->)]. pose proof H as (H0 & Hcx & Hcy). pose proof H0 as H1. inv0 H1.
  pose proof (wr_s1_cy s) as CY. pose proof (env_wr_s1 s) as EV. destruct (Inv0_wr_m s H) as [IM _].
  assert (HL : wr_last s = floor_row s) by reflexivity. pose proof (floor_row_ok s H) as HF.
  assert (Hsc : (wr_last s <? s_cy (wr_s1 s)) = write_scrolls s).
  { rewrite CY, HL. unfold write_scrolls, wraps. replace (negb (s_cx s <? s_sx s)) with (s_sx s <=? s_cx s) by lia.
    destruct ((s_sx s <=? s_cx s) && fl s F_WRAP); cbn [andb]; lia. }
  apply fhist_moved. rewrite Hsc in E2.
  assert (K : fhist s s2 (if fl s F_ALT then [] else if write_scrolls s then top_rows s 1 else [])).
  { destruct (write_scrolls s) eqn:E.
    - set (m := moved (wr_s1 s) (s_cx (wr_s1 s)) (wr_last s)) in *.
      pose proof (env_moved (wr_s1 s) (s_cx (wr_s1 s)) (wr_last s)) as EM. fold m in EM.
      pose proof (fs_sb _ _ _ E2) as [K2 (k & K3 & K1)].
      assert (Fm : fl m F_ALT = fl s F_ALT) by (unfold fl; now rewrite (e_flags _ _ EM), (e_flags _ _ EV)).
      rewrite Fm in K3. unfold sb_text in *. rewrite (e_mt _ _ EM), (e_mt _ _ EV) in K3. rewrite (e_sb _ _ EM), (e_sb _ _ EV), (e_sbmax _ _ EM), (e_sbmax _ _ EV) in *.
      split; [exact K2|]. exists k. split; [|exact K1]. destruct (fl s F_ALT) eqn:EA; [exact K3|].
      unfold txt in K3. rewrite map_zslice in K3. fold (txt (lines m)) in K3.
      unfold m in K3. rewrite txt_moved, txt_wr_s1 in K3. unfold top_rows. rewrite map_zslice, <- (main_lines s H0 EA). exact K3.
    - subst s2. rewrite if_nil. apply fhist_same; [now apply fhist_refl|apply EV|apply EV]. }
  apply (fhist_eq s s2); auto.
Qed.
Lemma not_hazard_fits s ch a w : Inv s -> scr_width ch = Ok w -> ~ op_hazard s (OWrite ch a) -> write_fits s w.
Proof.
  intros H Ew Hz Hi. pose proof (i_sx _ (proj1 H)). destruct (scr_width_ok ch) as (w' & E & Hw). rewrite E in Ew. inversion Ew; subst w'.
  destruct (Z.eq_dec (s_sx s) 1); [|lia]. destruct (Z.eq_dec w 2) as [->|]; [|lia].
  exfalso. apply Hz. split; [exact Hi|]. split; [assumption|exact E].
Qed.
Lemma fine_write s ch a al : Inv s -> ~ op_hazard s (OWrite ch a) -> fine s (OWrite ch a) al.
Proof.
  intros H Hz. unfold fine. cbn [fstep]. destruct (scr_width_ok ch) as (w & Ew & Hw). destruct (Z.eq_dec w 0) as [->|Hne].
  - unfold f_write. rewrite Ew. cbn [bind fst snd]. change (0 =? 0) with true. cbn iota. cbn [bind fst snd].
    exists s, 0, al. split; [reflexivity|]. split; [auto|]. right. split; [reflexivity|]. split; [intros _; now apply fhist_refl, H|].
    intros s2 E. rewrite (write_zero_law s ch a Ew) in E. apply ok_inj in E. subst. apply page_refl.
  - pose proof (not_hazard_fits s ch a w H Ew Hz) as Hf.
    destruct (f_write_ok s ch a w al H Ew ltac:(lia) Hf) as (s1 & al1 & E1 & F & I1). rewrite E1. cbn [bind fst snd].
    exists s1, 0, al1. split; [reflexivity|]. split; [exact I1|]. right. split; [reflexivity|].
    pose proof (frame_inc s) as FR. split.
    + intros _. unfold off. rewrite Ew. replace (0 <? w) with true by lia. cbn [andb].
      pose proof (fhist_wrote _ _ _ _ _ (Inv_inc s H) F) as K. apply fhist_inc.
      assert (G1 : wraps (inc_age s) = wraps s) by (unfold wraps; now rewrite (frame_fl _ _ _ FR), inc_cx, inc_sx).
      assert (G2 : floor_row (inc_age s) = floor_row s) by (unfold floor_row; now rewrite (g_mb _ _ FR), inc_cy, inc_sy).
      assert (G3 : write_scrolls (inc_age s) = write_scrolls s) by (unfold write_scrolls; now rewrite G1, G2, inc_cy).
      rewrite (frame_fl _ _ _ FR), G3, top_rows_inc in K. exact K.
    + intros s2 E. destruct (scr_write_ok s ch a w H Ew ltac:(lia) Hf) as (s3 & E3 & W & _). cbn [step] in E. rewrite E3 in E. apply ok_inj in E. subst s3.
      refine (page_wrote (inc_age s) s2 s1 ch w a (Inv_inc s H) ltac:(lia) _ W F).
      unfold write_fits in *. rewrite (frame_fl _ _ _ FR), inc_sx. exact Hf.
Qed.
