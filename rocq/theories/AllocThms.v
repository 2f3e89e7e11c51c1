(* Sequences of calls that may run out of memory. *)
From Verif Require Import Base BaseProofs Wcwidth Symbol Screen ScreenInv ScreenSb ScreenScroll ScreenSpec ScreenOps ScreenMove ScreenCtl ScreenResize
  ScreenSafe ScreenLaws ScreenAlt ScreenHist ScreenRz TwinSpec TwinProofs TwinStep Alloc AllocSpec AllocProofs AllocCalls AllocResize.

Lemma fine_all s o al : Inv s -> op_args o -> ~ op_hazard s o -> fine s o al.
Proof.
  intros H Ha Hz. destruct (scrolling o) eqn:Es.
  - destruct o; try discriminate Es; [now apply fine_resize|now apply fine_write|now apply fine_newline|now apply fine_scroll|now apply fine_down].
  - destruct (step_ok s o H Ha Hz) as (s1 & E1 & I1). exists s1, 0, al. split; [|split; [exact I1|]].
    + destruct o; try discriminate Es; cbn [fstep]; rewrite E1; reflexivity.
    + right. split; [destruct o; try discriminate Es; reflexivity|]. split; [congruence|]. intros s2 E. rewrite E1 in E. apply ok_inj in E. subst. apply page_refl.
Qed.
Lemma f_write_hazard s ch a al : Inv s -> op_hazard s (OWrite ch a) -> f_write s ch a al = Ub.
Proof.
  intros HI (Hf & Hs & Ew). unfold f_write. rewrite Ew. cbn [bind]. replace (2 =? 0) with false by lia.
  pose proof (Inv_inc s HI) as HI1.
  rewrite <- (frame_fl _ _ _ (frame_inc s)) in Hf. rewrite <- (g_sx _ _ (frame_inc s)) in Hs.
  clear HI Ew. set (s0 := inc_age s) in *. clearbody s0. clear s.
  destruct HI1 as (H & Hcx & Hcy). pose proof H as H0. inv0 H0. unfold DIM in *.
  replace (if (s_cy s0 <=? s_mb s0) || (s_sy s0 <=? s_cy s0) then s_mb s0 else u32 (s_sy s0 - 1)) with (wr_last s0).
  2:{ unfold wr_last. rewrite u32_small by lia. replace (s_sy s0 <=? s_cy s0) with false by lia. now rewrite orb_false_r. }
  assert (E1 : (if s_sx s0 <=? s_cx s0
       then if fl s0 F_WRAP then move_cursor s0 0 (u32 (s_cy s0 + 1)) else move_cursor s0 (u32 (s_sx s0 - 1)) (s_cy s0)
       else Ok s0) = Ok (wr_s1 s0)).
  { unfold wr_s1. rewrite !u32_small by lia. destruct (s_sx s0 <=? s_cx s0); auto.
    destruct (fl s0 F_WRAP); apply move_cursor_ok; auto; lia. }
  rewrite E1. cbn [bind]. pose proof (Inv0_wr_s1 s0 H) as HS1. pose proof (env_wr_s1 s0) as ES1.
  pose proof (wr_s1_cx s0) as CX1. pose proof (wr_s1_cy s0) as CY1.
  assert (Hl : 0 <= wr_last s0 < s_sy s0 /\ (s_cy s0 <= wr_last s0)).
  { unfold wr_last. destruct (s_cy s0 <=? s_mb s0) eqn:E; lia. }
  assert (Hx1 : 0 <= s_cx (wr_s1 s0) < s_sx s0).
  { rewrite CX1. destruct (s_sx s0 <=? s_cx s0) eqn:E; [destruct (fl s0 F_WRAP)|]; lia. }
  assert (exists s2 al2, (if wr_last s0 <? s_cy (wr_s1 s0)
              then do s' <- move_cursor (wr_s1 s0) (s_cx (wr_s1 s0)) (wr_last s0); f_scroll_up s' 1 al
              else Ok (wr_s1 s0, al)) = Ok (s2, al2) /\
    Inv0 s2 /\ 0 <= s_cx s2 < s_sx s2 /\ 0 <= s_cy s2 < s_sy s2 /\ s_flags s2 = s_flags s0 /\ s_sx s2 = s_sx s0)
    as (s2 & al2 & E2 & I2 & X2 & Y2 & F2 & SX2).
  { destruct (wr_last s0 <? s_cy (wr_s1 s0)) eqn:E.
    - rewrite move_cursor_ok by (auto; lia). cbn [bind].
      assert (HM : Inv0 (moved (wr_s1 s0) (s_cx (wr_s1 s0)) (wr_last s0))) by (apply Inv0_moved; auto; lia).
      destruct (f_scroll_up_ok _ 1 al HM ltac:(lia)) as (s2 & al2 & E2 & P2).
      exists s2, al2. split; [exact E2|]. split; [apply P2|].
      pose proof (fs_env _ _ _ P2) as PE. pose proof (env_moved (wr_s1 s0) (s_cx (wr_s1 s0)) (wr_last s0)) as EM.
      rewrite (f_cx _ _ PE), (f_cy _ _ PE), (f_sx _ _ PE), (f_sy _ _ PE), (f_flags _ _ PE), moved_cx, moved_cy.
      rewrite (e_sx _ _ EM), (e_sy _ _ EM), (e_flags _ _ EM), (e_sx _ _ ES1), (e_sy _ _ ES1), (e_flags _ _ ES1).
      repeat split; lia.
    - exists (wr_s1 s0), al. split; [reflexivity|]. split; [exact HS1|].
      rewrite (e_sx _ _ ES1), (e_sy _ _ ES1), (e_flags _ _ ES1). pose proof (i_cy _ HS1). repeat split; lia. }
  rewrite E2. cbn [bind]. rewrite write_wide_ub; auto; try lia. unfold fl in *. rewrite F2. exact Hf.
Qed.
Lemma f_hazard s o al : Inv s -> op_args o -> op_hazard s o -> fstep s o al = Ub.
Proof.
  intros H Ha Hz. destruct o; try contradiction Hz; cbn [fstep].
  - now rewrite f_write_hazard.
  - now rewrite (hazard_ub s _ H Ha Hz).
Qed.
(* A call that is defined. *)
Lemma fstep_fine s o al s1 c al1 : Inv s -> op_args o -> fstep s o al = Ok (s1, c, al1) -> Inv s1 /\
  ((c = ENOMEM_RET /\ unchanged s s1) \/
   (c = ok_ret o /\ (scrolling o = true -> fhist s s1 (off s o)) /\ exists s2, step s o = Ok s2 /\ Inv s2 /\ same_page s2 s1)).
Proof.
  intros H Ha E. destruct (hazard_dec s o) as [Z|Z]; [rewrite (f_hazard s o al H Ha Z) in E; discriminate|].
  destruct (fine_all s o al H Ha Z) as (t & c' & al' & E' & I & K). rewrite E in E'. inversion E'; subst t c' al'. split; [exact I|].
  destruct K as [K|(K1 & K2 & K3)]; [auto|]. right. split; [exact K1|]. split; [exact K2|].
  destruct (step_ok s o H Ha Z) as (s2 & E2 & I2). eauto.
Qed.
Lemma frun_Inv ops : forall s al s1 cs al1, Inv s -> Forall op_args ops -> frun s ops al = Ok (s1, cs, al1) -> Inv s1.
Proof.
  induction ops as [|o r IH]; intros s al s1 cs al1 H Ha E; cbn [frun] in E; [inversion E; now subst|].
  apply Forall_cons_iff in Ha as [Ha Hr]. destruct (fstep s o al) as [[[t c] al2]|] eqn:Et; [|discriminate]. cbn [bind] in E.
  destruct (frun t r al2) as [[[u cs'] al3]|] eqn:Eu; [|discriminate]. cbn [bind] in E. inversion E; subst.
  apply (IH t al2 s1 cs' al1); auto. now apply (fstep_fine s o al t c al2).
Qed.
Lemma faulty_Inv s : faulty_reachable s -> Inv s.
Proof. induction 1 as [|s o al s1 c al1 _ IH Ha E]; [apply scr_init_Inv|]. now apply (fstep_fine s o al s1 c al1). Qed.
Lemma faulty_run ops : forall s al s1 cs al1, faulty_reachable s -> Forall op_args ops -> frun s ops al = Ok (s1, cs, al1) -> faulty_reachable s1.
Proof.
  induction ops as [|o r IH]; intros s al s1 cs al1 H Ha E; cbn [frun] in E; [inversion E; now subst|].
  apply Forall_cons_iff in Ha as [Ha Hr]. destruct (fstep s o al) as [[[t c] al2]|] eqn:Et; [|discriminate]. cbn [bind] in E.
  destruct (frun t r al2) as [[[u cs'] al3]|] eqn:Eu; [|discriminate]. cbn [bind] in E. inversion E; subst.
  apply (IH t al2 s1 cs' al1); auto. exact (fr_call s o al t c al2 H Ha Et).
Qed.
Lemma alloc_safe s o al : faulty_reachable s -> op_args o ->
  (op_hazard s o -> fstep s o al = Ub) /\
  (~ op_hazard s o -> exists s1 c al1, fstep s o al = Ok (s1, c, al1) /\ faulty_reachable s1).
Proof.
  intros H Ha. split; intros Z; [exact (f_hazard s o al (faulty_Inv s H) Ha Z)|].
  destruct (fine_all s o al (faulty_Inv s H) Ha Z) as (s1 & c & al1 & E & _). exists s1, c, al1. split; [exact E|]. exact (fr_call s o al s1 c al1 H Ha E).
Qed.
Lemma bind_ret {A} (e : res A) (f : A -> screen) (g : A -> verdicts) s1 c al1 : (do r <- e; Ok (f r, 0, g r)) = Ok (s1, c, al1) -> c = 0.
Proof. destruct e; cbn [bind]; intros E; [|discriminate]. now inversion E. Qed.
Lemma fstep_calm s o al : scrolling o = false -> fstep s o al = (do s' <- step s o; Ok (s', 0, al)).
Proof. destruct o; intros E; first [discriminate E|reflexivity]. Qed.
Lemma fstep_ret s o al s1 c al1 : fstep s o al = Ok (s1, c, al1) -> (exists x y, o = OResize x y) \/ c = 0.
Proof.
  intros E. destruct (scrolling o) eqn:Es.
  - destruct o; try discriminate Es; [left; eexists _, _; reflexivity| | | |]; right; exact (bind_ret _ fst snd _ _ _ E).
  - right. rewrite (fstep_calm s o al Es) in E. exact (bind_ret _ (fun x => x) (fun _ => al) _ _ _ E).
Qed.

Lemma alloc_page s o al s1 c al1 : faulty_reachable s -> op_args o -> fstep s o al = Ok (s1, c, al1) -> c <> ENOMEM_RET ->
  c = ok_ret o /\ exists s2, step s o = Ok s2 /\ same_page s2 s1.
Proof.
  intros H Ha E Hc. destruct (fstep_fine s o al s1 c al1 (faulty_Inv s H) Ha E) as [_ [[K _]|(K & _ & s2 & E2 & _ & P)]]; [contradiction|]. eauto.
Qed.
Lemma alloc_history s o al s1 c al1 : faulty_reachable s -> op_args o -> fstep s o al = Ok (s1, c, al1) -> scrolling o = true -> c <> ENOMEM_RET ->
  s_sbmax s1 = s_sbmax s /\ exists kept, subseq kept (off s o) /\ sb_text s1 = last_n (s_sbmax s) (sb_text s ++ kept).
Proof.
  intros H Ha E Hs Hc. destruct (fstep_fine s o al s1 c al1 (faulty_Inv s H) Ha E) as [_ [[K _]|(_ & K & _)]]; [contradiction|]. exact (K Hs).
Qed.
Lemma alloc_fails s o al s1 c al1 : faulty_reachable s -> op_args o -> fstep s o al = Ok (s1, c, al1) -> c = ENOMEM_RET ->
  (exists x y, o = OResize x y) /\ unchanged s s1.
Proof.
  intros H Ha E Hc. destruct (fstep_fine s o al s1 c al1 (faulty_Inv s H) Ha E) as [_ [[_ K]|(K & _)]].
  - split; [|exact K]. subst c. destruct (fstep_ret _ _ _ _ _ _ E) as [R|R]; [exact R|discriminate].
  - exfalso. apply (ret_neq o). congruence.
Qed.
Lemma alloc_run_gen ops : forall s t al s1 cs al1, Inv s -> Inv t -> same_page t s -> Forall op_args ops ->
  frun s ops al = Ok (s1, cs, al1) -> exists t1, run t (granted ops cs) = Ok t1 /\ same_page t1 s1.
Proof.
  induction ops as [|o r IH]; intros s t al s1 cs al1 H H' P Ha E; cbn [frun] in E; [inversion E; subst; exists t; split; [reflexivity|exact P]|].
  apply Forall_cons_iff in Ha as [Ha Hr]. destruct (fstep s o al) as [[[u c] al2]|] eqn:Et; [|discriminate]. cbn [bind] in E.
  destruct (frun u r al2) as [[[w cs'] al3]|] eqn:Eu; [|discriminate]. cbn [bind] in E. inversion E; subst. cbn [granted].
  destruct (fstep_fine s o al u c al2 H Ha Et) as [Iu [[-> K]|(-> & _ & s2 & E2 & I2 & P2)]].
  - rewrite Z.eqb_refl. apply (IH u t al2 s1 cs' al1); auto. exact (page_trans _ _ _ P (un_page _ _ K)).
  - pose proof (ret_neq o) as N. apply Z.eqb_neq in N. rewrite N. cbn [run].
    destruct (page_runs s t o s2 (page_sym _ _ P) H H' Ha E2) as (t2 & Et2 & P3). rewrite Et2. cbn [bind].
    apply (IH u t2 al2 s1 cs' al1); auto; [exact (step_Inv t o t2 H' Ha Et2)|]. exact (page_trans _ _ _ (page_sym _ _ P3) P2).
Qed.
Lemma alloc_run s ops al s1 cs al1 : faulty_reachable s -> Forall op_args ops -> frun s ops al = Ok (s1, cs, al1) ->
  exists s2, run s (granted ops cs) = Ok s2 /\ same_page s2 s1.
Proof. intros H. apply (alloc_run_gen ops s s); auto using page_refl, faulty_Inv. Qed.


(* -- memory always granted -------------------------------------------------------- *)
Definition grant {A} (e : res A) : res (A * verdicts) := do a <- e; Ok (a, []).
Lemma forz_grant {A B} (g : A -> B) (f : Z -> A -> res A) (h : Z -> B -> res B) lo hi a :
  (forall i a, h i (g a) = (do a' <- f i a; Ok (g a'))) -> forz lo hi h (g a) = (do a' <- forz lo hi f a; Ok (g a')).
Proof.
  intros K. unfold forz. generalize (Z.to_nat (hi - lo)). intros n. revert lo a. induction n as [|n IH]; intros lo a; cbn [for_n]; [reflexivity|].
  rewrite K. destruct (f lo a) as [a'|]; cbn [bind]; [apply IH|reflexivity].
Qed.

Lemma f_line_new_granted s w : w <> 0 -> f_line_new s w [] = (Some (line_new s w), []).
Proof. intros H. unfold f_line_new. apply Z.eqb_neq in H. rewrite H. reflexivity. Qed.
Lemma f_chunk_granted s max num : f_scroll_up_chunk s max num [] = grant (scroll_up_chunk s max num).
Proof.
  unfold f_scroll_up_chunk, scroll_up_chunk, grant.
  match goal with |- (do r <- ?L; _) = _ => replace L with (do a' <- forz 0 num (fun (i : Z) (st : screen * list line) =>
      let '(s, cache) := st in
      let pos := u32 (s_mt s + i) in
      if negb (fl s F_ALT) && negb (s_sx s =? 0) then
        let nl := line_new s (s_sx s) in
        do l <- zget (lines s) pos;
        do s' <- link_to_scrollback s l;
        Ok (s', cache ++ [nl])
      else
        do l <- zget (lines s) pos;
        do l' <- line_blank s l;
        do ls <- zmod (lines s) pos (fun _ => l');
        Ok (set_lines s ls, cache ++ [l'])) (s, []); Ok (fst a', snd a', @nil bool)) end.
  - destruct (forz _ _ _ _) as [[s1 cache]|]; cbn [bind fst snd]; [|reflexivity].
    destruct (if num <? max then _ else _) as [s2|]; cbn [bind]; [|reflexivity].
    destruct (lines_copy _ _ _) as [s3|]; reflexivity.
  - symmetry. refine (forz_grant (fun p : screen * list line => (fst p, snd p, @nil bool)) _ f_scroll_body 0 num (s, []) _). intros i [t c]. cbn [fst snd]. unfold f_scroll_body. cbv zeta. destruct (fl t F_ALT); cbn [negb andb].
    + destruct (zget _ _) as [l|]; cbn [bind]; [|reflexivity]. destruct (line_blank t l) as [l'|]; cbn [bind]; [|reflexivity].
      destruct (zmod _ _ _); reflexivity.
    + unfold f_line_new. destruct (s_sx t =? 0); cbn [negb ask].
      * destruct (zget _ _) as [l|]; cbn [bind]; [|reflexivity]. destruct (line_blank t l) as [l'|]; cbn [bind]; [|reflexivity].
        destruct (zmod _ _ _); reflexivity.
      * destruct (zget _ _) as [l|]; cbn [bind]; [|reflexivity]. destruct (link_to_scrollback t l); reflexivity.
Qed.
Lemma f_rec_granted n : forall s num, f_scroll_up_rec n s num [] = grant (scroll_up_rec n s num).
Proof.
  induction n as [|n IH]; intros s num; cbn [f_scroll_up_rec scroll_up_rec]; cbv zeta; destruct (num =? 0); try reflexivity.
  - destruct (128 <? _); [reflexivity|apply f_chunk_granted].
  - destruct (128 <? _); [|apply f_chunk_granted]. rewrite f_chunk_granted. unfold grant at 1.
    destruct (scroll_up_chunk _ _ _) as [s1|]; cbn [bind fst snd]; [apply IH|reflexivity].
Qed.
Lemma f_scroll_granted s n : f_scroll_up s n [] = grant (scroll_up s n).
Proof. apply f_rec_granted. Qed.
Lemma f_new_granted n : forall s w, w <> 0 -> snd (fst (f_new_lines n s w [])) = true /\ snd (f_new_lines n s w []) = [].
Proof.
  induction n as [|n IH]; intros s w H; cbn [f_new_lines]; [auto|]. rewrite !f_line_new_granted by exact H. now apply IH.
Qed.
Lemma f_resize_lines_granted s x : forall n ms os r, f_resize_lines n s x ms os [] = Ok r -> snd (fst r) = true /\ snd r = [].
Proof.
  induction n as [|n IH]; intros [|m ms] [|o os] r E; cbn [f_resize_lines] in E; try discriminate; try (apply ok_inj in E; subst; auto).
  assert (K : forall l, f_line_resize s x l [] = (Some (line_resize s x l), [])).
  { intros l. unfold f_line_resize, line_resize. destruct (_ <? _); reflexivity. }
  rewrite !K in E. destruct (f_resize_lines n s x ms os []) as [[[[a b] c] d]|] eqn:E1; [|discriminate]. cbn [bind] in E.
  apply ok_inj in E. subst r. exact (IH ms os _ E1).
Qed.
Lemma f_grow_y_granted s x y : Inv s -> 0 < x <= DIM -> 0 < y <= DIM -> f_grow_y s x y [] = (resize_grow_y s x y, true, []).
Proof.
  intros H Hx Hy. rewrite grow_y_eq. destruct (f_grow_y_ok s x y [] H Hx Hy) as (s1 & b & al & E & _ & _ & _ & K). rewrite E.
  assert (B : b = true /\ al = []).
  { unfold f_grow_y in E. destruct (s_ln s <? y); [|inversion E; auto]. cbn [ask] in E.
    destruct (f_new_granted (Z.to_nat (y - s_ln s)) s (if s_sx s <? x then x else s_sx s)) as [A B].
    - pose proof (i_sx _ (proj1 H)). destruct (s_sx s <? x); lia.
    - rewrite E in A, B. auto. }
  destruct B as [-> ->]. now rewrite (K eq_refl).
Qed.
Lemma f_grow_x_granted s x : Inv s -> 0 < x <= DIM -> f_grow_x s x [] = (do t <- resize_grow_x s x; Ok (t, true, [])).
Proof.
  intros H Hx. destruct (f_grow_x_ok s x [] H Hx) as (s1 & b & al & E & K & _). rewrite E.
  assert (B : b = true /\ al = []).
  { unfold f_grow_x in E. destruct (s_sx s <? x); [|inversion E; auto]. cbn [ask] in E.
    destruct (f_resize_lines _ _ _ _ _ _) as [[[[m a] c] d]|] eqn:E1; [|discriminate]. cbn [bind] in E.
    destruct (f_resize_lines_granted _ _ _ _ _ _ E1) as [A B]. cbn [fst snd] in A, B. inversion E. subst. auto. }
  destruct B as [-> ->]. rewrite (K eq_refl). reflexivity.
Qed.
Lemma f_resize_granted s x y : Inv s -> op_args (OResize x y) -> f_resize s x y [] = (do r <- scr_resize s x y; Ok (fst r, snd r, [])).
Proof.
  intros H [Hx Hy]. unfold f_resize, scr_resize. destruct ((x =? 0) || (y =? 0)) eqn:E0; [reflexivity|].
  destruct ((s_sx s =? x) && (s_sy s =? y)); [reflexivity|].
  destruct (f_grow_y_ok s x y [] H ltac:(lia) ltac:(lia)) as (s1 & b & al & E & I & _). rewrite f_grow_y_granted in E by (auto; lia). inversion E; subst s1 b al. clear E.
  rewrite f_grow_y_granted by (auto; lia). cbn [negb]. cbv zeta. rewrite f_grow_x_granted by (auto; lia).
  destruct (resize_grow_x _ _) as [s2|]; cbn [bind negb]; [|reflexivity].
  destruct (resize_clear _ _) as [s4|]; cbn [bind]; [|reflexivity].
  destruct (reset_tabs _ _) as [tb|]; cbn [bind]; [|reflexivity].
  destruct (if s_sx _ <=? _ then _ else _) as [s7|]; cbn [bind]; [|reflexivity].
  rewrite f_scroll_granted. unfold grant. destruct (y <? s_sy s7).
  - destruct (scroll_up _ _) as [t|]; cbn [bind]; [|reflexivity].
    destruct (if _ <? s_cy t then _ else _) as [s8|]; cbn [bind]; [|reflexivity].
    destruct (if s_sy _ <=? _ then _ else _) as [s10|]; reflexivity.
  - cbn [bind]. destruct (if s_sy _ <=? _ then _ else _) as [s10|]; reflexivity.
Qed.
Lemma f_down_granted s n b : f_move_down s n b [] = grant (scr_move_down s n b).
Proof.
  unfold f_move_down, scr_move_down, grant. destruct (n =? 0); [reflexivity|]. cbv zeta. destruct (_ <? n).
  - destruct b.
    + rewrite f_scroll_granted. unfold grant. destruct (scroll_up _ _); cbn [bind]; [|reflexivity]. destruct (move_cursor _ _ _); reflexivity.
    + cbn [bind]. destruct (move_cursor _ _ _); reflexivity.
  - destruct (move_cursor _ _ _); reflexivity.
Qed.
Lemma f_write_granted s ch a : f_write s ch a [] = grant (scr_write s ch a).
Proof.
  unfold f_write, scr_write, grant. destruct (scr_width ch) as [w|]; cbn [bind]; [|reflexivity]. destruct (w =? 0); [reflexivity|]. cbv zeta.
  destruct (if s_sx _ <=? _ then _ else _) as [s1|]; cbn [bind]; [|reflexivity].
  destruct (_ <? s_cy s1).
  - destruct (move_cursor _ _ _) as [t|]; cbn [bind]; [|reflexivity]. rewrite f_scroll_granted. unfold grant.
    destruct (scroll_up _ _) as [s2|]; cbn [bind]; [|reflexivity]. destruct (screen_write _ _ _ _ _ _) as [s3|]; cbn [bind]; [|reflexivity].
    destruct (move_cursor _ _ _); reflexivity.
  - cbn [bind]. destruct (screen_write _ _ _ _ _ _) as [s3|]; cbn [bind]; [|reflexivity]. destruct (move_cursor _ _ _); reflexivity.
Qed.
Lemma fstep_granted s o : Inv s -> op_args o -> fstep s o [] = (do s' <- step s o; Ok (s', ok_ret o, [])).
Proof.
  intros H Ha. destruct (scrolling o) eqn:Es.
  - destruct o; try discriminate Es; cbn [fstep step].
    + rewrite (f_resize_granted s x y H Ha). cbn [ok_ret]. 
      assert (K : forall r, scr_resize s x y = Ok r -> snd r = if (x =? 0) || (y =? 0) then -22 else 0).
      { intros r E. unfold scr_resize in E. destruct ((x =? 0) || (y =? 0)); [apply ok_inj in E; now subst|].
        destruct ((s_sx s =? x) && (s_sy s =? y)); [apply ok_inj in E; now subst|]. cbv zeta in E.
        repeat match type of E with bind ?e _ = _ => destruct e; [|discriminate E]; cbn [bind] in E end. apply ok_inj in E. now subst. }
      destruct (scr_resize s x y) as [r|]; cbn [bind]; [|reflexivity]. now rewrite (K r eq_refl).
    + rewrite f_write_granted. unfold grant. destruct (scr_write s ch a); reflexivity.
    + unfold f_newline, scr_newline. rewrite f_down_granted. unfold grant. destruct (scr_move_down _ _ _) as [t|]; cbn [bind fst snd]; [|reflexivity].
      destruct (scr_line_home t); reflexivity.
    + unfold f_scroll_up_call, scr_scroll_up. destruct (n =? 0); [reflexivity|]. rewrite f_scroll_granted. unfold grant. destruct (scroll_up _ _); reflexivity.
    + rewrite f_down_granted. unfold grant. destruct (scr_move_down s n b); reflexivity.
  - rewrite (fstep_calm s o [] Es). replace (ok_ret o) with 0 by (destruct o; first [discriminate Es|reflexivity]). reflexivity.
Qed.
Lemma alloc_granted s o : faulty_reachable s -> op_args o -> fstep s o [] = (do s' <- step s o; Ok (s', ok_ret o, [])).
Proof. intros H. apply fstep_granted, faulty_Inv, H. Qed.
Lemma reachable_faulty s : reachable s -> faulty_reachable s.
Proof.
  intros (ops & Ha & E). revert E. generalize scr_init fr_init. induction ops as [|o r IH]; intros t F E; cbn [run] in E; [apply ok_inj in E; now subst|].
  apply Forall_cons_iff in Ha as [Ha Hr]. destruct (step t o) as [t1|] eqn:Et; [|discriminate]. cbn [bind] in E. apply (IH Hr t1); [|exact E].
  apply (fr_call t o [] t1 (ok_ret o) [] F Ha). rewrite (alloc_granted t o F Ha), Et. reflexivity.
Qed.
