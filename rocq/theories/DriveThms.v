(* Consequences of every terminal call acting on the screen by calls. *)
From Verif Require Import Base BaseProofs Utf8 Symbol Screen ScreenInv ScreenSafe VteData Vte VteKeys VteSpec VteInv VteSafe.
From Verif Require Import ScreenSpec ScreenOps ScreenRz ScreenThms FrameSpec ScreenFrame RenderSpec SeenSpec SeenThms Selection SelectionSpec SelectionProofs Utf8Spec DriveSpec DriveProofs.

Lemma drive_call sg v o v' : vreachable sg v -> vop_args o -> terminal_call o = true -> vstep sg v o = Ok v' -> driven v v'.
Proof. intros R A T E. exact (dv_vstep sg v o (vreachable_inv sg v R) A T v' E). Qed.

Lemma not_program_all ops : Forall (fun o => program_call o = true) ops -> not_program ops = [].
Proof. induction 1 as [|o l P _ IH]; cbn; [reflexivity|]. now rewrite P. Qed.
Lemma drive_session sg os : forall v v', VInv v -> Forall vop_args os -> vrun sg v os = Ok v' ->
  exists ops, Forall op_args ops /\ run (v_con v) ops = Ok (v_con v') /\ not_program ops = not_program (user_calls os).
Proof.
  induction os as [|o os IH]; intros v v' H A E; cbn [vrun] in E.
  - injection E as <-. exists []. now repeat split.
  - inversion_clear A as [|? ? A1 A2]. destruct (vstep sg v o) as [w|] eqn:S; [|discriminate]. cbn [bind] in E.
    assert (Hw : VInv w) by (apply (vstep_inv sg v o w H A1 S)).
    destruct (IH w v' Hw A2 E) as (ops & Ao & Ro & No).
    destruct (terminal_call o) eqn:T.
    + destruct (dv_vstep sg v o H A1 T w S) as (o1 & P1 & A3 & R1). exists (o1 ++ ops).
      split; [now apply Forall_app|]. split; [now rewrite (run_app _ _ _ _ R1)|].
      unfold not_program in *. rewrite filter_app, No. fold (not_program o1). rewrite (not_program_all o1 P1).
      destruct o; try discriminate T; reflexivity.
    + destruct o; try discriminate T. cbn [vstep] in S. unfold scr in S.
      destruct (step (v_con v) o) as [c|] eqn:X; [|discriminate]. cbn [bind] in S. injection S as <-.
      exists (o :: ops). split; [constructor; [exact A1|exact Ao]|]. split; [cbn [run]; rewrite X; exact Ro|].
      cbn [user_calls flat_map app]. unfold not_program in *. cbn [filter]. rewrite No. reflexivity.
Qed.
Lemma not_program_nil ops : not_program ops = [] -> Forall (fun o => program_call o = true) ops.
Proof.
  induction ops as [|o l IH]; intros E; [constructor|]. cbn in E. destruct (program_call o) eqn:P; cbn in E; [|discriminate].
  constructor; [exact P|now apply IH].
Qed.
Lemma program_none f ops : (forall o, program_call o = true -> f o = false) -> Forall (fun o => program_call o = true) ops ->
  Forall (fun o => f o = false) ops.
Proof. intros F. apply Forall_impl, F. Qed.

Lemma drive_untouched sg v os v' : vreachable sg v -> Forall vop_args os -> Forall (fun o => program_call o = true) (user_calls os) ->
  vrun sg v os = Ok v' -> let s := v_con v in let s' := v_con v' in
  (s_sx s' = s_sx s /\ s_sy s' = s_sy s) /\ s_sbmax s' = s_sbmax s /\ s_sela s' = s_sela s.
Proof.
  intros R A U E. cbv zeta. pose proof (vreachable_inv sg v R) as H.
  destruct (drive_session sg os v v' H A E) as (ops & Ao & Ro & No). rewrite (not_program_all _ U) in No. apply not_program_nil in No.
  destruct (framed_run ops _ _ (vi_con v H) Ao Ro) as (F1 & _ & _ & _ & _ & F6 & F7 & _).
  split; [apply F1; refine (program_none _ _ _ No)|split; [apply F6; refine (program_none _ _ _ No)|apply F7; refine (program_none _ _ _ No)]];
  intros []; cbn; congruence.
Qed.

(* Control characters have no width. *)
Lemma seqZ_forallb (f : Z -> bool) n : forallb (fun k => f (Z.of_nat k)) (seq 0 n) = true -> forall c, 0 <= c < Z.of_nat n -> f c = true.
Proof.
  intros H c Hc. rewrite forallb_forall in H. specialize (H (Z.to_nat c)). rewrite Z2Nat.id in H by lia. apply H, in_seq. lia.
Qed.
Definition no_width (c : Z) : bool :=
  if (32 <=? c) && (c <? 127) then true else match scr_width c with Ok n => n <=? 0 | Ub => true end.
Lemma control_width c n : control_char c -> scr_width c = Ok n -> n <= 0.
Proof.
  intros C E. assert (W : no_width c = true).
  { apply (seqZ_forallb no_width 160); [vm_compute; reflexivity|]. unfold control_char in C. lia. }
  unfold no_width in W. replace ((32 <=? c) && (c <? 127)) with false in W by (unfold control_char in C; lia).
  rewrite E in W. lia.
Qed.
Lemma stored_clean s g : reachable s -> stored s g -> ~ control_char (fst (fst g)).
Proof.
  intros (ops & _ & R) S C. apply (stored_given ops s g R) in S. destruct g as [[c w] a]. cbn in *.
  destruct S as [(-> & _)|(_ & n & W & N & _)]; [unfold control_char in C; lia|]. pose proof (control_width c n C W). lia.
Qed.

(* Copying. *)
Lemma zget_In {A} (l : list A) i x : zget l i = Ok x -> In x l.
Proof.
  unfold zget. destruct (znth l i) as [y|] eqn:E; [|discriminate]. intros X. injection X as <-. now apply znth_In in E.
Qed.
Section CharsOf.
Context (okchar : Z -> Prop) (ok10 : okchar 10).
Definition okrow (l : line) : Prop := Forall (fun c => okchar (c_ch c)) (l_cells l).
(* Bytes that are the encodings of such characters, whole lines of them. *)
Definition okbytes (b : list Z) : Prop := exists cs, b = flat_map ucs4_to_utf8 cs /\ Forall okchar cs.
Definition oklines (b : list Z) : Prop := b = [] \/ exists cs, b = flat_map ucs4_to_utf8 cs ++ [10] /\ Forall okchar cs.
Lemma oklines_app a b : oklines a -> oklines b -> oklines (a ++ b).
Proof.
  intros Ha [->|(cs & -> & Hc)]; [now rewrite app_nil_r|]. right. destruct Ha as [->|(ds & -> & Hd)]; [now exists cs|].
  exists (ds ++ 10 :: cs). rewrite flat_map_app. cbn [flat_map]. change (ucs4_to_utf8 10) with [10]. split; [now rewrite <- !app_assoc|].
  apply Forall_app. split; [exact Hd|]. constructor; [exact ok10|exact Hc].
Qed.
Lemma removelast_ok b : oklines b -> okbytes (removelast b).
Proof.
  intros [->|(cs & -> & Hc)]; [exists []; split; [reflexivity|constructor]|]. exists cs. split; [|exact Hc]. now rewrite removelast_last.
Qed.
Lemma forz_keep {A} (P : A -> Prop) lo hi f : forall a b, P a -> (forall i x y, P x -> f i x = Ok y -> P y) -> forz lo hi f a = Ok b -> P b.
Proof.
  intros a b Pa F. revert lo a Pa. assert (G : forall n lo a, hi - lo <= Z.of_nat n -> P a -> forz lo hi f a = Ok b -> P b).
  { induction n as [|n IH]; intros lo a Hn Pa E.
    - rewrite forz_nil in E by lia. now injection E as <-.
    - destruct (Z.leb_spec hi lo); [rewrite forz_nil in E by lia; now injection E as <-|].
      rewrite forz_step in E by lia. destruct (f lo a) as [x|] eqn:X; [|discriminate]. cbn [bind] in E.
      apply (IH (lo + 1) x); [lia|now apply (F lo a)|exact E]. }
  intros lo a Pa E. apply (G (Z.to_nat (hi - lo)) lo a); auto. lia.
Qed.
Lemma copy_line_ok l st n t : okrow l -> copy_line l st n = Ok t -> oklines t.
Proof.
  intros H. unfold copy_line. cbv zeta. destruct (calc_line_len l <? st); [intros E; injection E as <-; now left|].
  match goal with |- bind ?e _ = _ -> _ => destruct e as [b|] eqn:X; [|discriminate] end. cbn [bind]. intros E. injection E as <-.
  right. apply (forz_keep (fun b => okbytes b)) in X.
  - destruct X as (cs & -> & Hc). exists cs. change (ucs4_to_utf8 10) with [10]. now split.
  - exists []. split; [reflexivity|constructor].
  - intros i x y (cs & -> & Hc) E. destruct (zget (l_cells l) i) as [c|] eqn:Z; [|discriminate]. cbn [bind] in E. injection E as <-.
    exists (cs ++ [c_ch c]). rewrite flat_map_app. cbn [flat_map]. rewrite app_nil_r. split; [reflexivity|]. apply Forall_app. split; [exact Hc|].
    constructor; [|constructor]. unfold okrow in H. rewrite Forall_forall in H. apply H. now apply zget_In in Z.
Qed.
Definition okscreen (s : screen) : Prop := Forall okrow (s_sb s) /\ Forall okrow (lines s).
Lemma sb_from_incl k ls r : sb_from k ls = Some r -> forall P : line -> Prop, Forall P ls -> Forall P r.
Proof.
  induction ls as [|l ls IH]; cbn [sb_from]; [discriminate|]. intros E P F. inversion_clear F.
  match type of E with (if ?b then _ else _) = _ => destruct b end; [injection E as <-; now constructor|now apply IH].
Qed.
Lemma from_line_ok s p ls : okscreen s -> from_line s p = Ok ls -> Forall okrow ls.
Proof.
  intros H. unfold from_line. destruct p as [k|]; [|intros E; injection E as <-; constructor].
  destruct (sb_from k (s_sb s)) eqn:X; [|discriminate]. intros E. injection E as <-. exact (sb_from_incl _ _ _ X _ (proj1 H)).
Qed.
Lemma copy_sb_ok s st en ls : Forall okrow ls -> forall b t, oklines b -> copy_sb_loop s st en ls b = Ok t -> oklines t.
Proof.
  induction 1 as [|l ls Hl _ IH]; intros b t Hb E; cbn [copy_sb_loop] in E; [now injection E as <-|].
  destruct (copy_line _ _ _) as [x|] eqn:X in E; [|discriminate]. cbn [bind] in E. apply (copy_line_ok _ _ _ _ Hl) in X.
  destruct (ptr_is (p_line en) l); [injection E as <-; now apply oklines_app|]. apply (IH (b ++ x)); [now apply oklines_app|exact E].
Qed.
Lemma copy_lines_ok s st en b t : okscreen s -> oklines b -> copy_lines s st en b = Ok t -> oklines t.
Proof.
  intros H Hb. unfold copy_lines. destruct (p_line en); [intros E; now injection E as <-|]. intros E.
  apply (forz_keep oklines) in E; [exact E|exact Hb|]. clear E. intros i x y Hx E. cbv zeta in E.
  destruct (zget (lines s) i) as [l|] eqn:Z; [|discriminate]. cbn [bind] in E.
  destruct (copy_line _ _ _) as [u|] eqn:X in E; [|discriminate]. cbn [bind] in E. injection E as <-. apply oklines_app; [exact Hx|].
  apply copy_line_ok in X; [exact X|]. destruct H as [_ H]. rewrite Forall_forall in H. apply H. now apply zget_In in Z.
Qed.
Lemma copy_from_ok s st en t : okscreen s -> copy_from s st en = Ok (CText t) -> okbytes t.
Proof.
  intros H. unfold copy_from. destruct (count_lines_sb s st en); [|discriminate]. cbn [bind]. destruct (count_lines st en); [|discriminate].
  cbn [bind]. destruct (int_ok _); [|discriminate]. cbn [bind]. cbv zeta. destruct (_ <? 0); [discriminate|].
  unfold copy_lines_sb. destruct (from_line s (p_line st)) as [ls|] eqn:L; [|discriminate]. cbn [bind].
  destruct (copy_sb_loop s st en ls []) as [b1|] eqn:B1; [|discriminate]. cbn [bind].
  destruct (copy_lines s st en b1) as [b|] eqn:B; [|discriminate]. cbn [bind]. destruct (_ <=? _); [|discriminate]. intros E. injection E as <-.
  apply removelast_ok. apply (copy_lines_ok s st en b1); [exact H| |exact B]. apply (copy_sb_ok s st en ls) with (b := []); [|now left|exact B1].
  exact (from_line_ok s _ ls H L).
Qed.
Lemma copy_ok s t : okscreen s -> selection_copy s = Ok (CText t) -> okbytes t.
Proof.
  intros R. unfold selection_copy. destruct (negb (s_sela s)); [discriminate|].
  destruct (is_top _ && is_top _); [intros E; injection E as <-; exists []; split; [reflexivity|constructor]|].
  destruct (norm_selection s (s_sel1 s) (s_sel2 s)) as [se|]; [|discriminate]. cbn [bind]. now apply copy_from_ok.
Qed.
Lemma rows_ok s : (forall g, stored s g -> okchar (fst (fst g))) -> okscreen s.
Proof.
  intros R. assert (G : forall l, In l (s_main s) \/ In l (s_alt s) \/ In l (s_sb s) -> okrow l).
  { intros l Hl. unfold okrow. apply Forall_forall. intros c Hc. apply (R (look c)). exists l, c. auto. }
  split; apply Forall_forall; intros l Hl; apply G; [auto|]. unfold lines in Hl. destruct (s_act s); auto.
Qed.
End CharsOf.
Lemma copied_clean s t : reachable s -> selection_copy s = Ok (CText t) ->
  exists cs, copied_chars t cs /\ Forall (fun c => c = 10 \/ ~ control_char c) cs.
Proof.
  intros R. apply (copy_ok (fun c => c = 10 \/ ~ control_char c)); [now left|]. apply rows_ok. intros g Hg. right. now apply (stored_clean s).
Qed.
Lemma plain_bytes c b : 0 <= c < 2 ^ 32 -> c = 10 \/ ~ control_char c -> In b (ucs4_to_utf8 c) -> plain_byte b.
Proof.
  intros Hc Hk Hb. rewrite (enc_bytes c Hc) in Hb. unfold char_bytes in Hb. unfold plain_byte, control_char in *.
  destruct (Z.eqb_spec c 0) as [->|N]; [destruct Hb as [<-|[]]; lia|]. destruct (encodable c) eqn:E; [|destruct Hb].
  assert (c <= 0x10FFFF) by (unfold encodable in E; lia). unfold utf8 in Hb.
  destruct (Z.ltb_spec c 0x80); [destruct Hb as [<-|[]]; lia|].
  destruct (Z.ltb_spec c 0x800); [destruct Hb as [<-|[<-|[]]]; Z.to_euclidean_division_equations; lia|].
  destruct (Z.ltb_spec c 0x10000); [destruct Hb as [<-|[<-|[<-|[]]]]; Z.to_euclidean_division_equations; lia|].
  destruct Hb as [<-|[<-|[<-|[<-|[]]]]]; Z.to_euclidean_division_equations; lia.
Qed.
Lemma copied_bytes s t : reachable s -> (forall g, stored s g -> 0 <= fst (fst g) < 2 ^ 32) -> selection_copy s = Ok (CText t) -> Forall plain_byte t.
Proof.
  intros R U E. apply (copy_ok (fun c => 0 <= c < 2 ^ 32 /\ (c = 10 \/ ~ control_char c))) in E; [|lia|].
  - destruct E as (cs & -> & F). apply Forall_forall. intros b Hb. apply in_flat_map in Hb as (c & Hc & Hb).
    rewrite Forall_forall in F. destruct (F c Hc). now apply (plain_bytes c b).
  - apply rows_ok. intros g Hg. split; [now apply U|]. right. now apply (stored_clean s).
Qed.
(* For examples. *)
Definition in_range (s : screen) : bool :=
  forallb (fun l => forallb (fun c => (0 <=? c_ch c) && (c_ch c <? 2 ^ 32)) (l_cells l)) (s_main s ++ s_alt s ++ s_sb s).
Lemma in_range_ok s : in_range s = true -> forall g, stored s g -> 0 <= fst (fst g) < 2 ^ 32.
Proof.
  unfold in_range. intros H g (l & c & Hl & Hc & <-). rewrite forallb_forall in H. assert (K : In l (s_main s ++ s_alt s ++ s_sb s)) by (rewrite !in_app_iff; tauto).
  specialize (H l K). cbv beta in H. rewrite forallb_forall in H. specialize (H c Hc). cbv beta in H. cbn [look fst]. lia.
Qed.
