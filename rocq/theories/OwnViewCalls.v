(* The pointers of the view and of the selection in the calls of the screen API. *)
From Verif Require Import Base BaseProofs Screen ScreenInv ScreenSb ScreenScroll ScreenSpec ScreenOps ScreenMove ScreenCtl ScreenResize ScreenSafe ScreenHist ScreenThms Own OwnSpec OwnProofs OwnRows OwnThms OwnCalls OwnCallThms OwnView.
From Coq Require Import Permutation.

(* -- what the calls leave alone ----------------------------------------------------------------------------- *)
Definition vw (s : screen) := (s_sb s, s_sbid s, s_sbpos s, s_sbmax s, s_sela s, s_sel1 s, s_sel2 s).
Lemma follows_vw s s' w L : vw s' = vw s -> follows s w L -> follows s' w L.
Proof. unfold vw. intros E. inversion E. apply follows_same; auto using pointers_refl. Qed.
Lemma vw_inc s : vw (inc_age s) = vw s.
Proof. rewrite inc_age_eq. reflexivity. Qed.
Lemma vw_lines s ls : vw (set_lines s ls) = vw s.
Proof. unfold vw. sredg. reflexivity. Qed.
Lemma vw_line s y f s' : upd_line s y f = Ok s' -> vw s' = vw s.
Proof. unfold upd_line. destruct (zmodm _ _ _) as [ls|]; [|discriminate]. cbn [bind]. intros E. apply ok_inj in E. rewrite E. apply vw_lines. Qed.
Lemma vw_touch s s' : touch_cursor s = Ok s' -> vw s' = vw s.
Proof. apply vw_line. Qed.
Lemma vw_move s x y s' : move_cursor s x y = Ok s' -> vw s' = vw s.
Proof.
  unfold move_cursor. destruct (fl s F_HIDE); [intros E; apply ok_inj in E; rewrite E; reflexivity|]. destruct (_ && _); [intros E; apply ok_inj in E; rewrite E; reflexivity|].
  destruct (touch_cursor s) as [s1|] eqn:E1; [|discriminate]. cbn [bind]. intros E. apply vw_touch in E. apply vw_touch in E1. rewrite E, <- E1. reflexivity.
Qed.
Lemma vw_write s x y ch len a s' : screen_write s x y ch len a = Ok s' -> vw s' = vw s.
Proof. unfold screen_write. destruct (len =? 0); [intros E; apply ok_inj in E; now rewrite E|]. destruct (_ || _); [intros E; apply ok_inj in E; now rewrite E|]. apply vw_line. Qed.
Lemma forz_keep {S B} (P : S -> B) (body : Z -> S -> res S) : (forall i s s', body i s = Ok s' -> P s' = P s) -> forall a b s s', forz a b body s = Ok s' -> P s' = P s.
Proof.
  intros H a b. assert (X : exists n, Z.to_nat (b - a) = n) by eauto. destruct X as [n EN]. revert a EN. induction n as [|n IH]; intros a EN s s' E.
  - rewrite forz_nil in E by lia. apply ok_inj in E. now rewrite E.
  - rewrite forz_step in E by lia. destruct (body a s) as [s1|] eqn:E1; [|discriminate]. cbn [bind] in E. apply IH in E; [|lia]. rewrite E. eauto.
Qed.
Lemma vw_erase s a b c d p s' : erase_region s a b c d p = Ok s' -> vw s' = vw s.
Proof. unfold erase_region. cbv zeta. intros E. transitivity (vw (age_all s)); [|reflexivity]. revert E. apply (forz_keep vw). intros i t t'. apply vw_line. Qed.
Lemma vw_cache s idx num s' c : cache_blank s idx num = Ok (s', c) -> vw s' = vw s.
Proof.
  unfold cache_blank. intros E. apply (forz_keep (fun st => vw (fst st))) in E; [exact E|]. clear. intros i [t c] [t' c'] E.
  destruct (zget (lines t) (idx i)) as [l|]; [|discriminate]. cbn [bind] in E. destruct (line_blank t l) as [l'|]; [|discriminate]. cbn [bind] in E. destruct (zmod _ _ _) as [ls|]; [|discriminate]. cbn [bind] in E.
  cbn [fst]. assert (X : t' = set_lines t ls) by congruence. rewrite X. apply vw_lines.
Qed.
Lemma vw_lmove s a b c s' : lines_move s a b c = Ok s' -> vw s' = vw s.
Proof. unfold lines_move. destruct (zmove _ _ _ _); [|discriminate]. cbn [bind]. intros E. apply ok_inj in E. rewrite E. apply vw_lines. Qed.
Lemma vw_lcopy s a b s' : lines_copy s a b = Ok s' -> vw s' = vw s.
Proof. unfold lines_copy. destruct (zcopy _ _ _); [|discriminate]. cbn [bind]. intros E. apply ok_inj in E. rewrite E. apply vw_lines. Qed.
Lemma vw_age s : vw (age_all s) = vw s.
Proof. reflexivity. Qed.
Lemma vw_cursor_in s : vw (cursor_in s) = vw s.
Proof. reflexivity. Qed.
Lemma vw_set_cx s v : vw (set_cx s v) = vw s.
Proof. reflexivity. Qed.
Lemma vw_set_cy s v : vw (set_cy s v) = vw s.
Proof. reflexivity. Qed.
Lemma vw_set_tabs s v : vw (set_tabs s v) = vw s.
Proof. reflexivity. Qed.
Lemma vw_set_mt s v : vw (set_mt s v) = vw s.
Proof. reflexivity. Qed.
Lemma vw_set_mb s v : vw (set_mb s v) = vw s.
Proof. reflexivity. Qed.
Lemma vw_set_def s v : vw (set_def s v) = vw s.
Proof. reflexivity. Qed.
Lemma vw_set_defm s v : vw (set_defm s v) = vw s.
Proof. reflexivity. Qed.
Lemma vw_set_act s v : vw (set_act s v) = vw s.
Proof. reflexivity. Qed.
Lemma vw_set_flags s v : vw (set_flags s v) = vw s.
Proof. reflexivity. Qed.
Lemma vw_set_sx s v : vw (set_sx s v) = vw s.
Proof. reflexivity. Qed.
Lemma vw_set_sy s v : vw (set_sy s v) = vw s.
Proof. reflexivity. Qed.
Ltac vwgo E :=
  repeat (cbv zeta in E; match type of E with
  | Ok _ = Ok _ => apply ok_inj in E; rewrite E; clear E
  | bind (Ok _) _ = Ok _ => cbn [bind] in E
  | bind (if ?b then _ else _) _ = Ok _ => destruct b
  | bind (bind ?e _) _ = Ok _ => let r := fresh "r" in let Q := fresh "Q" in destruct e as [r|] eqn:Q; [cbn [bind] in E|discriminate E]
  | bind ?e _ = Ok _ => let r := fresh "r" in let Q := fresh "Q" in destruct e as [r|] eqn:Q; [cbn [bind] in E|discriminate E]
  | (let '(_, _) := ?r in _) = Ok _ => destruct r
  | (if ?b then _ else _) = Ok _ => destruct b
  end).
Ltac vwdone := repeat match goal with
  | E : move_cursor _ _ _ = Ok _ |- _ => apply vw_move in E
  | E : touch_cursor _ = Ok _ |- _ => apply vw_touch in E
  | E : upd_line _ _ _ = Ok _ |- _ => apply vw_line in E
  | E : erase_region _ _ _ _ _ _ = Ok _ |- _ => apply vw_erase in E
  | E : cache_blank _ _ _ = Ok (_, _) |- _ => apply vw_cache in E
  | E : lines_move _ _ _ _ = Ok _ |- _ => apply vw_lmove in E
  | E : lines_copy _ _ _ = Ok _ |- _ => apply vw_lcopy in E
  | E : screen_write _ _ _ _ _ _ = Ok _ |- _ => apply vw_write in E
  end;
  repeat match goal with
  | E : vw ?a = vw ?b |- vw ?a = _ => rewrite E; clear E
  | |- vw ?a = vw ?a => reflexivity
  | |- vw (inc_age _) = _ => rewrite vw_inc
  | |- vw (age_all _) = _ => rewrite vw_age
  | |- vw (set_cx _ _) = _ => rewrite vw_set_cx
  | |- vw (set_sx _ _) = _ => rewrite vw_set_sx
  | |- vw (set_sy _ _) = _ => rewrite vw_set_sy
  | |- vw (set_cy _ _) = _ => rewrite vw_set_cy
  | |- vw (set_tabs _ _) = _ => rewrite vw_set_tabs
  | |- vw (set_mt _ _) = _ => rewrite vw_set_mt
  | |- vw (set_mb _ _) = _ => rewrite vw_set_mb
  | |- vw (set_def _ _) = _ => rewrite vw_set_def
  | |- vw (set_defm _ _) = _ => rewrite vw_set_defm
  | |- vw (set_act _ _) = _ => rewrite vw_set_act
  | |- vw (set_flags _ _) = _ => rewrite vw_set_flags
  | |- vw (cursor_in _) = _ => rewrite vw_cursor_in
  | |- vw (if ?b then _ else _) = _ => destruct b
  end.
(* The calls that neither scroll nor look. *)
Definition quiet (o : op) : bool :=
  match o with
  | OResize _ _ | OSetMaxSb _ | OClearSb | OSbUp _ | OSbDown _ | OSbPageUp _ | OSbPageDown _ | OSbReset | OWrite _ _ | ONewline | OScrollUp _ | OScrollDown _
  | OSelReset | OSelStart _ _ | OSelTarget _ _ => false
  | OMoveUp _ b | OMoveDown _ b => negb b
  | _ => true
  end.
Lemma vw_set_flags_call s f s' : scr_set_flags s f = Ok s' -> vw s' = vw s.
Proof. intros E. unfold scr_set_flags in E. vwgo E; vwdone. Qed.
Lemma vw_reset_flags s f s' : scr_reset_flags s f = Ok s' -> vw s' = vw s.
Proof. intros E. unfold scr_reset_flags in E. vwgo E; vwdone. Qed.
Lemma vw_tabstop v s s' : scr_tabstop v s = Ok s' -> vw s' = vw s.
Proof. intros E. unfold scr_tabstop in E. vwgo E; vwdone. Qed.
Lemma vw_reset_all_tabstops s s' : scr_reset_all_tabstops s = Ok s' -> vw s' = vw s.
Proof. intros E. unfold scr_reset_all_tabstops in E. vwgo E; vwdone. Qed.
Lemma vw_move_to s x y s' : scr_move_to s x y = Ok s' -> vw s' = vw s.
Proof. intros E. unfold scr_move_to in E. vwgo E; vwdone. Qed.
Lemma vw_move_left s n s' : scr_move_left s n = Ok s' -> vw s' = vw s.
Proof. intros E. unfold scr_move_left in E. vwgo E; vwdone. Qed.
Lemma vw_move_right s n s' : scr_move_right s n = Ok s' -> vw s' = vw s.
Proof. intros E. unfold scr_move_right in E. vwgo E; vwdone. Qed.
Lemma vw_line_end s s' : scr_line_end s = Ok s' -> vw s' = vw s.
Proof. intros E. unfold scr_line_end in E. vwgo E; vwdone. Qed.
Lemma vw_line_home s s' : scr_line_home s = Ok s' -> vw s' = vw s.
Proof. intros E. unfold scr_line_home in E. vwgo E; vwdone. Qed.
Lemma vw_tab_right s n s' : scr_tab_right s n = Ok s' -> vw s' = vw s.
Proof. intros E. unfold scr_tab_right in E. vwgo E; vwdone. Qed.
Lemma vw_tab_left s n s' : scr_tab_left s n = Ok s' -> vw s' = vw s.
Proof. intros E. unfold scr_tab_left in E. vwgo E; vwdone. Qed.
Lemma vw_insert_lines s n s' : scr_insert_lines s n = Ok s' -> vw s' = vw s.
Proof. intros E. unfold scr_insert_lines in E. vwgo E; vwdone. Qed.
Lemma vw_delete_lines s n s' : scr_delete_lines s n = Ok s' -> vw s' = vw s.
Proof. intros E. unfold scr_delete_lines in E. vwgo E; vwdone. Qed.
Lemma vw_insert_chars s n s' : scr_insert_chars s n = Ok s' -> vw s' = vw s.
Proof. intros E. unfold scr_insert_chars in E. vwgo E; vwdone. Qed.
Lemma vw_delete_chars s n s' : scr_delete_chars s n = Ok s' -> vw s' = vw s.
Proof. intros E. unfold scr_delete_chars in E. vwgo E; vwdone. Qed.
Lemma vw_erase_cursor s s' : scr_erase_cursor s = Ok s' -> vw s' = vw s.
Proof. intros E. unfold scr_erase_cursor in E. vwgo E; vwdone. Qed.
Lemma vw_erase_chars s n s' : scr_erase_chars s n = Ok s' -> vw s' = vw s.
Proof. intros E. unfold scr_erase_chars in E. vwgo E; vwdone. Qed.
Lemma vw_erase_cursor_to_end s p s' : scr_erase_cursor_to_end s p = Ok s' -> vw s' = vw s.
Proof. intros E. unfold scr_erase_cursor_to_end in E. vwgo E; vwdone. Qed.
Lemma vw_erase_home_to_cursor s p s' : scr_erase_home_to_cursor s p = Ok s' -> vw s' = vw s.
Proof. intros E. unfold scr_erase_home_to_cursor in E. vwgo E; vwdone. Qed.
Lemma vw_erase_current_line s p s' : scr_erase_current_line s p = Ok s' -> vw s' = vw s.
Proof. intros E. unfold scr_erase_current_line in E. vwgo E; vwdone. Qed.
Lemma vw_erase_screen_to_cursor s p s' : scr_erase_screen_to_cursor s p = Ok s' -> vw s' = vw s.
Proof. intros E. unfold scr_erase_screen_to_cursor in E. vwgo E; vwdone. Qed.
Lemma vw_erase_cursor_to_screen s p s' : scr_erase_cursor_to_screen s p = Ok s' -> vw s' = vw s.
Proof. intros E. unfold scr_erase_cursor_to_screen in E. vwgo E; vwdone. Qed.
Lemma vw_erase_screen s p s' : scr_erase_screen s p = Ok s' -> vw s' = vw s.
Proof. intros E. unfold scr_erase_screen in E. vwgo E; vwdone. Qed.
Lemma vw_move_up s n s' : scr_move_up s n false = Ok s' -> vw s' = vw s.
Proof. intros E. unfold scr_move_up in E. vwgo E; vwdone. Qed.
Lemma vw_move_down s n s' : scr_move_down s n false = Ok s' -> vw s' = vw s.
Proof. intros E. unfold scr_move_down in E. vwgo E; vwdone. Qed.
Lemma vw_margins s a b : vw (scr_set_margins s a b) = vw s.
Proof. unfold scr_set_margins. destruct (_ <=? _); [|destruct (_ <? _)]; vwdone. Qed.
Lemma vw_reset s s' : scr_reset s = Ok s' -> vw s' = vw s.
Proof.
  unfold scr_reset. cbv zeta. rewrite <- (vw_inc s). generalize (inc_age s). intros t. set (t1 := set_act (set_mb (set_mt (set_flags (age_all t) 0) 0) (u32 (s_sy (age_all t) - 1))) false).
  assert (V : vw t1 = vw t) by (unfold t1; now rewrite vw_set_act, vw_set_mb, vw_set_mt, vw_set_flags, vw_age). clearbody t1. destruct (reset_tabs (s_sx t1) (s_tabs t1)) as [tb|]; [|discriminate].
  cbn [bind]. intros E. apply ok_inj in E. rewrite E, vw_set_tabs. exact V.
Qed.
Lemma quiet_vw s o s' : quiet o = true -> step s o = Ok s' -> vw s' = vw s.
Proof.
  intros Q E. destruct o; try discriminate Q; try (destruct b; [discriminate Q|]); lazymatch type of E with step _ OReset = _ => rewrite step_reset in E | _ => cbn [step] in E end.
  - apply ok_inj in E. rewrite E. apply vw_margins.
  - apply ok_inj in E. rewrite E. reflexivity.
  - exact (vw_reset _ _ E).
  - exact (vw_set_flags_call _ _ _ E).
  - exact (vw_reset_flags _ _ _ E).
  - exact (vw_tabstop _ _ _ E).
  - exact (vw_tabstop _ _ _ E).
  - exact (vw_reset_all_tabstops _ _ E).
  - exact (vw_move_to _ _ _ _ E).
  - exact (vw_move_up _ _ _ E).
  - exact (vw_move_down _ _ _ E).
  - exact (vw_move_left _ _ _ E).
  - exact (vw_move_right _ _ _ E).
  - exact (vw_line_end _ _ E).
  - exact (vw_line_home _ _ E).
  - exact (vw_tab_right _ _ _ E).
  - exact (vw_tab_left _ _ _ E).
  - exact (vw_insert_lines _ _ _ E).
  - exact (vw_delete_lines _ _ _ E).
  - exact (vw_insert_chars _ _ _ E).
  - exact (vw_delete_chars _ _ _ E).
  - exact (vw_erase_cursor _ _ E).
  - exact (vw_erase_chars _ _ _ E).
  - exact (vw_erase_cursor_to_end _ _ _ E).
  - exact (vw_erase_home_to_cursor _ _ _ E).
  - exact (vw_erase_current_line _ _ _ E).
  - exact (vw_erase_screen_to_cursor _ _ _ E).
  - exact (vw_erase_cursor_to_screen _ _ _ E).
  - exact (vw_erase_screen _ _ _ E).
Qed.
