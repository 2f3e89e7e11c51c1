(* Typing leaves the cells right of the screen blank. *)
From Verif Require Import Base BaseProofs Screen ScreenSpec ScreenInv ScreenOps ScreenResize ScreenSafe SeenProofs Paper.

Definition bare (W : Z) (cs : list cell) : Prop := forall x c, W <= x -> znth cs x = Some c -> c_ch c = 0.
Section Bare.
Variable W : Z.
Notation bares := (bare W).
Definition bline (l : line) : Prop := bares (l_cells l).
Record clear (s : screen) : Prop := mkClear {
  cr_main : Forall bline (s_main s); cr_sb : Forall bline (s_sb s); cr_act : s_act s = false; cr_sx : s_sx s = W; cr_ins : fl s F_INSERT = false
}.
Definition content (s : screen) := (s_main s, s_sb s, s_act s, s_sx s, s_flags s).
Lemma clear_same s s' : content s' = content s -> clear s -> clear s'.
Proof. unfold content. intros E [A B C D F]. injection E as E1 E2 E3 E4 E5. unfold fl in F. constructor; unfold fl; congruence. Qed.
Lemma clear_inc s : clear s -> clear (inc_age s).
Proof. apply clear_same. unfold inc_age. cbv zeta. destruct (_ =? 0); reflexivity. Qed.
Lemma clear_aged s : clear s -> clear (age_all s).
Proof. now apply clear_same. Qed.
Lemma clear_lines s : clear s -> Forall bline (lines s).
Proof. intros C. unfold lines. rewrite (cr_act _ C). apply C. Qed.
Lemma clear_set_lines s ls : clear s -> Forall bline ls -> clear (set_lines s ls).
Proof. intros C H. destruct C as [A B C D F]. unfold fl in F. constructor; unfold set_lines, fl; rewrite C; sredg; auto. Qed.
Lemma clear_sb s sb : clear s -> Forall bline sb -> clear (set_sb s sb).
Proof. intros [A B C D F] H. unfold fl in F. constructor; unfold fl; sredg; auto. Qed.

Lemma b_zmod cs i f : bares cs -> (i < W \/ forall c, c_ch c = 0 -> c_ch (f c) = 0) -> gives bares (zmod cs i f).
Proof.
  intros H F. unfold zmod. destruct (_ && _) eqn:B; [|discriminate]. apply gives_ok. intros x c Hx E. rewrite znth_zupd in E.
  destruct (Z.eqb_spec x i) as [->|].
  - destruct (znth cs i) as [d|] eqn:D; [|discriminate]. cbn [option_map] in E. injection E as <-. destruct F as [F|F]; [lia|]. apply F. exact (H _ _ Hx D).
  - exact (H _ _ Hx E).
Qed.
Lemma b_on_cells f l : (forall cs, bares cs -> gives bares (f cs)) -> bline l -> gives bline (on_cells f l).
Proof. intros F H. unfold on_cells. apply (gives_bind bares); [now apply F|]. intros cs HC. now apply gives_ok. Qed.
Lemma b_upd s y f : clear s -> (forall l, bline l -> gives bline (f l)) -> gives clear (upd_line s y f).
Proof. intros C F. unfold upd_line. apply (gives_bind (Forall bline)); [apply all_zmodm; [now apply clear_lines|exact F]|]. intros ls HL. apply gives_ok. now apply clear_set_lines. Qed.
Lemma b_fill c a b cs : c_ch c = 0 -> bares cs -> gives bares (fill c a b cs).
Proof. intros C H. unfold fill. apply gives_forz; [|exact H]. intros i x HX. apply b_zmod; auto. Qed.
Lemma b_touch s : clear s -> gives clear (touch_cursor s).
Proof. intros C. unfold touch_cursor. apply b_upd; [exact C|]. intros l HL. apply b_on_cells; [|exact HL]. intros cs HC. apply b_zmod; [exact HC|]. right. intros c H. exact H. Qed.
Lemma b_move s x y : clear s -> gives clear (move_cursor s x y).
Proof.
  intros C. unfold move_cursor. destruct (fl s F_HIDE); [apply gives_ok; revert C; now apply clear_same|]. destruct (_ && _); [now apply gives_ok|].
  apply (gives_bind clear); [now apply b_touch|]. intros s1 C1. apply b_touch. revert C1. now apply clear_same.
Qed.
Lemma b_line_new s w : bline (line_new s w).
Proof. unfold bline, line_new. cbn [l_cells]. intros x c _ E. apply znth_In in E. apply repeat_spec in E. now rewrite E. Qed.
Lemma content_sel_drop s l : content (sel_drop s l) = content s.
Proof. unfold sel_drop. destruct (s_sela s); reflexivity. Qed.
Lemma content_sel_map s f : content (sel_map s f) = content s.
Proof. unfold sel_map. destruct (s_sela s); reflexivity. Qed.
Lemma b_evict s : clear s -> gives clear (sb_evict s).
Proof.
  intros C. unfold sb_evict. destruct (s_sb s) as [|t r] eqn:E; [discriminate|]. cbv zeta.
  assert (C1 : clear (set_sbn (set_sb s r) (u32 (s_sbn s - 1)))).
  { apply (clear_same (set_sb s r)); [reflexivity|]. apply clear_sb; [exact C|]. pose proof (cr_sb _ C) as H. rewrite E in H. now inversion H. }
  set (s1 := set_sbn (set_sb s r) (u32 (s_sbn s - 1))) in *. clearbody s1.
  apply (gives_bind clear).
  - destruct (s_sbpos s) as [p|]; [|now apply gives_ok]. destruct (_ || _); [|now apply gives_ok]. apply (gives_bind (fun _ => True)); [apply gives_any|]. intros [q|] _; apply gives_ok; revert C1; now apply clear_same.
  - intros s2 C2. apply gives_ok. apply (clear_same s2); [apply content_sel_drop|exact C2].
Qed.
Lemma b_link s l : clear s -> bline l -> gives clear (link_to_scrollback s l).
Proof.
  intros C H. apply clear_aged in C. unfold link_to_scrollback. cbv zeta. set (t := age_all s) in *. clearbody t. clear s. destruct (s_sbmax t =? 0).
  - apply gives_ok. apply (clear_same t); [apply content_sel_drop|exact C].
  - apply (gives_bind clear); [destruct (_ <=? _); [now apply b_evict|now apply gives_ok]|]. intros s1 C1. apply gives_ok.
    assert (C2 : clear (set_sbn (set_sb (set_sbid s1 (s_sbid s1 + 1)) (s_sb s1 ++ [mkL (l_cells l) (l_age l) (Some (s_sbid s1 + 1))])) (u32 (s_sbn s1 + 1)))).
    { destruct C1 as [A B D F G]. unfold fl in G. constructor; unfold fl; sredg; auto. apply Forall_app. auto. }
    match goal with |- context [s_sbpos ?x] => set (s2 := x) in *; clearbody s2 end. destruct (s_sbpos s2); [exact C2|]. revert C2. now apply clear_same.
Qed.
Lemma b_line_blank s l : bline l -> gives bline (line_blank s l).
Proof. unfold line_blank. apply b_on_cells. intros cs HC. now apply b_fill. Qed.
Definition clear2 (r : screen * list line) : Prop := clear (fst r) /\ Forall bline (snd r).
Lemma b_blank_at s i (cache : list line) : clear s -> Forall bline cache ->
  gives clear2 (do l <- zget (lines s) i; do l' <- line_blank s l; do ls <- zmod (lines s) i (fun _ => l'); Ok (set_lines s ls, cache ++ [l'])).
Proof.
  intros C H. apply (gives_bind bline); [apply all_zget; now apply clear_lines|]. intros l HL. apply (gives_bind bline); [now apply b_line_blank|]. intros l' HL'.
  apply (gives_bind (Forall bline)); [apply all_zmod; [now apply clear_lines|auto]|]. intros ls HS. apply gives_ok. split; cbn [fst snd]; [now apply clear_set_lines|]. apply Forall_app. auto.
Qed.
Lemma b_lines_move s d r n : clear s -> gives clear (lines_move s d r n).
Proof. intros C. unfold lines_move. apply (gives_bind (Forall bline)); [apply all_zmove; now apply clear_lines|]. intros ls H. apply gives_ok. now apply clear_set_lines. Qed.
Lemma b_lines_copy s d c : clear s -> Forall bline c -> gives clear (lines_copy s d c).
Proof. intros C V. unfold lines_copy. apply (gives_bind (Forall bline)); [apply all_zcopy; [now apply clear_lines|exact V]|]. intros ls H. apply gives_ok. now apply clear_set_lines. Qed.
Lemma b_up_chunk s m n : clear s -> gives clear (scroll_up_chunk s m n).
Proof.
  intros C. unfold scroll_up_chunk. apply (gives_bind clear2).
  - apply gives_forz; [|split; cbn [fst snd]; auto]. intros i [t c] [H1 H2]. cbn [fst snd] in *. cbv zeta. destruct (_ && _); [|now apply b_blank_at].
    apply (gives_bind bline); [apply all_zget; now apply clear_lines|]. intros l HL. apply (gives_bind clear); [now apply b_link|]. intros s' C'. apply gives_ok. split; cbn [fst snd]; [exact C'|]. apply Forall_app. split; [exact H2|]. constructor; [|constructor]. now apply b_line_new.
  - intros [s1 c] [H1 H2]. cbn [fst snd] in *. apply (gives_bind clear); [destruct (n <? m); [now apply b_lines_move|now apply gives_ok]|]. intros s2 C2. apply (gives_bind clear); [now apply b_lines_copy|]. intros s3 C3. apply gives_ok. apply (clear_same s3); [apply content_sel_map|exact C3].
Qed.
Lemma b_up_rec fuel : forall s n, clear s -> gives clear (scroll_up_rec fuel s n).
Proof.
  induction fuel as [|f IH]; intros s n C; cbn [scroll_up_rec]; cbv zeta; (destruct (n =? 0); [now apply gives_ok|]); (destruct (128 <? _); [|now apply b_up_chunk, clear_aged]); [discriminate|].
  apply (gives_bind clear); [now apply b_up_chunk, clear_aged|]. intros s1 C1. now apply IH.
Qed.
Lemma b_up s n : clear s -> gives clear (scroll_up s n).
Proof. unfold scroll_up. apply b_up_rec. Qed.
Lemma b_screen_write s x y ch len a : clear s -> gives clear (screen_write s x y ch len a).
Proof.
  intros C. unfold screen_write. destruct (len =? 0); [now apply gives_ok|]. destruct (Z.leb_spec (s_sx s) x) as [|X]; cbn [orb]; [now apply gives_ok|]. destruct (_ <=? y); [now apply gives_ok|].
  rewrite (cr_ins _ C). cbn [andb]. rewrite (cr_sx _ C) in *.
  apply b_upd; [exact C|]. intros l HL. cbn [bind]. apply b_on_cells; [|exact HL]. intros cs HC.
  apply (gives_bind bares); [apply b_zmod; auto|]. intros cs1 H1. apply gives_forz; [|exact H1]. intros i t HT. apply b_zmod; [exact HT|]. right. intros c Hc. exact Hc.
Qed.
Lemma b_write s ch a : clear s -> gives clear (scr_write s ch a).
Proof.
  intros C. unfold scr_write. apply (gives_bind (fun _ => True)); [apply gives_any|]. intros n _. destruct (n =? 0); [now apply gives_ok|]. apply clear_inc in C. cbv zeta. set (t := inc_age s) in *. clearbody t. clear s.
  apply (gives_bind clear); [destruct (_ <=? s_cx t); [destruct (fl t F_WRAP); now apply b_move|now apply gives_ok]|]. intros s1 C1.
  apply (gives_bind clear); [destruct (_ <? s_cy s1); [apply (gives_bind clear); [now apply b_move|intros s' C'; now apply b_up]|now apply gives_ok]|]. intros s2 C2.
  apply (gives_bind clear); [now apply b_screen_write|]. intros s3 C3. now apply b_move.
Qed.
Lemma b_move_down s n b : clear s -> gives clear (scr_move_down s n b).
Proof.
  intros C. unfold scr_move_down. destruct (n =? 0); [now apply gives_ok|]. apply clear_inc in C. cbv zeta. set (t := inc_age s) in *. clearbody t. destruct (_ <? n); [|now apply b_move].
  apply (gives_bind clear); [destruct b; [now apply b_up|now apply gives_ok]|]. intros s1 C1. now apply b_move.
Qed.
Lemma b_item s i : clear s -> gives clear (step s (item_op i)).
Proof.
  intros C. destruct i; cbn [item_op step].
  - now apply b_write.
  - unfold scr_newline. apply clear_inc in C. set (t := inc_age s) in *. clearbody t. apply (gives_bind clear); [now apply b_move_down|]. intros s1 C1. unfold scr_line_home. apply clear_inc in C1. now apply b_move.
  - now apply b_move_down.
  - unfold scr_line_home. apply clear_inc in C. now apply b_move.
  - unfold scr_move_left. destruct (_ =? 0); [now apply gives_ok|]. apply clear_inc in C. cbv zeta. match goal with |- gives _ (if ?b then _ else _) => destruct b end; now apply b_move.
  - apply gives_ok. revert C. now apply clear_same.
Qed.
Lemma b_items is : forall s, clear s -> gives clear (run s (map item_op is)).
Proof.
  induction is as [|i r IH]; intros s C; cbn [map run]; [now apply gives_ok|]. apply (gives_bind clear); [now apply b_item|]. intros s1 C1. now apply IH.
Qed.
End Bare.
