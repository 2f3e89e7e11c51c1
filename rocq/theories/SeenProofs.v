(* Every call keeps a property of all glyphs that blanks have and that the
   character written has. *)
From Verif Require Import Base BaseProofs Symbol Wcwidth Screen ScreenInv ScreenSb ScreenSpec ScreenOps ScreenMove ScreenCtl ScreenResize ScreenSafe ScreenHist ScreenRz ScreenThms SeenSpec.

Definition gives {A} (P : A -> Prop) (r : res A) : Prop := forall x, r = Ok x -> P x.
Lemma gives_ok {A} (P : A -> Prop) x : P x -> gives P (Ok x).
Proof. intros H y E. assert (X : x = y) by congruence. now rewrite <- X. Qed.
Lemma gives_bind {A B} (P : A -> Prop) (Q : B -> Prop) r (k : A -> res B) : gives P r -> (forall x, P x -> gives Q (k x)) -> gives Q (bind r k).
Proof. intros H K y E. destruct r as [x|]; [|discriminate]. cbn [bind] in E. exact (K x (H x eq_refl) y E). Qed.
Lemma gives_any {A} (r : res A) : gives (fun _ => True) r.
Proof. intros x _. exact I. Qed.
Lemma gives_for {A} (P : A -> Prop) n body : (forall i x, P x -> gives P (body i x)) -> forall a x, P x -> gives P (for_n n a body x).
Proof. intros B. induction n as [|n IH]; intros a x H; cbn [for_n]; [now apply gives_ok|]. apply (gives_bind P); [now apply B|]. intros y HY. now apply IH. Qed.
Lemma gives_forz {A} (P : A -> Prop) a b body x : (forall i x, P x -> gives P (body i x)) -> P x -> gives P (forz a b body x).
Proof. intros B H. unfold forz. now apply gives_for. Qed.
Lemma gives_loop {A} (P : A -> Prop) n body : (forall x, P x -> gives (fun r => P (fst r)) (body x)) -> forall x, P x -> gives P (loop_n n body x).
Proof.
  intros B. induction n as [|n IH]; intros x H; cbn [loop_n]; [now apply gives_ok|]. apply (gives_bind (fun r => P (fst r))); [now apply B|]. intros [y b] HY. cbn [fst] in HY. destruct b; [now apply IH|now apply gives_ok].
Qed.
Lemma all_mapi {A} (P : A -> Prop) (f : Z -> A -> A) l : Forall P l -> (forall k x, P x -> P (f k x)) -> forall k, Forall P (mapi_from k f l).
Proof. intros H F. induction H as [|x l HX HL IH]; intros k; cbn [mapi_from]; constructor; auto. Qed.
Lemma all_zupd {A} (P : A -> Prop) l i f : Forall P l -> (forall x, P x -> P (f x)) -> Forall P (zupd l i f).
Proof. intros H F. unfold zupd, mapi. apply all_mapi; [exact H|]. intros k x HX. destruct (k =? i); auto. Qed.
Lemma all_zmod {A} (P : A -> Prop) l i f : Forall P l -> (forall x, P x -> P (f x)) -> gives (Forall P) (zmod l i f).
Proof. intros H F. unfold zmod. destruct (_ && _); [|discriminate]. apply gives_ok. now apply all_zupd. Qed.
Lemma all_zget {A} (P : A -> Prop) l i : Forall P l -> gives P (zget l i).
Proof. intros H x E. unfold zget in E. destruct (znth l i) eqn:Z; [|discriminate]. assert (X : a = x) by congruence. rewrite <- X. rewrite Forall_forall in H. apply H. eapply znth_In; eauto. Qed.
Lemma all_zmodm {A} (P : A -> Prop) l i f : Forall P l -> (forall x, P x -> gives P (f x)) -> gives (Forall P) (zmodm l i f).
Proof. intros H F. unfold zmodm. apply (gives_bind P); [now apply all_zget|]. intros x HX. apply (gives_bind P); [auto|]. intros y HY. apply gives_ok. now apply all_zupd. Qed.
Lemma all_firstn {A} (P : A -> Prop) n l : Forall P l -> Forall P (firstn n l).
Proof. intros H. rewrite <- (firstn_skipn n l) in H. now apply Forall_app in H. Qed.
Lemma all_skipn {A} (P : A -> Prop) n l : Forall P l -> Forall P (skipn n l).
Proof. intros H. rewrite <- (firstn_skipn n l) in H. now apply Forall_app in H. Qed.
Lemma all_zput {A} (P : A -> Prop) l i v : Forall P l -> Forall P v -> Forall P (zput l i v).
Proof. intros H V. unfold zput. apply Forall_app. split; [now apply all_firstn|]. apply Forall_app. split; [exact V|now apply all_skipn]. Qed.
Lemma all_zcopy {A} (P : A -> Prop) l i v : Forall P l -> Forall P v -> gives (Forall P) (zcopy l i v).
Proof. intros H V. unfold zcopy. destruct (_ && _); [|discriminate]. apply gives_ok. now apply all_zput. Qed.
Lemma all_zmove {A} (P : A -> Prop) l d s n : Forall P l -> gives (Forall P) (zmove l d s n).
Proof. intros H. unfold zmove. destruct (_ && _); [|discriminate]. apply gives_ok. apply all_zput; [exact H|]. unfold zslice. now apply all_firstn, all_skipn. Qed.
Lemma all_repeat {A} (P : A -> Prop) x n : P x -> Forall P (repeat x n).
Proof. intros H. apply Forall_forall. intros y J. apply repeat_spec in J. now rewrite J. Qed.

Section Keeps.
Variable Q : glyph -> Prop.
(* Where there are wide characters, the cells they extend over keep what they had. *)
Hypothesis Q0 : forall ch n b, 1 < n -> Q (ch, n, b) -> forall c w a, Q (c, w, a) -> Q (c, 0, a).

Definition qcell (c : cell) : Prop := Q (look c).
Definition qline (l : line) : Prop := Forall qcell (l_cells l).
Record clean (s : screen) : Prop := mkClean {
  cl_main : Forall qline (s_main s); cl_alt : Forall qline (s_alt s); cl_sb : Forall qline (s_sb s);
  cl_def : Q (blank_glyph (s_def s)); cl_defm : Q (blank_glyph (s_defm s))
}.
Definition content (s : screen) := (s_main s, s_alt s, s_sb s, s_def s, s_defm s).
Lemma clean_same s s' : content s' = content s -> clean s -> clean s'.
Proof. unfold content. intros E [A B C D F]. injection E as E1 E2 E3 E4 E5. constructor; congruence. Qed.
Lemma clean_inc s : clean s -> clean (inc_age s).
Proof. apply clean_same. unfold inc_age. cbv zeta. destruct (_ =? 0); reflexivity. Qed.
Lemma clean_aged s : clean s -> clean (age_all s).
Proof. now apply clean_same. Qed.
Lemma clean_lines s : clean s -> Forall qline (lines s).
Proof. intros C. unfold lines. destruct (s_act s); apply C. Qed.
Lemma clean_set_lines s ls : clean s -> Forall qline ls -> clean (set_lines s ls).
Proof. intros C H. destruct C as [A B C D F]. destruct (s_act s) eqn:E; constructor; unfold set_lines; rewrite E; sredg; auto. Qed.
Lemma clean_sb s sb : clean s -> Forall qline sb -> clean (set_sb s sb).
Proof. intros [A B C D F] H. constructor; sredg; auto. Qed.
Lemma q_blank s : clean s -> qcell (blank s).
Proof. intros C. apply (cl_def _ C). Qed.

Lemma q_on_cells f l : (forall cs, Forall qcell cs -> gives (Forall qcell) (f cs)) -> qline l -> gives qline (on_cells f l).
Proof. intros F H. unfold on_cells. apply (gives_bind (Forall qcell)); [now apply F|]. intros cs HC. now apply gives_ok. Qed.
Lemma q_upd s y f : clean s -> (forall l, qline l -> gives qline (f l)) -> gives clean (upd_line s y f).
Proof. intros C F. unfold upd_line. apply (gives_bind (Forall qline)); [apply all_zmodm; [now apply clean_lines|exact F]|]. intros ls HL. apply gives_ok. now apply clean_set_lines. Qed.
Lemma q_fill c a b cs : qcell c -> Forall qcell cs -> gives (Forall qcell) (fill c a b cs).
Proof. intros C H. unfold fill. apply gives_forz; [|exact H]. intros i x HX. now apply all_zmod. Qed.
Lemma q_touch s : clean s -> gives clean (touch_cursor s).
Proof. intros C. unfold touch_cursor. apply q_upd; [exact C|]. intros l HL. apply q_on_cells; [|exact HL]. intros cs HC. apply all_zmod; [exact HC|]. intros c H. exact H. Qed.
Lemma q_move s x y : clean s -> gives clean (move_cursor s x y).
Proof.
  intros C. unfold move_cursor. destruct (fl s F_HIDE); [apply gives_ok; revert C; now apply clean_same|]. destruct (_ && _); [now apply gives_ok|].
  apply (gives_bind clean); [now apply q_touch|]. intros s1 C1. apply q_touch. revert C1. now apply clean_same.
Qed.
Lemma q_line_new s w : clean s -> qline (line_new s w).
Proof. intros C. unfold qline, line_new. cbn [l_cells]. apply all_repeat. now apply q_blank. Qed.
Lemma content_sel_drop s l : content (sel_drop s l) = content s.
Proof. unfold sel_drop. destruct (s_sela s); reflexivity. Qed.
Lemma content_sel_map s f : content (sel_map s f) = content s.
Proof. unfold sel_map. destruct (s_sela s); reflexivity. Qed.
Lemma q_evict s : clean s -> gives clean (sb_evict s).
Proof.
  intros C. unfold sb_evict. destruct (s_sb s) as [|t r] eqn:E; [discriminate|]. cbv zeta.
  assert (C1 : clean (set_sbn (set_sb s r) (u32 (s_sbn s - 1)))).
  { apply (clean_same (set_sb s r)); [reflexivity|]. apply clean_sb; [exact C|]. pose proof (cl_sb _ C) as H. rewrite E in H. now inversion H. }
  set (s1 := set_sbn (set_sb s r) (u32 (s_sbn s - 1))) in *. clearbody s1.
  apply (gives_bind clean).
  - destruct (s_sbpos s) as [p|]; [|now apply gives_ok]. destruct (_ || _); [|now apply gives_ok]. apply (gives_bind (fun _ => True)); [apply gives_any|]. intros [q|] _; apply gives_ok; revert C1; now apply clean_same.
  - intros s2 C2. apply gives_ok. apply (clean_same s2); [apply content_sel_drop|exact C2].
Qed.
Lemma q_link s l : clean s -> qline l -> gives clean (link_to_scrollback s l).
Proof.
  intros C H. apply clean_aged in C. unfold link_to_scrollback. cbv zeta. set (t := age_all s) in *. clearbody t. clear s. destruct (s_sbmax t =? 0).
  - apply gives_ok. apply (clean_same t); [apply content_sel_drop|exact C].
  - apply (gives_bind clean); [destruct (_ <=? _); [now apply q_evict|now apply gives_ok]|]. intros s1 C1. apply gives_ok.
    assert (C2 : clean (set_sbn (set_sb (set_sbid s1 (s_sbid s1 + 1)) (s_sb s1 ++ [mkL (l_cells l) (l_age l) (Some (s_sbid s1 + 1))])) (u32 (s_sbn s1 + 1)))).
    { destruct C1 as [A B D F G]. constructor; sredg; auto. apply Forall_app. auto. }
    match goal with |- context [s_sbpos ?x] => set (s2 := x) in *; clearbody s2 end. destruct (s_sbpos s2); [exact C2|]. revert C2. now apply clean_same.
Qed.
Lemma q_line_blank s l : clean s -> qline l -> gives qline (line_blank s l).
Proof. intros C. unfold line_blank. apply q_on_cells. intros cs HC. apply q_fill; [now apply q_blank|exact HC]. Qed.
Definition both (r : screen * list line) : Prop := clean (fst r) /\ Forall qline (snd r).
Lemma q_blank_at s i (cache : list line) : clean s -> Forall qline cache ->
  gives both (do l <- zget (lines s) i; do l' <- line_blank s l; do ls <- zmod (lines s) i (fun _ => l'); Ok (set_lines s ls, cache ++ [l'])).
Proof.
  intros C H. apply (gives_bind qline); [apply all_zget; now apply clean_lines|]. intros l HL. apply (gives_bind qline); [now apply q_line_blank|]. intros l' HL'.
  apply (gives_bind (Forall qline)); [apply all_zmod; [now apply clean_lines|auto]|]. intros ls HS. apply gives_ok. split; cbn [fst snd]; [now apply clean_set_lines|]. apply Forall_app. auto.
Qed.
Lemma q_cache s f n : clean s -> gives both (cache_blank s f n).
Proof. intros C. unfold cache_blank. apply gives_forz; [|split; cbn [fst snd]; auto]. intros i [t c] [H1 H2]. cbn [fst snd] in *. now apply q_blank_at. Qed.
Lemma q_lines_move s d r n : clean s -> gives clean (lines_move s d r n).
Proof. intros C. unfold lines_move. apply (gives_bind (Forall qline)); [apply all_zmove; now apply clean_lines|]. intros ls H. apply gives_ok. now apply clean_set_lines. Qed.
Lemma q_lines_copy s d c : clean s -> Forall qline c -> gives clean (lines_copy s d c).
Proof. intros C V. unfold lines_copy. apply (gives_bind (Forall qline)); [apply all_zcopy; [now apply clean_lines|exact V]|]. intros ls H. apply gives_ok. now apply clean_set_lines. Qed.
Lemma q_up_chunk s m n : clean s -> gives clean (scroll_up_chunk s m n).
Proof.
  intros C. unfold scroll_up_chunk. apply (gives_bind both).
  - apply gives_forz; [|split; cbn [fst snd]; auto]. intros i [t c] [H1 H2]. cbn [fst snd] in *. cbv zeta. destruct (_ && _); [|now apply q_blank_at].
    apply (gives_bind qline); [apply all_zget; now apply clean_lines|]. intros l HL. apply (gives_bind clean); [now apply q_link|]. intros s' C'. apply gives_ok. split; cbn [fst snd]; [exact C'|]. apply Forall_app. split; [exact H2|]. constructor; [|constructor]. now apply q_line_new.
  - intros [s1 c] [H1 H2]. cbn [fst snd] in *. apply (gives_bind clean); [destruct (n <? m); [now apply q_lines_move|now apply gives_ok]|]. intros s2 C2. apply (gives_bind clean); [now apply q_lines_copy|]. intros s3 C3. apply gives_ok. apply (clean_same s3); [apply content_sel_map|exact C3].
Qed.
Lemma q_up_rec fuel : forall s n, clean s -> gives clean (scroll_up_rec fuel s n).
Proof.
  induction fuel as [|f IH]; intros s n C; cbn [scroll_up_rec]; cbv zeta; (destruct (n =? 0); [now apply gives_ok|]); (destruct (128 <? _); [|now apply q_up_chunk, clean_aged]); [discriminate|].
  apply (gives_bind clean); [now apply q_up_chunk, clean_aged|]. intros s1 C1. now apply IH.
Qed.
Lemma q_up s n : clean s -> gives clean (scroll_up s n).
Proof. unfold scroll_up. apply q_up_rec. Qed.
Lemma q_down_chunk s m n : clean s -> gives clean (scroll_down_chunk s m n).
Proof.
  intros C. unfold scroll_down_chunk. apply (gives_bind both); [now apply q_cache|].
  intros [s1 c] [H1 H2]. cbn [fst snd] in *. apply (gives_bind clean); [destruct (n <? m); [now apply q_lines_move|now apply gives_ok]|]. intros s2 C2. apply (gives_bind clean); [now apply q_lines_copy|]. intros s3 C3. apply gives_ok. apply (clean_same s3); [apply content_sel_map|exact C3].
Qed.
Lemma q_down_rec fuel : forall s n, clean s -> gives clean (scroll_down_rec fuel s n).
Proof.
  induction fuel as [|f IH]; intros s n C; cbn [scroll_down_rec]; cbv zeta; (destruct (n =? 0); [now apply gives_ok|]); (destruct (128 <? _); [|now apply q_down_chunk, clean_aged]); [discriminate|].
  apply (gives_bind clean); [now apply q_down_chunk, clean_aged|]. intros s1 C1. now apply IH.
Qed.
Lemma q_down s n : clean s -> gives clean (scroll_down s n).
Proof. unfold scroll_down. apply q_down_rec. Qed.
Lemma q_screen_write s x y ch len a : clean s -> Q (ch, len, a) -> gives clean (screen_write s x y ch len a).
Proof.
  intros C W. unfold screen_write. destruct (len =? 0); [now apply gives_ok|]. destruct (_ || _); [now apply gives_ok|]. apply q_upd; [exact C|]. intros l HL.
  apply (gives_bind qline).
  - destruct (_ && _); [|now apply gives_ok]. apply (gives_bind (Forall qcell)); [now apply all_zmove|]. intros cs HC. now apply gives_ok.
  - intros l1 H1. apply q_on_cells; [|exact H1]. intros cs HC. apply (gives_bind (Forall qcell)); [apply all_zmod; auto|]. intros cs1 HC1. destruct (Z.ltb_spec 1 len) as [L|L]; [|unfold forz; replace (Z.to_nat (Z.min len (s_sx s - x) - 1)) with O by lia; now apply gives_ok]. apply gives_forz; [|exact HC1].
    intros i cs2 HC2. apply all_zmod; [exact HC2|]. intros c H. unfold qcell, look in *. cbn. now apply (Q0 ch len a L W _ (c_width c)).
Qed.
Lemma q_erase s x y x' y' p : clean s -> gives clean (erase_region s x y x' y' p).
Proof.
  intros C. unfold erase_region. cbv zeta. apply gives_forz; [|now apply clean_aged]. intros i t CT. apply q_upd; [exact CT|]. intros l HL. apply q_on_cells; [|exact HL]. intros cs HC.
  unfold erase_cells. apply gives_forz; [|exact HC]. intros j cs1 HC1. apply (gives_bind (fun _ => True)); [apply gives_any|]. intros c _. destruct (_ && _); [now apply gives_ok|]. apply all_zmod; [exact HC1|]. intros _ _. now apply q_blank.
Qed.
Lemma q_grow_y s x y : clean s -> clean (resize_grow_y s x y).
Proof.
  intros C. unfold resize_grow_y. destruct (_ <? y); [|exact C]. cbv zeta. pose proof (all_repeat qline _ (Z.to_nat (y - s_ln s)) (q_line_new s (if s_sx s <? x then x else s_sx s) C)) as R.
  destruct C as [A B D F G]. constructor; sredg; auto; apply Forall_app; auto.
Qed.
Lemma q_line_resize s x l : clean s -> qline l -> qline (line_resize s x l).
Proof. intros C H. unfold line_resize. destruct (_ <? x); [|exact H]. unfold qline, set_cells. cbn [l_cells]. apply Forall_app. split; [exact H|]. apply all_repeat. now apply q_blank. Qed.
Lemma q_grow_x s x : clean s -> gives clean (resize_grow_x s x).
Proof.
  intros C. unfold resize_grow_x. destruct (_ <? x); [|now apply gives_ok]. cbv zeta. pose proof C as [A B D F G].
  apply (gives_bind (Forall qline)); [apply gives_forz; [|exact A]; intros i ls H; apply all_zmod; [exact H|]; intros l HL; now apply q_line_resize|]. intros m HM.
  apply (gives_bind (Forall qline)); [apply gives_forz; [|exact B]; intros i ls H; apply all_zmod; [exact H|]; intros l HL; now apply q_line_resize|]. intros a HA.
  apply gives_ok. constructor; sredg; auto.
Qed.
Lemma q_clear s x : clean s -> gives clean (resize_clear s x).
Proof.
  intros C. unfold resize_clear. cbv zeta. pose proof C as [A B D F G].
  apply (gives_bind (Forall qline)); [apply gives_forz; [|exact A]; intros i ls H; apply all_zmodm; [exact H|]; intros l HL; apply q_on_cells; [|exact HL]; intros cs HC; now apply q_fill|]. intros m HM.
  apply (gives_bind (Forall qline)); [apply gives_forz; [|exact B]; intros i ls H; apply all_zmodm; [exact H|]; intros l HL; apply q_on_cells; [|exact HL]; intros cs HC; apply q_fill; [now apply q_blank|exact HC]|]. intros a HA.
  apply gives_ok. constructor; sredg; auto.
Qed.
Lemma q_resize s x y : clean s -> gives (fun r => clean (fst r)) (scr_resize s x y).
Proof.
  intros C. unfold scr_resize. destruct (_ || _); [now apply gives_ok|]. destruct (_ && _); [now apply gives_ok|]. cbv zeta.
  apply (gives_bind clean); [now apply q_grow_x, q_grow_y|]. intros s2 C2. apply (gives_bind clean); [now apply q_clear, clean_inc|]. intros s4 C4.
  apply (gives_bind (fun _ => True)); [apply gives_any|]. intros tabs _.
  assert (C6 : clean (set_sx (set_tabs (set_mb (set_mt s4 0) (u32 (s_sy s4 - 1))) tabs) x)) by (revert C4; now apply clean_same).
  match type of C6 with clean ?t => set (s6 := t) in *; clearbody s6 end.
  apply (gives_bind clean); [destruct (_ <=? _); [now apply q_move|now apply gives_ok]|]. intros s7 C7.
  apply (gives_bind clean).
  - destruct (_ <? _); [|now apply gives_ok]. apply (gives_bind clean); [now apply q_up|]. intros s8 C8. destruct (_ <? _); now apply q_move.
  - intros s8 C8. assert (C9 : clean (set_mb (set_sy s8 y) (u32 (y - 1)))) by (revert C8; now apply clean_same). match type of C9 with clean ?t => set (s9 := t) in *; clearbody s9 end.
    apply (gives_bind clean); [destruct (_ <=? _); [now apply q_move|now apply gives_ok]|]. intros s10 C10. apply gives_ok. exact C10.
Qed.
Lemma q_trim n : forall s, clean s -> gives clean (sb_trim n s).
Proof.
  induction n as [|n IH]; intros s C; cbn [sb_trim]; [now apply gives_ok|]. apply (gives_bind clean); [|auto].
  unfold sb_trim1. destruct (s_sb s) as [|l r] eqn:E; [discriminate|]. cbv zeta. apply gives_ok. eapply clean_same; [apply content_sel_drop|].
  assert (C1 : clean (set_sbn (set_sb s r) (u32 (s_sbn s - 1)))).
  { apply (clean_same (set_sb s r)); [reflexivity|]. apply clean_sb; [exact C|]. pose proof (cl_sb _ C) as H. rewrite E in H. now inversion H. }
  destruct (match s_sbpos s with Some _ => _ | None => _ end); [|exact C1]. revert C1. now apply clean_same.
Qed.
Lemma q_flags s (b : bool) f : clean s -> (b = true -> gives clean (f s)) -> gives clean (if b then f s else Ok s).
Proof. intros C H. destruct b; [auto|now apply gives_ok]. Qed.
Lemma q_write s ch a n : clean s -> scr_width ch = Ok n -> (n <> 0 -> Q (ch, n, a)) -> gives clean (scr_write s ch a).
Proof.
  intros C E W. unfold scr_write. rewrite E. cbn [bind]. destruct (Z.eqb_spec n 0) as [|N]; [now apply gives_ok|]. specialize (W N). apply clean_inc in C. cbv zeta. set (t := inc_age s) in *. clearbody t. clear s.
  apply (gives_bind clean); [destruct (_ <=? s_cx t); [destruct (fl t F_WRAP); now apply q_move|now apply gives_ok]|]. intros s1 C1.
  apply (gives_bind clean); [destruct (_ <? s_cy s1); [apply (gives_bind clean); [now apply q_move|intros s' C'; now apply q_up]|now apply gives_ok]|]. intros s2 C2.
  apply (gives_bind clean); [now apply q_screen_write|]. intros s3 C3. now apply q_move.
Qed.
Lemma q_cursor_in s : clean s -> clean (cursor_in s).
Proof. now apply clean_same. Qed.
Lemma q_sb_up s n : clean s -> gives clean (scr_sb_up s n).
Proof.
  intros C. unfold scr_sb_up. destruct (n =? 0); [now apply gives_ok|]. apply gives_loop; [|now apply clean_aged, clean_inc]. intros t CT. unfold sb_up1. destruct (s_sbpos t) as [p|].
  - apply (gives_bind (fun _ => True)); [apply gives_any|]. intros [q|] _; apply gives_ok; cbn [fst]; [revert CT; now apply clean_same|exact CT].
  - destruct (sb_lastp (s_sb t)); apply gives_ok; cbn [fst]; [revert CT; now apply clean_same|exact CT].
Qed.
Lemma q_sb_down s n : clean s -> gives clean (scr_sb_down s n).
Proof.
  intros C. unfold scr_sb_down. destruct (n =? 0); [now apply gives_ok|]. apply gives_loop; [|now apply clean_aged, clean_inc]. intros t CT. unfold sb_down1. destruct (s_sbpos t) as [p|]; [|now apply gives_ok].
  apply (gives_bind (fun _ => True)); [apply gives_any|]. intros q _. apply gives_ok. cbn [fst]. revert CT. now apply clean_same.
Qed.
Lemma q_sel s x y (k : selpos -> res screen) : (forall p, gives clean (k p)) -> gives clean (do p <- selection_set s x y; k p).
Proof. intros K. apply (gives_bind (fun _ => True)); [apply gives_any|]. intros p _. apply K. Qed.
Lemma q_move_up s n b : clean s -> gives clean (scr_move_up s n b).
Proof.
  intros C. unfold scr_move_up. destruct (n =? 0); [now apply gives_ok|]. apply clean_inc in C. cbv zeta. set (t := inc_age s) in *. clearbody t. destruct (_ <? n); [|now apply q_move].
  apply (gives_bind clean); [destruct b; [now apply q_down|now apply gives_ok]|]. intros s1 C1. now apply q_move.
Qed.
Lemma q_move_down s n b : clean s -> gives clean (scr_move_down s n b).
Proof.
  intros C. unfold scr_move_down. destruct (n =? 0); [now apply gives_ok|]. apply clean_inc in C. cbv zeta. set (t := inc_age s) in *. clearbody t. destruct (_ <? n); [|now apply q_move].
  apply (gives_bind clean); [destruct b; [now apply q_up|now apply gives_ok]|]. intros s1 C1. now apply q_move.
Qed.
Lemma q_ins_lines s n : clean s -> gives clean (scr_insert_lines s n).
Proof.
  intros C. unfold scr_insert_lines. destruct (n =? 0); [now apply gives_ok|]. destruct (_ || _); [now apply gives_ok|]. apply clean_inc, clean_aged in C. cbv zeta. set (t := age_all (inc_age s)) in *. clearbody t.
  apply (gives_bind both); [now apply q_cache|]. intros [s1 c] [H1 H2]. cbn [fst snd] in *. apply (gives_bind clean).
  - destruct (_ <? _); [|now apply gives_ok]. apply (gives_bind clean); [now apply q_lines_move|]. intros s' C'. now apply q_lines_copy.
  - intros s2 C2. apply gives_ok. revert C2. now apply clean_same.
Qed.
Lemma q_del_lines s n : clean s -> gives clean (scr_delete_lines s n).
Proof.
  intros C. unfold scr_delete_lines. destruct (n =? 0); [now apply gives_ok|]. destruct (_ || _); [now apply gives_ok|]. apply clean_inc, clean_aged in C. cbv zeta. set (t := age_all (inc_age s)) in *. clearbody t.
  apply (gives_bind both); [now apply q_cache|]. intros [s1 c] [H1 H2]. cbn [fst snd] in *. apply (gives_bind clean).
  - destruct (_ <? _); [|now apply gives_ok]. apply (gives_bind clean); [now apply q_lines_move|]. intros s' C'. now apply q_lines_copy.
  - intros s2 C2. apply gives_ok. revert C2. now apply clean_same.
Qed.
Lemma q_ins_chars s n : clean s -> gives clean (scr_insert_chars s n).
Proof.
  intros C. unfold scr_insert_chars. destruct (_ || _); [now apply gives_ok|]. apply clean_inc, clean_aged, q_cursor_in in C. cbv zeta. set (t := cursor_in (age_all (inc_age s))) in *. clearbody t.
  apply q_upd; [exact C|]. intros l HL. apply q_on_cells; [|exact HL]. intros cs HC. apply (gives_bind (Forall qcell)); [destruct (_ =? 0); [now apply gives_ok|now apply all_zmove]|]. intros cs1 HC1. apply q_fill; [now apply q_blank|exact HC1].
Qed.
Lemma q_del_chars s n : clean s -> gives clean (scr_delete_chars s n).
Proof.
  intros C. unfold scr_delete_chars. destruct (_ || _); [now apply gives_ok|]. apply clean_inc, clean_aged, q_cursor_in in C. cbv zeta. set (t := cursor_in (age_all (inc_age s))) in *. clearbody t.
  apply q_upd; [exact C|]. intros l HL. apply q_on_cells; [|exact HL]. intros cs HC. apply (gives_bind (Forall qcell)); [destruct (_ =? 0); [now apply gives_ok|now apply all_zmove]|]. intros cs1 HC1. apply q_fill; [now apply q_blank|exact HC1].
Qed.
Lemma clean_flags s f : clean s -> clean (set_flags (inc_age s) f).
Proof. intros C. apply (clean_same (inc_age s)); [reflexivity|now apply clean_inc]. Qed.
Lemma q_set_flags s f : clean s -> gives clean (scr_set_flags s f).
Proof.
  intros C. unfold scr_set_flags. destruct (f =? 0); [now apply gives_ok|]. cbv zeta. apply (clean_flags s (Z.lor (s_flags (inc_age s)) f)) in C. set (o := s_flags (inc_age s)) in *. clearbody o. set (t := set_flags _ _) in *. clearbody t.
  apply (gives_bind clean).
  - assert (CA : clean (if negb (bit o F_ALT) && bit f F_ALT then set_defm (set_act (age_all t) true) (s_def t) else t)) by (destruct (_ && _); [destruct C as [A B D F G]; constructor; sredg; auto|exact C]).
    destruct (negb (bit o F_HIDE) && _); [now apply q_touch|now apply gives_ok].
  - intros s4 C4. apply gives_ok. destruct (_ && _); [now apply clean_aged|exact C4].
Qed.
Lemma q_reset_flags s f : clean s -> gives clean (scr_reset_flags s f).
Proof.
  intros C. unfold scr_reset_flags. destruct (f =? 0); [now apply gives_ok|]. cbv zeta. apply (clean_flags s (Z.ldiff (s_flags (inc_age s)) f)) in C. set (o := s_flags (inc_age s)) in *. clearbody o. set (t := set_flags _ _) in *. clearbody t.
  apply (gives_bind clean).
  - assert (CA : clean (if bit o F_ALT && bit f F_ALT then set_act (age_all t) false else t)) by (destruct (_ && _); [revert C; now apply clean_same|exact C]).
    destruct (bit o F_HIDE && _); [now apply q_touch|now apply gives_ok].
  - intros s4 C4. apply gives_ok. destruct (_ && _); [now apply clean_aged|exact C4].
Qed.
Lemma q_reset s : clean s -> gives clean (scr_reset s).
Proof.
  intros C. apply clean_inc, clean_aged in C. unfold scr_reset. cbv zeta. set (t := age_all (inc_age s)) in *. clearbody t. apply (gives_bind (fun _ => True)); [apply gives_any|]. intros tabs _. apply gives_ok. revert C. now apply clean_same.
Qed.
Lemma q_max s n : clean s -> gives clean (scr_set_max_sb s n).
Proof.
  intros C. apply clean_inc, clean_aged in C. unfold scr_set_max_sb. cbv zeta. set (t := age_all (inc_age s)) in *. clearbody t. apply (gives_bind clean); [now apply q_trim|]. intros s' C'. apply gives_ok. revert C'. now apply clean_same.
Qed.
Lemma q_clear_sb s : clean s -> clean (scr_clear_sb s).
Proof.
  intros C. apply clean_inc, clean_aged in C. unfold scr_clear_sb. cbv zeta. set (t := age_all (inc_age s)) in *. clearbody t. eapply clean_same; [apply content_sel_map|]. destruct C as [A B D F G]. constructor; sredg; auto.
Qed.
Lemma q_margins s t b : clean s -> clean (scr_set_margins s t b).
Proof. intros C. unfold scr_set_margins. destruct (_ <=? _); [|destruct (_ <? _)]; (revert C; now apply clean_same). Qed.

(* What a call has to bring along. *)
Definition brings (o : op) : Prop :=
  match o with
  | OSetDefAttr a => Q (blank_glyph a)
  | OWrite ch a => forall n, scr_width ch = Ok n -> n <> 0 -> Q (ch, n, a)
  | _ => True
  end.
Lemma q_step s o : clean s -> brings o -> gives clean (step s o).
Proof.
  intros C B. pose proof (clean_inc s C) as CI. pose proof (clean_aged _ CI) as CA.
  destruct o; try (lazymatch goal with |- gives _ (step _ OClearSb) => rewrite step_clear | |- gives _ (step _ OReset) => rewrite step_reset | _ => cbn [step] end);
    try (set (ti := inc_age s) in *; clearbody ti).
  - apply (gives_bind (fun r => clean (fst r))); [now apply q_resize|]. intros r H. now apply gives_ok.
  - apply gives_ok. now apply q_margins.
  - now apply q_max.
  - apply gives_ok. now apply q_clear_sb.
  - now apply q_sb_up.
  - now apply q_sb_down.
  - unfold scr_sb_page_up. destruct (n =? 0); [now apply gives_ok|]. cbv zeta. now apply q_sb_up, clean_inc.
  - unfold scr_sb_page_down. destruct (n =? 0); [now apply gives_ok|]. cbv zeta. now apply q_sb_down, clean_inc.
  - apply gives_ok. unfold scr_sb_reset. destruct (s_sbpos s); [|exact C]. apply (clean_same (age_all (inc_age s))); [reflexivity|now apply clean_aged, clean_inc].
  - apply gives_ok. cbn [brings] in B. destruct C as [A D E F G]. constructor; unfold scr_set_def_attr; sredg; auto.
  - now apply q_reset.
  - now apply q_set_flags.
  - now apply q_reset_flags.
  - unfold scr_tabstop. destruct (_ <=? _); [now apply gives_ok|]. apply (gives_bind (fun _ => True)); [apply gives_any|]. intros t _. apply gives_ok. revert C. now apply clean_same.
  - unfold scr_tabstop. destruct (_ <=? _); [now apply gives_ok|]. apply (gives_bind (fun _ => True)); [apply gives_any|]. intros t _. apply gives_ok. revert C. now apply clean_same.
  - unfold scr_reset_all_tabstops. apply (gives_bind (fun _ => True)); [apply gives_any|]. intros t _. apply gives_ok. revert C. now apply clean_same.
  - cbn [brings] in B. destruct (scr_width ch) as [n|] eqn:E; [|unfold scr_write; rewrite E; discriminate]. apply (q_write s ch a n); auto.
  - unfold scr_newline. apply (gives_bind clean); [now apply q_move_down, clean_inc|]. intros s1 C1. unfold scr_line_home. cbv zeta. now apply q_move, clean_inc.
  - unfold scr_scroll_up. destruct (n =? 0); [now apply gives_ok|]. now apply q_up, clean_inc.
  - unfold scr_scroll_down. destruct (n =? 0); [now apply gives_ok|]. now apply q_down, clean_inc.
  - unfold scr_move_to. cbv zeta. now apply q_move, clean_inc.
  - now apply q_move_up.
  - now apply q_move_down.
  - unfold scr_move_left. destruct (n =? 0); [now apply gives_ok|]. cbv zeta. destruct (_ <? _); now apply q_move, clean_inc.
  - unfold scr_move_right. destruct (n =? 0); [now apply gives_ok|]. cbv zeta. destruct (_ <=? _); now apply q_move, clean_inc.
  - unfold scr_line_end. cbv zeta. now apply q_move, clean_inc.
  - unfold scr_line_home. cbv zeta. now apply q_move, clean_inc.
  - unfold scr_tab_right. destruct (n =? 0); [now apply gives_ok|]. cbv zeta. apply (gives_bind (fun _ => True)); [apply gives_any|]. intros x _. now apply q_move, clean_inc.
  - unfold scr_tab_left. destruct (n =? 0); [now apply gives_ok|]. cbv zeta. apply (gives_bind (fun _ => True)); [apply gives_any|]. intros x _. now apply q_move, clean_inc.
  - now apply q_ins_lines.
  - now apply q_del_lines.
  - now apply q_ins_chars.
  - now apply q_del_chars.
  - unfold scr_erase_cursor. cbv zeta. now apply q_erase, clean_inc.
  - unfold scr_erase_chars. destruct (n =? 0); [now apply gives_ok|]. cbv zeta. now apply q_erase, clean_inc.
  - unfold scr_erase_cursor_to_end. cbv zeta. now apply q_erase, clean_inc.
  - unfold scr_erase_home_to_cursor. cbv zeta. now apply q_erase, clean_inc.
  - unfold scr_erase_current_line. cbv zeta. now apply q_erase, clean_inc.
  - unfold scr_erase_screen_to_cursor. cbv zeta. now apply q_erase, clean_inc.
  - unfold scr_erase_cursor_to_screen. cbv zeta. now apply q_erase, clean_inc.
  - unfold scr_erase_screen. cbv zeta. now apply q_erase, clean_inc.
  - apply gives_ok. unfold scr_sel_reset. apply (clean_same (age_all (inc_age s))); [reflexivity|now apply clean_aged, clean_inc].
  - unfold scr_sel_start. cbv zeta. apply q_sel. intros p. apply gives_ok. apply (clean_same (age_all (inc_age s))); [reflexivity|now apply clean_aged, clean_inc].
  - unfold scr_sel_target. destruct (s_sela s); [|now apply gives_ok]. cbv zeta. apply q_sel. intros p. apply gives_ok. apply (clean_same (age_all (inc_age s))); [reflexivity|now apply clean_aged, clean_inc].
Qed.
Lemma q_run ops : forall s, clean s -> Forall brings ops -> gives clean (run s ops).
Proof.
  induction ops as [|o r IH]; intros s C B; cbn [run]; [now apply gives_ok|]. inversion B; subst. apply (gives_bind clean); [now apply q_step|]. intros s' C'. now apply IH.
Qed.
Lemma q_init : Q (blank_glyph attr0) -> Q (blank_glyph attr_white) -> clean scr_init.
Proof.
  intros A B. assert (C0 : clean screen0) by (constructor; auto; constructor).
  pose proof (q_resize screen0 80 24 C0) as G. destruct (scr_resize screen0 80 24) as [[t z]|] eqn:E; [|exfalso; vm_compute in E; discriminate E].
  specialize (G _ eq_refl). cbn [fst] in G. assert (X : scr_init = t); [|now rewrite X].
  unfold scr_init, scr_new. rewrite E. reflexivity.
Qed.
Lemma clean_stored s g : clean s -> stored s g -> Q g.
Proof.
  intros [A B C _ _] (l & c & L & I & <-). rewrite Forall_forall in A, B, C. assert (H : qline l) by (destruct L as [L|[L|L]]; auto). unfold qline in H. rewrite Forall_forall in H. exact (H c I).
Qed.
End Keeps.
