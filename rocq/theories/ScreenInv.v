(* Simplification of screen states and the structural invariant of screens. *)
From Verif Require Import Base BaseProofs Wcwidth WcwidthProofs Symbol Screen.

Ltac sred := cbn [s_flags set_flags s_def set_def s_defm set_defm s_cnt set_cnt s_rst set_rst s_sx set_sx s_sy set_sy s_mt set_mt s_mb set_mb s_ln set_ln s_main set_main s_alt set_alt s_act set_act s_age set_age s_sbn set_sbn s_sb set_sb s_sbmax set_sbmax s_sbpos set_sbpos s_sbposn set_sbposn s_sbid set_sbid s_cx set_cx s_cy set_cy s_tabs set_tabs s_sela set_sela s_sel1 set_sel1 s_sel2 set_sel2 set_lines age_all] in *.
Ltac sredg := cbn [s_flags set_flags s_def set_def s_defm set_defm s_cnt set_cnt s_rst set_rst s_sx set_sx s_sy set_sy s_mt set_mt s_mb set_mb s_ln set_ln s_main set_main s_alt set_alt s_act set_act s_age set_age s_sbn set_sbn s_sb set_sb s_sbmax set_sbmax s_sbpos set_sbpos s_sbposn set_sbposn s_sbid set_sbid s_cx set_cx s_cy set_cy s_tabs set_tabs s_sela set_sela s_sel1 set_sel1 s_sel2 set_sel2 set_lines age_all].

Lemma lines_set_flags s v : lines (set_flags s v) = lines s. Proof. reflexivity. Qed.
Lemma lines_set_def s v : lines (set_def s v) = lines s. Proof. reflexivity. Qed.
Lemma lines_set_defm s v : lines (set_defm s v) = lines s. Proof. reflexivity. Qed.
Lemma lines_set_cnt s v : lines (set_cnt s v) = lines s. Proof. reflexivity. Qed.
Lemma lines_set_rst s v : lines (set_rst s v) = lines s. Proof. reflexivity. Qed.
Lemma lines_set_sx s v : lines (set_sx s v) = lines s. Proof. reflexivity. Qed.
Lemma lines_set_sy s v : lines (set_sy s v) = lines s. Proof. reflexivity. Qed.
Lemma lines_set_mt s v : lines (set_mt s v) = lines s. Proof. reflexivity. Qed.
Lemma lines_set_mb s v : lines (set_mb s v) = lines s. Proof. reflexivity. Qed.
Lemma lines_set_ln s v : lines (set_ln s v) = lines s. Proof. reflexivity. Qed.
Lemma lines_set_age s v : lines (set_age s v) = lines s. Proof. reflexivity. Qed.
Lemma lines_set_sbn s v : lines (set_sbn s v) = lines s. Proof. reflexivity. Qed.
Lemma lines_set_sb s v : lines (set_sb s v) = lines s. Proof. reflexivity. Qed.
Lemma lines_set_sbmax s v : lines (set_sbmax s v) = lines s. Proof. reflexivity. Qed.
Lemma lines_set_sbpos s v : lines (set_sbpos s v) = lines s. Proof. reflexivity. Qed.
Lemma lines_set_sbposn s v : lines (set_sbposn s v) = lines s. Proof. reflexivity. Qed.
Lemma lines_set_sbid s v : lines (set_sbid s v) = lines s. Proof. reflexivity. Qed.
Lemma lines_set_cx s v : lines (set_cx s v) = lines s. Proof. reflexivity. Qed.
Lemma lines_set_cy s v : lines (set_cy s v) = lines s. Proof. reflexivity. Qed.
Lemma lines_set_tabs s v : lines (set_tabs s v) = lines s. Proof. reflexivity. Qed.
Lemma lines_set_sela s v : lines (set_sela s v) = lines s. Proof. reflexivity. Qed.
Lemma lines_set_sel1 s v : lines (set_sel1 s v) = lines s. Proof. reflexivity. Qed.
Lemma lines_set_sel2 s v : lines (set_sel2 s v) = lines s. Proof. reflexivity. Qed.
Lemma lines_age_all s : lines (age_all s) = lines s. Proof. reflexivity. Qed.
Lemma lines_set_lines s ls : lines (set_lines s ls) = ls.
Proof. unfold lines. sredg. destruct (s_act s); reflexivity. Qed.
Lemma set_lines_twice s a b : set_lines (set_lines s a) b = set_lines s b.
Proof. destruct s; sredg. destruct s_act; reflexivity. Qed.
Lemma set_lines_lines s : set_lines s (lines s) = s.
Proof. unfold lines. destruct s; sredg. destruct s_act; reflexivity. Qed.
Global Hint Rewrite lines_set_flags lines_set_def lines_set_defm lines_set_cnt lines_set_rst lines_set_sx lines_set_sy lines_set_mt lines_set_mb lines_set_ln lines_set_age lines_set_sbn lines_set_sb lines_set_sbmax lines_set_sbpos lines_set_sbposn lines_set_sbid lines_set_cx lines_set_cy lines_set_tabs lines_set_sela lines_set_sel1 lines_set_sel2 lines_age_all lines_set_lines : lns.
Ltac lred := autorewrite with lns in *.
Ltac lredg := autorewrite with lns.

(* Largest width/height considered (the allocator could not satisfy more). *)
Definition DIM : Z := 1073741824.
Definition line_wf (w : Z) (l : line) : Prop := w <= zlen (l_cells l) <= DIM /\ l_sbid l = None.
Definition lines_wf (w n : Z) (ls : list line) : Prop := zlen ls = n /\ Forall (line_wf w) ls.
(* A pointer is NULL or refers to a line now in the scrollback. *)
Definition sb_ptr (sb : list line) (last : Z) (p : option Z) : Prop :=
  match p with None => True | Some k => last - zlen sb < k <= last end.
Definition sb_ids (sb : list line) (last : Z) : Prop :=
  forall i l, znth sb i = Some l -> l_sbid l = Some (last - zlen sb + 1 + i).

(* Everything but the upper bounds on the cursor. *)
Record Inv0 (s : screen) : Prop := mkInv0 {
  i_sx : 0 < s_sx s <= DIM;
  i_sy : 0 < s_sy s <= DIM;
  i_mt : 0 <= s_mt s <= s_mb s;
  i_mb : s_mb s < s_sy s;
  i_cx : 0 <= s_cx s;
  i_cy : 0 <= s_cy s;
  i_ln : s_sy s <= s_ln s <= DIM;
  i_main : lines_wf (s_sx s) (s_ln s) (s_main s);
  i_alt : lines_wf (s_sx s) (s_ln s) (s_alt s);
  i_tabs : s_sx s <= zlen (s_tabs s);
  i_sbn : s_sbn s = zlen (s_sb s);
  i_sbmax : s_sbn s <= s_sbmax s < 4294967296;
  i_sbid : sb_ids (s_sb s) (s_sbid s);
  i_sbpos : sb_ptr (s_sb s) (s_sbid s) (s_sbpos s);
  i_sel1 : s_sela s = true -> sb_ptr (s_sb s) (s_sbid s) (p_line (s_sel1 s));
  i_sel2 : s_sela s = true -> sb_ptr (s_sb s) (s_sbid s) (p_line (s_sel2 s));
  i_act : s_act s = fl s F_ALT;
  i_cnt : 0 < s_cnt s < 18446744073709551616
}.

Definition Inv (s : screen) : Prop :=
  Inv0 s /\ s_cx s <= s_sx s + 1 /\ s_cy s < s_sy s.

Ltac inv0 H := destruct H as [Isx Isy Imt Imb Icx Icy Iln Imain Ialt Itabs Isbn Isbmax Isbid Isbpos Isel1 Isel2 Iact Icnt].

(* -- ageing counter ------------------------------------------------------- *)
Definition next_cnt (s : screen) : Z := if u64 (s_cnt s + 1) =? 0 then 1 else u64 (s_cnt s + 1).
Definition next_rst (s : screen) : bool := if u64 (s_cnt s + 1) =? 0 then true else s_rst s.
Lemma inc_age_eq s : inc_age s = set_cnt (set_rst s (next_rst s)) (next_cnt s).
Proof.
  unfold inc_age, next_cnt, next_rst. destruct (u64 (s_cnt s + 1) =? 0); [reflexivity|].
  destruct s; reflexivity.
Qed.
Lemma next_cnt_range s : 0 < next_cnt s < 18446744073709551616.
Proof. unfold next_cnt, u64. destruct (_ =? 0) eqn:E; lia. Qed.

Lemma lines_inc_age s : lines (inc_age s) = lines s.
Proof. rewrite inc_age_eq. reflexivity. Qed.
Global Hint Rewrite lines_inc_age : lns.

Lemma Inv0_inc s : Inv0 s -> Inv0 (inc_age s).
Proof.
  intros H. inv0 H. rewrite inc_age_eq. constructor; sredg; auto. apply next_cnt_range.
Qed.
Lemma Inv_inc s : Inv s -> Inv (inc_age s).
Proof. intros (H & H1 & H2). split; [now apply Inv0_inc|]. rewrite inc_age_eq. sredg. auto. Qed.
Lemma Inv0_age s a : Inv0 s -> Inv0 (set_age s a).
Proof. intros H. inv0 H. constructor; sredg; auto. Qed.
Lemma Inv0_age_all s : Inv0 s -> Inv0 (age_all s).
Proof. apply Inv0_age. Qed.

Lemma inv_lines s : Inv0 s -> lines_wf (s_sx s) (s_ln s) (lines s).
Proof. intros H. inv0 H. unfold lines. destruct (s_act s); auto. Qed.

Lemma Inv0_set_lines s ls : Inv0 s -> lines_wf (s_sx s) (s_ln s) ls -> Inv0 (set_lines s ls).
Proof.
  intros H Hl. inv0 H. constructor; sredg; auto; destruct (s_act s); auto.
Qed.

Lemma lines_wf_zupd w n ls y f :
  lines_wf w n ls -> (forall l, line_wf w l -> line_wf w (f l)) -> lines_wf w n (zupd ls y f).
Proof.
  intros [H1 H2] Hf. split; [now rewrite length_zupd|].
  apply Forall_zupd; auto. intros x Hx. apply Hf. eapply Forall_get; eauto.
Qed.

Lemma lines_wf_zupd_const w n ls y l' :
  lines_wf w n ls -> line_wf w l' -> lines_wf w n (zupd ls y (fun _ => l')).
Proof. intros H Hl. apply lines_wf_zupd; auto. Qed.

Lemma inv_row s y : Inv0 s -> 0 <= y < s_ln s ->
  exists l, znth (lines s) y = Some l /\ line_wf (s_sx s) l.
Proof.
  intros H Hy. pose proof (inv_lines s H) as [Hl Hf].
  destruct (znth_some (lines s) y) as [l E]; [lia|]. exists l. split; auto. eapply Forall_get; eauto.
Qed.

(* -- cells ------------------------------------------------------------------ *)
Definition filled (c : cell) (a b : Z) (cs : list cell) : list cell :=
  mapi (fun k x => if (a <=? k) && (k <? b) then c else x) cs.
Lemma length_filled c a b cs : length (filled c a b cs) = length cs.
Proof. apply length_mapi. Qed.
Lemma fill_ok c a b cs : 0 <= a -> b <= zlen cs -> fill c a b cs = Ok (filled c a b cs).
Proof. intros. unfold fill. now rewrite (forz_zupd (fun _ _ => c)) by lia. Qed.
Lemma znth_filled c a b cs i :
  znth (filled c a b cs) i = if (a <=? i) && (i <? b) then option_map (fun _ => c) (znth cs i) else znth cs i.
Proof.
  unfold filled. rewrite znth_mapi. destruct (znth cs i); cbn [option_map];
  destruct ((a <=? i) && (i <? b)); reflexivity.
Qed.

(* -- cursor ----------------------------------------------------------------- *)
Definition touch (ls : list line) (y x a : Z) : list line :=
  zupd ls y (fun l => set_cells l (zupd (l_cells l) x (fun c => set_cage c a))).

Lemma touch_wf w n ls y x a : lines_wf w n ls -> lines_wf w n (touch ls y x a).
Proof.
  intros H. apply lines_wf_zupd; auto. intros l [H1 H2]. split; cbn [set_cells l_cells l_sbid]; auto.
  now rewrite length_zupd.
Qed.

Lemma clamp_x_ok s x : Inv0 s -> 0 <= x -> 0 <= clamp_x s x < s_sx s /\ clamp_x s x = Z.min x (s_sx s - 1).
Proof.
  intros H Hx. inv0 H. unfold clamp_x, DIM in *. destruct (s_sx s <=? x) eqn:E; rewrite ?u32_small by lia; lia.
Qed.
Lemma clamp_y_ok s y : Inv0 s -> 0 <= y -> 0 <= clamp_y s y < s_sy s /\ clamp_y s y = Z.min y (s_sy s - 1).
Proof.
  intros H Hy. inv0 H. unfold clamp_y, DIM in *. destruct (s_sy s <=? y) eqn:E; rewrite ?u32_small by lia; lia.
Qed.

Lemma upd_line_ok s y f l l' :
  znth (lines s) y = Some l -> f l = Ok l' ->
  upd_line s y f = Ok (set_lines s (zupd (lines s) y (fun _ => l'))).
Proof. intros H1 H2. unfold upd_line. rewrite (zmodm_ok _ _ _ l l'); auto. Qed.

Definition touched (s : screen) : screen :=
  set_lines s (touch (lines s) (clamp_y s (s_cy s)) (clamp_x s (s_cx s)) (s_cnt s)).

Lemma touch_cursor_ok s : Inv0 s -> touch_cursor s = Ok (touched s).
Proof.
  intros H. unfold touch_cursor, touched.
  destruct (clamp_x_ok s (s_cx s) H ltac:(apply H)) as [Hx _].
  destruct (clamp_y_ok s (s_cy s) H ltac:(apply H)) as [Hy _].
  destruct (inv_row s (clamp_y s (s_cy s)) H) as (l & El & [Wl _]); [destruct H; lia|].
  erewrite upd_line_ok; [|exact El|].
  2:{ unfold on_cells. rewrite zmod_ok by lia. reflexivity. }
  unfold touch. f_equal. f_equal.
  exact (zupd_const (lines s) _ l (fun l => set_cells l (zupd (l_cells l) _ _)) El).
Qed.

Lemma Inv0_touched s : Inv0 s -> Inv0 (touched s).
Proof. intros H. apply Inv0_set_lines; auto. apply touch_wf, inv_lines, H. Qed.

Lemma Inv0_cursor s x y : Inv0 s -> 0 <= x -> 0 <= y -> Inv0 (set_cy (set_cx s x) y).
Proof. intros H Hx Hy. inv0 H. constructor; sredg; auto. Qed.

(* The screen after the cursor moved: only the cursor and the ages of the two
   cursor cells differ. *)
Definition moved (s : screen) (x y : Z) : screen :=
  if fl s F_HIDE then set_cy (set_cx s x) y
  else if (s_cx s =? x) && (s_cy s =? y) then s
  else touched (set_cy (set_cx (touched s) x) y).

Lemma move_cursor_ok s x y : Inv0 s -> 0 <= x -> 0 <= y -> move_cursor s x y = Ok (moved s x y).
Proof.
  intros H Hx Hy. unfold move_cursor, moved. destruct (fl s F_HIDE); [reflexivity|].
  destruct ((s_cx s =? x) && (s_cy s =? y)); [reflexivity|].
  rewrite touch_cursor_ok by auto. cbn [bind]. apply touch_cursor_ok.
  apply Inv0_cursor; auto. now apply Inv0_touched.
Qed.

Lemma Inv0_moved s x y : Inv0 s -> 0 <= x -> 0 <= y -> Inv0 (moved s x y).
Proof.
  intros H Hx Hy. unfold moved. destruct (fl s F_HIDE); [now apply Inv0_cursor|].
  destruct ((s_cx s =? x) && (s_cy s =? y)); [exact H|].
  apply Inv0_touched, Inv0_cursor; auto. now apply Inv0_touched.
Qed.

Lemma moved_cx s x y : s_cx (moved s x y) = x.
Proof.
  unfold moved. destruct (fl s F_HIDE); [reflexivity|].
  destruct ((s_cx s =? x) && (s_cy s =? y)) eqn:E; [lia|reflexivity].
Qed.
Lemma moved_cy s x y : s_cy (moved s x y) = y.
Proof.
  unfold moved. destruct (fl s F_HIDE); [reflexivity|].
  destruct ((s_cx s =? x) && (s_cy s =? y)) eqn:E; [lia|reflexivity].
Qed.

(* Everything the cursor motion leaves alone. *)
Record same_env (s s' : screen) : Prop := mkEnv {
  e_flags : s_flags s' = s_flags s; e_def : s_def s' = s_def s; e_defm : s_defm s' = s_defm s;
  e_cnt : s_cnt s' = s_cnt s; e_rst : s_rst s' = s_rst s;
  e_sx : s_sx s' = s_sx s; e_sy : s_sy s' = s_sy s; e_mt : s_mt s' = s_mt s; e_mb : s_mb s' = s_mb s;
  e_ln : s_ln s' = s_ln s; e_act : s_act s' = s_act s; e_sbn : s_sbn s' = s_sbn s; e_sb : s_sb s' = s_sb s;
  e_sbmax : s_sbmax s' = s_sbmax s; e_sbpos : s_sbpos s' = s_sbpos s; e_sbposn : s_sbposn s' = s_sbposn s;
  e_sbid : s_sbid s' = s_sbid s; e_tabs : s_tabs s' = s_tabs s; e_sela : s_sela s' = s_sela s;
  e_sel1 : s_sel1 s' = s_sel1 s; e_sel2 : s_sel2 s' = s_sel2 s;
  e_other : (if s_act s then s_main s' else s_alt s') = (if s_act s then s_main s else s_alt s)
}.
Lemma same_env_refl s : same_env s s.
Proof. constructor; reflexivity. Qed.
Lemma same_env_trans a b c : same_env a b -> same_env b c -> same_env a c.
Proof.
  intros [] []. constructor; try congruence. rewrite e_act0 in *. congruence.
Qed.
Lemma env_set_lines s ls : same_env s (set_lines s ls).
Proof. constructor; sredg; try reflexivity. destruct (s_act s); reflexivity. Qed.
Lemma env_cursor s x y : same_env s (set_cy (set_cx s x) y).
Proof. constructor; reflexivity. Qed.
Lemma env_touched s : same_env s (touched s).
Proof. apply env_set_lines. Qed.
Lemma env_moved s x y : same_env s (moved s x y).
Proof.
  unfold moved. destruct (fl s F_HIDE); [apply env_cursor|].
  destruct ((s_cx s =? x) && (s_cy s =? y)); [apply same_env_refl|].
  eapply same_env_trans; [apply env_touched|].
  eapply same_env_trans; [apply env_cursor|apply env_touched].
Qed.
Lemma env_age s a : same_env s (set_age s a).
Proof. constructor; reflexivity. Qed.

Lemma fl_env s s' n : same_env s s' -> fl s' n = fl s n.
Proof. intros E. unfold fl. now rewrite (e_flags _ _ E). Qed.
