(* Exact effect of the screen calls other than scrolling and resizing. *)
From Verif Require Import Base BaseProofs Wcwidth WcwidthProofs Symbol Screen ScreenInv ScreenSb ScreenScroll ScreenSpec.

(* -- generic ---------------------------------------------------------------- *)
Lemma forz_ext {S} a b (f g : Z -> S -> res S) s :
  (forall i s, a <= i < b -> f i s = g i s) -> forz a b f s = forz a b g s.
Proof.
  unfold forz. remember (Z.to_nat (b - a)) as n eqn:Hn. revert a s Hn.
  induction n as [|n IH]; intros a s Hn H; [reflexivity|].
  rewrite !for_n_S. rewrite H by lia. destruct (g a s); cbn [bind]; [|reflexivity].
  apply IH; [lia|]. intros; apply H; lia.
Qed.

Lemma scr_width_ok ch : exists w, scr_width ch = Ok w /\ 0 <= w <= 2.
Proof.
  unfold scr_width, symbol_width. destruct (symbol_get symtab_new ch) as [|c r].
  - exists 0. split; [reflexivity|lia].
  - destruct (width_ok c) as (w & E & _ & _ & _ & H). eauto.
Qed.

Lemma rows_at_touch ls y x a j k : rows_at (touch ls y x a) j k = rows_at ls j k.
Proof.
  unfold rows_at, touch. rewrite znth_zupd. destruct (j =? y) eqn:E; [|reflexivity].
  assert (j = y) by lia. subst j. destruct (znth ls y) as [l|]; [|reflexivity]. cbn [option_map].
  unfold row_at. cbn [set_cells l_cells]. rewrite znth_zupd. destruct (k =? x) eqn:Ek; [|reflexivity].
  assert (k = x) by lia. subst k. destruct (znth (l_cells l) x); reflexivity.
Qed.
Lemma at_lines s s' : lines s' = lines s -> forall y x, at_ s' y x = at_ s y x.
Proof. intros H y x. unfold at_. now rewrite H. Qed.
Lemma at_set_lines s ls y x : at_ (set_lines s ls) y x = rows_at ls y x.
Proof. unfold at_. now rewrite lines_set_lines. Qed.
Lemma at_touched s y x : at_ (touched s) y x = at_ s y x.
Proof. unfold touched. rewrite at_set_lines. apply rows_at_touch. Qed.
Lemma at_moved s x y j k : at_ (moved s x y) j k = at_ s j k.
Proof.
  unfold moved. destruct (fl s F_HIDE); [reflexivity|]. destruct (_ && _); [reflexivity|].
  rewrite at_touched. change (at_ (set_cy (set_cx (touched s) x) y) j k) with (at_ (touched s) j k).
  apply at_touched.
Qed.
Lemma at_inc s y x : at_ (inc_age s) y x = at_ s y x.
Proof. apply at_lines, lines_inc_age. Qed.

(* same_text of the active buffer, and nothing else in the other. *)
Lemma same_text_env s s' : same_env s s' -> (forall y x, at_ s' y x = at_ s y x) -> same_text s s'.
Proof.
  intros E H y x. destruct E. specialize (H y x). unfold at_, lines, main_at, alt_at in *. rewrite e_act in H.
  destruct (s_act s).
  - rewrite e_other. auto.
  - rewrite e_other. auto.
Qed.
Lemma same_text_trans a b c : same_text a b -> same_text b c -> same_text a c.
Proof. intros H1 H2 y x. destruct (H1 y x), (H2 y x). split; congruence. Qed.
Lemma same_text_inc s : same_text s (inc_age s).
Proof. intros y x. rewrite inc_age_eq. split; reflexivity. Qed.
Lemma same_text_moved s x y : same_text s (moved s x y).
Proof. apply same_text_env; [apply env_moved|]. intros; apply at_moved. Qed.
Lemma same_text_touched s : same_text s (touched s).
Proof. apply same_text_env; [apply env_touched|]. intros; apply at_touched. Qed.

(* Everything but the ageing counter, cursor, active rows. *)
Record same_frame (s s' : screen) : Prop := mkFr {
  g_flags : s_flags s' = s_flags s; g_def : s_def s' = s_def s; g_defm : s_defm s' = s_defm s;
  g_sx : s_sx s' = s_sx s; g_sy : s_sy s' = s_sy s; g_mt : s_mt s' = s_mt s; g_mb : s_mb s' = s_mb s;
  g_ln : s_ln s' = s_ln s; g_act : s_act s' = s_act s; g_sbn : s_sbn s' = s_sbn s; g_sb : s_sb s' = s_sb s;
  g_sbmax : s_sbmax s' = s_sbmax s; g_sbpos : s_sbpos s' = s_sbpos s; g_sbposn : s_sbposn s' = s_sbposn s;
  g_sbid : s_sbid s' = s_sbid s; g_tabs : s_tabs s' = s_tabs s; g_sela : s_sela s' = s_sela s;
  g_sel1 : s_sel1 s' = s_sel1 s; g_sel2 : s_sel2 s' = s_sel2 s;
  g_other : (if s_act s then s_main s' else s_alt s') = (if s_act s then s_main s else s_alt s)
}.
Lemma frame_refl s : same_frame s s.
Proof. constructor; reflexivity. Qed.
Lemma frame_trans a b c : same_frame a b -> same_frame b c -> same_frame a c.
Proof. intros [] []. constructor; try congruence. rewrite g_act0 in *. congruence. Qed.
Lemma frame_env s s' : same_env s s' -> same_frame s s'.
Proof. intros []. constructor; auto. Qed.
Lemma frame_inc s : same_frame s (inc_age s).
Proof. rewrite inc_age_eq. constructor; reflexivity. Qed.
Lemma frame_fl s s' n : same_frame s s' -> fl s' n = fl s n.
Proof. intros E. unfold fl. now rewrite (g_flags _ _ E). Qed.
Lemma frame_moved s x y : same_frame s (moved (inc_age s) x y).
Proof. eapply frame_trans; [apply frame_inc|apply frame_env, env_moved]. Qed.

(* The loop  for (i = 1; i < n; ++i) cells[x + i] = f(cells[x + i]). *)
Lemma forz_zupd_at {A} x (f : A -> A) n (l : list A) :
  x + n <= zlen l -> 0 <= x -> 
  forz 1 n (fun i l => zmod l (x + i) f) l
  = Ok (mapi (fun k c => if (x + 1 <=? k) && (k <? x + n) then f c else c) l).
Proof.
  intros Hn Hx. destruct (Z_lt_le_dec n 1).
  - rewrite forz_nil by lia. f_equal. symmetry. apply mapi_id. intros i c Hc.
    replace (_ && _) with false by lia. reflexivity.
  - destruct (forz_inv (fun m l' => l' = mapi (fun k c => if (x + 1 <=? k) && (k <? x + m) then f c else c) l)
       1 n (fun i l => zmod l (x + i) f) l) as (l' & E & P); [lia| | |rewrite E, P; reflexivity].
    + symmetry. apply mapi_id. intros i c Hc. replace (_ && _) with false by lia. reflexivity.
    + intros i l' Hi ->. rewrite zmod_ok by (rewrite length_mapi; lia). eexists; split; [reflexivity|].
      apply znth_ext'. intros k. rewrite znth_zupd, !znth_mapi. destruct (znth l k) as [c|]; cbn [option_map].
      2:{ destruct (k =? x + i); reflexivity. }
      destruct (k =? x + i) eqn:Ek; cbn [option_map].
      * replace ((x + 1 <=? k) && (k <? x + i)) with false by lia.
        replace ((x + 1 <=? k) && (k <? x + (i + 1))) with true by lia. reflexivity.
      * replace ((x + 1 <=? k) && (k <? x + (i + 1))) with ((x + 1 <=? k) && (k <? x + i)) by lia. reflexivity.
Qed.

(* -- screen_write ------------------------------------------------------------ *)
Definition wr_shift (s : screen) (x len : Z) : bool := fl s F_INSERT && (x <? s_sx s - len).
Definition wr_cells (s : screen) (x ch len : Z) (a : attr) (cs : list cell) : list cell :=
  let cs0 := if wr_shift s x len then zput cs (x + len) (zslice cs x (s_sx s - len - x)) else cs in
  mapi (fun k c => if k =? x then put_cell s ch len a
                   else if (x <? k) && (k <? x + len) && (k <? s_sx s) then cont_cell s c else c) cs0.
Definition wr_line (s : screen) (x ch len : Z) (a : attr) (l : line) : line :=
  mkL (wr_cells s x ch len a (l_cells l)) (if wr_shift s x len then s_cnt s else l_age l) (l_sbid l).
Definition written (s : screen) (x y ch len : Z) (a : attr) : screen :=
  set_lines s (zupd (lines s) y (wr_line s x ch len a)).

(* The one hazard: a double width symbol in insert mode on a one column screen. *)
Definition write_fits (s : screen) (len : Z) : Prop := fl s F_INSERT = true -> len <= s_sx s.

Lemma length_wr_cells s x ch len a cs : Inv0 s -> 0 <= x < s_sx s -> 1 <= len -> s_sx s <= zlen cs ->
  length (wr_cells s x ch len a cs) = length cs.
Proof.
  intros H Hx Hl Hc. unfold wr_cells. rewrite length_mapi. destruct (wr_shift s x len) eqn:E; [|reflexivity].
  unfold wr_shift in E. pose proof (length_move cs (x + len) x (s_sx s - len - x)) as L. lia.
Qed.

Lemma screen_write_ok s x y ch len a : Inv0 s -> 0 <= x < s_sx s -> 0 <= y < s_sy s -> 1 <= len <= 2 ->
  write_fits s len -> screen_write s x y ch len a = Ok (written s x y ch len a).
Proof.
  intros H Hx Hy Hlen Hfit. pose proof H as H0. inv0 H0. unfold DIM, write_fits in *. unfold screen_write.
  replace (len =? 0) with false by lia. replace ((s_sx s <=? x) || _) with false by lia.
  destruct (inv_row s y H) as (l & El & [Wl _]); [lia|].
  rewrite (upd_line_ok s y _ l (wr_line s x ch len a l) El).
  - unfold written. f_equal. f_equal. exact (zupd_const _ _ _ (wr_line s x ch len a) El).
  - assert (Hcond : (fl s F_INSERT && (u32 x <? u32 (s_sx s - len))) = wr_shift s x len).
    { unfold wr_shift. destruct (fl s F_INSERT); [|reflexivity]. rewrite !u32_small by lia. reflexivity. }
    rewrite Hcond. unfold wr_line, wr_cells. destruct (wr_shift s x len) eqn:Es.
    + assert (x < s_sx s - len) by (unfold wr_shift in Es; lia).
      rewrite (u32_small (x + len)) by lia. rewrite (u32_small (s_sx s - len - x)) by lia.
      rewrite zmove_ok by lia. cbn [bind]. unfold on_cells. cbn [l_cells].
      set (cs0 := zput _ _ _).
      assert (L0 : length cs0 = length (l_cells l)) by (apply length_move; lia).
      rewrite zmod_ok by lia. cbn [bind].
      rewrite (forz_zupd_at x). 2:{ rewrite length_zupd. lia. } 2: lia.
      cbn [bind]. unfold set_cells. cbn [l_age l_sbid]. do 2 f_equal.
      apply znth_ext'. intros k. rewrite !znth_mapi, znth_zupd.
      destruct (znth cs0 k) as [c|]; cbn [option_map]; [|destruct (k =? x); reflexivity].
      destruct (k =? x) eqn:Ek.
      * cbn [option_map]. replace ((x + 1 <=? k) && _) with false by lia. reflexivity.
      * cbn [option_map]. f_equal. replace ((x + 1 <=? k) && (k <? x + Z.min len (s_sx s - x)))
          with ((x <? k) && (k <? x + len) && (k <? s_sx s)) by lia. reflexivity.
    + cbn [bind]. unfold on_cells. rewrite zmod_ok by lia. cbn [bind].
      rewrite (forz_zupd_at x). 2:{ rewrite length_zupd. lia. } 2: lia.
      cbn [bind]. unfold set_cells. cbn [l_age l_sbid]. do 2 f_equal.
      apply znth_ext'. intros k. rewrite !znth_mapi, znth_zupd.
      destruct (znth (l_cells l) k) as [c|]; cbn [option_map]; [|destruct (k =? x); reflexivity].
      destruct (k =? x) eqn:Ek.
      * cbn [option_map]. replace ((x + 1 <=? k) && _) with false by lia. reflexivity.
      * cbn [option_map]. f_equal. replace ((x + 1 <=? k) && (k <? x + Z.min len (s_sx s - x)))
          with ((x <? k) && (k <? x + len) && (k <? s_sx s)) by lia. reflexivity.
Qed.

Lemma wr_line_wf s x ch len a l : Inv0 s -> 0 <= x < s_sx s -> 1 <= len -> line_wf (s_sx s) l ->
  line_wf (s_sx s) (wr_line s x ch len a l).
Proof.
  intros H Hx Hl [W1 W2]. split; cbn [wr_line l_cells l_sbid]; auto. rewrite length_wr_cells; auto. lia.
Qed.
Lemma Inv0_written s x y ch len a : Inv0 s -> 0 <= x < s_sx s -> 1 <= len -> Inv0 (written s x y ch len a).
Proof.
  intros H Hx Hl. apply Inv0_set_lines; auto. apply lines_wf_zupd; [now apply inv_lines|].
  intros l. now apply wr_line_wf.
Qed.

(* tsm_screen_write after the age increment: where the symbol goes. *)
Definition wr_last (s : screen) : Z := if s_cy s <=? s_mb s then s_mb s else s_sy s - 1.
Definition wr_s1 (s : screen) : screen :=
  if s_sx s <=? s_cx s then
    if fl s F_WRAP then moved s 0 (s_cy s + 1) else moved s (s_sx s - 1) (s_cy s)
  else s.
Record wrote (s s' : screen) (ch len : Z) (a : attr) : Prop := mkWrote {
  wr_s2 : exists s2,
    (if wr_last s <? s_cy (wr_s1 s)
     then scrolled_up (moved (wr_s1 s) (s_cx (wr_s1 s)) (wr_last s)) s2 1 else s2 = wr_s1 s) /\
    Inv0 s2 /\ 0 <= s_cx s2 < s_sx s2 /\ 0 <= s_cy s2 < s_sy s2 /\
    s' = moved (written s2 (s_cx s2) (s_cy s2) ch len a) (s_cx s2 + len) (s_cy s2)
}.

Lemma Inv0_wr_s1 s : Inv0 s -> Inv0 (wr_s1 s).
Proof.
  intros H. pose proof H as H0. inv0 H0. unfold wr_s1. destruct (s_sx s <=? s_cx s); auto.
  destruct (fl s F_WRAP); apply Inv0_moved; auto; lia.
Qed.
Lemma env_wr_s1 s : same_env s (wr_s1 s).
Proof.
  unfold wr_s1. destruct (s_sx s <=? s_cx s); [|apply same_env_refl]. destruct (fl s F_WRAP); apply env_moved.
Qed.
Lemma wr_s1_cx s : s_cx (wr_s1 s) = if s_sx s <=? s_cx s then (if fl s F_WRAP then 0 else s_sx s - 1) else s_cx s.
Proof.
  unfold wr_s1. destruct (s_sx s <=? s_cx s); auto. destruct (fl s F_WRAP); apply moved_cx.
Qed.
Lemma wr_s1_cy s : s_cy (wr_s1 s) = if (s_sx s <=? s_cx s) && fl s F_WRAP then s_cy s + 1 else s_cy s.
Proof.
  unfold wr_s1. destruct (s_sx s <=? s_cx s); cbn [andb]; auto. destruct (fl s F_WRAP); apply moved_cy.
Qed.

Lemma scr_write_ok s ch a len : Inv s -> scr_width ch = Ok len -> 0 < len -> write_fits s len ->
  exists s', scr_write s ch a = Ok s' /\ wrote (inc_age s) s' ch len a /\ Inv s'.
Proof.
  intros HI Ew Hpos Hfit. unfold scr_write. rewrite Ew. cbn [bind]. replace (len =? 0) with false by lia.
  assert (Hlen : 1 <= len <= 2).
  { destruct (scr_width_ok ch) as (w & E & Hw). rewrite E in Ew. inversion Ew; subst. lia. }
  pose proof (Inv_inc s HI) as HI1. change (fl s F_INSERT) with (fl s F_INSERT) in Hfit.
  assert (Hfit1 : write_fits (inc_age s) len).
  { unfold write_fits in *. rewrite (frame_fl _ _ _ (frame_inc s)), (g_sx _ _ (frame_inc s)). exact Hfit. }
  clear HI Hfit. set (s0 := inc_age s) in *. clearbody s0. clear s.
  destruct HI1 as (H & Hcx & Hcy). pose proof H as H0. inv0 H0. unfold DIM in *.
  replace (if (s_cy s0 <=? s_mb s0) || (s_sy s0 <=? s_cy s0) then s_mb s0 else u32 (s_sy s0 - 1)) with (wr_last s0).
  2:{ unfold wr_last. rewrite u32_small by lia. replace (s_sy s0 <=? s_cy s0) with false by lia. now rewrite orb_false_r. }
  assert (E1 : (if s_sx s0 <=? s_cx s0
       then if fl s0 F_WRAP then move_cursor s0 0 (u32 (s_cy s0 + 1)) else move_cursor s0 (u32 (s_sx s0 - 1)) (s_cy s0)
       else Ok s0) = Ok (wr_s1 s0)).
  { unfold wr_s1. rewrite !u32_small by lia. destruct (s_sx s0 <=? s_cx s0); auto.
    destruct (fl s0 F_WRAP); apply move_cursor_ok; auto; lia. }
  rewrite E1. cbn [bind]. pose proof (Inv0_wr_s1 s0 H) as HS1. pose proof (env_wr_s1 s0) as ES1.
  pose proof (wr_s1_cx s0) as CX1. pose proof (wr_s1_cy s0) as CY1.
  assert (Hl : 0 <= wr_last s0 < s_sy s0 /\ (s_cy s0 <= wr_last s0)).
  { unfold wr_last. destruct (s_cy s0 <=? s_mb s0) eqn:E; lia. }
  assert (Hx1 : 0 <= s_cx (wr_s1 s0) < s_sx s0).
  { rewrite CX1. destruct (s_sx s0 <=? s_cx s0) eqn:E; [destruct (fl s0 F_WRAP)|]; lia. }
  assert (exists s2, (if wr_last s0 <? s_cy (wr_s1 s0)
              then do s' <- move_cursor (wr_s1 s0) (s_cx (wr_s1 s0)) (wr_last s0); scroll_up s' 1
              else Ok (wr_s1 s0)) = Ok s2 /\
     (if wr_last s0 <? s_cy (wr_s1 s0)
     then scrolled_up (moved (wr_s1 s0) (s_cx (wr_s1 s0)) (wr_last s0)) s2 1 else s2 = wr_s1 s0) /\
    Inv0 s2 /\ 0 <= s_cx s2 < s_sx s2 /\ 0 <= s_cy s2 < s_sy s2 /\ s_flags s2 = s_flags s0 /\ s_sx s2 = s_sx s0)
    as (s2 & E2 & P2 & I2 & X2 & Y2 & F2 & SX2).
  { destruct (wr_last s0 <? s_cy (wr_s1 s0)) eqn:E.
    - rewrite move_cursor_ok by (auto; lia). cbn [bind].
      assert (HM : Inv0 (moved (wr_s1 s0) (s_cx (wr_s1 s0)) (wr_last s0))) by (apply Inv0_moved; auto; lia).
      destruct (scroll_up_ok _ 1 HM ltac:(lia)) as (s2 & E2 & P2).
      rewrite Z.min_l in P2 by (pose proof (i_mt _ HM); lia).
      exists s2. split; [exact E2|]. split; [exact P2|]. split; [apply P2|].
      pose proof (su_env _ _ _ P2) as PE. pose proof (env_moved (wr_s1 s0) (s_cx (wr_s1 s0)) (wr_last s0)) as EM.
      rewrite (f_cx _ _ PE), (f_cy _ _ PE), (f_sx _ _ PE), (f_sy _ _ PE), (f_flags _ _ PE), moved_cx, moved_cy.
      rewrite (e_sx _ _ EM), (e_sy _ _ EM), (e_flags _ _ EM), (e_sx _ _ ES1), (e_sy _ _ ES1), (e_flags _ _ ES1).
      repeat split; lia.
    - exists (wr_s1 s0). split; [reflexivity|]. split; [reflexivity|]. split; [exact HS1|].
      rewrite (e_sx _ _ ES1), (e_sy _ _ ES1), (e_flags _ _ ES1). pose proof (i_cy _ HS1). repeat split; lia. }
  rewrite E2. cbn [bind].
  rewrite screen_write_ok; auto.
  2:{ unfold write_fits, fl in *. rewrite F2, SX2. exact Hfit1. }
  cbn [bind]. pose proof (Inv0_written s2 (s_cx s2) (s_cy s2) ch len a I2 X2 ltac:(lia)) as IW.
  change (s_cx (written s2 (s_cx s2) (s_cy s2) ch len a)) with (s_cx s2).
  change (s_cy (written s2 (s_cx s2) (s_cy s2) ch len a)) with (s_cy s2).
  rewrite u32_small by (pose proof (i_sx _ I2); unfold DIM in *; lia).
  rewrite move_cursor_ok by (auto; lia).
  eexists; split; [reflexivity|]. split.
  - constructor. exists s2. auto.
  - split; [apply Inv0_moved; auto; lia|]. rewrite moved_cx, moved_cy.
    pose proof (env_moved (written s2 (s_cx s2) (s_cy s2) ch len a) (s_cx s2 + len) (s_cy s2)) as EM.
    rewrite (e_sx _ _ EM), (e_sy _ _ EM). change (s_sx (written s2 (s_cx s2) (s_cy s2) ch len a)) with (s_sx s2).
    change (s_sy (written s2 (s_cx s2) (s_cy s2) ch len a)) with (s_sy s2). lia.
Qed.

(* -- erasing ------------------------------------------------------------------ *)
Definition kept (p : bool) (c : cell) : bool := p && a_protect (c_attr c).
Definition erased_cells (s : screen) (p : bool) (a b : Z) (cs : list cell) : list cell :=
  mapi (fun k c => if (a <=? k) && (k <=? b) && negb (kept p c) then blank s else c) cs.
(* Columns erased in row y of the reading-order range (x0,y0)..(x1,y1). *)
Definition er_from (x0 y0 y : Z) : Z := if y =? y0 then x0 else 0.
Definition er_to (s : screen) (x1 y1 y : Z) : Z := if y =? y1 then x1 else s_sx s - 1.
Definition erased_lines (s : screen) (p : bool) (x0 y0 x1 y1 : Z) (ls : list line) : list line :=
  mapi (fun y l => if (y0 <=? y) && (y <=? y1)
                   then set_cells l (erased_cells s p (er_from x0 y0 y) (er_to s x1 y1 y) (l_cells l)) else l) ls.
Definition erased (s : screen) (x0 y0 x1 y1 : Z) (p : bool) : screen :=
  set_lines (age_all s) (erased_lines s p x0 y0 (Z.min x1 (s_sx s - 1)) (Z.min y1 (s_sy s - 1)) (lines s)).

Lemma erase_cells_ok s a b p cs : 0 <= a -> b < zlen cs ->
  erase_cells s a b p cs = Ok (erased_cells s p a b cs).
Proof.
  intros Ha Hb. unfold erase_cells.
  rewrite (forz_ext _ _ _ (fun x cs => zmodm cs x (fun c => Ok (if kept p c then c else blank s)))).
  - rewrite (forz_zmodm _ (fun _ c => if kept p c then c else blank s)) by (auto; lia).
    f_equal. apply mapi_ext. intros k c _. replace (k <? b + 1) with (k <=? b) by lia.
    destruct ((a <=? k) && (k <=? b)); cbn [andb]; [|reflexivity]. destruct (kept p c); reflexivity.
  - intros i cs0 Hi. unfold zmodm, zget. destruct (znth cs0 i) as [c|] eqn:E; [|reflexivity]. cbn [bind].
    unfold kept. destruct (p && a_protect (c_attr c)).
    + f_equal. symmetry. apply znth_ext'. intros j. rewrite znth_zupd. destruct (j =? i) eqn:Ej; [|reflexivity].
      assert (j = i) by lia. subst j. rewrite E. reflexivity.
    + rewrite zmod_ok; [reflexivity|]. eapply znth_Some_range; eauto.
Qed.
Lemma length_erased_cells s p a b cs : length (erased_cells s p a b cs) = length cs.
Proof. apply length_mapi. Qed.

Lemma erase_region_ok s x0 y0 x1 y1 p : Inv0 s -> 0 <= x0 -> 0 <= y0 -> 0 <= x1 -> 0 <= y1 ->
  erase_region s x0 y0 x1 y1 p = Ok (erased s x0 y0 x1 y1 p) /\ Inv0 (erased s x0 y0 x1 y1 p).
Proof.
  intros H Hx0 Hy0 Hx1 Hy1. pose proof H as H0. inv0 H0. unfold DIM in *.
  destruct (clamp_x_ok (age_all s) x1 (Inv0_age_all s H) Hx1) as [Cx Ex].
  destruct (clamp_y_ok (age_all s) y1 (Inv0_age_all s H) Hy1) as [Cy Ey]. sred.
  pose proof (inv_lines s H) as W. pose proof W as [LL LF].
  assert (HE : Inv0 (erased s x0 y0 x1 y1 p)).
  { apply Inv0_set_lines; [now apply Inv0_age_all|]. sredg. split; [unfold erased_lines; now rewrite length_mapi|].
    apply Forall_mapi. intros i l Hl. pose proof (Forall_get _ _ _ _ LF Hl) as [W1 W2].
    destruct (_ && _); split; cbn [set_cells l_cells l_sbid]; auto. now rewrite length_erased_cells. }
  split; [|exact HE]. unfold erase_region. rewrite Ex, Ey. sredg.
  set (x1' := Z.min x1 (s_sx s - 1)) in *. set (y1' := Z.min y1 (s_sy s - 1)) in *.
  set (g := fun y l => set_cells l (erased_cells s p (er_from x0 y0 y) (er_to s x1' y1' y) (l_cells l))).
  assert (HR : forz y0 (y1' + 1) (fun y l => zmodm l y (on_cells (erase_cells s (if y =? y0 then x0 else 0)
         (if y =? y1' then x1' else u32 (s_sx s - 1)) p))) (lines s)
       = Ok (erased_lines s p x0 y0 x1' y1' (lines s))).
  { rewrite (forz_zmodm _ g).
    - unfold erased_lines, g. f_equal. apply mapi_ext. intros y l _. replace (y <? y1' + 1) with (y <=? y1') by lia. reflexivity.
    - lia.
    - lia.
    - intros y l Hy Hl. unfold on_cells. pose proof (Forall_get _ _ _ _ LF Hl) as [W1 _].
      rewrite u32_small by lia. rewrite erase_cells_ok.
      + reflexivity.
      + destruct (y =? y0); lia.
      + destruct (y =? y1'); lia. }
  (* relate the loop over screens to the loop over rows *)
  unfold erased. fold x1' y1'.
  destruct (Z_lt_le_dec y1' y0) as [Hlt|Hle].
  { rewrite forz_nil by lia. f_equal. unfold erased_lines. rewrite mapi_id.
    - change (lines s) with (lines (age_all s)). now rewrite set_lines_lines.
    - intros i l _. replace ((y0 <=? i) && _) with false by lia. reflexivity. }
  assert (HL : forall n a (ls : list line), 0 <= a ->
     for_n n a (fun y s1 => upd_line s1 y (on_cells (erase_cells s1 (if y =? y0 then x0 else 0)
         (if y =? y1' then x1' else u32 (s_sx s1 - 1)) p))) (set_lines (age_all s) ls)
     = (do ls' <- for_n n a (fun y l => zmodm l y (on_cells (erase_cells s (if y =? y0 then x0 else 0)
         (if y =? y1' then x1' else u32 (s_sx s - 1)) p))) ls; Ok (set_lines (age_all s) ls'))).
  { induction n as [|n IH]; intros a ls Ha; [reflexivity|]. rewrite !for_n_S. unfold upd_line at 1.
    rewrite lines_set_lines.
    change (erase_cells (set_lines (age_all s) ls)) with (erase_cells s).
    change (s_sx (set_lines (age_all s) ls)) with (s_sx s).
    destruct (zmodm ls a _) as [ls'|]; cbn [bind]; [|reflexivity].
    rewrite set_lines_twice. apply IH. lia. }
  rewrite <- (set_lines_lines (age_all s)) at 1. unfold forz in *. rewrite HL by lia.
  change (lines (age_all s)) with (lines s). rewrite HR. reflexivity.
Qed.
