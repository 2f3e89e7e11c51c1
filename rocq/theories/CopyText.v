(* What a document of lines leaves in the rows, and copying it. *)
From Verif Require Import Base BaseProofs Screen ScreenInv ScreenSb ScreenScroll ScreenSpec ScreenOps ScreenMove ScreenCtl ScreenResize ScreenSafe ScreenHist ScreenRz ScreenThms ScreenAlt.
From Verif Require Import Selection SelectionSpec SelectionProofs SelectionFollow SelectionThms.
From Verif Require Import Utf8Spec VteData Vte VteSpec VteInv VteSafe VteView VteParse Paper PaperProofs Document DocProofs SeenProofs CopySpec CopyHidden CopyProofs.

Definition nthz (l : list Z) (x : Z) : Z := match znth l x with Some c => c | None => 0 end.
Definition rowz (ls : list (list Z)) (y : Z) : list Z := match znth ls y with Some l => l | None => [] end.
Definition chr (g : option glyph) : Z := match g with Some (c, _, _) => c | None => 0 end.

Lemma znth_range {A} (l : list A) i x : znth l i = Some x -> 0 <= i < zlen l.
Proof.
  intros E. unfold znth in E. destruct (Z.ltb_spec i 0); [discriminate|]. assert (H1 : (Z.to_nat i < length l)%nat) by (apply nth_error_Some; congruence). lia.
Qed.
Lemma nthz_nil x : nthz [] x = 0.
Proof. unfold nthz, znth. destruct (x <? 0); [reflexivity|]. destruct (Z.to_nat x); reflexivity. Qed.
Lemma nthz_end l x : zlen l <= x -> nthz l x = 0.
Proof. intros H. unfold nthz. destruct (znth l x) eqn:E; [|reflexivity]. apply znth_range in E. lia. Qed.
Lemma nthz_snoc l c x : 0 <= x -> nthz (l ++ [c]) x = if x =? zlen l then c else nthz l x.
Proof.
  intros H. unfold nthz. rewrite znth_app. destruct (Z.ltb_spec x (zlen l)).
  - now replace (x =? zlen l) with false by lia.
  - rewrite znth_cons by lia. destruct (Z.eqb_spec x (zlen l)) as [->|]; [now rewrite Z.sub_diag|].
    replace (_ =? 0) with false by lia. fold (nthz [] (x - zlen l - 1)). rewrite nthz_nil. fold (nthz l x). rewrite nthz_end by lia. reflexivity.
Qed.
Lemma rowz_snoc R c y : 0 <= y -> rowz (R ++ [c]) y = if y =? zlen R then c else rowz R y.
Proof.
  intros H. unfold rowz. rewrite znth_app. destruct (Z.ltb_spec y (zlen R)).
  - now replace (y =? zlen R) with false by lia.
  - rewrite znth_cons by lia. destruct (Z.eqb_spec y (zlen R)) as [->|]; [now rewrite Z.sub_diag|].
    replace (_ =? 0) with false by lia. destruct (znth [] _) eqn:E; [apply znth_range in E; cbn [length] in E; lia|].
    destruct (znth R y) eqn:F; [apply znth_range in F; lia|reflexivity].
Qed.
Lemma rowz_end R y : zlen R <= y -> rowz R y = [].
Proof. intros H. unfold rowz. destruct (znth R y) eqn:E; [apply znth_range in E; lia|reflexivity]. Qed.

Section Page.
Variables w h : Z.
Hypothesis Hw : 0 < w.
Hypothesis Hh : 0 < h.
Record page (p : paper) (R : list (list Z)) (cur : list Z) : Prop := mkPage {
  pg_r : p_r p = zlen R; pg_c : p_c p = zlen cur; pg_w : zlen cur <= w; pg_top : p_top p = Z.max 0 (zlen R - (h - 1));
  pg_at : forall y x, 0 <= y -> 0 <= x < w -> chr (p_rows p y x) = nthz (rowz (R ++ [cur]) y) x
}.
Lemma zlen_snoc {A} (l : list A) x : zlen (l ++ [x]) = zlen l + 1.
Proof. rewrite app_length. cbn [length]. lia. Qed.
Lemma page_char p R cur ch a : page p R cur -> scr_width ch = Ok 1 ->
  page (typed w h p (IChar ch a)) (if zlen cur <? w then R else R ++ [cur]) (if zlen cur <? w then cur ++ [ch] else [ch]).
Proof.
  intros [Er Ec Ew Et At] W. unfold typed. rewrite W. change (1 <=? 0) with false. cbv iota zeta. rewrite Ec.
  destruct (Z.ltb_spec (zlen cur) w) as [L|L].
  - constructor; cbn [go p_r p_c p_top p_rows]; rewrite ?zlen_snoc; try lia.
    intros y x Hy Hx. unfold put_at. rewrite Er, Ec. rewrite rowz_snoc by lia. pose proof (At y x Hy Hx) as A. rewrite rowz_snoc in A by lia.
    destruct (y =? zlen R); [|exact A]. rewrite nthz_snoc by lia. destruct (x =? zlen cur) eqn:E; [reflexivity|]. replace (_ && _) with false by lia. exact A.
  - constructor; cbn [go p_r p_c p_top p_rows length]; rewrite ?zlen_snoc; try lia.
    intros y x Hy Hx. unfold put_at. rewrite rowz_snoc, zlen_snoc by lia. rewrite Er. pose proof (At y x Hy Hx) as A.
    destruct (Z.eqb_spec y (zlen R + 1)) as [->|]; [|exact A].
    rewrite rowz_end in A by (rewrite zlen_snoc; lia). change [ch] with ([] ++ [ch]). rewrite nthz_snoc by lia. cbn [length]. rewrite nthz_nil in *. change (Z.of_nat 0) with 0.
    destruct (x =? 0) eqn:E; [reflexivity|]. replace (_ && _) with false by lia. exact A.
Qed.
Lemma page_paint p R cur a : page p R cur -> page (typed w h p (IPaint a)) R cur.
Proof.
  intros [Er Ec Ew Et At]. constructor; cbn [typed p_r p_c p_top p_rows]; auto. intros y x Hy Hx. destruct (Z.ltb_spec y (p_top p + h)); [now apply At|].
  rewrite rowz_end by (rewrite zlen_snoc; lia). now rewrite nthz_nil.
Qed.
Lemma page_crlf p R cur (b : bool) : page p R cur -> page (typed w h (typed w h p IReturn) (if b then INewline else ILineFeed)) (R ++ [cur]) [].
Proof.
  intros [Er Ec Ew Et At]. assert (N : forall y x, 0 <= y -> 0 <= x < w -> chr (p_rows p y x) = nthz (rowz ((R ++ [cur]) ++ [[]]) y) x).
  { intros y x Hy Hx. rewrite rowz_snoc, zlen_snoc by lia. rewrite At by lia. destruct (Z.eqb_spec y (zlen R + 1)); [|reflexivity]. rewrite rowz_end by (rewrite zlen_snoc; lia). reflexivity. }
  destruct b; constructor; cbn [typed go p_r p_c p_top p_rows length]; rewrite ?zlen_snoc; auto; lia.
Qed.
Lemma typed_app p a b : typed_all w h p (a ++ b) = typed_all w h (typed_all w h p a) b.
Proof. apply fold_left_app. Qed.

Lemma graphic_item_eq lnm a cp : graphic cp -> char_item lnm a cp = IChar cp a.
Proof.
  intros [G1 G2]. unfold char_item. replace (cp =? 8) with false by lia. replace ((10 <=? cp) && (cp <=? 12)) with false by lia.
  replace (cp =? 13) with false by lia. replace (cp =? 132) with false by lia. now replace (cp =? 133) with false by lia.
Qed.
Section Doc.
Variables (pal : palette) (def : attr) (lnm bce : bool).
Notation doc := (document pal def lnm bce).
Lemma page_line l : Forall line_token l -> forall a p R cur, page p R cur ->
  exists R' cur' a', page (typed_all w h p (doc a l)) R' cur' /\ R' ++ [cur'] = R ++ folded w cur (line_text l) /\ forall r, doc a (l ++ r) = doc a l ++ doc a' r.
Proof.
  induction l as [|t l IH]; intros F a p R cur P.
  - exists R, cur, a. split; [exact P|]. split; [reflexivity|]. reflexivity.
  - inversion F as [|t0 l0 Ft Fl]; subst t0 l0. destruct t as [cp|S].
    + destruct Ft as (G & W & _). cbn [document app]. pose proof (page_char p R cur cp (resolve pal a) P W) as P1. rewrite (graphic_item_eq lnm (resolve pal a) cp G).
      change (line_text (TChar cp :: l)) with (cp :: line_text l). cbn [folded].
      change (typed_all w h p (IChar cp (resolve pal a) :: doc a l)) with (typed_all w h (typed w h p (IChar cp (resolve pal a))) (doc a l)).
      destruct (IH Fl a _ _ _ P1) as (R' & cur' & a' & P2 & E & D). exists R', cur', a'. split; [exact P2|]. split; [|intros r; now rewrite D].
      rewrite E. destruct (zlen cur <? w); [reflexivity|]. now rewrite <- app_assoc.
    + cbn [document app]. cbv zeta. set (b := sgr_list def (sgr_params (args S)) a). change (line_text (TStyle S :: l)) with (line_text l).
      rewrite typed_app. assert (P1 : page (typed_all w h p (if bce then [IPaint (resolve pal b)] else [])) R cur) by (destruct bce; [apply page_paint; exact P|exact P]).
      destruct (IH Fl b _ _ _ P1) as (R' & cur' & a' & P2 & E & D). exists R', cur', a'. split; [exact P2|]. split; [exact E|]. intros r. now rewrite D, app_assoc.
Qed.
Lemma page_sent ls : ls <> [] -> Forall (Forall line_token) ls -> forall a p R, page p R [] ->
  exists R' cur', page (typed_all w h p (doc a (sent ls))) R' cur' /\ R' ++ [cur'] = R ++ rows_of w ls.
Proof.
  induction ls as [|l ls IH]; intros N F a p R P; [congruence|]. inversion F as [|l0 r0 Fl Fr]; subst l0 r0. clear N F.
  destruct (page_line l Fl a p R [] P) as (R' & cur' & a' & P1 & E & D). destruct ls as [|m ls].
  - exists R', cur'. cbn [sent]. split; [exact P1|]. unfold rows_of. cbn [flat_map]. now rewrite app_nil_r.
  - change (sent (l :: m :: ls)) with (l ++ [TChar 13; TChar 10] ++ sent (m :: ls)). rewrite D, typed_app. cbn [app document].
    replace (char_item lnm (resolve pal a') 13) with IReturn by reflexivity. replace (char_item lnm (resolve pal a') 10) with (if lnm then INewline else ILineFeed) by reflexivity.
    match goal with |- context [typed_all w h ?q (?x :: ?y :: ?z)] => change (typed_all w h q (x :: y :: z)) with (typed_all w h (typed w h (typed w h q x) y) z) end.
    destruct (IH ltac:(discriminate) Fr a' _ _ (page_crlf _ _ _ lnm P1)) as (R2 & c2 & P2 & E2). exists R2, c2. split; [exact P2|].
    rewrite E2, E. unfold rows_of. cbn [flat_map]. now rewrite <- app_assoc.
Qed.
End Doc.
End Page.

Lemma padded line : forall L, Forall (fun c => c <> 0) line -> (forall x, 0 <= x -> nthz L x = nthz line x) -> L = line ++ repeat 0 (length L - length line).
Proof.
  induction line as [|c line IH]; intros L F E.
  - cbn [app length]. rewrite Nat.sub_0_r. induction L as [|d L IH]; [reflexivity|]. cbn [length repeat]. f_equal.
    + specialize (E 0 ltac:(lia)). rewrite nthz_nil in E. exact E.
    + apply IH. intros x Hx. specialize (E (x + 1) ltac:(lia)). rewrite nthz_nil in *. unfold nthz in E. rewrite znth_cons in E by lia.
      replace (x + 1 =? 0) with false in E by lia. replace (x + 1 - 1) with x in E by lia. exact E.
  - inversion F as [|c0 l0 Fc Fl]; subst c0 l0. destruct L as [|d L].
    + exfalso. apply Fc. exact (eq_sym (E 0 ltac:(lia))).
    + assert (d = c) by exact (E 0 ltac:(lia)). subst d. cbn [length app Nat.sub]. f_equal. apply IH; [exact Fl|]. intros x Hx. specialize (E (x + 1) ltac:(lia)). unfold nthz in *. rewrite !znth_cons in E by lia.
      replace (x + 1 =? 0) with false in E by lia. replace (x + 1 - 1) with x in E by lia. exact E.
Qed.
Lemma drop_zeros n l : drop_blanks (repeat 0 n ++ l) = drop_blanks l.
Proof. induction n as [|n IH]; [reflexivity|exact IH]. Qed.
Lemma drop_none l : Forall (fun c => c <> 0) l -> drop_blanks l = l.
Proof. intros F. destruct F as [|c l Hc Hl]; [reflexivity|]. cbn [drop_blanks]. now replace (c =? 0) with false by lia. Qed.
Lemma rev_zeros n : rev (repeat 0 n) = repeat 0 n.
Proof.
  apply znth_ext'. intros i. induction n as [|n IH]; [reflexivity|]. cbn [repeat rev]. rewrite znth_app, IH, rev_length, repeat_length, znth_repeat.
  change (0 :: repeat 0 n) with (repeat 0 (S n)). rewrite znth_repeat. destruct (Z.ltb_spec i (Z.of_nat n)).
  - destruct (0 <=? i) eqn:E; cbn [andb]; [|reflexivity]. now replace (i <? _) with true by lia.
  - destruct (Z.eqb_spec i (Z.of_nat n)) as [->|]; [rewrite Z.sub_diag; replace (_ && _) with true by lia; reflexivity|].
    replace ((0 <=? i) && _) with false by lia. destruct (znth [0] _) eqn:E; [apply znth_range in E; cbn [length] in E; lia|reflexivity].
Qed.
Lemma trim_padded line L : Forall (fun c => c <> 0) line -> (forall x, 0 <= x -> nthz L x = nthz line x) -> trim L = line.
Proof.
  intros F E. rewrite (padded line L F E). unfold trim. rewrite rev_app_distr, rev_zeros, drop_zeros, drop_none by now apply Forall_rev. apply rev_involutive.
Qed.

Definition okc (c : Z) : Prop := c <> 0 /\ 0 <= c < 65536 /\ encodable c = true.
Lemma ok_folded w : forall l cur, Forall okc cur -> Forall okc l -> Forall (Forall okc) (folded w cur l).
Proof.
  induction l as [|c l IH]; intros cur Hc Hl; cbn [folded]; [auto|]. inversion Hl as [|c0 l0 H1 H2]; subst c0 l0.
  destruct (_ <? w); [apply IH; [apply Forall_app; auto|exact H2]|]. constructor; [exact Hc|]. apply IH; auto.
Qed.
Lemma ok_line l : Forall line_token l -> Forall okc (line_text l).
Proof.
  induction 1 as [|t l Ht Hl IH]; [constructor|]. unfold line_text. cbn [flat_map]. apply Forall_app. split; [|exact IH]. destruct t as [cp|S]; [|constructor].
  destruct Ht as ([G1 G2] & W & B & E). constructor; [|constructor]. unfold okc. split; [lia|]. split; [lia|exact E].
Qed.
Lemma ok_rows w ls : Forall (Forall line_token) ls -> Forall (Forall okc) (rows_of w ls).
Proof.
  induction 1 as [|l ls Hl Hs IH]; [constructor|]. unfold rows_of. cbn [flat_map]. apply Forall_app. split; [|exact IH]. apply ok_folded; [constructor|now apply ok_line].
Qed.
Lemma folded_width w : 0 < w -> forall l cur, zlen cur <= w -> Forall (fun r => zlen r <= w) (folded w cur l).
Proof.
  intros Hw. induction l as [|c l IH]; intros cur Hc; cbn [folded]; [auto|]. destruct (Z.ltb_spec (zlen cur) w).
  - apply IH. rewrite zlen_snoc. lia.
  - constructor; [exact Hc|]. apply IH. cbn [length]. lia.
Qed.
Lemma rows_width w ls : 0 < w -> Forall (fun r => zlen r <= w) (rows_of w ls).
Proof. intros Hw. induction ls as [|l ls IH]; [constructor|]. unfold rows_of. cbn [flat_map]. apply Forall_app. split; [|exact IH]. apply folded_width; cbn [length]; lia. Qed.
Lemma rowz_all (P : list Z -> Prop) R y : Forall P R -> P [] -> P (rowz R y).
Proof. intros F N. unfold rowz. destruct (znth R y) eqn:E; [|exact N]. apply znth_In in E. rewrite Forall_forall in F. auto. Qed.

(* The rows of a screen that shows a page. *)
Lemma chr_row_at l x : chr (row_at l x) = nthz (map c_ch (l_cells l)) x.
Proof. unfold row_at, nthz. rewrite znth_map. destruct (znth (l_cells l) x); reflexivity. Qed.
Lemma bare_row w l x : bline w l -> w <= x -> nthz (map c_ch (l_cells l)) x = 0.
Proof. intros B H. unfold nthz. rewrite znth_map. destruct (znth (l_cells l) x) eqn:E; [|reflexivity]. exact (B _ _ H E). Qed.
Lemma rows_shown s p R cur r : reachable s -> fl s F_ALT = false -> clear (s_sx s) s -> shows s p -> page (s_sx s) (s_sy s) p R cur ->
  zlen (s_sb s) <= p_top p -> 0 <= r < zlen (s_sb s) + s_sy s ->
  Forall (fun l => zlen l <= s_sx s) (R ++ [cur]) ->
  forall x, 0 <= x -> nthz (row s r) x = nthz (rowz (R ++ [cur]) (p_top p - zlen (s_sb s) + r)) x.
Proof.
  intros Rs A C Sh P N Hr Wd x Hx. pose proof (reachable_Inv s Rs) as (I0 & _). pose proof (pg_top _ _ _ _ _ P) as Et. pose proof (i_sx _ I0) as Sx.
  assert (HL : exists l, bline (s_sx s) l /\ row s r = map c_ch (l_cells l) /\ (x < s_sx s -> chr (row_at l x) = nthz (rowz (R ++ [cur]) (p_top p - zlen (s_sb s) + r)) x)).
  { destruct (Z.ltb_spec r (zlen (s_sb s))) as [L|L].
    - destruct (znth_some (s_sb s) r ltac:(lia)) as [l E]. exists l. rewrite row_sbs by lia. rewrite E. split; [|split; [reflexivity|]].
      { pose proof (cr_sb _ _ C) as F. rewrite Forall_forall in F. apply F. eapply znth_In; eauto. }
      intros X. rewrite <- (pg_at _ _ _ _ _ P) by lia. pose proof (sh_above _ _ Sh (zlen (s_sb s) - r) x) as S. unfold above, sb_text in S. rewrite map_length in S. specialize (S ltac:(lia) ltac:(lia)).
      replace (p_top p - zlen (s_sb s) + r) with (p_top p - (zlen (s_sb s) - r)) by lia. rewrite <- S. replace (_ - (_ - r)) with r by lia. rewrite znth_map, E. cbn [option_map].
      unfold row_text, row_at. rewrite znth_map. reflexivity.
    - destruct (inv_lines s I0) as [LL _]. pose proof (i_ln _ I0). destruct (znth_some (lines s) (r - zlen (s_sb s)) ltac:(lia)) as [l E]. exists l. replace r with (zlen (s_sb s) + (r - zlen (s_sb s))) at 1 by lia. rewrite row_lines by lia. rewrite E. split; [|split; [reflexivity|]].
      { pose proof (clear_lines _ _ C) as F. rewrite Forall_forall in F. apply F. eapply znth_In; eauto. }
      intros X. rewrite <- (pg_at _ _ _ _ _ P) by lia. replace (p_top p - zlen (s_sb s) + r) with (p_top p + (r - zlen (s_sb s))) by lia.
      rewrite <- (sh_at _ _ Sh) by (unfold on_screen; lia). unfold at_, rows_at. now rewrite E. }
  destruct HL as (l & B & -> & At). destruct (Z.ltb_spec x (s_sx s)) as [X|X].
  - rewrite <- chr_row_at. now apply At.
  - rewrite (bare_row (s_sx s)) by assumption. symmetry. apply nthz_end. pose proof (rowz_all (fun l => zlen l <= s_sx s) _ (p_top p - zlen (s_sb s) + r) Wd ltac:(cbn [length]; lia)) as Q. cbn beta in Q. lia.
Qed.
Lemma map_zseq {A} (f : Z -> A) (L : list A) : forall a n, zlen L = n -> (forall i, 0 <= i < n -> znth L i = Some (f (a + i))) -> map f (zseq a n) = L.
Proof.
  induction L as [|x L IH]; intros a n E H.
  - rewrite zseq_nil by (cbn [length] in E; lia). reflexivity.
  - cbn [length] in E. rewrite zseq_step by lia. cbn [map]. f_equal.
    + specialize (H 0 ltac:(lia)). rewrite Z.add_0_r in H. change (Some x = Some (f a)) in H. congruence.
    + apply IH; [lia|]. intros i Hi. specialize (H (i + 1) ltac:(lia)). rewrite znth_cons in H by lia. replace (i + 1 =? 0) with false in H by lia.
      replace (i + 1 - 1) with i in H by lia. rewrite H. do 2 f_equal. lia.
Qed.
Lemma slice_all (l : list Z) n : zlen l <= n -> zslice l 0 n = l.
Proof. intros H. unfold zslice. cbn [Z.to_nat skipn]. apply firstn_all2. lia. Qed.
Lemma bytes_ok l : Forall okc l -> flat_map (char_bytes [0]) l = flat_map utf8 l.
Proof.
  induction 1 as [|c l (H1 & H2 & H3) Hl IH]; [reflexivity|]. cbn [flat_map]. rewrite IH. f_equal. unfold char_bytes. replace (c =? 0) with false by lia. now rewrite H3.
Qed.

Lemma shown_copied s p R cur M n : reachable s -> fl s F_ALT = false -> clear (s_sx s) s -> shows s p -> page (s_sx s) (s_sy s) p R cur ->
  0 <= M -> zlen (s_sb s) = Z.min M (p_top p) -> Forall (Forall okc) (R ++ [cur]) -> Forall (fun l => zlen l <= s_sx s) (R ++ [cur]) ->
  let rows := last_n (M + s_sy s) (R ++ [cur]) in
  4 * s_sx s * (zlen rows + s_sy s) + 1 < 2147483648 -> zlen rows <= n -> u32_arg n ->
  exists s', run s (select_all s n) = Ok s' /\ selection_copy s' = Ok (CText (copy_of (s_sy s) rows)).
Proof.
  intros Rs A C Sh P HM N Okr Wd rows Rm Hn Hu. pose proof (reachable_Inv s Rs) as (I0 & _). pose proof (i_sx _ I0) as Sx. pose proof (i_sy _ I0) as Sy.
  pose proof (pg_top _ _ _ _ _ P) as Et. set (all := R ++ [cur]) in *. assert (K : zlen all = zlen R + 1) by apply zlen_snoc.
  assert (Lr : zlen rows = Z.min (M + s_sy s) (zlen all)) by (unfold rows; apply zlen_last_n; lia).
  set (top := p_top p - zlen (s_sb s)). assert (Tp : top = Z.max 0 (zlen all - (M + s_sy s))) by (unfold top; lia).
  assert (NB : zlen (s_sb s) <= zlen rows) by lia.
  assert (RT : forall r, 0 <= r < zlen (s_sb s) + s_sy s -> (forall x, 0 <= x -> nthz (row s r) x = nthz (rowz all (top + r)) x) /\ trim (row s r) = rowz all (top + r)).
  { intros r Hr. pose proof (rows_shown s p R cur r Rs A C Sh P ltac:(lia) Hr Wd) as E. split; [exact E|]. apply trim_padded; [|exact E].
    apply (rowz_all (fun l => Forall (fun c => c <> 0) l)); [|constructor]. eapply Forall_impl; [|exact Okr]. intros l F. eapply Forall_impl; [|exact F]. intros c (H & _). exact H. }
  destruct (all_copied s n Rs) as (s' & E & Cp).
  - unfold roomy. nia.
  - unfold chars_below. apply Forall_forall. intros l Hl. apply In_znth in Hl. destruct Hl as (r & El). pose proof (znth_range _ _ _ El) as Hr.
    assert (Z1 : zlen (text_rows s) = zlen (s_sb s) + s_sy s).
    { unfold text_rows. rewrite map_length, app_length, firstn_length. destruct (inv_lines s I0) as [LL _]. pose proof (i_ln _ I0). lia. }
    rewrite Z1 in Hr. destruct (RT r Hr) as [T _]. unfold row in T. rewrite El in T. apply Forall_forall. intros c Hc. apply In_znth in Hc. destruct Hc as (x & Ex).
    pose proof (znth_range _ _ _ Ex) as Hx. specialize (T x ltac:(lia)). unfold nthz at 1 in T. rewrite Ex in T. subst c.
    pose proof (rowz_all (Forall okc) all (top + r) Okr ltac:(constructor)) as F. unfold nthz. destruct (znth (rowz all (top + r)) x) eqn:X; [|lia].
    apply znth_In in X. rewrite Forall_forall in F. destruct (F _ X) as (_ & B & _). exact B.
  - lia.
  - exact Hu.
  - exists s'. split; [exact E|]. rewrite Cp. do 2 f_equal. unfold sel_text, copy_of. f_equal. apply map_zseq.
    + rewrite map_length, app_length, repeat_length. lia.
    + intros r Hr. rewrite Z.add_0_l. rewrite znth_map. destruct (RT r ltac:(lia)) as [_ T].
      assert (X : znth (rows ++ repeat [] (Z.to_nat (s_sy s - zlen rows))) r = Some (rowz all (top + r))).
      { rewrite znth_app. destruct (Z.ltb_spec r (zlen rows)) as [L|L].
        - unfold rows, last_n. rewrite znth_skipn by lia. replace (r + Z.of_nat (Z.to_nat (zlen all - (M + s_sy s)))) with (top + r) by lia.
          unfold rowz. destruct (znth_some all (top + r) ltac:(lia)) as [l El]. now rewrite El.
        - rewrite znth_repeat. replace (_ && _) with true by lia. now rewrite rowz_end by lia. }
      rewrite X. cbn [option_map]. f_equal. rewrite <- bytes_ok by (apply (rowz_all (Forall okc)); [exact Okr|constructor]). f_equal.
      unfold sel_part, part, first_col, end_col. rewrite T. replace (if r =? 0 then 0 else 0) with 0 by (destruct (r =? 0); reflexivity).
      replace (if r =? _ then _ else _) with (s_sx s) by (destruct (r =? _); lia). rewrite slice_all; [reflexivity|].
      rewrite Z.sub_0_r. apply (rowz_all (fun l => zlen l <= s_sx s)); [exact Wd|cbn [length]; lia].
Qed.

Lemma text_copied sg v ls bs n : vreachable sg v -> text_mode v -> default_sets v -> typing (v_con v) -> clear_page (v_con v) ->
  ls <> [] -> Forall (Forall line_token) ls -> delivered sg (v_flags v) (sent ls) bs ->
  let s := v_con v in
  let rows := last_n (s_sbmax s + s_sy s) (rows_of (s_sx s) ls) in
  4 * s_sx s * (zlen rows + s_sy s) + 1 < 2147483648 -> zlen rows <= n -> u32_arg n ->
  exists v' s', vte_input sg v bs = Ok v' /\ run (v_con v') (select_all s n) = Ok s' /\ selection_copy s' = Ok (CText (copy_of (s_sy s) rows)).
Proof.
  intros R T D Ty (Sb & Bl & Cx & Cy) N F De s rows Rm Hn Hu. assert (Rs : reachable s) by exact (vi_con _ (vreachable_inv sg v R)).
  pose proof (reachable_Inv s Rs) as (I0 & _). pose proof (i_sx _ I0) as Sx. pose proof (i_sy _ I0) as Sy. pose proof (i_sbmax _ I0) as SM.
  assert (Ac : s_act s = false) by (rewrite (i_act _ I0); apply Ty).
  assert (P0 : page (s_sx s) (s_sy s) (paper_of s) [] []).
  { constructor; cbn [paper_of p_r p_c p_top p_rows length]; try (fold s in Cx, Cy; lia). intros y x Hy Hx. cbn [app]. replace (y <? 0) with false by lia.
    assert (Z0 : nthz (rowz [[]] y) x = 0). { change [[]] with ([] ++ [@nil Z]). rewrite rowz_snoc by lia. destruct (_ =? _); [apply nthz_nil|]. rewrite rowz_end by (cbn [length]; lia). apply nthz_nil. }
    rewrite Z0. destruct (y <? s_sy s); [|reflexivity]. unfold at_, rows_at. destruct (znth (lines s) y) as [l|] eqn:E; [|reflexivity]. unfold row_at.
    destruct (znth (l_cells l) x) as [c|] eqn:Ec; [|reflexivity]. cbn [option_map chr look]. unfold lines in E. rewrite Ac in E. apply znth_In in E, Ec. fold s in Bl.
    rewrite Forall_forall in Bl. specialize (Bl _ E). rewrite Forall_forall in Bl. exact (Bl _ Ec). }
  destruct (page_sent (s_sx s) (s_sy s) (proj1 Sx) (v_pal v) (v_def v) (vfl v VF_LNM) (vfl v VF_BCE) ls N F (v_cattr v) _ _ P0) as (R' & cur' & P & E). cbn [app] in E.
  assert (Tok : Forall token_ok (sent ls)).
  { clear - F N. induction ls as [|l r IH]; [constructor|]. inversion F as [|l0 r0 Fl Fr]; subst l0 r0.
    assert (Tl : Forall token_ok l). { eapply Forall_impl; [|exact Fl]. intros [cp|S]; [intros (G & _); left; exact G|auto]. }
    destruct r as [|m r]; [exact Tl|]. change (sent (l :: m :: r)) with (l ++ [TChar 13; TChar 10] ++ sent (m :: r)). apply Forall_app. split; [exact Tl|].
    apply Forall_app. split; [repeat constructor; right; cbn; tauto|]. apply IH; [discriminate|exact Fr]. }
  destruct (items_next _ _ _ (document (v_pal v) (v_def v) (vfl v VF_LNM) (vfl v VF_BCE) (v_cattr v) (sent ls)) s _ (window_of s Rs Ty)) as (c & Ec & W & L & _).
  destruct (document_run sg (sent ls) v bs c R T D Tok De Ec) as (v' & Ev & _ & _ & _ & Eq).
  pose proof (wi_w _ _ _ _ _ W) as Ww. pose proof (wi_h _ _ _ _ _ W) as Wh.
  assert (C0 : clear (s_sx s) s).
  { constructor; [|fold s in Sb; rewrite Sb; constructor|exact Ac|reflexivity|apply Ty]. eapply Forall_impl; [|exact Bl]. intros l Fl x ch _ Ez. rewrite Forall_forall in Fl. apply Fl. eapply znth_In; eauto. }
  pose proof (b_items _ _ _ C0 _ Ec) as C1.
  set (p := typed_all _ _ _ _) in *. cbn [paper_of p_top] in L.
  exists v'. destruct (shown_copied c p R' cur' (s_sbmax s) n (wi_reach _ _ _ _ _ W)) as (s' & Es & Cp).
  - apply (wi_typing _ _ _ _ _ W).
  - rewrite Ww. exact C1.
  - apply W.
  - rewrite Ww, Wh. exact P.
  - lia.
  - unfold sb_text in L. rewrite !map_length in L. fold s in Sb. rewrite Sb in L. cbn [length] in L. lia.
  - rewrite E. apply ok_rows. exact F.
  - rewrite E, Ww. apply rows_width. lia.
  - rewrite E, Ww, Wh. exact Rm.
  - rewrite E, Wh. exact Hn.
  - exact Hu.
  - exists s'. split; [exact Ev|]. rewrite Eq. split; [|rewrite E, Wh in Cp; exact Cp]. unfold select_all in *. rewrite Ww, Wh in Es. exact Es.
Qed.
Lemma blank_b ls : forallb (fun l => forallb (fun c => c_ch c =? 0) (l_cells l)) ls = true -> Forall (fun l => Forall (fun c => c_ch c = 0) (l_cells l)) ls.
Proof.
  intros B. rewrite forallb_forall in B. apply Forall_forall. intros l Hl. specialize (B _ Hl). rewrite forallb_forall in B. apply Forall_forall. intros c Hc. specialize (B _ Hc). lia.
Qed.
