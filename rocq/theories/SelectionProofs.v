(* Copying a selection: what is written, and that it fits. *)
From Verif Require Import Base BaseProofs Utf8 Utf8Spec Utf8Proofs Screen ScreenInv ScreenSb ScreenScroll ScreenSpec ScreenOps ScreenMove ScreenCtl ScreenResize ScreenSafe.
From Verif Require Import Selection SelectionSpec.

(* -- characters --------------------------------------------------------------- *)
Lemma enc_bytes ch : 0 <= ch < 2 ^ 32 -> ucs4_to_utf8 ch = char_bytes [0] ch.
Proof.
  intros H. unfold char_bytes. destruct (Z.eqb_spec ch 0) as [->|N]; [reflexivity|].
  destruct (encode_exact ch H) as [A B]. unfold encodable.
  assert (D : scalar ch /\ ~ nonchar ch <->
    (ch <=? 0x10FFFF) && negb ((0xD800 <=? ch) && (ch <=? 0xDFFF)) && negb ((0xFDD0 <=? ch) && (ch <=? 0xFDEF)) && (ch mod 65536 <? 0xFFFE) = true).
  { unfold scalar, nonchar. pose proof (Z.mod_pos_bound ch 65536). lia. }
  destruct (_ && (ch mod 65536 <? 0xFFFE)).
  - apply A. now apply D.
  - apply B. intros K. apply D in K. discriminate.
Qed.
Lemma enc_len ch : zlen (ucs4_to_utf8 ch) <= 4.
Proof.
  unfold ucs4_to_utf8. repeat match goal with |- context [if ?c then _ else _] => destruct c end; cbn; lia.
Qed.
Lemma enc_len3 ch : ch < 65536 -> zlen (ucs4_to_utf8 ch) <= 3.
Proof.
  intros H. unfold ucs4_to_utf8. change (Z.shiftl 1 (4 + 6 + 6)) with 65536.
  destruct (Z.ltb_spec ch 65536) as [K|K]; [|lia].
  repeat match goal with |- context [if ?c then _ else _] => destruct c end; cbn; lia.
Qed.
Lemma flat_len {A} (f : A -> list Z) B l : 0 <= B -> (forall x, In x l -> zlen (f x) <= B) -> zlen (flat_map f l) <= B * zlen l.
Proof.
  intros HB. induction l as [|x l IH]; intros H; cbn [flat_map]; [cbn; lia|].
  rewrite app_length. pose proof (H x (or_introl eq_refl)). assert (zlen (flat_map f l) <= B * zlen l) by (apply IH; intros; apply H; now right).
  cbn [length]. lia.
Qed.

(* -- the length of a line ------------------------------------------------------ *)
Lemma calc_len_snoc c cs : forall i len, calc_len i len (cs ++ [c]) = if c_ch c =? 0 then calc_len i len cs else i + zlen cs + 1.
Proof.
  induction cs as [|d cs IH]; intros i len; cbn [calc_len app].
  - destruct (c_ch c =? 0); cbn; lia.
  - rewrite IH. destruct (c_ch c =? 0); [reflexivity|]. cbn [length]. lia.
Qed.
Lemma trim_snoc x l : trim (l ++ [x]) = if x =? 0 then trim l else l ++ [x].
Proof. unfold trim. rewrite rev_app_distr. cbn [rev app drop_blanks]. destruct (x =? 0); [reflexivity|]. cbn [rev]. now rewrite rev_involutive. Qed.
Lemma trim_firstn l : trim l = firstn (length (trim l)) l.
Proof.
  induction l as [|x l IH] using rev_ind; [reflexivity|]. rewrite trim_snoc. destruct (x =? 0).
  - rewrite firstn_app. assert (L : (length (trim l) <= length l)%nat).
    { rewrite IH, firstn_length. lia. }
    replace (length (trim l) - length l)%nat with O by lia. cbn [firstn]. now rewrite app_nil_r.
  - now rewrite firstn_all.
Qed.
Lemma trim_len l : zlen (trim l) <= zlen l.
Proof. rewrite trim_firstn, firstn_length. lia. Qed.
Lemma calc_line_len_trim l : calc_line_len l = zlen (trim (map c_ch (l_cells l))).
Proof.
  unfold calc_line_len. induction (l_cells l) as [|c cs IH] using rev_ind; [reflexivity|].
  rewrite calc_len_snoc, map_app. cbn [map]. rewrite trim_snoc. destruct (c_ch c =? 0); [exact IH|].
  rewrite app_length, map_length. cbn [length]. lia.
Qed.

(* -- copying a line ------------------------------------------------------------ *)
Lemma zslice_nil {A} (l : list A) i n : n <= 0 -> zslice l i n = [].
Proof. intros H. unfold zslice. replace (Z.to_nat n) with O by lia. reflexivity. Qed.
Lemma zslice_step {A} (l : list A) i n x : 0 <= i -> 0 < n -> znth l i = Some x -> zslice l i n = x :: zslice l (i + 1) (n - 1).
Proof.
  intros Hi Hn E. apply znth_ext'. intros j. destruct (Z.ltb_spec j 0) as [K|K].
  - unfold znth. replace (j <? 0) with true by lia. reflexivity.
  - rewrite znth_zslice by lia. destruct (Z.eqb_spec j 0) as [->|N].
    + replace (0 <? n) with true by lia. rewrite Z.add_0_r. exact E.
    + replace (znth (x :: zslice l (i + 1) (n - 1)) j) with (znth (zslice l (i + 1) (n - 1)) (j - 1)).
      * rewrite znth_zslice by lia. replace (j - 1 <? n - 1) with (j <? n) by lia. replace (i + 1 + (j - 1)) with (i + j) by lia. reflexivity.
      * unfold znth. replace (j <? 0) with false by lia. replace (j - 1 <? 0) with false by lia.
        replace (Z.to_nat j) with (S (Z.to_nat (j - 1))) by lia. reflexivity.
Qed.
Lemma forz_emit {A} (f : A -> list Z) (l : list A) : forall n a b acc, b - a = Z.of_nat n -> 0 <= a -> b <= zlen l ->
  forz a b (fun i acc => do c <- zget l i; Ok (acc ++ f c)) acc = Ok (acc ++ flat_map f (zslice l a (b - a))).
Proof.
  induction n as [|n IH]; intros a b acc Hn Ha Hb.
  - rewrite forz_nil by lia. rewrite zslice_nil by lia. cbn [flat_map]. now rewrite app_nil_r.
  - rewrite forz_step by lia. destruct (znth_some l a) as [x Ex]; [lia|]. unfold zget at 1. rewrite Ex. cbn [bind].
    rewrite IH by lia. rewrite (zslice_step l a (b - a) x) by (auto; lia). cbn [flat_map]. rewrite <- app_assoc.
    replace (b - a - 1) with (b - (a + 1)) by lia. reflexivity.
Qed.
Lemma zslice_map {A B} (f : A -> B) l i n : zslice (map f l) i n = map f (zslice l i n).
Proof. unfold zslice. now rewrite skipn_map, firstn_map. Qed.
Lemma flat_map_map {A B C} (f : A -> B) (g : B -> list C) l : flat_map g (map f l) = flat_map (fun x => g (f x)) l.
Proof. induction l as [|x l IH]; cbn; [reflexivity|]. now rewrite IH. Qed.
Lemma zslice_firstn {A} (l : list A) k i n : 0 <= i -> 0 <= k -> zslice (firstn (Z.to_nat k) l) i n = zslice l i (Z.min n (k - i)).
Proof.
  intros Hi Hk. apply znth_ext'. intros j. destruct (Z.ltb_spec j 0) as [K|K].
  - unfold znth. replace (j <? 0) with true by lia. reflexivity.
  - rewrite !znth_zslice by lia. rewrite znth_firstn.
    destruct (Z.ltb_spec j n), (Z.ltb_spec j (Z.min n (k - i))); try lia; try reflexivity.
    + replace (i + j <? Z.of_nat (Z.to_nat k)) with true by lia. reflexivity.
    + replace (i + j <? Z.of_nat (Z.to_nat k)) with false by lia. reflexivity.
Qed.

(* The bytes copy_line writes. *)
Definition line_bytes (chs : list Z) (start len : Z) : list Z :=
  if zlen (trim chs) <? start then [] else flat_map ucs4_to_utf8 (zslice (trim chs) start len) ++ [10].
Lemma copy_line_ok l start len : 0 <= start -> 0 <= len -> start + len < 4294967296 ->
  copy_line l start len = Ok (line_bytes (map c_ch (l_cells l)) start len).
Proof.
  intros Hs Hl Hw. unfold copy_line, line_bytes. cbv zeta. rewrite calc_line_len_trim. set (chs := map c_ch (l_cells l)).
  assert (L : zlen (trim chs) <= zlen (l_cells l)).
  { etransitivity; [apply trim_len|]. unfold chs. rewrite map_length. lia. }
  destruct (Z.ltb_spec (zlen (trim chs)) start) as [K|K]; [reflexivity|]. rewrite u32_small by lia.
  set (e := if zlen (trim chs) <? start + len then zlen (trim chs) else start + len).
  assert (Ee : Z.min (zlen (l_cells l)) e = Z.min (zlen (trim chs)) (start + len)).
  { unfold e. destruct (Z.ltb_spec (zlen (trim chs)) (start + len)); lia. }
  rewrite Ee. rewrite (forz_emit (fun c => ucs4_to_utf8 (c_ch c)) _ (Z.to_nat (Z.min (zlen (trim chs)) (start + len) - start))) by lia.
  cbn [bind app]. change (ucs4_to_utf8 10) with [10]. do 2 f_equal.
  rewrite <- (flat_map_map c_ch ucs4_to_utf8). rewrite <- zslice_map. fold chs. f_equal.
  rewrite (trim_firstn chs) at 2. rewrite <- (Nat2Z.id (length (trim chs))). rewrite zslice_firstn by lia. f_equal. lia.
Qed.
Lemma firstn_In {A} (x : A) n l : In x (firstn n l) -> In x l.
Proof. intros; rewrite <- (firstn_skipn n l); apply in_or_app; now left. Qed.
Lemma line_bytes_len chs a len B : 0 <= a -> 0 <= len -> 0 <= B -> (forall ch, In ch chs -> zlen (ucs4_to_utf8 ch) <= B) ->
  zlen (line_bytes chs a len) <= B * len + 1.
Proof.
  intros Ha Hl HB H. unfold line_bytes. destruct (_ <? a); [cbn; lia|]. rewrite app_length. cbn [length].
  assert (zlen (flat_map ucs4_to_utf8 (zslice (trim chs) a len)) <= B * zlen (zslice (trim chs) a len)).
  { apply flat_len; [lia|]. intros x Hx. apply H. unfold zslice in Hx. apply firstn_In in Hx. 
    assert (K : forall n (l : list Z), In x (skipn n l) -> In x l) by (intros; rewrite <- (firstn_skipn n l); apply in_or_app; now right).
    apply K in Hx. rewrite trim_firstn in Hx. now apply firstn_In in Hx. }
  assert (zlen (zslice (trim chs) a len) <= len) by (rewrite length_zslice; lia). nia.
Qed.

(* -- the loops ------------------------------------------------------------------ *)
Lemma zseq_nil a n : n <= 0 -> zseq a n = [].
Proof. intros H. unfold zseq. replace (Z.to_nat n) with O by lia. reflexivity. Qed.
Lemma zseq_step a n : 0 < n -> zseq a n = a :: zseq (a + 1) (n - 1).
Proof.
  intros H. unfold zseq. replace (Z.to_nat n) with (S (Z.to_nat (n - 1))) by lia. cbn [seq map]. f_equal; [lia|].
  rewrite <- seq_shift, map_map. apply map_ext. intros i. lia.
Qed.
Lemma zseq_app n a m : 0 <= n -> 0 <= m -> zseq a (n + m) = zseq a n ++ zseq (a + n) m.
Proof.
  intros Hn Hm. rewrite <- (Z2Nat.id n) by lia. clear Hn. revert a. generalize (Z.to_nat n) as k. clear n.
  induction k as [|k IH]; intros a.
  - rewrite (zseq_nil a (Z.of_nat 0)) by lia. cbn [app]. f_equal; lia.
  - rewrite zseq_step by lia. rewrite (zseq_step a (Z.of_nat (S k))) by lia. cbn [app]. f_equal.
    replace (Z.of_nat (S k) + m - 1) with (Z.of_nat k + m) by lia. rewrite IH.
    replace (Z.of_nat (S k) - 1) with (Z.of_nat k) by lia. f_equal. f_equal. lia.
Qed.
Lemma In_zseq a n x : In x (zseq a n) <-> a <= x < a + n.
Proof.
  unfold zseq. rewrite in_map_iff. split.
  - intros (i & <- & I). apply in_seq in I. lia.
  - intros H. exists (Z.to_nat (x - a)). split; [lia|]. apply in_seq. lia.
Qed.

Lemma ptr_is_at s i l k : Inv0 s -> znth (s_sb s) i = Some l -> ptr_is (Some k) l = (k =? first_id s + i).
Proof. intros H E. unfold ptr_is. rewrite (i_sbid _ H _ _ E). unfold first_id. reflexivity. Qed.
Lemma from_line_at s r l k : Inv0 s -> znth (s_sb s) r = Some l -> l_sbid l = Some k ->
  from_line s (Some k) = Ok (skipn (Z.to_nat r) (s_sb s)) /\ k = first_id s + r /\ 0 <= r < zlen (s_sb s).
Proof.
  intros H E K. pose proof (i_sbid _ H _ _ E) as K'. apply znth_Some_range in E as R. unfold first_id.
  assert (k = s_sbid s - zlen (s_sb s) + 1 + r) by congruence.
  unfold from_line. rewrite (sb_from_ids _ (s_sbid s)) by (auto using i_sbid; lia). split; [|lia]. do 3 f_equal. lia.
Qed.
Lemma skipn_cons {A} (l : list A) i x : 0 <= i -> znth l i = Some x -> skipn (Z.to_nat i) l = x :: skipn (Z.to_nat (i + 1)) l.
Proof.
  intros Hi E. unfold znth in E. replace (i <? 0) with false in E by lia.
  replace (Z.to_nat (i + 1)) with (S (Z.to_nat i)) by lia. revert E. generalize (Z.to_nat i) as n. clear.
  induction l as [|y l IH]; intros [|n] E; cbn in *; try discriminate; [congruence|]. now apply IH.
Qed.

Lemma copy_sb_loop_ok s st en F i0 j : 0 <= i0 -> j < zlen (s_sb s) ->
  (forall k l, i0 <= k <= j -> znth (s_sb s) k = Some l ->
     copy_line l (if ptr_is (p_line st) l then p_x st else 0) (sel_len_sb s st en l) = Ok (F k)) ->
  (forall k l, i0 <= k < j -> znth (s_sb s) k = Some l -> ptr_is (p_line en) l = false) ->
  (j = zlen (s_sb s) - 1 \/ forall l, znth (s_sb s) j = Some l -> ptr_is (p_line en) l = true) ->
  forall n i b, Z.of_nat n = j - i -> i0 <= i ->
  copy_sb_loop s st en (skipn (Z.to_nat i) (s_sb s)) b = Ok (b ++ flat_map F (zseq i (j - i + 1))).
Proof.
  intros H0 Hj HF Hno Hend. induction n as [|n IH]; intros i b Hn Hi.
  - assert (i = j) by lia. subst i. destruct (znth_some (s_sb s) j) as [l El]; [lia|].
    rewrite (skipn_cons _ j l) by (auto; lia). cbn [copy_sb_loop]. rewrite (HF j l) by (auto; lia). cbn [bind].
    rewrite zseq_step by lia. rewrite zseq_nil by lia. cbn [flat_map]. rewrite app_nil_r.
    destruct (ptr_is (p_line en) l) eqn:P; [reflexivity|].
    destruct Hend as [->|Hend]; [|rewrite (Hend l El) in P; discriminate].
    rewrite skipn_all2 by lia. reflexivity.
  - destruct (znth_some (s_sb s) i) as [l El]; [lia|].
    rewrite (skipn_cons _ i l) by (auto; lia). cbn [copy_sb_loop]. rewrite (HF i l) by (auto; lia). cbn [bind].
    rewrite (Hno i l) by (auto; lia). rewrite IH by lia. rewrite (zseq_step i) by lia. cbn [flat_map].
    rewrite <- app_assoc. replace (j - i + 1 - 1) with (j - (i + 1) + 1) by lia. reflexivity.
Qed.

Lemma copy_lines_ok s st en F j : 0 <= p_y st -> p_line en = None -> p_y en = j ->
  (forall y, p_y st <= y <= j -> exists l, znth (lines s) y = Some l /\
    copy_line l (match p_line st with None => if y =? p_y st then p_x st else 0 | Some _ => 0 end) (sel_len s st en y) = Ok (F y)) ->
  forall b, copy_lines s st en b = Ok (b ++ flat_map F (zseq (p_y st) (j - p_y st + 1))).
Proof.
  intros H0 He Hj HF. unfold copy_lines. rewrite He, Hj.
  assert (G : forall n i b, Z.of_nat n = j + 1 - i -> p_y st <= i ->
    forz i (j + 1) (fun i b =>
      let x := match p_line st with None => if i =? p_y st then p_x st else 0 | Some _ => 0 end in
      do l <- zget (lines s) i;
      do t <- copy_line l x (sel_len s st en i);
      Ok (b ++ t)) b = Ok (b ++ flat_map F (zseq i (j + 1 - i)))).
  { induction n as [|n IH]; intros i b Hn Hi.
    - rewrite forz_nil by lia. rewrite zseq_nil by lia. cbn [flat_map]. now rewrite app_nil_r.
    - rewrite forz_step by lia. cbv zeta. destruct (HF i) as (l & El & Ec); [lia|]. unfold zget at 1. rewrite El. cbn [bind].
      rewrite Ec. cbn [bind]. cbv zeta in IH. rewrite IH by lia. rewrite (zseq_step i (j + 1 - i)) by lia. cbn [flat_map].
      rewrite <- app_assoc. replace (j + 1 - i - 1) with (j + 1 - (i + 1)) by lia. reflexivity. }
  intros b. destruct (Z.ltb_spec (j + 1) (p_y st)) as [K|K].
  - rewrite forz_nil by lia. rewrite zseq_nil by lia. cbn [flat_map]. now rewrite app_nil_r.
  - rewrite (G (Z.to_nat (j + 1 - p_y st))) by lia. replace (j + 1 - p_y st) with (j - p_y st + 1) by lia. reflexivity.
Qed.

(* -- rows ------------------------------------------------------------------------- *)
Lemma zlen_map {A B} (f : A -> B) l : zlen (map f l) = zlen l.
Proof. now rewrite map_length. Qed.
Lemma znth_map {A B} (f : A -> B) l i : znth (map f l) i = option_map f (znth l i).
Proof. unfold znth. destruct (_ <? 0); [reflexivity|]. revert i. intros i. generalize (Z.to_nat i) as n. induction l as [|x l IH]; intros [|n]; cbn; auto. Qed.
Lemma row_sb s i l : znth (s_sb s) i = Some l -> row s i = map c_ch (l_cells l).
Proof.
  intros E. unfold row, text_rows. rewrite znth_map, znth_app. apply znth_Some_range in E as R.
  replace (i <? zlen (s_sb s)) with true by lia. rewrite E. reflexivity.
Qed.
Lemma row_scr s y l : 0 <= y < s_sy s -> znth (lines s) y = Some l -> row s (zlen (s_sb s) + y) = map c_ch (l_cells l).
Proof.
  intros Hy E. unfold row, text_rows. rewrite znth_map, znth_app.
  replace (_ <? zlen (s_sb s)) with false by lia. replace (_ + y - _) with y by lia.
  rewrite znth_firstn. replace (y <? Z.of_nat (Z.to_nat (s_sy s))) with true by lia. rewrite E. reflexivity.
Qed.

(* The bytes written for row r of the selection from (r1, c1) to (r2, c2). *)
Definition rb (s : screen) (r1 c1 r2 c2 r : Z) : list Z :=
  line_bytes (row s r) (first_col r1 c1 r) (end_col s r2 c2 r - first_col r1 c1 r).

(* An end point in the scrollback, on the screen. *)
Definition in_sb (s : screen) (p : selpos) (r c : Z) : Prop :=
  p_line p = Some (first_id s + r) /\ 0 <= r < zlen (s_sb s) /\ c = p_x p /\ 0 <= c < s_sx s.
Definition in_scr (s : screen) (p : selpos) (r c : Z) : Prop :=
  p_line p = None /\ 0 <= p_y p < s_sy s /\ r = zlen (s_sb s) + p_y p /\ c = p_x p /\ 0 <= c < s_sx s.
Lemma at_place_cases s p r c : Inv0 s -> at_place s p r c <-> in_sb s p r c \/ in_scr s p r c.
Proof.
  intros H. unfold at_place, end_row, in_sb, in_scr. destruct (p_line p) as [k|] eqn:E; split.
  - intros ((l & El & Ek) & A & B). left. destruct (from_line_at s r l k H El Ek) as (_ & -> & R). auto.
  - intros [(A & B & C & D)|(A & _)]; [|discriminate]. split; [|auto]. destruct (znth_some (s_sb s) r) as [l El]; [lia|].
    exists l. split; [exact El|]. rewrite (i_sbid _ H _ _ El). unfold first_id in A. congruence.
  - intros ((A & B) & C & D). right. auto.
  - intros [(A & _)|(A & B & C & D)]; [discriminate|]. tauto.
Qed.
Lemma from_line_sb s p r c : Inv0 s -> in_sb s p r c -> from_line s (p_line p) = Ok (skipn (Z.to_nat r) (s_sb s)).
Proof.
  intros H (A & B & _). rewrite A. destruct (znth_some (s_sb s) r) as [l El]; [lia|].
  apply (from_line_at s r l); auto. rewrite (i_sbid _ H _ _ El). unfold first_id. reflexivity.
Qed.

Lemma copy_sb_part s st en r1 c1 r2 c2 j : Inv0 s -> in_sb s st r1 c1 ->
  (in_sb s en r2 c2 /\ before r1 c1 r2 c2 /\ j = r2 \/
   (p_line en = None \/ exists e, p_line en = Some (first_id s + e) /\ e < r1) /\ zlen (s_sb s) <= r2 /\ j = zlen (s_sb s) - 1) ->
  copy_lines_sb s st en [] = Ok (flat_map (rb s r1 c1 r2 c2) (zseq r1 (j - r1 + 1))).
Proof.
  intros H S E. unfold copy_lines_sb. rewrite (from_line_sb s st r1 c1 H S). cbn [bind].
  destruct S as (S1 & S2 & S3 & S4). pose proof (i_sx _ H) as [Sx Sm]. unfold DIM in Sm.
  assert (Hj : r1 <= j < zlen (s_sb s)).
  { destruct E as [((A & B & C) & D & ->)|(A & B & ->)]; [unfold before in D|]; lia. }
  rewrite (copy_sb_loop_ok s st en (rb s r1 c1 r2 c2) r1 j) with (n := Z.to_nat (j - r1)); try lia.
  - reflexivity.
  - intros k l Hk El. rewrite S1, (ptr_is_at s k l _ H El). unfold rb. rewrite (row_sb s k l El).
    replace (first_id s + r1 =? first_id s + k) with (k =? r1) by lia. rewrite <- S3. fold (first_col r1 c1 k).
    assert (EL : sel_len_sb s st en l = end_col s r2 c2 k - first_col r1 c1 k).
    { unfold sel_len_sb, end_col, first_col. rewrite S1, (ptr_is_at s k l _ H El), <- S3.
      replace (first_id s + r1 =? first_id s + k) with (k =? r1) by lia.
      destruct E as [((A & B & C & D) & F & ->)|(A & B & ->)].
      - rewrite A. cbn [same_line]. rewrite (ptr_is_at s k l _ H El). rewrite <- C. unfold before in F.
        replace (first_id s + r1 =? first_id s + r2) with (r1 =? r2) by lia.
        replace (first_id s + r2 =? first_id s + k) with (k =? r2) by lia.
        destruct (Z.eqb_spec r1 r2); [replace (k =? r1) with true by lia; replace (k =? r2) with true by lia; rewrite u32_small; lia|].
        destruct (Z.eqb_spec k r1); [replace (k =? r2) with false by lia; rewrite u32_small; lia|].
        destruct (k =? r2); [rewrite u32_small; lia|lia].
      - replace (k =? r2) with false by lia. destruct A as [A|(e & A & A')]; rewrite A; cbn [same_line].
        + cbn [ptr_is]. destruct (k =? r1); [rewrite u32_small; lia|lia].
        + rewrite (ptr_is_at s k l _ H El). replace (first_id s + r1 =? first_id s + e) with false by lia.
          replace (first_id s + e =? first_id s + k) with false by lia. destruct (k =? r1); [rewrite u32_small; lia|lia]. }
    rewrite EL. apply copy_line_ok; unfold end_col, first_col.
    + destruct (k =? r1); lia.
    + destruct E as [((A & B & C & D) & F & ->)|(A & B & ->)]; [unfold before in F|]; destruct (Z.eqb_spec k r1), (Z.eqb_spec k r2); lia.
    + destruct E as [((A & B & C & D) & F & ->)|(A & B & ->)]; [unfold before in F|]; destruct (Z.eqb_spec k r1), (Z.eqb_spec k r2); lia.
  - intros k l Hk El. destruct E as [((A & B & C) & D & ->)|([A|(e & A & A')] & B & ->)]; rewrite A; [|reflexivity|];
      rewrite (ptr_is_at s k l _ H El); lia.
  - destruct E as [((A & B & C) & D & ->)|(A & B & ->)]; [right|now left].
    intros l El. rewrite A, (ptr_is_at s r2 l _ H El). lia.
Qed.

Lemma flat_map_shift {B} (G : Z -> list B) k a n : flat_map (fun y => G (k + y)) (zseq a n) = flat_map G (zseq (k + a) n).
Proof.
  unfold zseq. rewrite !flat_map_map. apply flat_map_ext. intros i. f_equal. lia.
Qed.

Lemma copy_scr_part s st en r1 c1 r2 c2 i b : Inv0 s -> in_scr s en r2 c2 ->
  (in_scr s st r1 c1 /\ before r1 c1 r2 c2 /\ i = r1 \/ p_line st <> None /\ p_y st = 0 /\ r1 < zlen (s_sb s) /\ i = zlen (s_sb s)) ->
  copy_lines s st en b = Ok (b ++ flat_map (rb s r1 c1 r2 c2) (zseq i (r2 - i + 1))).
Proof.
  intros H (E1 & E2 & E3 & E4 & E5) S. pose proof (i_sx _ H) as [Sx Sm]. unfold DIM in Sm. pose proof (i_ln _ H). 
  pose proof (inv_lines s H) as [LL _].
  assert (Si : p_y st = i - zlen (s_sb s)) by (destruct S as [((A & B & C & D) & F & G)|(A & B & C & D)]; lia).
  rewrite (copy_lines_ok s st en (fun y => rb s r1 c1 r2 c2 (zlen (s_sb s) + y)) (p_y en)).
  - rewrite (flat_map_shift (rb s r1 c1 r2 c2)). rewrite Si. do 4 f_equal; lia.
  - destruct S as [((A & B & C & D) & F & G)|(A & B & C & D)]; lia.
  - exact E1.
  - reflexivity.
  - intros y Hy. destruct (znth_some (lines s) y) as [l El].
    { rewrite LL. destruct S as [((A & B & C & D) & F & G)|(A & B & C & D)]; lia. }
    exists l. split; [exact El|].
    assert (Y : 0 <= y < s_sy s) by (destruct S as [((A & B & C & D) & F & G)|(A & B & C & D)]; lia).
    unfold rb. rewrite (row_scr s y l Y El). set (k := zlen (s_sb s) + y).
    assert (EX : match p_line st with None => if y =? p_y st then p_x st else 0 | Some _ => 0 end = first_col r1 c1 k).
    { unfold first_col, k. destruct S as [((A & B & C & D & _) & F & G)|(A & B & C & D)].
      - rewrite A. replace (_ =? r1) with (y =? p_y st) by lia. now rewrite D.
      - destruct (p_line st); [|congruence]. replace (_ =? r1) with false by lia. reflexivity. }
    assert (EL : sel_len s st en y = end_col s r2 c2 k - first_col r1 c1 k).
    { unfold sel_len, end_col, first_col, k. rewrite <- E4. replace (_ =? r2) with (y =? p_y en) by lia.
      destruct S as [((A & B & C & D & D') & F & G)|(A & B & C & D)].
      - rewrite A, <- D. replace (_ =? r1) with (y =? p_y st) by lia. unfold before in F.
        destruct (Z.eqb_spec (p_y st) (p_y en)).
        + replace (y =? p_y st) with true by lia. replace (y =? p_y en) with true by lia. rewrite u32_small; lia.
        + destruct (Z.eqb_spec y (p_y st)); [replace (y =? p_y en) with false by lia; rewrite u32_small; lia|].
          destruct (y =? p_y en); [rewrite u32_small; lia|lia].
      - destruct (p_line st); [|congruence]. replace (_ =? r1) with false by lia.
        destruct (y =? p_y en); [rewrite u32_small; lia|lia]. }
    rewrite EX, EL. apply copy_line_ok; unfold end_col, first_col, k.
    + destruct S as [((A & B & C & D & D') & F & G)|(A & B & C & D)]; destruct (_ =? r1) eqn:K; lia.
    + destruct S as [((A & B & C & D & D') & F & G)|(A & B & C & D)]; [unfold before in F|];
        destruct (Z.eqb_spec (zlen (s_sb s) + y) r1), (Z.eqb_spec (zlen (s_sb s) + y) r2); lia.
    + destruct S as [((A & B & C & D & D') & F & G)|(A & B & C & D)]; [unfold before in F|];
        destruct (Z.eqb_spec (zlen (s_sb s) + y) r1), (Z.eqb_spec (zlen (s_sb s) + y) r2); lia.
Qed.

(* -- everything together, for end points in order ----------------------------------- *)
Lemma copy_buffer_ok s n : Inv0 s -> roomy s -> 0 <= n <= zlen (s_sb s) + s_sy s -> copy_buffer s n = 4 * s_sx s * n + 1 /\ 0 < copy_buffer s n.
Proof.
  intros H R Hn. unfold copy_buffer, roomy in *. pose proof (i_sx _ H).
  assert (0 <= s_sx s * n <= s_sx s * (zlen (s_sb s) + s_sy s)) by nia.
  rewrite u32_small by lia. rewrite i32_small by lia. lia.
Qed.
Lemma roomy_n s : Inv0 s -> roomy s -> zlen (s_sb s) + s_sy s < 536870912.
Proof. intros H R. pose proof (i_sx _ H). unfold roomy in R. nia. Qed.
Lemma int_ok_small z : -2147483648 <= z < 2147483648 -> int_ok z = Ok z.
Proof. intros H. unfold int_ok. replace (_ && _) with true by lia. reflexivity. Qed.

Definition in_order (s : screen) (st en : selpos) (r1 c1 r2 c2 : Z) : Prop :=
  before r1 c1 r2 c2 /\
  (in_sb s st r1 c1 /\ in_sb s en r2 c2 \/
   in_sb s st r1 c1 /\ p_y st = 0 /\ in_scr s en r2 c2 \/
   in_scr s st r1 c1 /\ in_scr s en r2 c2).
Definition outcome (s : screen) (b : list Z) (n : Z) : res copied :=
  if zlen b <=? 4 * s_sx s * n + 1 then Ok (CText (removelast b)) else Ub.
Lemma copy_from_ordered s st en r1 c1 r2 c2 : Inv0 s -> roomy s -> in_order s st en r1 c1 r2 c2 ->
  exists n, r2 - r1 + 1 <= n /\ copy_from s st en = outcome s (flat_map (rb s r1 c1 r2 c2) (zseq r1 (r2 - r1 + 1))) n.
Proof.
  intros H R (B & C). pose proof (roomy_n s H R) as RN. pose proof (i_sx _ H) as [Sx _]. pose proof (i_sy _ H) as [Sy _].
  assert (Hr : r1 <= r2) by (unfold before in B; lia).
  destruct C as [(S & E)|[(S & Y & E)|(S & E)]].
  - pose proof S as S'. pose proof E as E'. destruct S' as (S1 & S2 & S3 & S4), E' as (E1 & E2 & E3 & E4).
    exists (if r1 =? r2 then 1 else zlen (s_sb s) - r1). split; [destruct (Z.eqb_spec r1 r2); lia|].
    unfold copy_from, count_lines_sb, count_lines. rewrite S1, E1. cbn [same_line bind].
    replace (first_id s + r1 =? first_id s + r2) with (r1 =? r2) by lia.
    set (n := if r1 =? r2 then 1 else zlen (s_sb s) - r1).
    assert (Hn : (if r1 =? r2 then Ok 1 else do ls <- from_line s (Some (first_id s + r1)); int_ok (zlen ls)) = Ok n).
    { unfold n. destruct (r1 =? r2); [reflexivity|]. rewrite <- S1, (from_line_sb s st r1 c1 H S). cbn [bind].
      rewrite skipn_length. replace (Z.of_nat _) with (zlen (s_sb s) - r1) by lia. apply int_ok_small. lia. }
    rewrite Hn. cbn [bind].
    assert (1 <= n <= zlen (s_sb s)) by (unfold n; destruct (Z.eqb_spec r1 r2); lia).
    rewrite int_ok_small by lia. cbn [bind]. rewrite Z.add_0_r.
    destruct (copy_buffer_ok s n H R) as [Q1 Q2]; [lia|]. replace (_ <? 0) with false by lia.
    rewrite (copy_sb_part s st en r1 c1 r2 c2 r2 H S) by auto. cbn [bind]. unfold copy_lines. rewrite E1. cbn [bind].
    rewrite Q1. reflexivity.
  - pose proof S as S'. pose proof E as E'. destruct S' as (S1 & S2 & S3 & S4), E' as (E1 & E2 & E3 & E4 & E5).
    exists (r2 - r1 + 1). split; [lia|].
    unfold copy_from, count_lines_sb, count_lines. rewrite S1, E1. cbn [same_line]. rewrite <- S1, (from_line_sb s st r1 c1 H S). cbn [bind].
    rewrite skipn_length. replace (Z.of_nat (length (s_sb s) - Z.to_nat r1)) with (zlen (s_sb s) - r1) by lia.
    rewrite (int_ok_small (_ - r1)) by lia. cbn [bind]. rewrite (int_ok_small (_ - _)) by lia. cbn [bind]. rewrite (int_ok_small (_ - _ + 1)) by lia. cbn [bind].
    rewrite int_ok_small by lia. cbn [bind]. replace (zlen (s_sb s) - r1 + _) with (r2 - r1 + 1) by lia.
    destruct (copy_buffer_ok s (r2 - r1 + 1) H R) as [Q1 Q2]; [lia|]. replace (_ <? 0) with false by lia.
    rewrite (copy_sb_part s st en r1 c1 r2 c2 (zlen (s_sb s) - 1) H S) by (right; repeat match goal with |- _ /\ _ => split end; auto; lia). cbn [bind].
    rewrite (copy_scr_part s st en r1 c1 r2 c2 (zlen (s_sb s))); auto.
    2:{ right. repeat match goal with |- _ /\ _ => split end; auto; try lia. rewrite S1; discriminate. }
    cbn [bind]. rewrite Q1. unfold outcome. rewrite <- flat_map_app.
    replace (zseq r1 (r2 - r1 + 1)) with (zseq r1 (zlen (s_sb s) - 1 - r1 + 1) ++ zseq (zlen (s_sb s)) (r2 - zlen (s_sb s) + 1)).
    { reflexivity. }
    replace (r2 - r1 + 1) with (zlen (s_sb s) - 1 - r1 + 1 + (r2 - zlen (s_sb s) + 1)) by lia. rewrite (zseq_app (zlen (s_sb s) - 1 - r1 + 1)) by lia.
    replace (r1 + (zlen (s_sb s) - 1 - r1 + 1)) with (zlen (s_sb s)) by lia. reflexivity.
  - pose proof S as S'. pose proof E as E'. destruct S' as (S1 & S2 & S3 & S4 & S5), E' as (E1 & E2 & E3 & E4 & E5).
    exists (r2 - r1 + 1). split; [lia|].
    unfold copy_from, count_lines_sb, count_lines. rewrite S1. cbn [same_line bind].
    rewrite (int_ok_small (_ - _)) by lia. cbn [bind]. rewrite (int_ok_small (_ - _ + 1)) by lia. cbn [bind].
    rewrite int_ok_small by lia. cbn [bind]. replace (0 + _) with (r2 - r1 + 1) by lia.
    destruct (copy_buffer_ok s (r2 - r1 + 1) H R) as [Q1 Q2]; [lia|]. replace (_ <? 0) with false by lia.
    unfold copy_lines_sb. rewrite S1. cbn [from_line bind copy_sb_loop].
    rewrite (copy_scr_part s st en r1 c1 r2 c2 r1) by auto. cbn [bind app]. rewrite Q1. reflexivity.
Qed.

(* -- it fits --------------------------------------------------------------------------- *)
Lemma row_char s r lim : chars_below lim s -> forall ch, In ch (row s r) -> 0 <= ch < lim.
Proof.
  intros H ch. unfold row. destruct (znth (text_rows s) r) eqn:E; [|intros []]. intros I.
  eapply Forall_get in H; eauto. rewrite Forall_forall in H. auto.
Qed.
Definition cell_bytes (s : screen) (B : Z) : Prop := forall r ch, In ch (row s r) -> zlen (ucs4_to_utf8 ch) <= B.
Lemma cell_bytes4 s : cell_bytes s 4.
Proof. intros r ch _. apply enc_len. Qed.
Lemma cell_bytes3 s : chars_below 65536 s -> cell_bytes s 3.
Proof. intros H r ch I. apply enc_len3. apply (row_char s r 65536 H) in I. lia. Qed.

Lemma rb_len s r1 c1 r2 c2 r B : 0 <= B -> 0 <= c1 < s_sx s -> 0 <= c2 < s_sx s -> before r1 c1 r2 c2 -> cell_bytes s B ->
  zlen (rb s r1 c1 r2 c2 r) <= B * s_sx s + 1.
Proof.
  intros HB H1 H2 Hb Hc. unfold rb.
  assert (0 <= end_col s r2 c2 r - first_col r1 c1 r <= s_sx s /\ 0 <= first_col r1 c1 r).
  { unfold end_col, first_col, before in *. destruct (Z.eqb_spec r r1), (Z.eqb_spec r r2); lia. }
  pose proof (line_bytes_len (row s r) (first_col r1 c1 r) (end_col s r2 c2 r - first_col r1 c1 r) B). 
  assert (zlen (line_bytes (row s r) (first_col r1 c1 r) (end_col s r2 c2 r - first_col r1 c1 r)) <= B * (end_col s r2 c2 r - first_col r1 c1 r) + 1); [|nia].
  apply H0; try lia. intros; eapply Hc; eauto.
Qed.
Lemma fits3 s r1 c1 r2 c2 m n : 0 < s_sx s -> 0 <= c1 < s_sx s -> 0 <= c2 < s_sx s -> before r1 c1 r2 c2 ->
  chars_below 65536 s -> 0 <= m <= n ->
  outcome s (flat_map (rb s r1 c1 r2 c2) (zseq r1 m)) n = Ok (CText (removelast (flat_map (rb s r1 c1 r2 c2) (zseq r1 m)))).
Proof.
  intros Sx H1 H2 Hb Hc Hn. unfold outcome. replace (_ <=? _) with true; [reflexivity|]. symmetry. apply Z.leb_le.
  pose proof (flat_len (rb s r1 c1 r2 c2) (3 * s_sx s + 1) (zseq r1 m)) as F.
  assert (L : zlen (zseq r1 m) = m) by (unfold zseq; rewrite map_length, seq_length; lia). rewrite L in F.
  assert (zlen (flat_map (rb s r1 c1 r2 c2) (zseq r1 m)) <= (3 * s_sx s + 1) * m); [|nia].
  apply F; [lia|]. intros x _. apply rb_len; auto using cell_bytes3. lia.
Qed.
Lemma fits s r1 c1 r2 c2 n : 0 < s_sx s -> 0 <= c1 < s_sx s -> 0 <= c2 < s_sx s -> before r1 c1 r2 c2 ->
  chars_below 65536 s \/ r1 = r2 -> r2 - r1 + 1 <= n ->
  outcome s (flat_map (rb s r1 c1 r2 c2) (zseq r1 (r2 - r1 + 1))) n = Ok (CText (removelast (flat_map (rb s r1 c1 r2 c2) (zseq r1 (r2 - r1 + 1))))).
Proof.
  intros Sx H1 H2 Hb [Hc| ->] Hn.
  - apply fits3; auto. unfold before in Hb; lia.
  - unfold outcome. replace (_ <=? _) with true; [reflexivity|]. symmetry. apply Z.leb_le.
    replace (r2 - r2 + 1) with 1 in * by lia. rewrite zseq_step by lia. rewrite zseq_nil by lia. cbn [flat_map]. rewrite app_nil_r.
    pose proof (rb_len s r2 c1 r2 c2 r2 4). assert (zlen (rb s r2 c1 r2 c2 r2) <= 4 * s_sx s + 1) by (apply H; auto using cell_bytes4; lia). nia.
Qed.

(* -- putting the end points in order ------------------------------------------------------ *)
Lemma fold_no p q L : (forall l, In l L -> ptr_is (p_line p) l = false) ->
  fold_left (fun ab l => if ptr_is (p_line (fst ab)) l then (snd ab, fst ab) else ab) L (p, q) = (p, q).
Proof.
  induction L as [|l L IH]; intros H; cbn [fold_left fst snd]; [reflexivity|].
  rewrite (H l) by now left. apply IH. intros; apply H; now right.
Qed.
Lemma fold_swap p q A l B : ptr_is (p_line p) l = true -> (forall x, In x A -> ptr_is (p_line p) x = false) ->
  (forall x, In x B -> ptr_is (p_line q) x = false) ->
  fold_left (fun ab l => if ptr_is (p_line (fst ab)) l then (snd ab, fst ab) else ab) (A ++ l :: B) (p, q) = (q, p).
Proof.
  intros Hl HA HB. rewrite fold_left_app, fold_no by auto. cbn [fold_left fst snd]. rewrite Hl. now apply fold_no.
Qed.
Lemma In_zslice {A} (x : A) l i n : 0 <= i -> In x (zslice l i n) -> exists j, i <= j < i + n /\ znth l j = Some x.
Proof.
  intros Hi I. apply In_nth_error in I as [m Em].
  assert (E : znth (zslice l i n) (Z.of_nat m) = Some x) by (rewrite znth_of_nat; exact Em).
  rewrite znth_zslice in E by lia. destruct (Z.ltb_spec (Z.of_nat m) n) as [K|K]; [|discriminate]. exists (i + Z.of_nat m). split; [lia|exact E].
Qed.
Lemma removelast_skipn {A} (l : list A) r : 0 <= r -> removelast (skipn (Z.to_nat r) l) = zslice l r (zlen l - 1 - r).
Proof.
  intros Hr. rewrite removelast_firstn_len. unfold zslice. rewrite skipn_length. f_equal. lia.
Qed.
Lemma norm_sb s p q r c r' c' : Inv0 s -> in_sb s p r c -> in_sb s q r' c' -> r <> r' ->
  norm_selection s p q = Ok (if (r' <? r) && (r <? zlen (s_sb s) - 1) then (q, p) else (p, q)).
Proof.
  intros H P Q N. pose proof P as P'. pose proof Q as Q'. destruct P' as (P1 & P2 & P3), Q' as (Q1 & Q2 & Q3).
  unfold norm_selection, is_top. rewrite P1, Q1. cbn [same_line]. replace (_ =? _) with false by lia.
  rewrite <- Q1, (from_line_sb s q r' c' H Q). cbn [bind]. f_equal. rewrite removelast_skipn by lia.
  destruct ((r' <? r) && (r <? zlen (s_sb s) - 1)) eqn:K.
  - destruct (znth_some (s_sb s) r) as [l El]; [lia|].
    replace (zslice (s_sb s) r' (zlen (s_sb s) - 1 - r')) with
      (zslice (s_sb s) r' (r - r') ++ l :: zslice (s_sb s) (r + 1) (zlen (s_sb s) - 1 - (r + 1))).
    + apply fold_swap.
      * rewrite P1, (ptr_is_at s r l _ H El). lia.
      * intros x I. apply In_zslice in I as (j & J & Ej); [|lia]. rewrite P1, (ptr_is_at s j x _ H Ej). lia.
      * intros x I. apply In_zslice in I as (j & J & Ej); [|lia]. rewrite Q1, (ptr_is_at s j x _ H Ej). lia.
    + replace (zlen (s_sb s) - 1 - (r + 1)) with ((zlen (s_sb s) - 1 - r) - 1) by lia. rewrite <- zslice_step by (auto; lia).
      apply znth_ext'. intros j. destruct (Z.ltb_spec j 0) as [J|J]; [unfold znth; replace (j <? 0) with true by lia; reflexivity|].
      assert (L : zlen (zslice (s_sb s) r' (r - r')) = r - r') by (rewrite length_zslice; lia).
      rewrite znth_app, L, (znth_zslice (s_sb s) r') by lia. rewrite (znth_zslice (s_sb s) r') by lia.
      destruct (Z.ltb_spec j (r - r')); [replace (j <? _) with true by lia; reflexivity|].
      rewrite znth_zslice by lia. replace (r + (j - (r - r'))) with (r' + j) by lia.
      replace (j - (r - r') <? zlen (s_sb s) - 1 - r) with (j <? zlen (s_sb s) - 1 - r') by lia. reflexivity.
  - apply fold_no. intros x I. apply In_zslice in I as (j & J & Ej); [|lia]. rewrite P1, (ptr_is_at s j x _ H Ej). lia.
Qed.
Lemma before_total r c r' c' : before r c r' c' \/ before r' c' r c.
Proof. unfold before. lia. Qed.
(* The end points after norm_selection and the treatment of "top". *)
Definition prepared (s : screen) (p q : selpos) : res (selpos * selpos) :=
  do se <- norm_selection s p q; Ok (top_start s (fst se), snd se).
Lemma not_top_sb s p r c : in_sb s p r c -> is_top p = false.
Proof. intros (A & _). unfold is_top. now rewrite A. Qed.
Lemma not_top_scr s p r c : in_scr s p r c -> is_top p = false.
Proof. intros (A & B & _). unfold is_top, SELECTION_TOP. rewrite A. lia. Qed.
Lemma on_top_is p : on_top p -> is_top p = true.
Proof. intros (A & B). unfold is_top. rewrite A. lia. Qed.
Lemma is_top_on p : is_top p = true -> on_top p.
Proof. unfold is_top, on_top. destruct (p_line p); [discriminate|]. intros; split; [auto|lia]. Qed.

Lemma prepared_ok s p q r c r' c' : Inv0 s -> at_place_or_top s p r c -> at_place_or_top s q r' c' -> text_ends s p q ->
  exists st en r1 c1 r2 c2, prepared s p q = Ok (st, en) /\ in_order s st en r1 c1 r2 c2 /\
   (r1 = r /\ c1 = c /\ r2 = r' /\ c2 = c' \/ r1 = r' /\ c1 = c' /\ r2 = r /\ c2 = c).
Proof.
  intros H P Q T. unfold prepared.
  destruct P as [(P1 & -> & ->)|P], Q as [(Q1 & -> & ->)|Q].
  - exfalso. unfold text_ends in T. pose proof P1 as (P2 & _). pose proof Q1 as (Q2 & _). rewrite P2, Q2 in T. tauto.
  - (* p top: q on the screen, no scrollback *)
    apply at_place_cases in Q as [Q|Q]; [|idtac|exact H].
    { exfalso. unfold text_ends in T. pose proof P1 as (P2 & _). destruct Q as (Q2 & _). rewrite P2, Q2 in T. tauto. }
    pose proof P1 as (P2 & P3). pose proof Q as (Q2 & Q3 & Q4 & Q5 & Q6). unfold text_ends in T. rewrite P2, Q2 in T.
    destruct T as [T _]; [now left|]. unfold norm_selection. rewrite (not_top_scr s q r' c' Q), P2, Q2, P3. unfold SELECTION_TOP.
    replace (-1 =? p_y q) with false by lia. replace (p_y q <? -1) with false by lia. cbn [bind fst snd].
    unfold top_start. rewrite (on_top_is p P1), T. exists (mkP None 0 0), q, 0, 0, r', c'. split; [reflexivity|]. split; [|now left].
    rewrite T in Q4. cbn in Q4. pose proof (i_sx _ H). pose proof (i_sy _ H). split; [unfold before; lia|]. right. right. split; [|exact Q].
    unfold in_scr. cbn [p_line p_x p_y]. rewrite T. cbn [length]. repeat match goal with |- _ /\ _ => split end; auto; lia.
  - (* q top *)
    pose proof Q1 as (Q2 & Q3). unfold text_ends in T. rewrite Q2 in T.
    unfold norm_selection. rewrite (on_top_is q Q1). cbn [bind fst snd]. unfold top_start. rewrite (on_top_is q Q1).
    pose proof (i_sx _ H). pose proof (i_sy _ H).
    apply at_place_cases in P as [P|P]; [| |exact H].
    + pose proof P as (P2 & P3 & P4 & P5). destruct (s_sb s) as [|l sb] eqn:Esb; [cbn in P3; lia|].
      assert (El : znth (s_sb s) 0 = Some l) by (rewrite Esb; reflexivity). pose proof (i_sbid _ H _ _ El) as K.
      exists (mkP (l_sbid l) 0 (p_y q)), p, 0, 0, r, c. split; [reflexivity|]. split; [|now right].
      split; [unfold before; lia|]. left. split; [|exact P]. unfold in_sb. cbn [p_line p_x].
      rewrite K, Esb. unfold first_id. rewrite Esb. repeat match goal with |- _ /\ _ => split end; auto; lia.
    + pose proof P as (P2 & P3 & P4 & P5 & P6). rewrite P2 in T. destruct T as [T _]; [now right|]. rewrite T.
      exists (mkP None 0 0), p, 0, 0, r, c. split; [reflexivity|]. split; [|now right].
      rewrite T in P4. cbn in P4. split; [unfold before; lia|]. right. right. split; [|exact P].
      unfold in_scr. cbn [p_line p_x p_y]. rewrite T. cbn [length]. repeat match goal with |- _ /\ _ => split end; auto; lia.
  - apply at_place_cases in P as [P|P]; [| |exact H]; (apply at_place_cases in Q as [Q|Q]; [| |exact H]).
    + pose proof P as (P1 & P2 & P3 & P4). pose proof Q as (Q1 & Q2 & Q3 & Q4). unfold text_ends in T. rewrite P1, Q1 in T. unfold first_id in T.
      destruct (Z.eqb_spec r r') as [<-|N].
      * unfold norm_selection. rewrite (not_top_sb s q r c' Q), P1, Q1. cbn [same_line]. rewrite Z.eqb_refl. cbn [bind]. rewrite <- P3, <- Q3.
        destruct (Z.ltb_spec c' c); cbn [fst snd]; unfold top_start.
        -- rewrite (not_top_sb s q r c' Q). exists q, p, r, c', r, c. split; [reflexivity|]. split; [split; [unfold before; lia|now left]|now right].
        -- rewrite (not_top_sb s p r c P). exists p, q, r, c, r, c'. split; [reflexivity|]. split; [split; [unfold before; lia|now left]|now left].
      * rewrite (norm_sb s p q r c r' c' H P Q N). cbn [bind].
        destruct ((r' <? r) && (r <? zlen (s_sb s) - 1)) eqn:K; cbn [fst snd]; unfold top_start.
        -- rewrite (not_top_sb s q r' c' Q). exists q, p, r', c', r, c. split; [reflexivity|]. split; [split; [unfold before; lia|now left]|now right].
        -- rewrite (not_top_sb s p r c P). exists p, q, r, c, r', c'. split; [reflexivity|]. split; [split; [unfold before; lia|now left]|now left].
    + pose proof P as (P1 & P2 & P3 & P4). pose proof Q as (Q1 & Q2 & Q3 & Q4 & Q5). unfold text_ends in T. rewrite P1, Q1 in T.
      destruct T as [(_ & T)|(T & T')]; [unfold SELECTION_TOP in T; lia|].
      unfold norm_selection. rewrite (not_top_scr s q r' c' Q), P1, Q1.
      replace (p_y q <? p_y p) with false by lia.
      assert (X : (if p_y p =? p_y q then Ok (if p_x q <? p_x p then (q, p) else (p, q)) else Ok (p, q)) = Ok (p, q)).
      { destruct (Z.eqb_spec (p_y p) (p_y q)); [|reflexivity]. replace (p_x q <? p_x p) with false by lia. reflexivity. }
      rewrite X. cbn [bind fst snd]. unfold top_start. rewrite (not_top_sb s p r c P). exists p, q, r, c, r', c'. split; [reflexivity|].
      split; [|now left]. split; [unfold before; lia|]. right. left. auto.
    + pose proof P as (P1 & P2 & P3 & P4 & P5). pose proof Q as (Q1 & Q2 & Q3 & Q4). unfold text_ends in T. rewrite P1, Q1 in T.
      destruct T as (_ & T). unfold norm_selection. rewrite (not_top_sb s q r' c' Q), P1, Q1. cbn [bind fst snd].
      unfold top_start. rewrite (not_top_sb s q r' c' Q). exists q, p, r', c', r, c. split; [reflexivity|].
      split; [|now right]. split; [unfold before; lia|]. right. left. auto.
    + pose proof P as (P1 & P2 & P3 & P4 & P5). pose proof Q as (Q1 & Q2 & Q3 & Q4 & Q5).
      unfold norm_selection. rewrite (not_top_scr s q r' c' Q), P1, Q1.
      destruct (Z.eqb_spec (p_y p) (p_y q)) as [Ey|Ny].
      * destruct (Z.ltb_spec (p_x q) (p_x p)); cbn [bind fst snd]; unfold top_start.
        -- rewrite (not_top_scr s q r' c' Q). exists q, p, r', c', r, c. split; [reflexivity|]. split; [split; [unfold before; lia|auto]|now right].
        -- rewrite (not_top_scr s p r c P). exists p, q, r, c, r', c'. split; [reflexivity|]. split; [split; [unfold before; lia|auto]|now left].
      * destruct (Z.ltb_spec (p_y q) (p_y p)); cbn [bind fst snd]; unfold top_start.
        -- rewrite (not_top_scr s q r' c' Q). exists q, p, r', c', r, c. split; [reflexivity|]. split; [split; [unfold before; lia|auto]|now right].
        -- rewrite (not_top_scr s p r c P). exists p, q, r, c, r', c'. split; [reflexivity|]. split; [split; [unfold before; lia|auto]|now left].
Qed.

Lemma copy_prepared s : s_sela s = true -> is_top (s_sel1 s) && is_top (s_sel2 s) = false ->
  selection_copy s = do se <- prepared s (s_sel1 s) (s_sel2 s); copy_from s (fst se) (snd se).
Proof.
  intros A B. unfold selection_copy, prepared. rewrite A, B. cbn [negb]. destruct (norm_selection s (s_sel1 s) (s_sel2 s)) as [[st en]|]; reflexivity.
Qed.
Lemma in_order_cols s st en r1 c1 r2 c2 : in_order s st en r1 c1 r2 c2 -> 0 <= c1 < s_sx s /\ 0 <= c2 < s_sx s /\ before r1 c1 r2 c2.
Proof. unfold in_order, in_sb, in_scr. intros (B & C). intuition auto; lia. Qed.

(* -- the text ---------------------------------------------------------------------------------- *)
Lemma removelast_lines (g : Z -> list Z) : forall L, L <> [] -> removelast (flat_map (fun r => g r ++ [10]) L) = join (map g L).
Proof.
  induction L as [|r L IH]; intros N; [congruence|]. cbn [flat_map map]. destruct L as [|r' L].
  - cbn [flat_map map join]. rewrite app_nil_r. apply removelast_last.
  - rewrite <- app_assoc. cbn [app]. rewrite removelast_app by discriminate.
    change (removelast (10 :: flat_map (fun r => g r ++ [10]) (r' :: L))) with
      (match flat_map (fun r => g r ++ [10]) (r' :: L) with [] => [] | _ :: _ => 10 :: removelast (flat_map (fun r => g r ++ [10]) (r' :: L)) end).
    destruct (flat_map (fun r => g r ++ [10]) (r' :: L)) eqn:E.
    + cbn [flat_map] in E. destruct (g r'); discriminate.
    + rewrite IH by discriminate. reflexivity.
Qed.
Lemma flat_map_ext_in {A B} (f g : A -> list B) l : (forall x, In x l -> f x = g x) -> flat_map f l = flat_map g l.
Proof. induction l as [|x l IH]; intros H; cbn; [reflexivity|]. rewrite H by now left. rewrite IH; [reflexivity|]. intros; apply H; now right. Qed.
Lemma In_part s r a b ch : In ch (part s r a b) -> In ch (row s r).
Proof.
  unfold part, zslice. intros I. apply firstn_In in I.
  assert (K : forall n (l : list Z), In ch (skipn n l) -> In ch l) by (intros; rewrite <- (firstn_skipn n l); apply in_or_app; now right).
  apply K in I. rewrite trim_firstn in I. now apply firstn_In in I.
Qed.
Lemma rb_text s r1 c1 r2 c2 r : chars_below (2 ^ 32) s -> first_col r1 c1 r <= zlen (trim (row s r)) ->
  rb s r1 c1 r2 c2 r = flat_map (char_bytes [0]) (sel_part s r1 c1 r2 c2 r) ++ [10].
Proof.
  intros H L. unfold rb, line_bytes. replace (_ <? _) with false by lia. f_equal.
  unfold sel_part, part. apply flat_map_ext_in. intros ch I. apply enc_bytes. apply (row_char s r _ H).
  apply (In_part s r (first_col r1 c1 r) (end_col s r2 c2 r)). exact I.
Qed.
Lemma text_is s r1 c1 r2 c2 : chars_below (2 ^ 32) s -> before r1 c1 r2 c2 -> r1 = r2 \/ c1 <= zlen (trim (row s r1)) ->
  removelast (flat_map (rb s r1 c1 r2 c2) (zseq r1 (r2 - r1 + 1))) = sel_text [0] s r1 c1 r2 c2.
Proof.
  intros H B L. assert (Hr : r1 <= r2) by (unfold before in B; lia).
  destruct (Z.leb_spec c1 (zlen (trim (row s r1)))) as [K|K].
  - unfold sel_text. rewrite <- removelast_lines by (rewrite zseq_step by lia; discriminate).
    f_equal. apply flat_map_ext_in. intros r _. apply rb_text; [exact H|]. unfold first_col. destruct (Z.eqb_spec r r1) as [->|N]; lia.
  - destruct L as [<-|L]; [|lia]. unfold sel_text. replace (r1 - r1 + 1) with 1 by lia. rewrite zseq_step, zseq_nil by lia.
    cbn [flat_map map join]. rewrite app_nil_r. unfold rb, line_bytes, sel_part, part, first_col. rewrite Z.eqb_refl.
    replace (_ <? c1) with true by lia. unfold zslice. rewrite skipn_all2 by lia. rewrite firstn_nil. reflexivity.
Qed.
Lemma solid_pad s r1 c1 r2 c2 pad : solid s r1 c1 r2 c2 -> sel_text pad s r1 c1 r2 c2 = sel_text [0] s r1 c1 r2 c2.
Proof.
  intros H. unfold sel_text. f_equal. apply map_ext_in. intros r I. apply In_zseq in I.
  apply flat_map_ext_in. intros ch J. unfold char_bytes. destruct (Z.eqb_spec ch 0) as [->|N]; [|reflexivity].
  exfalso. apply (H r); [lia|exact J].
Qed.
Lemma chars_mono a b s : a <= b -> chars_below a s -> chars_below b s.
Proof. intros L H. unfold chars_below in *. eapply Forall_impl; [|exact H]. intros l. apply Forall_impl. intros; lia. Qed.

Lemma copy_text s p q r1 c1 r2 c2 : Inv0 s -> roomy s -> s_sela s = true -> text_ends s (s_sel1 s) (s_sel2 s) ->
  (p = s_sel1 s /\ q = s_sel2 s \/ p = s_sel2 s /\ q = s_sel1 s) ->
  at_place_or_top s p r1 c1 -> at_place_or_top s q r2 c2 -> before r1 c1 r2 c2 ->
  chars_below 65536 s \/ r1 = r2 /\ chars_below (2 ^ 32) s -> r1 = r2 \/ c1 <= zlen (trim (row s r1)) ->
  selection_copy s = Ok (CText (sel_text [0] s r1 c1 r2 c2)).
Proof.
  intros H R A T PQ P Q B C F.
  assert (X : exists r c r' c', at_place_or_top s (s_sel1 s) r c /\ at_place_or_top s (s_sel2 s) r' c' /\
     (r1 = r /\ c1 = c /\ r2 = r' /\ c2 = c' \/ r1 = r' /\ c1 = c' /\ r2 = r /\ c2 = c)).
  { destruct PQ as [(-> & ->)|(-> & ->)]; [exists r1, c1, r2, c2|exists r2, c2, r1, c1]; auto 10. }
  destruct X as (r & c & r' & c' & P' & Q' & O).
  destruct (prepared_ok s _ _ _ _ _ _ H P' Q' T) as (st & en & r1' & c1' & r2' & c2' & E & I & O').
  assert (N : is_top (s_sel1 s) && is_top (s_sel2 s) = false).
  { destruct (is_top (s_sel1 s)) eqn:E1; [|reflexivity]. destruct (is_top (s_sel2 s)) eqn:E2; [|reflexivity]. exfalso.
    apply is_top_on in E1, E2. pose proof E1 as (L1 & _). pose proof E2 as (L2 & _). unfold text_ends in T. rewrite L1, L2 in T. tauto. }
  rewrite (copy_prepared s A N), E. cbn [bind fst snd].
  destruct (in_order_cols _ _ _ _ _ _ _ I) as (C1 & C2 & B').
  assert (r1' = r1 /\ c1' = c1 /\ r2' = r2 /\ c2' = c2) as (-> & -> & -> & ->) by (unfold before in *; lia).
  destruct (copy_from_ordered s st en r1 c1 r2 c2 H R I) as (n & Hn & ->). pose proof (i_sx _ H) as [Sx _].
  rewrite fits; auto; [|tauto]. do 2 f_equal. apply text_is; auto. destruct C as [C|[_ C]]; [|exact C]. eapply chars_mono; [|exact C]. lia.
Qed.

(* -- within bounds ---------------------------------------------------------------------------------- *)
Lemma copy_within s r c r' c' : Inv0 s -> roomy s -> safe_ends s (s_sel1 s) (s_sel2 s) ->
  at_place_or_top s (s_sel1 s) r c -> at_place_or_top s (s_sel2 s) r' c' ->
  chars_below 65536 s \/ r = r' /\ ~ on_top (s_sel1 s) -> exists o, selection_copy s = Ok o.
Proof.
  intros H R T P Q C. pose proof (i_sx _ H) as [Sx _]. pose proof (roomy_n s H R) as RN.
  destruct (s_sela s) eqn:A; [|exists CNone; unfold selection_copy; rewrite A; reflexivity].
  destruct (is_top (s_sel1 s) && is_top (s_sel2 s)) eqn:N; [exists (CText []); unfold selection_copy; rewrite A, N; reflexivity|].
  assert (D : text_ends s (s_sel1 s) (s_sel2 s) \/
    (in_sb s (s_sel1 s) r c /\ in_sb s (s_sel2 s) r' c' /\ r = zlen (s_sb s) - 1 /\ r' < r) \/
    (in_sb s (s_sel1 s) r c /\ in_scr s (s_sel2 s) r' c' /\ p_y (s_sel1 s) = 0 /\ p_y (s_sel2 s) = 0 /\ p_x (s_sel2 s) < p_x (s_sel1 s)) \/
    (on_top (s_sel1 s) /\ in_sb s (s_sel2 s) r' c' /\ p_y (s_sel2 s) = 0)).
  { unfold text_ends, safe_ends in *. destruct P as [(P & -> & ->)|P].
    - pose proof P as (P1 & P2). rewrite P1 in *. destruct (p_line (s_sel2 s)) as [k|] eqn:K.
      + right. right. right. destruct Q as [((Q & _) & _)|Q]; [congruence|].
        apply at_place_cases in Q as [Q|Q]; [|destruct Q; congruence|exact H]. auto.
      + left. intros X. destruct (T X) as [T'|T']; [split; [exact T'|]|]; [|rewrite (on_top_is _ P), (on_top_is (s_sel2 s)) in N by tauto; discriminate].
        intros (_ & Y). rewrite (on_top_is _ P), (on_top_is _ Y) in N. discriminate.
    - apply at_place_cases in P as [P|P]; [| |exact H].
      + pose proof P as (P1 & P2 & P3). rewrite P1 in *. destruct (p_line (s_sel2 s)) as [k|] eqn:K.
        * destruct Q as [((Q & _) & _)|Q]; [congruence|].
          apply at_place_cases in Q as [Q|Q]; [|destruct Q; congruence|exact H].
          assert (k = first_id s + r') by (destruct Q as (Q & _); congruence). subst k.
          unfold first_id in *. destruct (Z.leb_spec (zlen (s_sb s) - 1) r); [|left; lia].
          destruct (Z.ltb_spec r' r); [right; left|left; lia]. repeat match goal with |- _ /\ _ => split end; auto; lia.
        * destruct T as [T|T]; [now left; left|]. destruct Q as [(Q & _)|Q]; [now left; left|].
          apply at_place_cases in Q as [Q|Q]; [destruct Q; congruence| |exact H].
          destruct (Z.ltb_spec (p_x (s_sel2 s)) (p_x (s_sel1 s))); [|left; right; lia].
          destruct (Z.eqb_spec (p_y (s_sel2 s)) 0); [|left; right; lia]. right. right. left. auto.
      + pose proof P as (P1 & P2 & P3). rewrite P1 in *. left. destruct (p_line (s_sel2 s)) as [k|] eqn:K.
        * split; [|exact T]. intros (_ & X). unfold SELECTION_TOP in X. lia.
        * intros X. assert (NT : ~ on_top (s_sel1 s)) by (intros (_ & Y); unfold SELECTION_TOP in Y; lia).
          destruct (T X) as [Y|Y]; tauto. }
  rewrite (copy_prepared s A N). destruct D as [D|[D|[D|D]]].
  - destruct (prepared_ok s _ _ _ _ _ _ H P Q D) as (st & en & r1 & c1 & r2 & c2 & E & I & O). rewrite E. cbn [bind fst snd].
    destruct (copy_from_ordered s st en r1 c1 r2 c2 H R I) as (n & Hn & ->). destruct (in_order_cols _ _ _ _ _ _ _ I) as (C1 & C2 & B).
    rewrite fits; auto; [eauto|]. destruct C as [C|[C _]]; [now left|]. right. destruct O as [(-> & _ & -> & _)|(-> & _ & -> & _)]; auto.
  - destruct D as (D1 & D2 & D3 & D4). destruct C as [C|(-> & _)]; [|lia].
    unfold prepared. rewrite (norm_sb s _ _ r c r' c' H D1 D2) by lia. replace (_ && _) with false by lia. cbn [bind fst snd].
    unfold top_start. rewrite (not_top_sb s _ r c D1).
    pose proof D1 as (P1 & P2 & P3 & P4). pose proof D2 as (Q1 & Q2 & Q3).
    unfold copy_from, count_lines_sb, count_lines. rewrite P1, Q1. cbn [same_line]. replace (_ =? _) with false by lia.
    rewrite <- P1, (from_line_sb s _ r c H D1). cbn [bind]. rewrite skipn_length. replace (Z.of_nat _) with 1 by lia.
    change (int_ok 1) with (Ok 1). cbn [bind]. change (int_ok (1 + 0)) with (Ok 1). cbn [bind].
    destruct (copy_buffer_ok s 1 H R) as [Z1 Z2]; [pose proof (i_sy _ H); lia|]. replace (_ <? 0) with false by lia.
    rewrite (copy_sb_part s _ _ r c (zlen (s_sb s)) 0 (zlen (s_sb s) - 1) H D1).
    2:{ right. repeat match goal with |- _ /\ _ => split end; try lia. right. exists r'. split; [exact Q1|lia]. }
    cbn [bind]. unfold copy_lines. rewrite Q1. cbn [bind]. rewrite Z1.
    eexists. apply (fits3 s r c (zlen (s_sb s)) 0); auto; try lia. unfold before. lia.
  - destruct D as (D1 & D2 & D3 & D4 & D5). pose proof D1 as (P1 & P2 & P3). pose proof D2 as (Q1 & Q2 & Q3).
    unfold prepared, norm_selection. rewrite (not_top_scr s _ _ _ D2), P1, Q1. replace (p_y (s_sel1 s) =? p_y (s_sel2 s)) with true by lia.
    replace (p_x (s_sel2 s) <? p_x (s_sel1 s)) with true by lia. cbn [bind fst snd].
    unfold top_start. rewrite (not_top_scr s _ _ _ D2). unfold copy_from, count_lines_sb, count_lines. rewrite Q1. cbn [bind]. rewrite D3, D4.
    change (int_ok (0 - 0)) with (Ok 0). cbn [bind]. change (int_ok (0 + 1)) with (Ok 1). cbn [bind]. change (int_ok (0 + 1)) with (Ok 1). cbn [bind].
    destruct (copy_buffer_ok s 1 H R) as [Z1 Z2]; [pose proof (i_sy _ H); lia|]. replace (_ <? 0) with false by lia.
    unfold copy_lines_sb, copy_lines. rewrite Q1, P1. cbn [from_line bind copy_sb_loop length]. replace (_ <=? _) with true by lia. eauto.
  - destruct D as (D1 & D2 & D3). pose proof D1 as (P1 & P2). pose proof D2 as (Q1 & Q2 & Q3 & Q4). destruct C as [C|(_ & C)]; [|tauto].
    unfold prepared, norm_selection. rewrite (not_top_sb s _ _ _ D2), P1, Q1. cbn [bind fst snd].
    unfold top_start. rewrite (not_top_sb s _ _ _ D2). unfold copy_from, count_lines_sb, count_lines. rewrite Q1, P1. cbn [same_line].
    rewrite <- Q1, (from_line_sb s _ _ _ H D2). cbn [bind]. rewrite skipn_length. replace (Z.of_nat (_ - _)) with (zlen (s_sb s) - r') by lia.
    pose proof (i_sy _ H) as [Sy _]. rewrite int_ok_small by lia. cbn [bind]. rewrite P2, D3. unfold SELECTION_TOP. change (int_ok (-1 - 0)) with (Ok (-1)). cbn [bind].
    change (int_ok (-1 + 1)) with (Ok 0). cbn [bind]. rewrite int_ok_small by lia. cbn [bind]. rewrite Z.add_0_r.
    destruct (copy_buffer_ok s (zlen (s_sb s) - r') H R) as [Z1 Z2]; [pose proof (i_sy _ H); lia|]. replace (_ <? 0) with false by lia.
    rewrite (copy_sb_part s _ _ r' c' (zlen (s_sb s)) 0 (zlen (s_sb s) - 1) H D2).
    2:{ right. repeat match goal with |- _ /\ _ => split end; try lia. now left. }
    cbn [bind]. unfold copy_lines. rewrite P1, D3, P2. rewrite forz_nil by (unfold SELECTION_TOP; lia). cbn [bind]. rewrite Z1.
    eexists. apply (fits3 s r' c' (zlen (s_sb s)) 0); auto; try lia. unfold before. lia.
Qed.
