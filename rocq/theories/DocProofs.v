(* Documents sent to the terminal: proofs for C54. *)
From Verif Require Import Base BaseProofs Screen ScreenInv ScreenSpec ScreenSafe ScreenHist ScreenThms VteData Vte VteKeys VteSpec VteInv VteSafe VteFrame VteView VteParse VteCsi VteFx VteText VteEsc VteThms VteThms2 VteThms3 Paper PaperProofs Document.

(* Renditions that differ only in the red, green and blue the palette supplies. *)
Definition alike (a b : attr) : Prop :=
  a_fc a = a_fc b /\ a_bc a = a_bc b /\
  (a_fc a < 0 -> a_fr a = a_fr b /\ a_fg a = a_fg b /\ a_fb a = a_fb b) /\
  (a_bc a < 0 -> a_br a = a_br b /\ a_bg a = a_bg b /\ a_bb a = a_bb b) /\
  a_bold a = a_bold b /\ a_italic a = a_italic b /\ a_underline a = a_underline b /\ a_inverse a = a_inverse b /\
  a_protect a = a_protect b /\ a_blink a = a_blink b.
Lemma alike_refl a : alike a a.
Proof. unfold alike. tauto. Qed.
Lemma alike_resolve p a : alike a (resolve p a).
Proof.
  unfold resolve. destruct (rgb_of p (fg_entry a)) as [[r g] b].
  destruct (Z.leb_spec 0 (a_fc a)).
  - change (a_bc (set_fcolor a (a_fc a) r g b)) with (a_bc a). destruct (rgb_of p (a_bc a)) as [[r2 g2] b2].
    destruct (Z.leb_spec 0 (a_bc a)); unfold alike, set_fcolor, set_bcolor; cbn [a_fc a_bc a_fr a_fg a_fb a_br a_bg a_bb a_bold a_italic a_underline a_inverse a_protect a_blink]; repeat match goal with |- _ /\ _ => split end; intros; try reflexivity; try lia; auto.
  - destruct (rgb_of p (a_bc a)) as [[r2 g2] b2].
    destruct (Z.leb_spec 0 (a_bc a)); unfold alike, set_fcolor, set_bcolor; cbn [a_fc a_bc a_fr a_fg a_fb a_br a_bg a_bb a_bold a_italic a_underline a_inverse a_protect a_blink]; repeat match goal with |- _ /\ _ => split end; intros; try reflexivity; try lia; auto.
Qed.
Lemma resolve_alike p a b : alike a b -> resolve p a = resolve p b.
Proof.
  destruct a as [fc bc fr fg fb br bg bb s1 s2 s3 s4 s5 s6], b as [fc' bc' fr' fg' fb' br' bg' bb' t1 t2 t3 t4 t5 t6].
  unfold alike. cbn [a_fc a_bc a_fr a_fg a_fb a_br a_bg a_bb a_bold a_italic a_underline a_inverse a_protect a_blink].
  intros (-> & -> & Hf & Hb & -> & -> & -> & -> & -> & ->). unfold resolve, fg_entry.
  cbn [a_fc a_bc a_fr a_fg a_fb a_br a_bg a_bb a_bold a_italic a_underline a_inverse a_protect a_blink].
  destruct (Z.leb_spec 0 fc') as [F|F].
  - match goal with |- context [rgb_of p ?e] => destruct (rgb_of p e) as [[r g] b] end. unfold set_fcolor, set_bcolor.
    cbn [a_fc a_bc a_fr a_fg a_fb a_br a_bg a_bb a_bold a_italic a_underline a_inverse a_protect a_blink].
    destruct (Z.leb_spec 0 bc') as [B|B]; [reflexivity|]. destruct (Hb B) as (-> & -> & ->). reflexivity.
  - destruct (Hf F) as (-> & -> & ->). unfold set_fcolor, set_bcolor.
    cbn [a_fc a_bc a_fr a_fg a_fb a_br a_bg a_bb a_bold a_italic a_underline a_inverse a_protect a_blink].
    destruct (Z.leb_spec 0 bc') as [B|B]; [reflexivity|]. destruct (Hb B) as (-> & -> & ->). reflexivity.
Qed.
Lemma alike_simple def p a b : alike a b -> alike (sgr_simple def p a) (sgr_simple def p b).
Proof.
  unfold alike, sgr_simple. cbn [a_fc a_bc a_fr a_fg a_fb a_br a_bg a_bb a_bold a_italic a_underline a_inverse a_protect a_blink].
  intros (-> & -> & Hf & Hb & -> & -> & -> & -> & -> & ->). repeat match goal with |- _ /\ _ => split end; try reflexivity.
  - destruct ((30 <=? p) && (p <=? 37)) eqn:A; [intros; lia|]. destruct ((90 <=? p) && (p <=? 97)) eqn:B; [intros; lia|].
    destruct (_ || _); [auto|]. exact Hf.
  - destruct ((40 <=? p) && (p <=? 47)) eqn:A; [intros; lia|]. destruct ((100 <=? p) && (p <=? 107)) eqn:B; [intros; lia|].
    destruct (_ || _); [auto|]. exact Hb.
Qed.
Lemma alike_put fg c a b : alike a b -> alike (put_colour fg c a) (put_colour fg c b).
Proof.
  destruct c as [code [[r g] bb]]. unfold alike, put_colour. destruct fg;
  cbn [a_fc a_bc a_fr a_fg a_fb a_br a_bg a_bb a_bold a_italic a_underline a_inverse a_protect a_blink];
  intros (-> & -> & Hf & Hb & -> & -> & -> & -> & -> & ->); repeat match goal with |- _ /\ _ => split end; auto; tauto.
Qed.
Lemma alike_sgr def : forall n l, (length l <= n)%nat -> forall a b, alike a b -> alike (sgr_list def l a) (sgr_list def l b).
Proof.
  induction n as [|n IH]; intros l L a b H; [destruct l; [exact H|cbn in L; lia]|].
  destruct l as [|p r]; [exact H|]. cbn [length] in L. cbn [sgr_list].
  destruct ((p =? 38) || (p =? 48)); [|apply IH; [lia|now apply alike_simple]].
  destruct r as [|q r]; [exact H|].
  assert (G : alike (sgr_list def (q :: r) a) (sgr_list def (q :: r) b)) by (apply IH; [lia|exact H]).
  destruct (Z.eq_dec q 5) as [->|N5].
  - destruct r as [|k r]; [exact G|]. destruct (0 <=? k); [|exact G]. cbn [length] in L. apply IH; [lia|now apply alike_put].
  - destruct (Z.eq_dec q 2) as [->|N2].
    + destruct r as [|k1 [|k2 [|k3 r]]]; try exact G. destruct (_ && _); [|exact G]. cbn [length] in L. apply IH; [lia|now apply alike_put].
    + destruct q as [|[q|q|]|]; try exact G.
      * destruct q as [q|[q|q|]|]; try exact G. congruence.
      * destruct q as [q|q|]; try exact G. congruence.
Qed.
Lemma document_alike pal def lnm bce ts : forall a b, alike a b -> document pal def lnm bce a ts = document pal def lnm bce b ts.
Proof.
  induction ts as [|[cp|P] r IH]; intros a b H; [reflexivity| |]; cbn [document].
  - rewrite (resolve_alike pal a b H). f_equal. now apply IH.
  - pose proof (alike_sgr def _ (sgr_params (args P)) (le_n _) a b H) as G. cbv zeta.
    rewrite (resolve_alike pal _ _ G). f_equal. now apply IH.
Qed.

(* One token. The terminal keeps everything but the screen and the rendition. *)
Record typer (v v' : vte) : Prop := mkTyper {
  tp_mode : text_mode v'; tp_flags : v_flags v' = v_flags v; tp_sets : default_sets v'; tp_pal : v_pal v' = v_pal v; tp_def : v_def v' = v_def v
}.
Lemma vreach_input sg v bs v' : vreachable sg v -> vte_input sg v bs = Ok v' -> vreachable sg v'.
Proof. intros R E. exact (vreachable_step sg v (VInput bs) v' R I E). Qed.
Lemma typer_core v v' c a : default_sets v -> text_mode v' -> core v' = core (w_con (w_cattr v a) c) -> typer v v' /\ v_con v' = c /\ v_cattr v' = a.
Proof.
  intros D T C. split; [|split; [exact (con_core _ _ C)|exact (f_equal v_cattr C)]].
  constructor; auto; [exact (f_equal v_flags C)| |exact (f_equal v_pal C)|exact (f_equal v_def C)].
  destruct D as (D1 & D2 & D3 & D4). unfold default_sets.
  assert (G : forall g, gset v' g = gset v g).
  { intros g. unfold gset. destruct g; [exact (f_equal v_g0 C)|exact (f_equal v_g1 C)|exact (f_equal v_g2 C)|exact (f_equal v_g3 C)]. }
  rewrite !G. assert (GL : v_gl v' = v_gl v) by exact (f_equal v_gl C). assert (GR : v_gr v' = v_gr v) by exact (f_equal v_gr C).
  assert (GLT : v_glt v' = v_glt v) by exact (f_equal v_glt C). assert (GRT : v_grt v' = v_grt v) by exact (f_equal v_grt C).
  rewrite GL, GR, GLT, GRT. auto.
Qed.
Lemma acts_typer sg v bs ops c : default_sets v -> acts sg v bs ops -> run (v_con v) ops = Ok c ->
  exists v', vte_input sg v bs = Ok v' /\ typer v v' /\ v_con v' = c /\ v_cattr v' = v_cattr v.
Proof.
  intros D A E. unfold acts in A. rewrite E in A. destruct A as (v' & X & C & T). exists v'. split; [exact X|].
  apply (typer_core v v' c (v_cattr v)); auto.
Qed.
Lemma control_item sg v cp bs c : vreachable sg v -> text_mode v -> default_sets v -> line_control cp -> encodes sg (v_flags v) [cp] bs ->
  step (v_con v) (item_op (char_item (vfl v VF_LNM) (resolve (v_pal v) (v_cattr v)) cp)) = Ok c ->
  exists v', vte_input sg v bs = Ok v' /\ typer v v' /\ v_con v' = c /\ v_cattr v' = v_cattr v.
Proof.
  intros R T D L E X. apply (acts_typer sg v bs [item_op (char_item (vfl v VF_LNM) (resolve (v_pal v) (v_cattr v)) cp)]); auto.
  - apply (control_acts sg v cp); [exact (vreachable_inv sg v R)|exact T| |exact E]. clear X E D T.
    unfold line_control in L. cbn [In] in L.
    destruct L as [<-|[<-|[<-|[<-|[<-|[<-|[<-|[]]]]]]]]; unfold control_calls, char_item; cbn [Z.eqb Pos.eqb Z.leb Z.compare Pos.compare Pos.compare_cont andb]; try reflexivity;
    destruct (vfl v VF_LNM); reflexivity.
  - cbn [run]. rewrite X. reflexivity.
Qed.
Lemma graphic_item sg v cp bs c : vreachable sg v -> text_mode v -> default_sets v -> graphic cp -> encodes sg (v_flags v) [cp] bs ->
  step (v_con v) (item_op (char_item (vfl v VF_LNM) (resolve (v_pal v) (v_cattr v)) cp)) = Ok c ->
  exists v', vte_input sg v bs = Ok v' /\ typer v v' /\ v_con v' = c /\ v_cattr v' = resolve (v_pal v) (v_cattr v).
Proof.
  intros R T D G E X. pose proof (plain_text_r sg v [cp] bs R T D ltac:(discriminate) ltac:(auto) E) as P. cbn [map run] in P.
  assert (I : char_item (vfl v VF_LNM) (resolve (v_pal v) (v_cattr v)) cp = IChar cp (resolve (v_pal v) (v_cattr v))).
  { destruct G as [G1 G2]. unfold char_item. replace (cp =? 8) with false by lia. replace ((10 <=? cp) && (cp <=? 12)) with false by lia.
    replace (cp =? 13) with false by lia. replace (cp =? 0x84) with false by lia. now replace (cp =? 0x85) with false by lia. }
  rewrite I in X. cbn [item_op] in X. rewrite X in P. cbn [bind] in P. destruct P as (v' & P1 & P2 & P3). exists v'. split; [exact P1|].
  now apply (typer_core v v' c).
Qed.
Lemma style_token sg v P c : vreachable sg v -> text_mode v -> default_sets v -> Forall pchar P -> ~ sgr_overrun P ->
  let a := resolve (v_pal v) (sgr_list (v_def v) (sgr_params (args P)) (v_cattr v)) in
  run (v_con v) (map item_op (if vfl v VF_BCE then [IPaint a] else [])) = Ok c ->
  exists v', vte_input sg v (csi_bytes [] P 109) = Ok v' /\ typer v v' /\ v_con v' = c /\ v_cattr v' = a.
Proof.
  intros R T D HP O a X. destruct (sgr_r sg v [] 0 P R T eq_refl HP O) as (v' & c' & E & T' & C & B).
  exists v'. split; [exact E|]. change (core v' = core (w_con (w_cattr v a) c')) in C. assert (c' = c).
  { assert (Ca : v_cattr v' = a) by exact (f_equal v_cattr C). rewrite Ca in B.
    destruct (vfl v VF_BCE); cbn [map run item_op] in X.
    - rewrite B in X. cbn [bind] in X. now apply ok_inj in X.
    - apply ok_inj in X. congruence. }
  subst c'. now apply (typer_core v v' c).
Qed.

Lemma document_run sg ts : forall v bs c, vreachable sg v -> text_mode v -> default_sets v ->
  Forall token_ok ts -> delivered sg (v_flags v) ts bs ->
  run (v_con v) (map item_op (document (v_pal v) (v_def v) (vfl v VF_LNM) (vfl v VF_BCE) (v_cattr v) ts)) = Ok c ->
  exists v', vte_input sg v bs = Ok v' /\ text_mode v' /\ default_sets v' /\ v_flags v' = v_flags v /\ v_con v' = c.
Proof.
  induction ts as [|[cp|P] r IH]; intros v bs c R T D Ok_ De E.
  - cbn [delivered] in De. subst bs. cbn [document map run] in E. apply ok_inj in E. subst c. exists v. auto.
  - apply Forall_cons_iff in Ok_ as [O1 O2]. destruct De as (b1 & b2 & -> & E1 & De). cbn [document map run] in E.
    destruct (step (v_con v) _) as [c1|] eqn:X; [|discriminate]. cbn [bind] in E.
    assert (W : exists v1, vte_input sg v b1 = Ok v1 /\ typer v v1 /\ v_con v1 = c1 /\ alike (v_cattr v) (v_cattr v1)).
    { destruct O1 as [G|L].
      - destruct (graphic_item sg v cp b1 c1 R T D G E1 X) as (v1 & A1 & A2 & A3 & A4). exists v1. repeat match goal with |- _ /\ _ => split end; auto. rewrite A4. apply alike_resolve.
      - destruct (control_item sg v cp b1 c1 R T D L E1 X) as (v1 & A1 & A2 & A3 & A4). exists v1. repeat match goal with |- _ /\ _ => split end; auto. rewrite A4. apply alike_refl. }
    destruct W as (v1 & I1 & [M1 F1 S1 P1 D1] & C1 & A1).
    rewrite (document_alike _ _ _ _ _ _ _ A1), <- C1, <- P1, <- D1 in E.
    assert (L1 : forall n, vfl v n = vfl v1 n) by (intros; unfold vfl; now rewrite F1).
    rewrite !L1 in E. rewrite <- F1 in De.
    destruct (IH v1 b2 c (vreach_input sg v b1 v1 R I1) M1 S1 O2 De E) as (v' & I2 & T2 & S2 & F2 & C2).
    exists v'. rewrite input_app, I1. cbn [bind]. rewrite F2, F1. auto.
  - apply Forall_cons_iff in Ok_ as [[O1 O1'] O2]. destruct De as (b2 & -> & De). cbn [document] in E. cbv zeta in E.
    rewrite map_app, run_app in E. destruct (run (v_con v) _) as [c1|] eqn:X; [|discriminate]. cbn [bind] in E.
    destruct (style_token sg v P c1 R T D O1 O1' X) as (v1 & I1 & [M1 F1 S1 P1 D1] & C1 & A1).
    rewrite (document_alike _ _ _ _ _ _ _ (alike_resolve (v_pal v) _)), <- A1, <- C1, <- P1, <- D1 in E.
    assert (L1 : forall n, vfl v n = vfl v1 n) by (intros; unfold vfl; now rewrite F1).
    rewrite !L1 in E. rewrite <- F1 in De.
    destruct (IH v1 b2 c (vreach_input sg v _ v1 R I1) M1 S1 O2 De E) as (v' & I2 & T2 & S2 & F2 & C2).
    exists v'. rewrite input_app, I1. cbn [bind]. rewrite F2, F1. auto.
Qed.
Lemma document_r sg v ts bs : vreachable sg v -> text_mode v -> default_sets v -> typing (v_con v) ->
  Forall token_ok ts -> delivered sg (v_flags v) ts bs ->
  let s := v_con v in
  let p := typed_all (s_sx s) (s_sy s) (paper_of s) (document (v_pal v) (v_def v) (vfl v VF_LNM) (vfl v VF_BCE) (v_cattr v) ts) in
  exists v', vte_input sg v bs = Ok v' /\ text_mode v' /\ default_sets v' /\ v_flags v' = v_flags v /\ shows (v_con v') p /\ s_sx (v_con v') = s_sx s /\ s_sy (v_con v') = s_sy s /\ zlen (sb_text (v_con v')) = Z.min (s_sbmax s) (zlen (sb_text s) + p_top p).
Proof.
  intros R T D Ty Ok_ De s p.
  destruct (paper_r s (document (v_pal v) (v_def v) (vfl v VF_LNM) (vfl v VF_BCE) (v_cattr v) ts) (reach_con sg v R) Ty) as (c & E & Sh & X & Y & L).
  destruct (document_run sg ts v bs c R T D Ok_ De E) as (v' & I & T' & S' & F' & C). exists v'. rewrite C. fold p in Sh, L. auto 12.
Qed.
