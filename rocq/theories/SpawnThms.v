(* Histories of calls on ptys. *)
From Verif Require Import Base BaseProofs Spawn SpawnSpec SpawnProofs.

Definition cnt (a : Z) (l : list Z) : Z := Z.of_nat (count_occ Z.eq_dec l a).
Lemma cnt_In a l : In a l <-> 1 <= cnt a l.
Proof. unfold cnt. rewrite (count_occ_In Z.eq_dec). lia. Qed.
Lemma cnt_cons a b l : cnt a (b :: l) = if a =? b then cnt a l + 1 else cnt a l.
Proof. unfold cnt. cbn [count_occ]. destruct (Z.eq_dec b a); destruct (Z.eqb_spec a b); try lia. Qed.
Lemma cnt_drop a b l : In b l -> cnt a (drop b l) = if a =? b then cnt a l - 1 else cnt a l.
Proof.
  induction l as [|x l IH]; [intros []|]. cbn [drop]. destruct (Z.eqb_spec x b) as [->|N].
  - intros _. rewrite cnt_cons. destruct (a =? b); lia.
  - intros [E|H]; [congruence|]. rewrite !cnt_cons, (IH H). destruct (Z.eqb_spec a x), (Z.eqb_spec a b); lia.
Qed.
Lemma cnt_le a l : cnt a l <= zlen l.
Proof. unfold cnt. pose proof (count_occ_bound Z.eq_dec a l). lia. Qed.

Lemma at_put w a y y' b : at_pty w a = Ok y -> at_pty (put_pty w a y') b = if b =? a then match y' with Some z => Ok z | None => Ub end else at_pty w b.
Proof.
  unfold at_pty, put_pty, set_ptys. cbn [w_ptys]. intros E. rewrite znth_zupd. destruct (Z.eqb_spec b a) as [->|N].
  - destruct (znth (w_ptys w) a) as [[z|]|]; try discriminate. reflexivity.
  - reflexivity.
Qed.
Lemma at_set_fds w t a : at_pty (set_fds w t) a = at_pty w a.
Proof. reflexivity. Qed.
Lemma at_app w w' x a : w_ptys w' = w_ptys w ++ [x] ->
  at_pty w' a = if a =? zlen (w_ptys w) then match x with Some y => Ok y | None => Ub end else at_pty w a.
Proof.
  unfold at_pty. intros ->. destruct (Z.eqb_spec a (zlen (w_ptys w))) as [->|N].
  - unfold znth. replace (zlen (w_ptys w) <? 0) with false by lia. now rewrite Nat2Z.id, nth_error_app2, Nat.sub_diag by lia.
  - unfold znth. destruct (Z.ltb_spec a 0); [reflexivity|]. destruct (Z.ltb_spec a (zlen (w_ptys w))).
    + now rewrite nth_error_app1 by lia.
    + replace (nth_error (w_ptys w) (Z.to_nat a)) with (@None (option pty)) by (symmetry; apply nth_error_None; lia).
      rewrite nth_error_app2 by lia. destruct (Z.to_nat a - length (w_ptys w))%nat as [|k] eqn:E; [lia|]. now destruct k.
Qed.

Record HInv (s : client) : Prop := mkH {
  hi_ref : forall a y, at_pty (l_world s) a = Ok y -> y_ref y = cnt a (l_held s) /\ 1 <= y_ref y <= 2 ^ 62;
  hi_held : forall a, In a (l_held s) -> exists y, at_pty (l_world s) a = Ok y;
  hi_open : forall a y, at_pty (l_world s) a = Ok y -> 0 <= y_fd y -> exists n, fd_get (w_fds (l_world s)) (y_fd y) = Some (mkF (Master n) true);
  hi_apart : forall a b y z, at_pty (l_world s) a = Ok y -> at_pty (l_world s) b = Ok z -> y_fd y = y_fd z -> 0 <= y_fd y -> a = b;
  hi_masters : forall f n b, fd_get (w_fds (l_world s)) f = Some (mkF (Master n) b) -> exists a y, at_pty (l_world s) a = Ok y /\ y_fd y = f;
  hi_kinds : own_or_master (w_fds (l_world s))
}.
Lemma hi_order s : HInv s -> in_order s.
Proof.
  intros [H1 H2 H3 H4 H5 H6]. constructor.
  - intros a. split; [|apply H2]. intros (y & E). destruct (H1 a y E). apply cnt_In. lia.
  - intros a f (y & E & <- & L). now apply (H3 a).
  - intros a b f (y & E & X & L) (z & E' & X' & L'). apply (H4 a b y z); congruence || lia.
  - intros f n b E. destruct (H5 f n b E) as (a & y & A & Y). exists a, y. split; [exact A|]. split; [exact Y|].
    destruct (Z.ltb_spec f 0); [rewrite get_neg in E by lia; discriminate|lia].
  - exact H6.
Qed.
Lemma start_inv p : only_own (p_fds p) -> HInv (start p).
Proof.
  intros H. assert (N : forall a y, at_pty (l_world (start p)) a = Ok y -> False).
  { intros a y. unfold at_pty. cbn [start l_world w_ptys]. unfold znth. destruct (a <? 0); [discriminate|]. now destruct (Z.to_nat a). }
  constructor.
  - intros a y E. destruct (N a y E).
  - intros a [].
  - intros a y E. destruct (N a y E).
  - intros a b y z E. destruct (N a y E).
  - intros f n b E. destruct (H f _ E) as [k K]. discriminate.
  - intros f d E. destruct (H f d E) as [k ->]. exact I.
Qed.
(* The table without what was the descriptor of pty a. *)
Lemma close_inv s a : HInv s -> In a (l_held s) -> exists w', shl_pty_close (l_world s) a = Ok w' /\ HInv (mkCl w' (l_held s)) /\
  (exists y y', at_pty (l_world s) a = Ok y /\ at_pty w' a = Ok y' /\ y_ref y' = y_ref y /\ y_fd y' < 0) /\ (forall b, b <> a -> at_pty w' b = at_pty (l_world s) b).
Proof.
  intros [H1 H2 H3 H4 H5 H6] Ha. destruct (H2 a Ha) as [y Y]. unfold shl_pty_close. rewrite Y. cbn [bind].
  destruct (Z.ltb_spec (y_fd y) 0) as [L|L].
  { eexists. split; [reflexivity|]. split; [now constructor|]. split; [exists y, y; repeat split; auto|auto]. }
  set (t := fd_close (w_fds (l_world s)) (y_fd y)). set (y' := mkY (y_ref y) (-1) (y_child y)).
  assert (G : forall g, fd_get t g = if g =? y_fd y then None else fd_get (w_fds (l_world s)) g) by (intros; apply get_close).
  assert (A : forall b, at_pty (put_pty (set_fds (l_world s) t) a (Some y')) b = if b =? a then Ok y' else at_pty (l_world s) b).
  { intros b. now rewrite (at_put _ a y). }
  set (w' := put_pty _ a _) in *. assert (F : w_fds w' = t) by reflexivity. clearbody t. clearbody w'.
  eexists. split; [reflexivity|]. split; [|split].
  - constructor; cbn [l_world l_held]; rewrite ?F.
    + intros b z. rewrite A. destruct (Z.eqb_spec b a) as [->|]; [|apply H1]. intros E. injection E as <-. now apply (H1 a y).
    + intros b Hb. rewrite A. destruct (b =? a); [now eexists|now apply H2].
    + intros b z. rewrite A. destruct (Z.eqb_spec b a) as [->|N]; [intros E; injection E as <-; cbn; lia|]. intros E Lz. rewrite G.
      destruct (Z.eqb_spec (y_fd z) (y_fd y)); [destruct N; now apply (H4 b a z y)|]. now apply (H3 b).
    + intros b c z z'. rewrite !A. destruct (Z.eqb_spec b a) as [->|N]; [intros E; injection E as <-; cbn; lia|]. destruct (Z.eqb_spec c a) as [->|N'].
      * intros _ E. injection E as <-. cbn. lia.
      * apply H4.
    + intros f n b. rewrite G. destruct (Z.eqb_spec f (y_fd y)); [discriminate|]. intros E. destruct (H5 f n b E) as (c & z & C & Z). exists c, z. rewrite A.
      destruct (Z.eqb_spec c a) as [->|]; [congruence|auto].
    + intros f d. rewrite G. destruct (f =? y_fd y); [discriminate|apply H6].
  - exists y, y'. rewrite A, Z.eqb_refl. split; [congruence|]. split; [reflexivity|]. split; [reflexivity|]. cbn. lia.
  - intros b N. rewrite A. now replace (b =? a) with false by lia.
Qed.
Lemma step_inv s o : HInv s -> legal s o -> exists s', pstep s o = Ok s' /\ HInv s'.
Proof.
  intros H. pose proof H as [H1 H2 H3 H4 H5 H6]. destruct s as [w held]. cbn [l_world l_held] in *. destruct o; cbn [legal pstep l_world l_held].
  - (* open *) intros Ev. destruct (open_ends ev w width height Ev H6) as (r & -> & E). cbn [bind]. destruct E as [w' r d L Sf P Pt Nx Ru Kd|w' f d Ef G P Pt Nx Kd Rd].
    + eexists. split; [reflexivity|].
      assert (A : forall a, at_pty w' a = at_pty w a).
      { intros a. destruct Pt as [Pt|Pt]; [unfold at_pty; now rewrite Pt|]. rewrite (at_app w w' None a Pt). destruct (Z.eqb_spec a (zlen (w_ptys w))) as [->|]; [|reflexivity].
        unfold at_pty. destruct (znth (w_ptys w) (zlen (w_ptys w))) eqn:K; [apply znth_Some_range in K; lia|reflexivity]. }
      constructor; cbn [l_world l_held]; intros *; rewrite ?A, ?(Sf _).
      * apply H1. * apply H2. * apply H3. * apply H4. * intros E. destruct (H5 _ _ _ E) as (a & y & X & Y). exists a, y. now rewrite A. * intros g k E. rewrite Sf in E. exact (H6 _ _ E).
    + eexists. split; [reflexivity|]. set (a := zlen (w_ptys w)) in *. set (y0 := mkY 1 f (e_pid ev)) in *.
      assert (A : forall b, at_pty w' b = if b =? a then Ok y0 else at_pty w b) by (intros b; apply (at_app w w' (Some y0) b Pt)).
      assert (Na : ~ In a held).
      { intros Ha. destruct (H2 a Ha) as [y Y]. unfold at_pty in Y. destruct (znth (w_ptys w) a) eqn:K; [apply znth_Some_range in K; unfold a in K; lia|discriminate]. }
      assert (Ca : cnt a held = 0) by (unfold cnt in *; rewrite (count_occ_not_In Z.eq_dec) in Na; lia).
      assert (Fr : fd_get (w_fds w) f = None) by (subst f; apply free_none).
      assert (Fp : 0 <= f) by (subst f; apply free_pos).
      constructor; cbn [l_world l_held].
      * intros b y. rewrite A, cnt_cons. destruct (Z.eqb_spec b a) as [->|]; [|apply H1]. intros E. injection E as <-. cbn. lia.
      * intros b Hb. rewrite A. destruct (Z.eqb_spec b a); [now eexists|]. apply H2. destruct Hb; [congruence|auto].
      * intros b y. rewrite A. destruct (Z.eqb_spec b a) as [->|].
        -- intros E _. injection E as <-. cbn [y_fd y0]. rewrite G, Z.eqb_refl. now eexists.
        -- intros E L. rewrite G. destruct (Z.eqb_spec (y_fd y) f); [now eexists|]. now apply (H3 b).
      * assert (K : forall b y, at_pty w b = Ok y -> 0 <= y_fd y -> y_fd y <> f).
        { intros b y E L X. destruct (H3 b y E L) as [k K]. rewrite X, Fr in K. discriminate. }
        intros b c y z. rewrite !A. destruct (Z.eqb_spec b a) as [->|], (Z.eqb_spec c a) as [->|]; auto.
        -- intros E E' X L. injection E as <-. cbn [y_fd y0] in *. destruct (K c z E'); lia.
        -- intros E E' X L. injection E' as <-. cbn [y_fd y0] in *. destruct (K b y E); lia.
        -- apply H4.
      * intros g k b. rewrite G. destruct (Z.eqb_spec g f) as [->|].
        -- intros _. exists a, y0. now rewrite A, Z.eqb_refl.
        -- intros E. destruct (H5 g k b E) as (c & y & C & Y). exists c, y. rewrite A. destruct (Z.eqb_spec c a) as [->|]; [|auto].
           destruct Na. apply cnt_In. destruct (H1 a y C). lia.
      * intros g k. rewrite G. destruct (g =? f); [intros E; injection E as <-; exact I|apply H6].
  - (* ref *) intros [Ha Hl]. destruct (H2 a Ha) as [y Y]. destruct (H1 a y Y) as [R1 R2]. unfold shl_pty_ref. rewrite Y. cbn [bind].
    replace (y_ref y =? 0) with false by lia. cbn [bind]. eexists. split; [reflexivity|].
    assert (U : u64 (y_ref y + 1) = y_ref y + 1) by (unfold u64; apply Z.mod_small; lia). rewrite U.
    set (y' := mkY (y_ref y + 1) (y_fd y) (y_child y)). pose proof (cnt_le a held).
    assert (A : forall b, at_pty (put_pty w a (Some y')) b = if b =? a then Ok y' else at_pty w b) by (intros b; now rewrite (at_put _ a y)).
    set (w' := put_pty w a (Some y')) in *. assert (F : w_fds w' = w_fds w) by reflexivity. clearbody w'.
    constructor; cbn [l_world l_held]; rewrite ?F.
    + intros b z. rewrite A, cnt_cons. destruct (Z.eqb_spec b a) as [->|]; [|apply H1]. intros E. injection E as <-. cbn [y_ref y']. lia.
    + intros b Hb. rewrite A. destruct (Z.eqb_spec b a); [now eexists|]. apply H2. destruct Hb; [congruence|auto].
    + intros b z. rewrite A. destruct (b =? a); [|apply H3]. intros E. injection E as <-. exact (H3 a y Y).
    + intros b c z z'. rewrite !A. destruct (Z.eqb_spec b a) as [->|], (Z.eqb_spec c a) as [->|]; auto.
      * intros E. injection E as <-. exact (H4 a c y z' Y).
      * intros E E'. injection E' as <-. exact (H4 b a z y E Y).
      * apply H4.
    + intros f n b E. destruct (H5 f n b E) as (c & z & C & Z). destruct (Z.eqb_spec c a) as [->|N].
      * exists a, y'. rewrite A, Z.eqb_refl. split; [reflexivity|]. cbn. congruence.
      * exists c, z. rewrite A. now replace (c =? a) with false by lia.
    + exact H6.
  - (* unref *) intros Ha. destruct (H2 a Ha) as [y Y]. destruct (H1 a y Y) as [R1 R2]. unfold shl_pty_unref. rewrite Y. cbn [bind].
    replace (y_ref y =? 0) with false by lia.
    assert (U : u64 (y_ref y - 1) = y_ref y - 1) by (unfold u64; apply Z.mod_small; lia). rewrite U. clear U. cbv zeta.
    set (y' := mkY (y_ref y - 1) (y_fd y) (y_child y)).
    assert (A : forall b, at_pty (put_pty w a (Some y')) b = if b =? a then Ok y' else at_pty w b) by (intros b; now rewrite (at_put _ a y)).
    set (w' := put_pty w a (Some y')) in *. assert (F : w_fds w' = w_fds w) by reflexivity. clearbody w'.
    destruct (Z.eqb_spec (y_ref y - 1) 0) as [Z0|Z0]; cbn [negb].
    + (* the last *)
      destruct (close_inv (mkCl w held) a H Ha) as (w1 & C1 & I1 & (z0 & z & X0 & X & Xr & Xf) & Rest). cbn [l_world l_held] in *.
      assert (E1 : exists w2, shl_pty_close w' a = Ok w2 /\ (forall b, b <> a -> at_pty w2 b = at_pty w b) /\ w_fds w2 = w_fds w1 /\ exists z', at_pty w2 a = Ok z').
      { unfold shl_pty_close in *. rewrite A, Z.eqb_refl. rewrite Y in C1. cbn [bind y' y_fd] in *. destruct (y_fd y <? 0).
        - exists w'. injection C1 as <-. split; [reflexivity|]. split; [intros b N; rewrite A; now replace (b =? a) with false by lia|]. split; [exact F|]. rewrite A, Z.eqb_refl. now eexists.
        - injection C1 as <-. eexists. split; [reflexivity|]. split; [|split].
          + intros b N. rewrite (at_put _ a y') by (rewrite at_set_fds, A, Z.eqb_refl; reflexivity). replace (b =? a) with false by lia. rewrite at_set_fds, A. now replace (b =? a) with false by lia.
          + unfold w_fds. cbn. unfold w_fds in F. now rewrite F.
          + rewrite (at_put _ a y') by (rewrite at_set_fds, A, Z.eqb_refl; reflexivity). rewrite Z.eqb_refl. now eexists. }
      destruct E1 as (w2 & E2 & R & F2 & z' & Z'). rewrite E2. cbn [bind]. eexists. split; [reflexivity|].
      assert (B : forall b, at_pty (put_pty w2 a None) b = if b =? a then Ub else at_pty w b).
      { intros b. rewrite (at_put _ a z' None b Z'). destruct (Z.eqb_spec b a); [reflexivity|now apply R]. }
      set (w3 := put_pty w2 a None) in *. assert (F3 : w_fds w3 = w_fds w1) by exact F2. clearbody w3. clear E2 Z' R F2 w2.
      assert (Ca : forall b, In b (drop a held) -> b <> a).
      { intros b Hb ->. apply cnt_In in Hb. rewrite cnt_drop, Z.eqb_refl in Hb by exact Ha. lia. }
      destruct I1 as [J1 J2 J3 J4 J5 J6]. cbn [l_world l_held] in *.
      constructor; cbn [l_world l_held]; rewrite ?F3.
      * intros b v. rewrite B, (cnt_drop _ _ _ Ha). destruct (Z.eqb_spec b a); [discriminate|apply H1].
      * intros b Hb. pose proof (Ca b Hb) as N. rewrite B. replace (b =? a) with false by lia. apply H2. apply cnt_In in Hb. rewrite cnt_drop in Hb by exact Ha. replace (b =? a) with false in Hb by lia. now apply cnt_In.
      * intros b v. rewrite B. destruct (Z.eqb_spec b a); [discriminate|]. intros E. rewrite <- Rest in E by auto. now apply (J3 b).
      * intros b c v v'. rewrite !B. destruct (Z.eqb_spec b a); [discriminate|]. destruct (Z.eqb_spec c a); [discriminate|]. apply H4.
      * intros f n b E. destruct (J5 f n b E) as (c & v & C & V). destruct (Z.eq_dec c a) as [->|N].
        -- rewrite X in C. injection C as <-. exfalso. rewrite get_neg in E by lia. discriminate.
        -- exists c, v. rewrite B. replace (c =? a) with false by lia. rewrite <- Rest by auto. auto.
      * exact J6.
    + eexists. split; [reflexivity|]. constructor; cbn [l_world l_held]; rewrite ?F.
      * intros b z. rewrite A, (cnt_drop _ _ _ Ha). destruct (Z.eqb_spec b a) as [->|]; [|apply H1]. intros E. injection E as <-. cbn [y_ref y']. lia.
      * intros b Hb. rewrite A. destruct (Z.eqb_spec b a); [now eexists|]. apply H2. apply cnt_In in Hb. rewrite cnt_drop in Hb by exact Ha. replace (b =? a) with false in Hb by lia. now apply cnt_In.
      * intros b z. rewrite A. destruct (b =? a); [|apply H3]. intros E. injection E as <-. exact (H3 a y Y).
      * intros b c z z'. rewrite !A. destruct (Z.eqb_spec b a) as [->|], (Z.eqb_spec c a) as [->|]; auto.
        -- intros E. injection E as <-. exact (H4 a c y z' Y).
        -- intros E E'. injection E' as <-. exact (H4 b a z y E Y).
        -- apply H4.
      * intros f n b E. destruct (H5 f n b E) as (c & z & C & Z). destruct (Z.eqb_spec c a) as [->|N].
        -- exists a, y'. rewrite A, Z.eqb_refl. split; [reflexivity|]. cbn. congruence.
        -- exists c, z. rewrite A. now replace (c =? a) with false by lia.
      * exact H6.
  - (* close *) intros Ha. destruct (close_inv (mkCl w held) a H Ha) as (w1 & C1 & I1 & _). cbn [l_world l_held] in *. rewrite C1. cbn [bind]. eexists. split; [reflexivity|exact I1].
  - (* other *) intros _. eexists. split; [reflexivity|]. set (t := fst (fd_new (w_fds w) (Other n) cloexec)).
    assert (G : forall g, fd_get t g = if g =? fd_free (w_fds w) then Some (mkF (Other n) cloexec) else fd_get (w_fds w) g) by apply get_new.
    assert (F : w_fds (set_fds w t) = t) by reflexivity.
    constructor; cbn [l_world l_held]; rewrite ?F; intros *; rewrite ?at_set_fds.
    + apply H1. + apply H2.
    + intros E L. destruct (H3 _ _ E L) as [k K]. exists k. rewrite G. destruct (Z.eqb_spec (y_fd y) (fd_free (w_fds w))) as [X|]; [|exact K]. rewrite X, free_none in K. discriminate.
    + apply H4.
    + rewrite G. destruct (_ =? _); [discriminate|apply H5].
    + intros g k. rewrite G. destruct (_ =? _); [intros E; injection E as <-; exact I|apply H6].
  - (* shut *) intros (n & b0 & S). eexists. split; [reflexivity|]. set (t := fd_close (w_fds w) f).
    assert (G : forall g, fd_get t g = if g =? f then None else fd_get (w_fds w) g) by apply get_close.
    assert (F : w_fds (set_fds w t) = t) by reflexivity.
    constructor; cbn [l_world l_held]; rewrite ?F; intros *; rewrite ?at_set_fds.
    + apply H1. + apply H2.
    + intros E L. destruct (H3 _ _ E L) as [k K]. exists k. rewrite G. destruct (Z.eqb_spec (y_fd y) f) as [X|]; [|exact K]. rewrite X, S in K. discriminate.
    + apply H4.
    + rewrite G. destruct (_ =? _); [discriminate|apply H5].
    + intros g k. rewrite G. destruct (_ =? _); [discriminate|apply H6].
Qed.
Lemma preach_inv s : preach s -> HInv s.
Proof.
  induction 1 as [p H|s o s' _ IH L E]; [now apply start_inv|]. destruct (step_inv s o IH L) as (s1 & E1 & I1). congruence.
Qed.
Lemma open_whole s ev x y : preach s -> env_ok ev -> exists w' r out d, shl_pty_open ev (l_world s) x y = Ok (Opened w' r out d) /\
  opens s ev x y w' r out d.
Proof.
  intros P Ev. pose proof (preach_inv s P) as [H1 H2 H3 H4 H5 H6]. destruct (open_ends ev (l_world s) x y Ev H6) as (o & -> & E).
  destruct E as [w' r d L Sf Pr Pt Nx Ru Kd|w' f d Ef G Pr Pt Nx Kd Rd]; do 4 eexists; (split; [reflexivity|]); cbn [opens].
  - split; [exact L|]. split; [exact Sf|]. intros a. destruct Pt as [Pt|Pt]; [unfold at_pty; now rewrite Pt|]. rewrite (at_app _ w' None a Pt).
    destruct (Z.eqb_spec a (zlen (w_ptys (l_world s)))) as [->|]; [|reflexivity].
    unfold at_pty. destruct (znth _ _) eqn:K; [apply znth_Some_range in K; lia|reflexivity].
  - split; [reflexivity|]. set (a := zlen (w_ptys (l_world s))) in *.
    assert (A : forall b, at_pty w' b = if b =? a then Ok (mkY 1 f (e_pid ev)) else at_pty (l_world s) b) by (intros b; apply (at_app _ w' (Some _) b Pt)).
    split.
    { intros Ha. destruct (H2 a Ha) as [z Y]. unfold at_pty in Y. destruct (znth _ a) eqn:K in Y; [apply znth_Some_range in K; unfold a in K; lia|discriminate]. }
    exists f. split; [rewrite A; now rewrite Z.eqb_refl|]. split; [subst f; apply free_none|]. split; [exact G|]. split; [|now exists d].
    intros b N. rewrite A. now replace (b =? a) with false by lia.
Qed.
Lemma open_orphan s ev x y w' r d : preach s -> env_ok ev -> some_std (w_fds (l_world s)) -> shl_pty_open ev (l_world s) x y = Ok (Opened w' r None d) -> ~ runs d.
Proof.
  intros P Ev St E. pose proof (preach_inv s P) as [H1 H2 H3 H4 H5 H6]. destruct (open_ends ev (l_world s) x y Ev H6) as (o & E0 & N).
  rewrite E0 in E. injection E as ->. inversion N as [? ? ? L Sf Pr Pt Nx Ru Kd|]; subst. intros R. now apply Ru.
Qed.
Lemma pty_order s : preach s -> in_order s.
Proof. intros P. apply hi_order, preach_inv, P. Qed.
Lemma pty_defined s o : preach s -> legal s o -> exists s', pstep s o = Ok s'.
Proof. intros P L. destruct (step_inv s o (preach_inv s P) L) as (s' & E & _). now exists s'. Qed.
Lemma pty_end s : preach s -> l_held s = [] -> (forall a, at_pty (l_world s) a = Ub) /\ only_own (w_fds (l_world s)).
Proof.
  intros P H. pose proof (preach_inv s P) as [H1 H2 H3 H4 H5 H6].
  assert (N : forall a y, at_pty (l_world s) a = Ok y -> False).
  { intros a y E. destruct (H1 a y E) as [X Y]. rewrite H in X. change (cnt a []) with 0 in X. lia. }
  split.
  - intros a. destruct (at_pty (l_world s) a) eqn:E; [destruct (N _ _ E)|reflexivity].
  - intros f d E. specialize (H6 f d E). destruct d as [[] b]; cbn in *; try tauto; [|now eexists]. destruct (H5 _ _ _ E) as (a & y & A & _). destruct (N _ _ A).
Qed.
(* Questions about a pty. *)
Lemma pty_query s a : preach s -> In a (l_held s) -> exists b f, shl_pty_is_open (l_world s) a = Ok b /\ shl_pty_get_fd (l_world s) a = Ok f /\
  (if b then open_at s a f else f = -32 /\ forall g, ~ open_at s a g).
Proof.
  intros P Ha. pose proof (preach_inv s P) as [H1 H2 H3 H4 H5 H6]. destruct (H2 a Ha) as [y Y]. unfold shl_pty_is_open, shl_pty_get_fd. rewrite Y. cbn [bind].
  do 2 eexists. do 2 (split; [reflexivity|]). destruct (Z.leb_spec 0 (y_fd y)).
  - exists y. auto.
  - split; [reflexivity|]. intros g (z & Z & E & L). rewrite Y in Z. injection Z as <-. lia.
Qed.
Definition kept (w w' : world) : Prop := forall a y y', at_pty w a = Ok y -> at_pty w' a = Ok y' -> y_child y' = y_child y.
Lemma kept_put w a y y' : at_pty w a = Ok y -> y_child y' = y_child y -> kept w (put_pty w a (Some y')).
Proof. intros E C b z z' Z. rewrite (at_put w a y) by exact E. destruct (Z.eqb_spec b a) as [->|]; intros X; [injection X as <-; congruence|congruence]. Qed.
Lemma close_kept w a w' : shl_pty_close w a = Ok w' -> kept w w'.
Proof.
  unfold shl_pty_close. destruct (at_pty w a) as [y|] eqn:Y; [|discriminate]. cbn [bind]. destruct (y_fd y <? 0); intros E; injection E as <-.
  - intros b z z' X X'. congruence.
  - intros b z z' X. apply (kept_put (set_fds w (fd_close (w_fds w) (y_fd y))) a y); auto.
Qed.
Lemma unref_kept w a w' : shl_pty_unref w a = Ok w' -> kept w w'.
Proof.
  unfold shl_pty_unref. destruct (at_pty w a) as [y|] eqn:Y; [|discriminate]. cbn [bind]. destruct (y_ref y =? 0).
  { intros E. injection E as <-. intros b z z' X X'. congruence. }
  set (y' := mkY (u64 (y_ref y - 1)) (y_fd y) (y_child y)). pose proof (kept_put w a y y' Y eq_refl) as K.
  destruct (negb _); [intros E; now injection E as <-|]. destruct (shl_pty_close _ a) as [w1|] eqn:C; [|discriminate]. cbn [bind]. intros E. injection E as <-.
  pose proof (close_kept _ _ _ C) as K1. intros b z z' X X'.
  assert (N : at_pty (put_pty w1 a None) a = Ub).
  { unfold at_pty, put_pty, set_ptys. cbn [w_ptys]. rewrite znth_zupd, Z.eqb_refl. now destruct (znth (w_ptys w1) a). }
  assert (b <> a) as Nb by congruence.
  assert (X1 : at_pty w1 b = Ok z').
  { revert X'. unfold at_pty, put_pty, set_ptys. cbn [w_ptys]. rewrite znth_zupd. now replace (b =? a) with false by lia. }
  assert (X2 : at_pty (put_pty w a (Some y')) b = Ok z) by (rewrite (at_put w a y) by exact Y; now replace (b =? a) with false by lia).
  exact (K1 b z z' X2 X1).
Qed.
Lemma pty_child s o s' a : preach s -> legal s o -> pstep s o = Ok s' -> In a (l_held s) -> In a (l_held s') ->
  shl_pty_get_child (l_world s') a = shl_pty_get_child (l_world s) a.
Proof.
  intros P L E Ha Ha'. assert (P' : preach s') by exact (pr_step s o s' P L E).
  destruct (hi_held s (preach_inv s P) a Ha) as [y Y]. destruct (hi_held s' (preach_inv s' P') a Ha') as [y' Y'].
  unfold shl_pty_get_child. rewrite Y, Y'. cbn [bind]. enough (K : y_child y' = y_child y) by now rewrite K.
  destruct o; cbn [pstep] in E.
  - destruct (open_whole s ev width height P L) as (w' & r & out & d & E0 & O). rewrite E0 in E. cbn [bind] in E. injection E as <-. cbn [l_world] in *.
    destruct out as [b|]; cbn [opens] in O.
    + destruct O as (_ & N & f & _ & _ & _ & K & _). rewrite K in Y' by (intros ->; tauto). congruence.
    + destruct O as (_ & _ & K). rewrite K in Y'. congruence.
  - unfold shl_pty_ref in E. destruct (at_pty (l_world s) a0) as [z|] eqn:Z; [|discriminate]. cbn [bind] in E.
    destruct (y_ref z =? 0); cbn [bind] in E; injection E as <-; cbn [l_world] in *; [congruence|]. exact (kept_put _ a0 z (mkY _ _ (y_child z)) Z eq_refl a y y' Y Y').
  - destruct (shl_pty_unref _ a0) as [w|] eqn:U; [|discriminate]. cbn [bind] in E. injection E as <-. exact (unref_kept _ _ _ U a y y' Y Y').
  - destruct (shl_pty_close _ a0) as [w|] eqn:U; [|discriminate]. cbn [bind] in E. injection E as <-. exact (close_kept _ _ _ U a y y' Y Y').
  - injection E as <-. cbn [l_world] in Y'. rewrite at_set_fds in Y'. congruence.
  - injection E as <-. cbn [l_world] in Y'. rewrite at_set_fds in Y'. congruence.
Qed.
Lemma pty_born s ev x y w' r a d : preach s -> env_ok ev -> shl_pty_open ev (l_world s) x y = Ok (Opened w' r (Some a) d) -> shl_pty_get_child w' a = Ok r.
Proof.
  intros P Ev E. destruct (open_whole s ev x y P Ev) as (w1 & r1 & o1 & d1 & E1 & O). rewrite E in E1. injection E1 as <- <- <- <-.
  destruct O as (-> & _ & f & A & _). unfold shl_pty_get_child. rewrite A. cbn [bind y_child]. pose proof (ek_pid ev Ev). now replace (0 <? e_pid ev) with true by lia.
Qed.
