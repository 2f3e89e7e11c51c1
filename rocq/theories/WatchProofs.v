(* The bridge's pointers. *)
From Verif Require Import Base BaseProofs Spawn SpawnSpec SpawnProofs SpawnThms Watch WatchSpec.

(* What calls other than opening do, where T is the pty that is closed. *)
Definition frame (T : Z -> Prop) (w w' : world) : Prop :=
  w_next w' = w_next w /\
  (forall g n c, fd_get (w_fds w') g = Some (mkF (Master n) c) -> fd_get (w_fds w) g = Some (mkF (Master n) c)) /\
  (forall b y, ~ T b -> at_pty w b = Ok y -> exists y', at_pty w' b = Ok y' /\ y_fd y' = y_fd y) /\
  (forall b y, T b -> at_pty w b = Ok y -> fd_get (w_fds w') (y_fd y) = None).
Lemma close_frame w a w' : shl_pty_close w a = Ok w' -> frame (eq a) w w'.
Proof.
  unfold shl_pty_close. destruct (at_pty w a) as [y|] eqn:Y; [|discriminate]. cbn [bind]. destruct (Z.ltb_spec (y_fd y) 0) as [L|L]; intros E; injection E as <-.
  - split; [reflexivity|]. split; [auto|]. split; [intros b z _ Z; now exists z|]. intros b z <- Z. rewrite Y in Z. injection Z as <-. now apply get_neg.
  - split; [reflexivity|]. split; [|split].
    + intros g n c. change (w_fds (put_pty _ _ _)) with (fd_close (w_fds w) (y_fd y)). rewrite get_close. destruct (_ =? _); [discriminate|auto].
    + intros b z N Z. rewrite (at_put _ a y) by exact Y. replace (b =? a) with false by lia. now exists z.
    + intros b z <- Z. rewrite Y in Z. injection Z as <-. change (w_fds (put_pty _ _ _)) with (fd_close (w_fds w) (y_fd y)). rewrite get_close. now rewrite Z.eqb_refl.
Qed.
Lemma unref_frame w held a w' : HInv (mkCl w held) -> In a held -> shl_pty_unref w a = Ok w' -> frame (fun b => b = a /\ ~ In a (drop a held)) w w'.
Proof.
  intros [H1 H2 _ _ _ _] Ha. cbn [l_world l_held] in *. destruct (H2 a Ha) as [y Y]. destruct (H1 a y Y) as [R1 R2]. unfold shl_pty_unref. rewrite Y. cbn [bind].
  replace (y_ref y =? 0) with false by lia.
  assert (U : u64 (y_ref y - 1) = y_ref y - 1) by (unfold u64; apply Z.mod_small; lia). rewrite U. clear U. cbv zeta.
  set (y' := mkY (y_ref y - 1) (y_fd y) (y_child y)).
  assert (A : forall b, at_pty (put_pty w a (Some y')) b = if b =? a then Ok y' else at_pty w b) by (intros b; now rewrite (at_put _ a y)).
  pose proof (cnt_drop a a held Ha) as Cd. rewrite Z.eqb_refl in Cd.
  destruct (Z.eqb_spec (y_ref y - 1) 0) as [Z0|Z0]; cbn [negb].
  - assert (Nd : ~ In a (drop a held)) by (rewrite cnt_In; lia).
    destruct (shl_pty_close _ a) as [w1|] eqn:C; [|discriminate]. cbn [bind]. intros E. injection E as <-.
    destruct (close_frame _ _ _ C) as (F1 & F2 & F3 & F4).
    split; [exact F1|]. split; [exact F2|]. split.
    + intros b z N Z. assert (b <> a) as Nb by tauto. destruct (F3 b z) as (z' & Z' & Ez); [congruence|rewrite A; now replace (b =? a) with false by lia|].
      exists z'. split; [|exact Ez]. revert Z'. unfold at_pty, put_pty, set_ptys. cbn [w_ptys]. rewrite znth_zupd. now replace (b =? a) with false by lia.
    + intros b z [-> _] Z. rewrite Y in Z. injection Z as <-. apply (F4 a y' eq_refl). rewrite A. now rewrite Z.eqb_refl.
  - assert (Nd : In a (drop a held)) by (rewrite cnt_In; lia). intros E. injection E as <-.
    split; [reflexivity|]. split; [auto|]. split.
    + intros b z _ Z. rewrite A. destruct (Z.eqb_spec b a) as [->|]; [exists y'; rewrite Y in Z; now injection Z as <-|now exists z].
    + intros b z [_ K]. tauto.
Qed.
(* The pty a call closes. *)
Definition closes (u : user) (o : pcall) (b : Z) : Prop :=
  match o with PClose a => b = a | PUnref a => b = a /\ ~ In a (drop a (u_held u)) | _ => False end.
Lemma pstep_frame u o s' : HInv (u_client u) -> legal (u_client u) o -> match o with POpen _ _ _ => False | _ => True end -> pstep (u_client u) o = Ok s' ->
  frame (closes u o) (b_world (u_bridge u)) (l_world s').
Proof.
  intros H L No E. destruct u as [[w ks st] held wd]. unfold u_client in *. cbn [u_bridge b_world u_held] in *. destruct o; cbn [pstep l_world l_held legal closes u_held] in *; [destruct No| | | | |].
  - unfold shl_pty_ref in E. destruct (at_pty w a) as [y|] eqn:Y; [|discriminate]. cbn [bind] in E. destruct (y_ref y =? 0); cbn [bind] in E; injection E as <-; cbn [l_world].
    + split; [reflexivity|]. split; [auto|]. split; [intros b z _ Z; now exists z|intros b z []].
    + split; [reflexivity|]. split; [auto|]. split; [|intros b z []]. intros b z _ Z. rewrite (at_put _ a y) by exact Y.
      destruct (Z.eqb_spec b a) as [->|]; [|now exists z]. eexists. split; [reflexivity|]. cbn. congruence.
  - destruct (shl_pty_unref w a) as [w'|] eqn:U; [|discriminate]. cbn [bind] in E. injection E as <-. cbn [l_world]. exact (unref_frame w held a w' H L U).
  - destruct (shl_pty_close w a) as [w'|] eqn:U; [|discriminate]. cbn [bind] in E. injection E as <-. cbn [l_world].
    destruct (close_frame w a w' U) as (F1 & F2 & F3 & F4). split; [exact F1|]. split; [exact F2|]. split; intros b y X; [apply F3|apply F4]; congruence.
  - injection E as <-. cbn [l_world]. split; [reflexivity|]. split; [|split; [intros b z _ Z; now exists z|intros b z []]].
    intros g k c. change (w_fds (set_fds _ _)) with (fst (fd_new (w_fds w) (Other n) cloexec)). rewrite get_new. destruct (_ =? _); [discriminate|auto].
  - injection E as <-. cbn [l_world]. split; [reflexivity|]. split; [|split; [intros b z _ Z; now exists z|intros b z []]].
    intros g k c. change (w_fds (set_fds _ _)) with (fd_close (w_fds w) f). rewrite get_close. destruct (_ =? _); [discriminate|auto].
Qed.

(* Masters of the caller: numbered below the next, one descriptor each. *)
Definition numbered (w : world) : Prop :=
  (forall f n c, fd_get (w_fds w) f = Some (mkF (Master n) c) -> n < w_next w) /\
  (forall f g n c d, fd_get (w_fds w) f = Some (mkF (Master n) c) -> fd_get (w_fds w) g = Some (mkF (Master n) d) -> f = g).
Definition good (u : user) (e : entry) : Prop :=
  In (n_ptr e) (u_watched u) /\ exists y c, at_pty (b_world (u_bridge u)) (n_ptr e) = Ok y /\ y_fd y = n_fd e /\
    fd_get (w_fds (b_world (u_bridge u))) (n_fd e) = Some (mkF (Master (n_file e)) c).
Record WInv (u : user) : Prop := mkWI {
  wi_h : HInv (u_client u); wi_num : numbered (b_world (u_bridge u));
  wi_set : forall e, In e (b_set (u_bridge u)) -> good u e }.

Lemma has_master_false n t : (forall g d, fd_get t g <> Some (mkF (Master n) d)) -> has_master n t = false.
Proof.
  intros H. unfold has_master. apply not_true_is_false. intros K. apply existsb_exists in K. destruct K as (x & Hx & K).
  apply In_znth in Hx. destruct Hx as [i I]. destruct x as [[[] b]|]; try discriminate. apply Z.eqb_eq in K. subst n0. apply (H i b). unfold fd_get. now rewrite I.
Qed.
Lemma settle_in b e : In e (b_set (settle b)) -> In e (b_set b) /\
  (has_master (n_file e) (w_fds (b_world b)) = true \/ existsb (has_master (n_file e)) (b_kids b) = true).
Proof. unfold settle, set_set. cbn [b_set]. rewrite filter_In, orb_true_iff. tauto. Qed.
Lemma winv_sub b held wd set' kids' : WInv (mkU b held wd) -> (forall e, In e set' -> In e (b_set b)) -> WInv (mkU (mkB (b_world b) kids' set') held wd).
Proof. intros [H N S] K. constructor; [exact H|exact N|]. intros e He. exact (S e (K e He)). Qed.

Lemma frame_inv u o s' : WInv u -> legal (u_client u) o -> careful u (WP o) -> match o with POpen _ _ _ => False | _ => True end -> pstep (u_client u) o = Ok s' ->
  WInv (mkU (settle (set_world (u_bridge u) (l_world s'))) (l_held s') (u_watched u)).
Proof.
  intros [H [N1 N2] S] L Cf No E. destruct (step_inv _ o H L) as (s1 & E1 & H'). rewrite E in E1. injection E1 as <-.
  pose proof (pstep_frame u o s' H L No E) as (F1 & F2 & F3 & F4).
  constructor.
  - destruct s'. exact H'.
  - change (b_world _) with (l_world s'). split.
    + intros f n c K. rewrite F1. exact (N1 f n c (F2 _ _ _ K)).
    + intros f g n c d K K'. exact (N2 f g n c d (F2 _ _ _ K) (F2 _ _ _ K')).
  - cbn [u_bridge]. intros e He. apply settle_in in He. cbn [set_world b_set b_world b_kids] in He. destruct He as [He Hm].
    destruct (S e He) as (W & y & c & Y & Yf & G). split; [exact W|]. change (b_world _) with (l_world s'). cbn [u_bridge].
    assert (Dec : closes u o (n_ptr e) \/ ~ closes u o (n_ptr e)).
    { destruct o; cbn [closes]; try tauto; [|destruct (Z.eq_dec (n_ptr e) a); tauto].
      destruct (Z.eq_dec (n_ptr e) a); [|tauto]. destruct (in_dec Z.eq_dec a (drop a (u_held u))); tauto. }
    destruct Dec as [T|T].
    + exfalso. assert (A : alone u (n_ptr e)).
      { destruct o; cbn [closes careful] in *; try tauto; [destruct T as [<- T]|subst a]; tauto. }
      assert (Op : open_at (u_client u) (n_ptr e) (n_fd e)).
      { exists y. split; [exact Y|]. split; [exact Yf|]. destruct (Z.ltb_spec (n_fd e) 0) as [X|X]; [rewrite get_neg in G by exact X; discriminate|exact X]. }
      destruct Hm as [Hm|Hm].
      * rewrite has_master_false in Hm; [discriminate|]. intros g d K. pose proof (F2 _ _ _ K) as K0. assert (g = n_fd e) by exact (N2 _ _ _ _ _ K0 G). subst g.
        rewrite <- Yf, (F4 _ y T Y) in K. discriminate.
      * apply existsb_exists in Hm. destruct Hm as (t & Ht & K). rewrite has_master_false in K; [discriminate|]. intros g d. exact (A (n_fd e) (n_file e) c t g d Op G Ht).
    + destruct (F3 _ y T Y) as (y' & Y' & Ef). exists y'. 
      assert (X : 0 <= y_fd y') by (destruct (Z.ltb_spec (n_fd e) 0) as [X|X]; [rewrite get_neg in G by exact X; discriminate|lia]).
      destruct (hi_open s' H' _ y' Y' X) as [k K]. exists true. split; [exact Y'|]. split; [congruence|]. pose proof (F2 _ _ _ K) as K0.
      replace (y_fd y') with (n_fd e) in * by congruence. rewrite G in K0. injection K0 as -> ->. exact K.
Qed.
Lemma open_inv u ev x y : WInv u -> env_ok ev -> exists s', pstep (u_client u) (POpen ev x y) = Ok s' /\ exists w' r out d,
  shl_pty_open ev (b_world (u_bridge u)) x y = Ok (Opened w' r out d) /\ l_world s' = w' /\
  WInv (mkU (settle (child_added (set_world (u_bridge u) w') d)) (l_held s') (u_watched u)).
Proof.
  intros [H [N1 N2] S] Ev. destruct (step_inv _ (POpen ev x y) H Ev) as (s1 & E1 & H'). exists s1. split; [exact E1|].
  pose proof H as [H1 H2 H3 H4 H5 H6]. destruct (open_ends ev (b_world (u_bridge u)) x y Ev H6) as (o & E & N). cbn [pstep u_client l_world] in E1. rewrite E in E1. cbn [bind] in E1.
  assert (Sub : forall w' d h wd, HInv (mkCl w' h) -> numbered w' -> (forall e, In e (b_set (u_bridge u)) -> good (mkU (set_world (u_bridge u) w') h wd) e) ->
            WInv (mkU (settle (child_added (set_world (u_bridge u) w') d)) h wd)).
  { intros w' d h wd A B C. assert (I : WInv (mkU (set_world (u_bridge u) w') h wd)) by (constructor; auto).
    destruct d as [[c k|c]|]; cbn [child_added]; (eapply (winv_sub (set_world (u_bridge u) w')); [exact I|]; intros e He; apply (settle_in) in He; exact (proj1 He)). }
  destruct N as [w' r d L Sf P Pt Nx Ru Kd|w' f d Ef G P Pt Nx Kd Rd]; injection E1 as <-; do 4 eexists; (split; [exact E|]); (split; [reflexivity|]); cbn [l_held u_client] in *; apply Sub; try exact H'.
  - split; intros *; rewrite !Sf; [|apply N2]. intros K. specialize (N1 _ _ _ K). lia.
  - intros e He. destruct (S e He) as (W & z & c & Z & Zf & K). split; [exact W|]. exists z, c. change (b_world _) with w'. rewrite Sf. split; [|auto].
    destruct Pt as [Pt|Pt]; [unfold at_pty in *; now rewrite Pt|]. rewrite (at_app _ w' None _ Pt). destruct (Z.eqb_spec (n_ptr e) (zlen (w_ptys (b_world (u_bridge u))))) as [X|]; [|exact Z].
    exfalso. unfold at_pty in Z. destruct (znth _ (n_ptr e)) eqn:Q in Z; [apply znth_Some_range in Q; lia|discriminate].
  - split; intros *; rewrite !G.
    + rewrite Nx. destruct (f0 =? f); [intros X; injection X as <- <-; lia|]. intros K. specialize (N1 _ _ _ K). lia.
    + destruct (Z.eqb_spec f0 f), (Z.eqb_spec g f); subst; auto.
      * intros X K. injection X as <- <-. specialize (N1 _ _ _ K). lia.
      * intros K X. injection X as <- <-. specialize (N1 _ _ _ K). lia.
      * apply N2.
  - intros e He. destruct (S e He) as (W & z & c & Z & Zf & K). split; [exact W|]. exists z, c. change (b_world _) with w'. rewrite G.
    assert (n_fd e <> f) by (intros X; rewrite X, Ef, free_none in K; discriminate). replace (n_fd e =? f) with false by lia. split; [|auto].
    rewrite (at_app _ w' (Some _) _ Pt). destruct (Z.eqb_spec (n_ptr e) (zlen (w_ptys (b_world (u_bridge u))))) as [X|]; [|exact Z].
    exfalso. unfold at_pty in Z. destruct (znth _ (n_ptr e)) eqn:Q in Z; [apply znth_Some_range in Q; lia|discriminate].
Qed.
Lemma good_watch b held wd wd' e : (forall a, In a wd -> In a wd') -> good (mkU b held wd) e -> good (mkU b held wd') e.
Proof. intros K [W X]. split; [now apply K|exact X]. Qed.
Lemma add_inv b held wd a f mem : WInv (mkU b held wd) -> (forall y, at_pty (b_world b) a = Ok y -> 0 <= f -> y_fd y = f) -> In a held ->
  WInv (mkU (ep_add b f a mem) held (a :: wd)).
Proof.
  intros [H N S] Hf Ha. pose proof (hi_held _ H a Ha) as [y Y]. cbn [u_client l_world u_bridge] in *.
  assert (I : WInv (mkU b held (a :: wd))) by (constructor; [exact H|exact N|]; intros e He; apply (good_watch b held wd); [intros c Hc; now right|auto]).
  unfold ep_add. destruct (fd_get (w_fds (b_world b)) f) as [[[] cl]|] eqn:G; try exact I. destruct (_ || _); [exact I|].
  constructor; [exact H|exact N|]. cbn [u_bridge set_set b_set]. intros e [<-|He]; [|exact (wi_set _ I e He)].
  split; [now left|]. exists y, cl. cbn [n_ptr n_fd n_file u_bridge set_set b_world]. split; [exact Y|]. split; [|exact G].
  apply Hf; [exact Y|]. destruct (Z.ltb_spec f 0) as [X|X]; [rewrite get_neg in G by exact X; discriminate|exact X].
Qed.
Lemma wc_inv u c : WInv u -> wc_legal u c -> careful u c -> exists u', wc_step u c = Ok u' /\ WInv u'.
Proof.
  intros I L Cf. destruct c as [o|a mem|a|i en]; cbn [wc_legal wc_step] in *.
  - destruct o as [ev x y|a|a|a|n cl|f].
    { destruct (open_inv u ev x y I L) as (s' & E & w' & r & out & d & E' & W & I'). rewrite E. cbn [bind]. rewrite E'. cbn [bind]. eexists. split; [reflexivity|]. now rewrite W. }
    all: match goal with |- context [pstep ?s ?o] => destruct (step_inv s o (wi_h u I) L) as (s' & E & _); rewrite E; cbn [bind];
           eexists; (split; [reflexivity|]); exact (frame_inv u o s' I L Cf Logic.I E) end.
  - destruct u as [b held wd]. cbn [u_bridge u_held u_watched] in *. destruct (hi_held _ (wi_h _ I) a L) as [y Y]. cbn [u_client l_world u_bridge] in Y.
    unfold shl_pty_bridge_add, shl_pty_is_open, shl_pty_get_fd. rewrite Y. cbn [bind]. destruct (Z.leb_spec 0 (y_fd y)); cbn [negb bind]; (eexists; split; [reflexivity|]).
    + apply add_inv; auto. intros z Z _. congruence.
    + destruct I as [H1 H2 H3]. constructor; [exact H1|exact H2|]. intros e He. apply (good_watch b held wd); [intros c Hc; now right|auto].
  - destruct u as [b held wd]. unfold unwatched. cbn [u_bridge u_held u_watched] in *. destruct (hi_held _ (wi_h _ I) a L) as [y Y]. cbn [u_client l_world u_bridge] in Y.
    unfold shl_pty_bridge_remove, shl_pty_is_open, shl_pty_get_fd. rewrite Y. cbn [bind]. destruct (Z.leb_spec 0 (y_fd y)) as [Lf|Lf]; cbn [negb bind]; (eexists; split; [reflexivity|]); [|exact I].
    destruct (hi_open _ (wi_h _ I) a y Y Lf) as [n G]. cbn [u_client l_world u_bridge] in G. unfold ep_del. rewrite G.
    destruct I as [H1 H2 H3]. constructor; [exact H1|exact H2|]. cbn [u_bridge set_set b_set]. intros e He. apply filter_In in He. destruct He as [He K].
    destruct (H3 e He) as (W & z & c & Z & Zf & Ge). split; [|exists z, c; auto]. cbn [u_watched] in *. apply filter_In. split; [exact W|].
    destruct (Z.eqb_spec (n_ptr e) a) as [X|]; [|reflexivity]. exfalso. cbn [u_bridge] in Z, Ge. rewrite X, Y in Z. injection Z as <-. rewrite <- Zf, G in Ge. injection Ge as En Ec.
    rewrite <- En, Zf, !Z.eqb_refl in K. discriminate.
  - eexists. split; [reflexivity|]. destruct u as [b held wd]. cbn [u_bridge u_held u_watched]. unfold settle, child_exec, set_kids, set_set. cbn [b_world b_kids b_set].
    apply winv_sub; [exact I|]. intros e He. apply filter_In in He. tauto.
Qed.
Lemma wcs_inv cs : forall u, WInv u -> all_legal true u cs -> exists u', wc_steps u cs = Ok u' /\ WInv u'.
Proof.
  induction cs as [|c cs IH]; intros u I L; [now exists u|]. destruct L as (L & Cf & R). destruct (wc_inv u c I L (Cf eq_refl)) as (u1 & E & I1).
  cbn [wc_steps]. rewrite E. cbn [bind]. exact (IH u1 I1 (R u1 E)).
Qed.
Lemma dispatched_inv u a cs stop mem : WInv u -> In a (u_held u) -> cb_legal true u a cs ->
  exists u', dispatched u a cs (fun cb => shl_pty_bridge_dispatch_pty (u_bridge u) a cb stop mem) = Ok u' /\ WInv u'.
Proof.
  intros I Ha [L R]. destruct (hi_held _ (wi_h _ I) a Ha) as [y Y]. cbn [u_client l_world] in Y.
  unfold dispatched, shl_pty_bridge_dispatch_pty, shl_pty_is_open. rewrite Y. cbn [bind]. destruct (Z.leb_spec 0 (y_fd y)) as [Lf|Lf]; cbn [negb bind].
  2: { eexists. split; [reflexivity|]. now destruct u. }
  destruct (wcs_inv cs u I L) as (v & E & Iv). rewrite E. cbn [bind]. specialize (R Ha v E). destruct (hi_held _ (wi_h _ Iv) a R) as [z Z]. cbn [u_client l_world] in Z.
  unfold shl_pty_get_fd. rewrite Z. cbn [bind]. eexists. split; [reflexivity|]. destruct v as [b held wd]. cbn [u_bridge u_held u_watched] in *. destruct stop.
  - apply add_inv; auto. intros z' Z'. rewrite Z in Z'. injection Z' as <-. destruct (Z.leb_spec 0 (y_fd z)); lia.
  - destruct Iv as [H1 H2 H3]. constructor; [exact H1|exact H2|]. intros e He. apply (good_watch b held wd); [intros c Hc; now right|auto].
Qed.
Lemma good_held u e : WInv u -> good u e -> In (n_ptr e) (u_held u).
Proof. intros I (W & y & c & Y & _). destruct (hi_ref _ (wi_h _ I) _ y Y). apply cnt_In. cbn in *. lia. Qed.
Lemma w_inv u o : WInv u -> w_legal true u o -> exists u', w_step u o = Ok u' /\ WInv u'.
Proof.
  intros I L. destruct o as [c|k cs stop mem|a cs stop mem]; cbn [w_legal w_step] in *.
  - apply wc_inv; tauto.
  - destruct (znth (b_set (u_bridge u)) k) as [e|] eqn:K; [|now exists u].
    assert (He : In e (b_set (u_bridge u))) by exact (znth_In _ _ _ K). specialize (L e eq_refl).
    destruct (dispatched_inv u (n_ptr e) cs stop mem I (good_held u e I (wi_set u I e He)) L) as (u' & E & I'). exists u'. split; [|exact I'].
    rewrite <- E. unfold shl_pty_bridge_dispatch. now rewrite K.
  - destruct L as [Ha L]. now apply dispatched_inv.
Qed.
Lemma begin_inv p : only_own (p_fds p) -> WInv (begin p).
Proof.
  intros H. constructor; [exact (start_inv p H)| |intros e []]. split; intros *; intros K; destruct (H _ _ K) as [k X]; discriminate.
Qed.
Lemma wreach_inv u : wreach true u -> WInv u.
Proof. induction 1 as [p H|u o u' _ IH L E]; [now apply begin_inv|]. destruct (w_inv u o IH L) as (u1 & E1 & I). congruence. Qed.
Lemma watch_defined u o : wreach true u -> w_legal true u o -> exists u', w_step u o = Ok u'.
Proof. intros R L. destruct (w_inv u o (wreach_inv u R) L) as (u' & E & _). now exists u'. Qed.
Lemma watch_points u : wreach true u -> points u.
Proof.
  intros R e He. pose proof (wreach_inv u R) as I. pose proof (wi_set u I e He) as G. split; [exact (good_held u e I G)|].
  destruct G as (W & y & c & Y & Yf & K). split; [exact W|]. exists y. split; [exact Y|]. split; [exact Yf|].
  destruct (Z.ltb_spec (n_fd e) 0) as [X|X]; [rewrite get_neg in K by exact X; discriminate|exact X].
Qed.
