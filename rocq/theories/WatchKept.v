(* What is watched: from adding to removing. *)
From Verif Require Import Base BaseProofs Spawn SpawnSpec SpawnProofs SpawnThms Watch WatchSpec WatchProofs.

Lemma got_master n t g d : fd_get t g = Some (mkF (Master n) d) -> has_master n t = true.
Proof.
  intros K. apply existsb_exists. unfold fd_get in K. destruct (znth t g) as [x|] eqn:Z; [|discriminate]. exists x. split; [exact (znth_In _ _ _ Z)|]. subst x. apply Z.eqb_refl.
Qed.
Lemma added u a f : wreach true u -> In a (u_held u) -> open_at (u_client u) a f ->
  exists u', w_step u (WCall (WAdd a true)) = Ok u' /\ u_held u' = u_held u /\ forall b, watches u' b <-> watches u b \/ b = a.
Proof.
  intros R Ha (y & Y & Yf & Lf). pose proof (wreach_inv u R) as [H _ S]. destruct u as [b held wd]. cbn [u_client l_world u_bridge u_held u_watched] in *.
  cbn [w_step wc_step u_bridge u_held u_watched]. unfold shl_pty_bridge_add, shl_pty_is_open, shl_pty_get_fd. rewrite Y. cbn [bind]. rewrite Yf. replace (0 <=? f) with true by lia. cbn [negb bind].
  eexists. split; [reflexivity|]. split; [reflexivity|]. destruct (hi_open _ H a y Y ltac:(lia)) as [n G]. cbn [u_client l_world u_bridge] in G. rewrite Yf in G. unfold ep_add. rewrite G. cbn [negb]. rewrite orb_false_r.
  unfold watches. cbn [u_bridge]. destruct (existsb _ (b_set b)) eqn:X.
  - intros c. split; [tauto|]. intros [K| ->]; [exact K|]. apply existsb_exists in X. destruct X as (e & He & Q). exists e. split; [exact He|].
    destruct (S e He) as (_ & z & d & Z & Zf & _). cbn [u_bridge] in Z. apply (hi_apart _ H (n_ptr e) a z y); cbn [u_client l_world u_bridge]; auto; lia.
  - intros c. cbn [set_set b_set]. split.
    + intros (e & [<-|He] & <-); [now right|left; now exists e].
    + intros [(e & He & <-)| ->]; [exists e; split; [now right|reflexivity]|eexists; split; [left; reflexivity|reflexivity]].
Qed.
Lemma removed_one u a f : wreach true u -> In a (u_held u) -> open_at (u_client u) a f ->
  exists u', w_step u (WCall (WRemove a)) = Ok u' /\ u_held u' = u_held u /\ forall b, watches u' b <-> watches u b /\ b <> a.
Proof.
  intros R Ha (y & Y & Yf & Lf). pose proof (wreach_inv u R) as [H _ S]. destruct u as [b held wd]. cbn [u_client l_world u_bridge u_held u_watched] in *.
  cbn [w_step wc_step u_bridge u_held u_watched]. unfold shl_pty_bridge_remove, unwatched, shl_pty_is_open, shl_pty_get_fd. cbn [u_bridge]. rewrite Y. cbn [bind]. rewrite Yf. replace (0 <=? f) with true by lia. cbn [negb bind].
  eexists. split; [reflexivity|]. split; [reflexivity|]. destruct (hi_open _ H a y Y ltac:(lia)) as [n G]. cbn [u_client l_world u_bridge] in G. rewrite Yf in G. unfold ep_del. rewrite G.
  unfold watches. cbn [u_bridge set_set b_set]. intros c. split.
  - intros (e & He & <-). apply filter_In in He. destruct He as [He Q]. split; [now exists e|]. intros X. destruct (S e He) as (_ & z & d & Z & Zf & K). cbn [u_bridge] in Z, K.
    rewrite X, Y in Z. injection Z as <-. rewrite <- Zf, Yf, G in K. injection K as En Ec. rewrite <- En, <- Zf, Yf, !Z.eqb_refl in Q. discriminate.
  - intros [(e & He & <-) N]. exists e. split; [|reflexivity]. apply filter_In. split; [exact He|]. destruct ((n_file e =? n) && (n_fd e =? f)) eqn:Q; [|reflexivity]. exfalso. apply N.
    destruct (S e He) as (_ & z & d & Z & Zf & _). cbn [u_bridge] in Z. apply (hi_apart _ H (n_ptr e) a z y); cbn [u_client l_world u_bridge]; auto; lia.
Qed.
Lemma kept_entry b e : In e (b_set b) -> has_master (n_file e) (w_fds (b_world b)) = true -> In e (b_set (settle b)).
Proof. intros He K. unfold settle, set_set. cbn [b_set]. apply filter_In. split; [exact He|]. now rewrite K. Qed.
Lemma kept u c u' a : wreach true u -> w_legal true u (WCall c) -> w_step u (WCall c) = Ok u' -> ~ ends_watch u c a -> watches u a -> watches u' a.
Proof.
  intros R [L _] E N (e & He & <-). pose proof (wreach_inv u R) as W. pose proof W as [H [N1 N2] S]. destruct (S e He) as (_ & y & d & Y & Yf & G). cbn [w_step] in E. destruct c as [o|b mem|b|i ends]; cbn [wc_step wc_legal ends_watch] in *.
  - destruct (pstep (u_client u) o) as [s'|] eqn:P; [|discriminate]. cbn [bind] in E.
    assert (D : (exists ev x yy, o = POpen ev x yy) \/ match o with POpen _ _ _ => False | _ => True end) by (destruct o; [left; eauto|right; exact I..]).
    destruct D as [(ev & x & yy & ->)|D].
    + destruct (open_inv u ev x yy W L) as (s1 & P1 & w' & r & out & dd & O & Ew & _). rewrite P in P1. injection P1 as <-. rewrite O in E. cbn [bind] in E. injection E as <-.
      exists e. split; [|reflexivity]. cbn [u_bridge]. apply kept_entry.
      * destruct dd as [[? ?|?]|]; exact He.
      * replace (b_world (child_added (set_world (u_bridge u) (l_world s')) dd)) with (l_world s') by (destruct dd as [[? ?|?]|]; reflexivity). rewrite Ew.
        destruct (open_ends ev (b_world (u_bridge u)) x yy L (hi_kinds _ H)) as (o & O' & En). rewrite O in O'. injection O' as <-.
        apply (got_master _ _ (n_fd e) d). inversion En as [? ? ? _ Sf|? f ? Ef Gf]; subst.
        -- now rewrite Sf.
        -- rewrite Gf. match goal with |- context [?p =? ?q] => destruct (Z.eqb_spec p q) as [X|X] end; [|exact G]. exfalso. rewrite X, free_none in G. discriminate.
    + pose proof (pstep_frame u o s' H L D P) as (F1 & F2 & F3 & F4).
      assert (Nc : ~ closes u o (n_ptr e)) by (destruct o; cbn [closes ends_watch] in *; try tauto; [intros [X1 X2]; apply N; auto|intros X1; apply N; auto]).
      destruct (F3 _ y Nc Y) as (y' & Y' & Ef). destruct (step_inv _ o H L) as (s1 & E1 & H'). rewrite P in E1. injection E1 as <-.
      assert (X : 0 <= y_fd y') by (destruct (Z.ltb_spec (n_fd e) 0) as [X|X]; [rewrite get_neg in G by exact X; discriminate|lia]).
      destruct (hi_open s' H' _ y' Y' X) as [k K]. pose proof (F2 _ _ _ K) as K0. replace (y_fd y') with (n_fd e) in * by congruence. rewrite G in K0. injection K0 as Ek Ed. subst k.
      assert (Q : watches (mkU (settle (set_world (u_bridge u) (l_world s'))) (l_held s') (u_watched u)) (n_ptr e)).
      { exists e. split; [|reflexivity]. cbn [u_bridge]. apply kept_entry; [exact He|]. cbn [set_world b_world]. exact (got_master _ _ _ _ K). }
      destruct o; [destruct D|..]; cbn [bind] in E; injection E as <-; exact Q.
  - destruct (shl_pty_bridge_add (u_bridge u) b mem) as [b'|] eqn:A; [|discriminate]. cbn [bind] in E. injection E as <-. exists e. split; [|reflexivity]. cbn [u_bridge].
    unfold shl_pty_bridge_add in A. destruct (shl_pty_is_open _ _) as [op|]; [|discriminate]. cbn [bind] in A. destruct op; cbn [negb] in A; [|injection A as <-; exact He].
    destruct (shl_pty_get_fd _ _) as [f|]; [|discriminate]. cbn [bind] in A. injection A as <-. unfold ep_add. clear - He. destruct (fd_get _ _) as [[[] ?]|]; try exact He. match goal with |- context [if ?x then _ else _] => destruct x; [exact He|] end. now right.
  - destruct (hi_held _ H b L) as [z Z]. cbn [u_client l_world] in Z. destruct (shl_pty_bridge_remove (u_bridge u) b) as [b'|] eqn:A; [|discriminate]. cbn [bind] in E. injection E as <-. exists e. split; [|reflexivity]. cbn [u_bridge].
    unfold shl_pty_bridge_remove, shl_pty_is_open, shl_pty_get_fd in A. rewrite Z in A. cbn [bind] in A. destruct (Z.leb_spec 0 (y_fd z)) as [Lz|Lz]; cbn [negb bind] in A; [|injection A as <-; exact He].
    injection A as <-. destruct (hi_open _ H b z Z Lz) as [n Gz]. cbn [u_client l_world] in Gz. unfold ep_del. rewrite Gz. cbn [set_set b_set]. apply filter_In. split; [exact He|].
    destruct ((n_file e =? n) && (n_fd e =? y_fd z)) eqn:Q; [|reflexivity]. exfalso. assert (n_ptr e = b); [|lia]. apply (hi_apart _ H (n_ptr e) b y z); cbn [u_client l_world]; auto; [lia|].
    destruct (Z.ltb_spec (n_fd e) 0) as [X|X]; [rewrite get_neg in G by exact X; discriminate|lia].
  - injection E as <-. exists e. split; [|reflexivity]. cbn [u_bridge]. apply kept_entry; [exact He|]. exact (got_master _ _ _ _ G).
Qed.
Lemma kept_all cs : forall u u' a, wreach true u -> all_legal true u cs -> wc_steps u cs = Ok u' -> none_ends u cs a -> watches u a -> watches u' a.
Proof.
  induction cs as [|c cs IH]; intros u u' a R L E N K; cbn [wc_steps all_legal] in *; [now injection E as <-|].
  destruct L as (L1 & L2 & L3). destruct N as [N1 N2]. destruct (wc_step u c) as [v|] eqn:S; [cbn [bind] in E|discriminate E].
  assert (L : w_legal true u (WCall c)) by (split; auto).
  apply (IH v u' a); auto; [exact (wr_step true u (WCall c) v R L S)|]. exact (kept u c v a R L S N1 K).
Qed.
Lemma set_grows b f a mem e : In e (b_set b) -> In e (b_set (ep_add b f a mem)).
Proof.
  intros He. unfold ep_add. destruct (fd_get _ _) as [[[] ?]|]; try exact He. match goal with |- context [if ?x then _ else _] => destruct x; [exact He|] end. now right.
Qed.
Lemma dispatched_kept u b cs stop mem u' a : wreach true u -> all_legal true u cs -> none_ends u cs a ->
  dispatched u b cs (fun cb => shl_pty_bridge_dispatch_pty (u_bridge u) b cb stop mem) = Ok u' -> watches u a -> watches u' a.
Proof.
  intros R L N E K. unfold dispatched, shl_pty_bridge_dispatch_pty in E. destruct (shl_pty_is_open (b_world (u_bridge u)) b) as [o|]; [cbn [bind] in E|discriminate E].
  destruct o; cbn [negb bind] in E; [|injection E as <-; exact K]. destruct (wc_steps u cs) as [v|] eqn:S; [cbn [bind] in E|discriminate E].
  pose proof (kept_all cs u v a R L S N K) as (e & He & <-). destruct (shl_pty_get_fd _ _) as [f|]; [cbn [bind] in E|discriminate E]. injection E as <-.
  exists e. split; [|reflexivity]. cbn [u_bridge]. destruct stop; [now apply set_grows|exact He].
Qed.
Lemma kept_dispatch u o cs u' a : wreach true u -> w_legal true u o -> calls_of o = Some cs -> none_ends u cs a ->
  w_step u o = Ok u' -> watches u a -> watches u' a.
Proof.
  intros R L C N E K. destruct o as [c|k cs' stop mem|b cs' stop mem]; cbn [calls_of] in C; [discriminate C|injection C as ->..]; cbn [w_step w_legal] in *.
  - destruct (znth (b_set (u_bridge u)) k) as [e|] eqn:Z; [|injection E as <-; exact K].
    refine (dispatched_kept u (n_ptr e) cs stop mem u' a R (proj1 (L e eq_refl)) N _ K). unfold shl_pty_bridge_dispatch in E. rewrite Z in E. exact E.
  - exact (dispatched_kept u b cs stop mem u' a R (proj1 (proj2 L)) N E K).
Qed.
