(* Proofs about Bridge.v: one step of one pty. *)
From Verif Require Import Base BaseProofs Ring SharedSpec RingProofs Bridge BridgeSpec.

Lemma fed_app i a b : fed i (a ++ b) = fed i a ++ fed i b.
Proof. induction a as [|[j d z|j d c|j d] a IH]; cbn [fed app]; rewrite ?IH, ?app_assoc; reflexivity. Qed.
Lemma sent_app i a b : sent i (a ++ b) = sent i a ++ sent i b.
Proof. induction a as [|[j d z|j d c|j d] a IH]; cbn [sent app]; rewrite ?IH, ?app_assoc; reflexivity. Qed.
Lemma taken_app i a b : taken i (a ++ b) = taken i a ++ taken i b.
Proof. induction a as [|[j d z|j d c|j d] a IH]; cbn [taken app]; rewrite ?IH, ?app_assoc; reflexivity. Qed.
Lemma said_app i a b : said i (a ++ b) = said i a ++ said i b.
Proof. induction a as [|[] a IH]; cbn [said app]; rewrite ?IH, ?app_assoc; reflexivity. Qed.

Definition silent (i : Z) (tr : list event) : Prop := fed i tr = [] /\ sent i tr = [] /\ taken i tr = [].

(* From t with q to send to t' with q' to send, making tr happen. *)
Definition moved (i : Z) (t : tty) (q : list Z) (tr : list event) (t' : tty) (q' : list Z) : Prop :=
  rep (t_out t') q' /\ fed i tr ++ t_in t' = t_in t /\
  sent i tr ++ map Some q' = map Some (q ++ taken i tr) /\
  zlen (t_ibuf t') = zlen (t_ibuf t) /\
  (t_open t' = t_open t /\ t_hup t' = t_hup t /\ t_reg t' = t_reg t /\ t_ready t' = t_ready t) /\
  Forall tidy tr /\ (forall j, j <> i -> silent j tr).

Lemma moved_refl i t q : rep (t_out t) q -> moved i t q [] t q.
Proof.
  intros R. unfold moved, silent. cbn [fed sent taken app]. rewrite app_nil_r.
  repeat match goal with |- _ /\ _ => split end; auto.
Qed.

Lemma moved_trans i t q a t1 q1 b t2 q2 : moved i t q a t1 q1 -> moved i t1 q1 b t2 q2 -> moved i t q (a ++ b) t2 q2.
Proof.
  intros (A1 & A2 & A3 & A4 & (A51 & A52 & A53 & A54) & A6 & A7) (B1 & B2 & B3 & B4 & (B51 & B52 & B53 & B54) & B6 & B7).
  unfold moved. rewrite fed_app, sent_app, taken_app. rewrite <- !app_assoc, B2, B3, (map_app _ q1), (app_assoc (sent i a)), A3, <- map_app, <- app_assoc.
  repeat match goal with |- _ /\ _ => split end; auto; try congruence.
  - apply Forall_app; auto.
  - intros j N. destruct (A7 j N) as (C1 & C2 & C3), (B7 j N) as (D1 & D2 & D3). unfold silent.
    rewrite fed_app, sent_app, taken_app, C1, C2, C3, D1, D2, D3. auto.
Qed.

Lemma neqb i j : j <> i -> (i =? j) = false.
Proof. lia. Qed.

Lemma tty_write_ok i mem d t q : rep (t_out t) q -> zlen q + zlen d <= MEM_MAX ->
  exists t' tr q', tty_write i mem d t = Ok (t', tr) /\ moved i t q tr t' q' /\ zlen q' <= zlen q + zlen d /\
    t_room t' = t_room t /\ t_in t' = t_in t /\ t_rcode t' = t_rcode t /\ t_wcode t' = t_wcode t /\ (t_open t = true -> t_asked t' = true).
Proof.
  intros R B. unfold MEM_MAX in B. unfold tty_write. destruct (t_open t) eqn:O; cbn [negb].
  - destruct (push_ok mem _ _ _ R B) as (r' & e & -> & [(-> & R')|(-> & -> & _)]); cbn [bind fst snd].
    + eexists _, _, (q ++ d). split; [reflexivity|]. split.
      { unfold moved, silent. cbn [fed sent taken app set_codes set_out t_out t_in t_ibuf t_open t_hup t_reg t_ready].
        rewrite Z.eqb_refl, app_nil_r. cbn [andb Z.eqb]. repeat match goal with |- _ /\ _ => split end; auto; try congruence.
        - repeat constructor.
        - intros j N. rewrite (neqb _ _ N). auto. }
      cbn. rewrite app_length. repeat match goal with |- _ /\ _ => split end; auto; lia.
    + eexists _, _, q. split; [reflexivity|]. split.
      { unfold moved, silent. cbn [fed sent taken app set_codes set_out t_out t_in t_ibuf t_open t_hup t_reg t_ready].
        rewrite Z.eqb_refl. change (-12 =? 0) with false. cbn [andb app]. rewrite ?app_nil_r. repeat match goal with |- _ /\ _ => split end; auto; try congruence.
        - constructor; [cbn; auto|constructor].
        - intros j N. rewrite (neqb _ _ N). auto. }
      cbn. repeat match goal with |- _ /\ _ => split end; auto; lia.
  - eexists _, _, q. split; [reflexivity|]. split.
    { unfold moved, silent. cbn [fed sent taken app].
      rewrite Z.eqb_refl. change (-19 =? 0) with false. cbn [andb app]. rewrite ?app_nil_r. repeat match goal with |- _ /\ _ => split end; auto; try congruence.
      - constructor; [cbn; auto|constructor].
      - intros j N. rewrite (neqb _ _ N). auto. }
    repeat match goal with |- _ /\ _ => split end; auto; try lia.
Qed.

Lemma bulk_nonneg ws : 0 <= bulk ws.
Proof. induction ws as [|w ws IH]; cbn [bulk fold_right]; [lia|fold (bulk ws); lia]. Qed.

Lemma tty_writes_ok i ws : forall t q, rep (t_out t) q -> zlen q + bulk ws <= MEM_MAX ->
  exists t' tr q', tty_writes i ws t = Ok (t', tr) /\ moved i t q tr t' q' /\ zlen q' <= zlen q + bulk ws /\
    t_room t' = t_room t /\ t_in t' = t_in t /\ (ws = [] -> t' = t /\ tr = [] /\ q' = q).
Proof.
  induction ws as [|[mem d] ws IH]; intros t q R B; cbn [tty_writes bulk fold_right snd] in *; [|fold (bulk ws) in *].
  - exists t, [], q. split; [reflexivity|]. split; [apply moved_refl; exact R|]. repeat match goal with |- _ /\ _ => split end; auto; lia.
  - pose proof (bulk_nonneg ws).
    destruct (tty_write_ok i mem d t q R ltac:(lia)) as (t1 & tr1 & q1 & -> & M1 & L1 & E1 & E2 & _). cbn [bind fst snd].
    destruct (IH t1 q1 ltac:(apply M1) ltac:(lia)) as (t2 & tr2 & q2 & -> & M2 & L2 & E3 & E4 & _). cbn [bind fst snd].
    exists t2, (tr1 ++ tr2), q2. split; [reflexivity|]. split; [exact (moved_trans _ _ _ _ _ _ _ _ _ M1 M2)|].
    repeat match goal with |- _ /\ _ => split end; try lia; try congruence.
Qed.

Definition bulks (ms : list (mood * list (bool * list Z))) : Z := fold_right (fun m n => bulk (snd m) + n) 0 ms.
Lemma bulks_nonneg ms : 0 <= bulks ms.
Proof. induction ms as [|w ws IH]; cbn [bulks fold_right]; [lia|fold (bulks ws)]. pose proof (bulk_nonneg (snd w)). lia. Qed.

Lemma firstn_len_app {A} (a b : list A) : firstn (length a) (a ++ b) = a.
Proof. rewrite firstn_app, Nat.sub_diag, firstn_all. cbn [firstn]. apply app_nil_r. Qed.
Lemma zslice_put_l {A} (l : list A) (d e : list A) : zlen d + zlen e <= zlen l ->
  zslice (zput (zput l 0 d) (zlen d) e) 0 (zlen d) = d.
Proof.
  intros H. unfold zslice, zput. change (Z.to_nat 0) with 0%nat. cbn [skipn firstn app].
  rewrite Nat2Z.id, !firstn_len_app. reflexivity.
Qed.

Lemma read_loop_ok i ms : forall t q tr, rep (t_out t) q -> zlen q + bulks ms <= MEM_MAX -> zlen (t_ibuf t) = PTY_BUFSIZE ->
  exists t' tr' q' e, pty_read_loop i ms t tr = Ok (t', tr ++ tr', e) /\ moved i t q tr' t' q' /\ zlen q' <= zlen q + bulks ms /\
    t_room t' = t_room t /\ (e <> -11 -> t_in t' = []) /\
    (Forall (fun m => fst m <> MIntr /\ snd m = []) ms -> q' = q /\ t_out t' = t_out t /\
       (e = -11 -> (length (t_in t') + length ms <= length (t_in t))%nat)).
Proof.
  induction ms as [|[m ws] ms IH]; intros t q tr R B L; cbn [pty_read_loop bulks fold_right snd] in *; [|fold (bulks ms) in *].
  { exists t, [], q, (-11). rewrite app_nil_r. split; [reflexivity|]. split; [apply moved_refl; exact R|].
    repeat match goal with |- _ /\ _ => split end; auto; try lia; try congruence. cbn [length]. intros _. repeat split; lia. }
  pose proof (bulk_nonneg ws). pose proof (bulks_nonneg ms).
  assert (STOP : forall e : Z, (e <> -11 -> t_in t = []) -> (m <> MIntr -> e <> -11) ->
    exists t' tr' q' e', Ok (t, tr, e) = Ok (t', tr ++ tr', e') /\ moved i t q tr' t' q' /\ zlen q' <= zlen q + (bulk ws + bulks ms) /\
    t_room t' = t_room t /\ (e' <> -11 -> t_in t' = []) /\
    (Forall (fun m => fst m <> MIntr /\ snd m = []) ((m, ws) :: ms) -> q' = q /\ t_out t' = t_out t /\
       (e' = -11 -> (length (t_in t') + length ((m, ws) :: ms) <= length (t_in t))%nat))).
  { intros e E NI. exists t, [], q, e. rewrite app_nil_r. split; [reflexivity|]. split; [apply moved_refl; exact R|].
    repeat match goal with |- _ /\ _ => split end; auto; try lia.
    intros F. inversion F as [|? ? [F1 _]]; subst. cbn [fst] in F1. repeat match goal with |- _ /\ _ => split end; auto. intros ->. elim (NI F1 eq_refl). }
  unfold k_read. destruct m as [|n].
  { apply STOP; [intros X; elim X; reflexivity|congruence]. }
  destruct (t_in t) as [|c cs] eqn:EI.
  { apply STOP; [auto|]. intros _. destruct (t_hup t); vm_compute; discriminate. }
  set (k := Z.to_nat (Z.max 1 (Z.min n (PTY_BUFSIZE - 1)))).
  assert (K : (1 <= k)%nat /\ Z.of_nat k <= PTY_BUFSIZE - 1) by (subst k; unfold PTY_BUFSIZE; lia).
  set (Q := c :: cs) in *.
  assert (LD : 0 < zlen (firstn k Q) < PTY_BUFSIZE).
  { rewrite firstn_length. subst Q. cbn [length]. lia. }
  cbv zeta. cbn [set_in t_ibuf]. rewrite zcopy_ok by lia. cbn [bind].
  assert (L1 : zlen (zput (t_ibuf t) 0 (firstn k Q)) = PTY_BUFSIZE) by (rewrite length_zput; lia).
  rewrite zcopy_ok by (cbn [length]; lia). cbn [bind].
  set (b2 := zput (zput (t_ibuf t) 0 (firstn k Q)) (zlen (firstn k Q)) [0]).
  assert (L2 : zlen b2 = PTY_BUFSIZE) by (subst b2; rewrite length_zput; cbn [length]; lia).
  assert (Z0 : znth b2 (zlen (firstn k Q)) = Some 0).
  { subst b2. rewrite znth_zput by (cbn [length]; lia). cbn [length].
    match goal with |- (if ?b then _ else _) = _ => destruct b eqn:E; [|lia] end.
    rewrite Z.sub_diag. reflexivity. }
  rewrite (zget_ok _ _ _ Z0). cbn [bind].
  assert (SL : zslice b2 0 (zlen (firstn k Q)) = firstn k Q) by (subst b2; apply zslice_put_l; cbn [length]; lia).
  rewrite SL.
  set (t1 := set_ibuf b2 (set_in (skipn k Q) t)).
  assert (M1 : moved i t q [Fed i (firstn k Q) 0] t1 q).
  { unfold moved, silent. subst t1. cbn [fed sent taken app set_ibuf set_in t_out t_in t_ibuf t_open t_hup t_reg t_ready].
    rewrite Z.eqb_refl, !app_nil_r, firstn_skipn. rewrite L2, L. repeat match goal with |- _ /\ _ => split end; auto.
    - repeat constructor; lia.
    - intros j N. rewrite (neqb _ _ N). auto. }
  destruct (tty_writes_ok i ws t1 q ltac:(apply M1) ltac:(lia)) as (t2 & tr2 & q2 & -> & M2 & B2 & E3 & E4 & E5). cbn [bind fst snd].
  pose proof (moved_trans _ _ _ _ _ _ _ _ _ M1 M2) as M12.
  destruct (IH t2 q2 (tr ++ [Fed i (firstn k Q) 0] ++ tr2) ltac:(apply M12) ltac:(lia)) as (t3 & tr3 & q3 & e & -> & M3 & B3 & E6 & E7 & E8).
  { destruct M12 as (_ & _ & _ & M & _). lia. }
  exists t3, (([Fed i (firstn k Q) 0] ++ tr2) ++ tr3), q3, e. split; [rewrite <- !app_assoc; reflexivity|].
  split; [exact (moved_trans _ _ _ _ _ _ _ _ _ M12 M3)|]. split; [lia|]. split; [rewrite E6, E3; reflexivity|]. split; [exact E7|].
  intros F. inversion F as [|? ? [F1 F2] F3]; subst. cbn [snd] in F2. destruct (E5 F2) as (-> & -> & ->). destruct (E8 F3) as (-> & E9 & E10).
  split; [reflexivity|]. split; [rewrite E9; reflexivity|]. intros Hm. specialize (E10 Hm). subst t1. cbn [set_ibuf set_in t_in] in E10.
  rewrite skipn_length in E10. cbn [length]. subst Q. cbn [length] in *. lia.
Qed.

Lemma flush_tty_ok i l t q : rep (t_out t) q ->
  exists t' s q' w, tty_flush l t = Ok (t', map Some s, w) /\ moved i t q [Sent i (map Some s)] t' q' /\ zlen q' <= zlen q /\
    t_in t' = t_in t /\ (w <> -11 -> all_sent t') /\
    (l_w1 l <> MIntr -> l_w2 l <> MIntr -> w = -11 -> (length q' < length q)%nat).
Proof.
  intros R. unfold tty_flush. cbv zeta.
  set (k1 := k_write (t_hup t) (t_room t) (r_used (t_out t)) (l_w1 l)).
  set (k2 := match k1 with KTake n => k_write (t_hup t) (t_room t - n) (r_used (t_out t) - n) (l_w2 l) | _ => k1 end).
  assert (UQ : r_used (t_out t) = zlen q) by (symmetry; apply R).
  assert (GEN : forall r' s q' w, pty_write (t_out t) k1 k2 = Ok (r', map Some s, w) -> rep r' q' -> s ++ q' = q ->
    (w <> -11 -> q' = [] \/ t_room t - zlen s <= 0 \/ t_hup t = true) ->
    (l_w1 l <> MIntr -> l_w2 l <> MIntr -> w = -11 -> (length q' < length q)%nat) ->
    exists t' s q' w, (do x <- pty_write (t_out t) k1 k2; let '(r, sent, w) := x in Ok (set_room (t_room t - zlen sent) (set_out r t), sent, w)) = Ok (t', map Some s, w) /\
    moved i t q [Sent i (map Some s)] t' q' /\ zlen q' <= zlen q /\ t_in t' = t_in t /\ (w <> -11 -> all_sent t') /\
    (l_w1 l <> MIntr -> l_w2 l <> MIntr -> w = -11 -> (length q' < length q)%nat)).
  { intros r' s q' w E R' S W1 W2. rewrite E. cbn [bind]. eexists _, s, q', w. split; [reflexivity|]. split.
    { unfold moved, silent. cbn [fed sent taken app set_room set_out t_out t_in t_ibuf t_open t_hup t_reg t_ready].
      rewrite Z.eqb_refl, !app_nil_r, <- map_app, S. repeat match goal with |- _ /\ _ => split end; auto.
      - repeat constructor.
      - intros j N. rewrite (neqb _ _ N). auto. }
    split; [rewrite <- S, app_length; lia|]. split; [reflexivity|]. split; [|exact W2].
    intros N. unfold all_sent. cbn [set_room set_out t_out t_room t_hup]. rewrite map_length. destruct (W1 N) as [->|[H|H]]; auto.
    left. destruct R' as (_ & L & _). cbn [length] in L. lia. }
  unfold pty_write in *. cbn [pty_write_loop] in *. destruct (peek_ok _ _ R) as (v & Ev & Cv & Nv). rewrite Ev in *. cbn [bind] in *.
  destruct v as [|c v].
  { apply (GEN (t_out t) [] q 0); auto; try lia. intros _. left. apply Nv. reflexivity. }
  assert (QN : q <> []). { intros X. pose proof (proj2 Nv X). discriminate. }
  assert (QL : (1 <= length q)%nat) by (destruct q; [congruence|cbn; lia]).
  unfold k_write in k1. destruct (l_w1 l) as [|w1]; [apply (GEN (t_out t) [] q (-11)); auto; congruence|].
  destruct (t_hup t) eqn:HU; [apply (GEN (t_out t) [] q (-5)); auto; lia|].
  destruct (t_room t <=? 0) eqn:RM; [apply (GEN (t_out t) [] q 0); auto; cbn [length]; try lia|].
  set (n1 := Z.max 1 (Z.min w1 (Z.min (t_room t) (r_used (t_out t))))) in *.
  assert (N1 : 1 <= n1 <= zlen q /\ n1 <= t_room t) by lia.
  cbv beta iota in k1, k2. subst k1. cbv beta iota in *. rewrite Cv in *.
  pose proof (pull_ok _ _ n1 R ltac:(lia)) as R1.
  destruct (peek_ok _ _ R1) as (v1 & Ev1 & Cv1 & Nv1). rewrite Ev1 in *. cbn [bind app] in *. rewrite firstn_map in *.
  assert (LF : zlen (firstn (Z.to_nat n1) q) = n1) by (rewrite firstn_length; lia).
  destruct v1 as [|c1 v1].
  { apply (GEN (ring_pull (t_out t) n1) (firstn (Z.to_nat n1) q) (skipn (Z.to_nat n1) q) 0); auto; try lia.
    - apply firstn_skipn.
    - intros _. left. apply Nv1. reflexivity. }
  assert (LS : (length (skipn (Z.to_nat n1) q) < length q)%nat) by (rewrite skipn_length; lia).
  assert (QN1 : skipn (Z.to_nat n1) q <> []). { intros X. pose proof (proj2 Nv1 X). discriminate. }
  unfold k_write in k2. destruct (l_w2 l) as [|w2].
  { apply (GEN (ring_pull (t_out t) n1) (firstn (Z.to_nat n1) q) (skipn (Z.to_nat n1) q) (-11)); auto; try congruence. apply firstn_skipn. }
  destruct (t_room t - n1 <=? 0) eqn:RM1.
  { apply (GEN (ring_pull (t_out t) n1) (firstn (Z.to_nat n1) q) (skipn (Z.to_nat n1) q) 0); auto; try lia. apply firstn_skipn. }
  set (n2 := Z.max 1 (Z.min w2 (Z.min (t_room t - n1) (r_used (t_out t) - n1)))) in *.
  assert (SL : length (skipn (Z.to_nat n1) q) = (length q - Z.to_nat n1)%nat) by apply skipn_length.
  assert (SL1 : (1 <= length (skipn (Z.to_nat n1) q))%nat) by (destruct (skipn (Z.to_nat n1) q); [congruence|cbn; lia]).
  assert (N2 : 1 <= n2 <= zlen q - n1) by lia.
  subst k2. cbv beta iota in *. rewrite Cv1 in *. rewrite firstn_map, <- map_app in *.
  pose proof (pull_ok _ _ n2 R1 ltac:(lia)) as R2.
  eapply (GEN _ (firstn (Z.to_nat n1) q ++ firstn (Z.to_nat n2) (skipn (Z.to_nat n1) q)) (skipn (Z.to_nat n2) (skipn (Z.to_nat n1) q))); [reflexivity|exact R2| | |].
  - rewrite <- app_assoc, firstn_skipn. apply firstn_skipn.
  - destruct (0 <? _) eqn:U; [lia|]. intros _. left. destruct R2 as (_ & L2 & _).
    destruct (skipn (Z.to_nat n2) (skipn (Z.to_nat n1) q)); [reflexivity|cbn [length] in L2; lia].
  - intros _ _ _. rewrite skipn_length. lia.
Qed.
