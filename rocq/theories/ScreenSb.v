(* The scrollback list: pointers, linking, eviction. *)
From Verif Require Import Base BaseProofs Wcwidth Symbol Screen ScreenInv.


Lemma nth_error_rev {A} (l : list A) n : (n < length l)%nat ->
  nth_error (rev l) n = nth_error l (length l - 1 - n).
Proof.
  revert n. induction l as [|x l IH]; intros n Hn; cbn [length] in *; [lia|].
  cbn [rev]. destruct (Nat.eq_dec n (length l)) as [->|Hne].
  - rewrite nth_error_app2 by (rewrite rev_length; lia). rewrite rev_length, Nat.sub_diag.
    replace (S (length l) - 1 - length l)%nat with 0%nat by lia. reflexivity.
  - rewrite nth_error_app1 by (rewrite rev_length; lia). rewrite IH by lia.
    replace (S (length l) - 1 - n)%nat with (S (length l - 1 - n)) by lia. reflexivity.
Qed.

Lemma znth_rev {A} (l : list A) i :
  0 <= i < zlen l -> znth (rev l) i = znth l (zlen l - 1 - i).
Proof.
  intros H. rewrite !znth_pos by lia. rewrite nth_error_rev by lia. f_equal. lia.
Qed.

Lemma ptr_is_some p l : ptr_is (Some p) l = true <-> l_sbid l = Some p.
Proof.
  unfold ptr_is. destruct (l_sbid l); [|split; congruence]. rewrite Z.eqb_eq. split; congruence.
Qed.
Lemma ptr_is_none l : ptr_is None l = false.
Proof. unfold ptr_is. destruct (l_sbid l); reflexivity. Qed.
Lemma ptr_is_unlinked p l : l_sbid l = None -> ptr_is p l = false.
Proof. intros H. unfold ptr_is. rewrite H. destruct p; reflexivity. Qed.

Lemma sb_from_nth l i x p :
  znth l i = Some x -> l_sbid x = Some p ->
  (forall j y, 0 <= j < i -> znth l j = Some y -> l_sbid y <> Some p) ->
  sb_from p l = Some (skipn (Z.to_nat i) l).
Proof.
  revert i; induction l as [|y l IH]; intros i Hx Hp Hn.
  - rewrite znth_nil in Hx; discriminate.
  - pose proof (znth_Some_range _ _ _ Hx) as R. rewrite znth_cons in Hx by lia.
    cbn [sb_from]. destruct (i =? 0) eqn:E.
    + assert (i = 0) by lia. subst. assert (y = x) by congruence. subst.
      apply ptr_is_some in Hp. rewrite Hp. reflexivity.
    + assert (Hf : ptr_is (Some p) y = false).
      { destruct (ptr_is (Some p) y) eqn:E1; auto. apply ptr_is_some in E1.
        exfalso. apply (Hn 0 y); [lia|rewrite znth_cons by lia; reflexivity|exact E1]. }
      rewrite Hf. rewrite (IH (i - 1)); auto.
      * replace (Z.to_nat i) with (S (Z.to_nat (i - 1))) by lia. reflexivity.
      * intros j z Hj Hz. apply (Hn (j + 1) z); [lia|]. rewrite znth_cons by lia.
        destruct (j + 1 =? 0) eqn:E2; [lia|]. replace (j + 1 - 1) with j by lia. exact Hz.
Qed.

Lemma skipn_nth {A} (l : list A) n x : nth_error l n = Some x ->
  skipn n l = x :: skipn (S n) l.
Proof.
  revert l. induction n as [|n IH]; intros [|y l] H; cbn in H; try discriminate.
  - inversion H; reflexivity.
  - exact (IH l H).
Qed.
Lemma skipn_znth {A} (l : list A) i x : znth l i = Some x ->
  skipn (Z.to_nat i) l = x :: skipn (Z.to_nat (i + 1)) l.
Proof.
  intros H. pose proof (znth_Some_range _ _ _ H) as R. rewrite znth_pos in H by lia.
  replace (Z.to_nat (i + 1)) with (S (Z.to_nat i)) by lia. now apply skipn_nth.
Qed.

Lemma sb_next_nth l i x p :
  znth l i = Some x -> l_sbid x = Some p ->
  (forall j y, 0 <= j < i -> znth l j = Some y -> l_sbid y <> Some p) ->
  sb_next p l = Ok (match znth l (i + 1) with Some y => l_sbid y | None => None end).
Proof.
  intros Hx Hp Hn. unfold sb_next. rewrite (sb_from_nth l i x p) by auto.
  pose proof (znth_Some_range _ _ _ Hx) as R.
  rewrite (skipn_znth l i x Hx).
  destruct (znth l (i + 1)) as [y|] eqn:E.
  - rewrite (skipn_znth l (i + 1) y E). reflexivity.
  - apply znth_None_range in E. rewrite skipn_all2 by lia. reflexivity.
Qed.

(* Consecutive ids: the line with id p. *)
Lemma ids_get sb last p : sb_ids sb last -> last - zlen sb < p <= last ->
  exists x, znth sb (p - (last - zlen sb + 1)) = Some x /\ l_sbid x = Some p.
Proof.
  intros H Hp. destruct (znth_some sb (p - (last - zlen sb + 1))) as [x Hx]; [lia|].
  exists x. split; auto. rewrite (H _ _ Hx). f_equal. lia.
Qed.

Lemma sb_from_ids sb last p : sb_ids sb last -> last - zlen sb < p <= last ->
  sb_from p sb = Some (skipn (Z.to_nat (p - (last - zlen sb + 1))) sb).
Proof.
  intros H Hp. destruct (ids_get sb last p H Hp) as (x & Hx & Hi).
  eapply sb_from_nth; eauto. intros j y Hj Hy. rewrite (H _ _ Hy). intros E. inversion E. lia.
Qed.

Lemma sb_next_ids sb last p : sb_ids sb last -> last - zlen sb < p <= last ->
  sb_next p sb = Ok (if p <? last then Some (p + 1) else None).
Proof.
  intros H Hp. destruct (ids_get sb last p H Hp) as (x & Hx & Hi).
  erewrite sb_next_nth; eauto.
  - destruct (p <? last) eqn:E.
    + destruct (ids_get sb last (p + 1) H ltac:(lia)) as (y & Hy & Hyi).
      replace (p - (last - zlen sb + 1) + 1) with (p + 1 - (last - zlen sb + 1)) by lia.
      rewrite Hy. now rewrite Hyi.
    + rewrite znth_ge by lia. reflexivity.
  - intros j y Hj Hy. rewrite (H _ _ Hy). intros E. inversion E. lia.
Qed.

Lemma sb_prev_ids sb last p : sb_ids sb last -> last - zlen sb < p <= last ->
  sb_prev p sb = Ok (if last - zlen sb + 1 <? p then Some (p - 1) else None).
Proof.
  intros H Hp. unfold sb_prev. destruct (ids_get sb last p H Hp) as (x & Hx & Hi).
  assert (Hr : znth (rev sb) (last - p) = Some x).
  { rewrite znth_rev by lia. replace (zlen sb - 1 - (last - p)) with (p - (last - zlen sb + 1)) by lia. exact Hx. }
  erewrite sb_next_nth; eauto.
  - destruct (last - zlen sb + 1 <? p) eqn:E.
    + destruct (ids_get sb last (p - 1) H ltac:(lia)) as (y & Hy & Hyi).
      rewrite znth_rev by lia.
      replace (zlen sb - 1 - (last - p + 1)) with (p - 1 - (last - zlen sb + 1)) by lia.
      rewrite Hy. now rewrite Hyi.
    + rewrite znth_ge by (rewrite rev_length; lia). reflexivity.
  - intros j y Hj Hy. rewrite znth_rev in Hy by lia. rewrite (H _ _ Hy). intros E. inversion E. lia.
Qed.

Lemma sb_lastp_ids sb last : sb_ids sb last -> sb_lastp sb = if zlen sb =? 0 then None else Some last.
Proof.
  intros H. unfold sb_lastp. destruct (zlen sb =? 0) eqn:E.
  - destruct sb; [reflexivity|cbn [length] in E; lia].
  - destruct (ids_get sb last last H) as (x & Hx & Hi); [lia|].
    assert (Hr : znth (rev sb) 0 = Some x).
    { rewrite znth_rev by lia. replace (zlen sb - 1 - 0) with (last - (last - zlen sb + 1)) by lia. exact Hx. }
    destruct (rev sb); [discriminate|]. cbn in Hr. inversion Hr; subst. exact Hi.
Qed.

Lemma sb_firstp_ids sb last : sb_ids sb last ->
  sb_firstp sb = if zlen sb =? 0 then None else Some (last - zlen sb + 1).
Proof.
  intros H. unfold sb_firstp. destruct sb as [|x sb]; [reflexivity|].
  destruct (zlen (x :: sb) =? 0) eqn:E; [cbn [length] in E; lia|].
  rewrite (H 0 x) by reflexivity. f_equal. lia.
Qed.

Lemma walk_back_nth l y : y < 0 ->
  walk_back l y = match znth l (- y - 1) with Some x => l_sbid x | None => None end.
Proof.
  revert y; induction l as [|x l IH]; intros y Hy; cbn [walk_back].
  - now rewrite znth_nil.
  - rewrite znth_cons by lia. destruct (y + 1 <? 0) eqn:E.
    + rewrite IH by lia. destruct (- y - 1 =? 0) eqn:E1; [lia|].
      replace (- (y + 1) - 1) with (- y - 1 - 1) by lia. reflexivity.
    + destruct (- y - 1 =? 0) eqn:E1; [reflexivity|lia].
Qed.

Lemma walk_back_ids sb last y : sb_ids sb last -> y < 0 ->
  walk_back (rev sb) y = if - y <=? zlen sb then Some (last + 1 + y) else None.
Proof.
  intros H Hy. rewrite walk_back_nth by auto. destruct (- y <=? zlen sb) eqn:E.
  - rewrite znth_rev by lia. destruct (ids_get sb last (last + 1 + y) H) as (x & Hx & Hi); [lia|].
    replace (zlen sb - 1 - (- y - 1)) with (last + 1 + y - (last - zlen sb + 1)) by lia.
    rewrite Hx. exact Hi.
  - rewrite znth_ge by (rewrite rev_length; lia). reflexivity.
Qed.

(* Keeping the youngest n entries. *)
Definition keep_last {A} (n : Z) (l : list A) : list A := skipn (Z.to_nat (zlen l - n)) l.

Lemma keep_last_all {A} n (l : list A) : zlen l <= n -> keep_last n l = l.
Proof. intros H. unfold keep_last. replace (Z.to_nat (zlen l - n)) with 0%nat by lia. reflexivity. Qed.
Lemma length_keep_last {A} n (l : list A) : 0 <= n -> zlen (keep_last n l) = Z.min n (zlen l).
Proof. intros H. unfold keep_last. rewrite skipn_length. lia. Qed.
Lemma znth_keep_last {A} n (l : list A) i : 0 <= n -> 0 <= i ->
  znth (keep_last n l) i = znth l (i + Z.max 0 (zlen l - n)).
Proof.
  intros Hn Hi. unfold keep_last. rewrite znth_skipn by lia. f_equal. lia.
Qed.
Lemma keep_last_app {A} n (a b : list A) :
  0 <= n -> keep_last n (keep_last n a ++ b) = keep_last n (a ++ b).
Proof.
  intros H. apply znth_ext'. intros i. destruct (i <? 0) eqn:Ei.
  - now rewrite !znth_neg by lia.
  - rewrite !znth_keep_last, !app_length, !znth_app, !Nat2Z.inj_add by lia.
    pose proof (length_keep_last n a H) as L.
    destruct (i + Z.max 0 (zlen a + zlen b - n) <? zlen a) eqn:E.
    + replace (_ <? zlen (keep_last n a)) with true by lia.
      rewrite znth_keep_last by lia. f_equal. lia.
    + replace (_ <? zlen (keep_last n a)) with false by lia. f_equal. lia.
Qed.
Lemma keep_last_map {A B} (f : A -> B) n l : keep_last n (map f l) = map f (keep_last n l).
Proof. unfold keep_last. now rewrite map_length, skipn_map. Qed.
Lemma ids_tl x sb last : sb_ids (x :: sb) last -> sb_ids sb last.
Proof.
  intros H i l Hl. pose proof (znth_Some_range _ _ _ Hl). rewrite (H (i + 1) l).
  - f_equal. cbn [length]. lia.
  - rewrite znth_cons by lia. destruct (i + 1 =? 0) eqn:E; [lia|]. replace (i + 1 - 1) with i by lia. exact Hl.
Qed.
Lemma ids_skipn n sb last : sb_ids sb last -> sb_ids (skipn n sb) last.
Proof.
  revert sb; induction n as [|n IH]; intros [|x sb] H; cbn [skipn]; auto. apply IH. eapply ids_tl; eauto.
Qed.
Lemma ids_app sb last l : sb_ids sb last -> l_sbid l = Some (last + 1) -> sb_ids (sb ++ [l]) (last + 1).
Proof.
  intros H Hl i x Hx. pose proof (znth_Some_range _ _ _ Hx) as R. rewrite app_length in *. cbn [length] in *.
  rewrite znth_app in Hx. destruct (i <? zlen sb) eqn:E.
  - rewrite (H _ _ Hx). f_equal. lia.
  - assert (i = zlen sb) by lia. subst. rewrite Z.sub_diag in Hx. cbn in Hx. inversion Hx; subst.
    rewrite Hl. f_equal. lia.
Qed.
Lemma ids_nil last : sb_ids [] last.
Proof. intros i l H. rewrite znth_nil in H. discriminate. Qed.

(* Fields that scrolling leaves alone (both buffers' rows treated separately). *)
Record env2 (s s' : screen) : Prop := mkEnv2 {
  f_flags : s_flags s' = s_flags s; f_def : s_def s' = s_def s; f_defm : s_defm s' = s_defm s;
  f_cnt : s_cnt s' = s_cnt s; f_rst : s_rst s' = s_rst s;
  f_sx : s_sx s' = s_sx s; f_sy : s_sy s' = s_sy s; f_mt : s_mt s' = s_mt s; f_mb : s_mb s' = s_mb s;
  f_ln : s_ln s' = s_ln s; f_act : s_act s' = s_act s;
  f_sbmax : s_sbmax s' = s_sbmax s; f_tabs : s_tabs s' = s_tabs s; f_sela : s_sela s' = s_sela s;
  f_cx : s_cx s' = s_cx s; f_cy : s_cy s' = s_cy s;
  f_other : (if s_act s then s_main s' else s_alt s') = (if s_act s then s_main s else s_alt s)
}.
Lemma env2_refl s : env2 s s.
Proof. constructor; reflexivity. Qed.
Lemma env2_trans a b c : env2 a b -> env2 b c -> env2 a c.
Proof. intros [] []. constructor; try congruence. rewrite f_act0 in *. congruence. Qed.
Lemma env2_set_lines s ls : env2 s (set_lines s ls).
Proof. constructor; sredg; try reflexivity. destruct (s_act s); reflexivity. Qed.
Lemma env2_age s a : env2 s (set_age s a).
Proof. constructor; reflexivity. Qed.
Lemma env2_sel_map s f : env2 s (sel_map s f).
Proof. unfold sel_map. destruct (s_sela s) eqn:E; constructor; sredg; auto. Qed.
Lemma fl_env2 s s' n : env2 s s' -> fl s' n = fl s n.
Proof. intros E. unfold fl. now rewrite (f_flags _ _ E). Qed.
Lemma blank_env2 s s' : env2 s s' -> blank s' = blank s.
Proof. intros E. unfold blank, blank_of. now rewrite (f_def _ _ E), (f_cnt _ _ E). Qed.

(* Linking a line: exact effect. *)
Definition linked (id : Z) (l : line) : line := mkL (l_cells l) (l_age l) (Some id).
Definition evicts (s : screen) : bool := negb (s_sbmax s =? 0) && (s_sbmax s <=? s_sbn s).
Definition first_id (s : screen) : Z := s_sbid s - zlen (s_sb s) + 1.

Record pushed (s s' : screen) (l : line) : Prop := mkPushed {
  ps_env : env2 s s';
  ps_lines : lines s' = lines s;
  ps_age : s_age s' = s_cnt s;
  ps_sb : s_sb s' = keep_last (s_sbmax s) (s_sb s ++ [linked (s_sbid s + 1) l]);
  ps_sbid : s_sbid s' = if s_sbmax s =? 0 then s_sbid s else s_sbid s + 1;
  ps_sbn : s_sbn s' = zlen (s_sb s');
  ps_pos : s_sbpos s' = match s_sbpos s with
                        | None => None
                        | Some p => if evicts s && ((p =? first_id s) || negb (fl s F_FIXED))
                                    then Some (p + 1) else Some p
                        end;
  ps_sel1 : s_sel1 s' = if s_sela s && evicts s
                        then match p_line (s_sel1 s) with
                             | Some k => if k =? first_id s then mkP None (p_x (s_sel1 s)) SELECTION_TOP else s_sel1 s
                             | None => s_sel1 s end
                        else s_sel1 s;
  ps_sel2 : s_sel2 s' = if s_sela s && evicts s
                        then match p_line (s_sel2 s) with
                             | Some k => if k =? first_id s then mkP None (p_x (s_sel2 s)) SELECTION_TOP else s_sel2 s
                             | None => s_sel2 s end
                        else s_sel2 s
}.

Lemma sel_drop_unlinked s l : l_sbid l = None -> sel_drop s l = s.
Proof.
  intros H. unfold sel_drop. destruct (s_sela s) eqn:E; [|reflexivity].
  unfold sel_drop1. rewrite !ptr_is_unlinked by auto. destruct s; reflexivity.
Qed.

Lemma link_ok s l : Inv0 s -> l_sbid l = None ->
  exists s', link_to_scrollback s l = Ok s' /\ pushed s s' l.
Proof.
  intros H Hl. pose proof H as H0. inv0 H. unfold link_to_scrollback.
  change (s_sbmax (age_all s)) with (s_sbmax s). change (s_sbn (age_all s)) with (s_sbn s).
  destruct (s_sbmax s =? 0) eqn:Emax.
  - (* no scrollback at all *)
    rewrite sel_drop_unlinked by auto. exists (age_all s). split; [reflexivity|].
    assert (Hsb : s_sb s = []) by (destruct (s_sb s); [reflexivity|cbn [length] in *; lia]).
    constructor; sredg; auto.
    + apply env2_age.
    + rewrite Hsb. unfold keep_last. cbn. replace (s_sbmax s) with 0 by lia. reflexivity.
    + now rewrite Emax.
    + unfold evicts. rewrite Emax. destruct (s_sbpos s); reflexivity.
    + unfold evicts. rewrite Emax. destruct (s_sela s); reflexivity.
    + unfold evicts. rewrite Emax. destruct (s_sela s); reflexivity.
  - destruct (s_sbmax s <=? s_sbn s) eqn:Ev.
    + (* eviction *)
      unfold sb_evict. change (s_sb (age_all s)) with (s_sb s).
      destruct (s_sb s) as [|tmp rest] eqn:Esb; [cbn [length] in *; lia|].
      assert (Hfirst : l_sbid tmp = Some (first_id s)).
      { rewrite (Isbid 0 tmp) by reflexivity. unfold first_id. rewrite Esb. f_equal. lia. }
      assert (Hev : evicts s = true) by (unfold evicts; lia).
      assert (Hk : forall x, keep_last (s_sbmax s) ((tmp :: rest) ++ [x]) = rest ++ [x]).
      { intros x. unfold keep_last. cbn [length app] in *. rewrite app_length. cbn [length].
        replace (Z.to_nat (Z.of_nat (S (length rest + 1)) - s_sbmax s)) with 1%nat by lia. reflexivity. }
      assert (Hsel : forall p, sb_ptr (tmp :: rest) (s_sbid s) (p_line p) \/ s_sela s = false ->
        s_sela s = true ->
        sel_drop1 tmp p = match p_line p with
                             | Some k => if k =? first_id s then mkP None (p_x p) SELECTION_TOP else p
                             | None => p end).
      { intros p _ _. unfold sel_drop1. destruct (p_line p) as [k|]; [|now rewrite ptr_is_none].
        unfold ptr_is. rewrite Hfirst. reflexivity. }
      assert (Hpos : exists s2,
        match s_sbpos (age_all s) with
        | None => Ok (set_sbn (set_sb (age_all s) rest) (u32 (s_sbn (age_all s) - 1)))
        | Some p =>
            if ptr_is (Some p) tmp || negb (fl (age_all s) F_FIXED) then
              do nx <- sb_next p (tmp :: rest);
              match nx with
              | Some q => Ok (set_sbposn (set_sbpos (set_sbn (set_sb (age_all s) rest) (u32 (s_sbn (age_all s) - 1))) (Some q)) (u32 (s_sbposn (age_all s) + 1)))
              | None => Ok (set_sbposn (set_sbpos (set_sbn (set_sb (age_all s) rest) (u32 (s_sbn (age_all s) - 1))) (Some (s_sbid (age_all s) + 1))) 0)
              end
            else Ok (set_sbn (set_sb (age_all s) rest) (u32 (s_sbn (age_all s) - 1)))
        end = Ok s2 /\
        exists pn, s2 = set_sbposn (set_sbpos (set_sbn (set_sb (age_all s) rest) (u32 (s_sbn s - 1)))
           (match s_sbpos s with
                        | None => None
                        | Some p => if ((p =? first_id s) || negb (fl s F_FIXED))
                                    then Some (p + 1) else Some p
                        end)) pn).
      { change (s_sbpos (age_all s)) with (s_sbpos s). change (s_sbn (age_all s)) with (s_sbn s).
        change (fl (age_all s) F_FIXED) with (fl s F_FIXED).
        destruct (s_sbpos s) as [p|] eqn:Ep.
        - assert (Hpt : ptr_is (Some p) tmp = (p =? first_id s)).
          { unfold ptr_is. now rewrite Hfirst. }
          rewrite Hpt. destruct ((p =? first_id s) || negb (fl s F_FIXED)) eqn:Ec.
          + cbn in Isbpos. rewrite (sb_next_ids _ (s_sbid s)) by auto. cbn [bind].
            destruct (p <? s_sbid s) eqn:Elt.
            * eexists; split; [reflexivity|]. eexists; reflexivity.
            * eexists; split; [reflexivity|]. exists 0. change (s_sbid (age_all s)) with (s_sbid s).
              replace (s_sbid s) with p by lia. reflexivity.
          + eexists; split; [reflexivity|]. exists (s_sbposn s).
            destruct s; cbn in *; subst; reflexivity.
        - eexists; split; [reflexivity|]. exists (s_sbposn s).
          destruct s; cbn in *; subst; reflexivity. }
      destruct Hpos as (s2 & E2 & pn & ->). rewrite E2. clear E2. cbn [bind].
      assert (Hn : u32 (u32 (s_sbn s - 1) + 1) = s_sbn s).
      { rewrite (u32_small (s_sbn s - 1)) by (rewrite Isbn in *; cbn [length] in *; lia).
        rewrite u32_small; [lia|]. rewrite Isbn in *; cbn [length] in *; lia. }
      unfold sel_drop. sredg.
      destruct (s_sela s) eqn:Esel.
      all: (eexists; split; [reflexivity|]); sredg; rewrite ?Hn.
      all: set (np := match s_sbpos s with Some p => _ | None => _ end).
      all: destruct np as [q|] eqn:Enp; sredg; unfold np in Enp; clear np.
      all: constructor; sredg; rewrite ?Emax, ?Hev, ?Esel; cbn [andb]; auto.
      all: try (constructor; sredg; reflexivity || (destruct (s_act s); reflexivity)).
      all: try (rewrite Esb, Hk; reflexivity).
      all: try (rewrite Isbn, app_length; cbn [length]; lia).
      all: try (apply Hsel; [right; reflexivity || left; auto|auto]; fail).
      all: try (apply Hsel; [left; auto|reflexivity]).
    + (* room left *)
      cbn [bind]. sredg.
      assert (Hev : evicts s = false) by (unfold evicts; lia).
      eexists; split; [reflexivity|]. destruct (s_sbpos s) as [p|] eqn:Ep; sredg.
      all: constructor; sredg; rewrite ?Emax, ?Hev, ?Ep, ?andb_false_r; cbn [andb]; auto.
      all: try (constructor; sredg; reflexivity || (destruct (s_act s); reflexivity)).
      all: try (rewrite keep_last_all; [reflexivity|rewrite app_length; cbn [length]; lia]).
      all: try (rewrite u32_small; rewrite ?app_length; cbn [length]; lia).
Qed.

(* How the view position and a selection end follow the scrollback. *)
Definition pos_follow (s s' : screen) : Prop :=
  s_sbpos s' = match s_sbpos s with
               | None => None
               | Some p => Some (if fl s F_FIXED then Z.max p (first_id s')
                                 else p + (first_id s' - first_id s))
               end.
Definition live (s : screen) (k : Z) : bool := (first_id s <=? k) && (k <=? s_sbid s).
(* Selection end p of s, after n rows went up into the scrollback. *)
Definition sel_follow (s s' : screen) (n : Z) (p p' : selpos) : Prop :=
  p' = match p_line p with
       | Some k => if live s' k then p else mkP None (p_x p) SELECTION_TOP
       | None =>
         if p_y p <? 0 then p
         else if n <=? p_y p then mkP None (p_x p) (p_y p - n)
         else if live s' (s_sbid s' + 1 + (p_y p - n))
              then mkP (Some (s_sbid s' + 1 + (p_y p - n))) (p_x p) SELECTION_TOP
              else mkP None (p_x p) SELECTION_TOP
       end.

Lemma Inv0_env2 s s' : Inv0 s -> env2 s s' ->
  lines_wf (s_sx s) (s_ln s) (lines s') ->
  s_sbn s' = zlen (s_sb s') -> s_sbn s' <= s_sbmax s -> sb_ids (s_sb s') (s_sbid s') ->
  sb_ptr (s_sb s') (s_sbid s') (s_sbpos s') ->
  (s_sela s = true -> sb_ptr (s_sb s') (s_sbid s') (p_line (s_sel1 s'))) ->
  (s_sela s = true -> sb_ptr (s_sb s') (s_sbid s') (p_line (s_sel2 s'))) -> Inv0 s'.
Proof.
  intros H E Hl Hn Hm Hi Hp H1 H2. inv0 H. destruct E.
  unfold lines in Hl. rewrite f_act0 in Hl.
  constructor; rewrite ?f_sx0, ?f_sy0, ?f_mt0, ?f_mb0, ?f_cx0, ?f_cy0, ?f_ln0, ?f_tabs0, ?f_sbmax0, ?f_sela0, ?f_act0, ?f_flags0, ?f_cnt0; auto; try lia.
  - destruct (s_act s); [rewrite f_other0|]; auto.
  - destruct (s_act s); [|rewrite f_other0]; auto.
  - unfold fl in *. congruence.
Qed.

Lemma pushed_ids s s' l : Inv0 s -> pushed s s' l -> sb_ids (s_sb s') (s_sbid s') /\
  zlen (s_sb s') = (if s_sbmax s =? 0 then 0 else Z.min (s_sbmax s) (zlen (s_sb s) + 1)).
Proof.
  intros H P. inv0 H. destruct P as [_ _ _ Psb Pid _ _ _ _]. rewrite Psb, Pid.
  rewrite length_keep_last, app_length by lia. cbn [length].
  destruct (s_sbmax s =? 0) eqn:E.
  - split; [|lia]. unfold keep_last. rewrite skipn_all2; [apply ids_nil|].
    rewrite app_length; cbn [length]; lia.
  - split; [|lia]. apply ids_skipn, ids_app; auto.
Qed.

Lemma pushed_pos s s' l : Inv0 s -> pushed s s' l -> pos_follow s s'.
Proof.
  intros H P. destruct (pushed_ids s s' l H P) as [_ L]. inv0 H.
  destruct P as [_ _ _ _ Pid _ Ppos _ _]. unfold pos_follow, first_id in *. rewrite Ppos, Pid, L.
  destruct (s_sbpos s) as [p|]; [|reflexivity]. cbn in Isbpos. unfold evicts.
  destruct (s_sbmax s =? 0) eqn:E; cbn [negb andb].
  - lia.
  - destruct (s_sbmax s <=? s_sbn s) eqn:E1; cbn [andb].
    + destruct (fl s F_FIXED); cbn [negb].
      * rewrite orb_false_r. unfold first_id. destruct (p =? _) eqn:E2; f_equal; lia.
      * rewrite orb_true_r. f_equal; lia.
    + destruct (fl s F_FIXED); f_equal; lia.
Qed.

Lemma pushed_sel s s' l : Inv0 s -> pushed s s' l ->
  forall p q, sb_ptr (s_sb s) (s_sbid s) (p_line p) ->
  q = (if evicts s then match p_line p with
                             | Some k => if k =? first_id s then mkP None (p_x p) SELECTION_TOP else p
                             | None => p end else p) ->
  q = match p_line p with
      | Some k => if live s' k then p else mkP None (p_x p) SELECTION_TOP
      | None => p end.
Proof.
  intros H P p q Hp ->. destruct (pushed_ids s s' l H P) as [_ L]. inv0 H.
  destruct P as [_ _ _ _ Pid _ _ _ _]. unfold live, first_id in *. rewrite Pid, L. unfold evicts.
  destruct (p_line p) as [k|]; cbn in Hp; [|destruct (_ && _); reflexivity].
  destruct (s_sbmax s =? 0) eqn:E; cbn [negb andb]; [lia|].
  destruct (s_sbmax s <=? s_sbn s) eqn:E1.
  - destruct (k =? _) eqn:E2; [replace ((_ <=? k) && _) with false by lia|
      replace ((_ <=? k) && _) with true by lia]; reflexivity.
  - replace ((_ <=? k) && _) with true by lia. reflexivity.
Qed.

Lemma pushed_Inv0 s s' l : Inv0 s -> pushed s s' l -> Inv0 s'.
Proof.
  intros H P. pose proof (pushed_ids s s' l H P) as [Hi L].
  pose proof (pushed_pos s s' l H P) as Hp. pose proof (pushed_sel s s' l H P) as Hs.
  pose proof H as H0. inv0 H. destruct P as [Pe Pl Pa Psb Pid Pn Ppos P1 P2].
  apply (Inv0_env2 s); auto.
  - rewrite Pl. now apply inv_lines.
  - destruct (s_sbmax s =? 0); lia.
  - unfold pos_follow, first_id in Hp. rewrite Hp. destruct (s_sbpos s) as [p|]; cbn; [|exact I].
    cbn in Isbpos. rewrite Pid, L in *. destruct (s_sbmax s =? 0) eqn:E; [lia|]. destruct (fl s F_FIXED); lia.
  - intros E. specialize (Hs (s_sel1 s) (s_sel1 s') (Isel1 E)). rewrite E in *. cbn [andb] in P1.
    rewrite (Hs P1). destruct (p_line (s_sel1 s)) as [k|] eqn:Ek; [|rewrite Ek; exact I].
    destruct (live s' k) eqn:El; cbn; [|exact I]. rewrite Ek. unfold live, first_id in El. cbn. lia.
  - intros E. specialize (Hs (s_sel2 s) (s_sel2 s') (Isel2 E)). rewrite E in *. cbn [andb] in P2.
    rewrite (Hs P2). destruct (p_line (s_sel2 s)) as [k|] eqn:Ek; [|rewrite Ek; exact I].
    destruct (live s' k) eqn:El; cbn; [|exact I]. rewrite Ek. unfold live, first_id in El. cbn. lia.
Qed.
