(* Keyboard and mouse: the model's tables against the rules of VteDevSpec. *)
From Verif Require Import Base BaseProofs Utf8 Utf8Spec Utf8Proofs Symbol Screen VteData Vte VteKeys VteSpec VteInv VteSafe VteFrame VteView VteReply VteSave VteDevSpec.

(* -- keyboard ------------------------------------------------------------- *)
Definition eqlz (a b : list Z) : bool := if list_eq_dec Z.eq_dec a b then true else false.
Definition eqol (a b : option (list Z)) : bool :=
  match a, b with Some x, Some y => eqlz x y | None, None => true | _, _ => false end.
Lemma eqol_eq a b : eqol a b = true -> a = b.
Proof.
  destruct a as [x|], b as [y|]; cbn [eqol]; try discriminate; [|auto]. unfold eqlz.
  destruct (list_eq_dec Z.eq_dec x y); [intros _; now subst|discriminate].
Qed.
Definition zrange (a : Z) (n : nat) : list Z := map (fun k => a + Z.of_nat k) (seq 0 n).
Lemma zrange_in a n x : a <= x < a + Z.of_nat n -> In x (zrange a n).
Proof.
  intros H. unfold zrange. apply in_map_iff. exists (Z.to_nat (x - a)). split; [lia|]. apply in_seq. lia.
Qed.
Lemma all_in (f : Z -> bool) a n : forallb f (zrange a n) = true -> forall x, a <= x < a + Z.of_nat n -> f x = true.
Proof. intros F x H. rewrite forallb_forall in F. apply F. now apply zrange_in. Qed.

Lemma ctrl_check : forallb (fun s => eqol (key_ctrl s) (option_map (fun c => [c]) (ctrl_code s))) (zrange 0 128) = true.
Proof. vm_compute. reflexivity. Qed.
Ltac off sym :=
  repeat match goal with
  | |- context [sym =? ?k] => replace (sym =? k) with false by (symmetry; apply Z.eqb_neq; lia)
  end.
Lemma ctrl_eq s : key_ctrl s = option_map (fun c => [c]) (ctrl_code s).
Proof.
  destruct (Z_lt_le_dec s 0) as [L|L]; [|destruct (Z_lt_le_dec s 128) as [U|U]].
  - unfold key_ctrl, ctrl_code. off s. cbn [orb].
    replace (0x41 <=? s) with false by lia. replace (0x61 <=? s) with false by lia. replace (0x33 <=? s) with false by lia. reflexivity.
  - apply eqol_eq. apply (all_in _ 0 128 ctrl_check). lia.
  - unfold key_ctrl, ctrl_code. off s. cbn [orb].
    replace (s <=? 0x5d) with false by lia. replace (s <=? 0x7d) with false by lia. replace (s <=? 0x37) with false by lia.
    rewrite !andb_false_r. reflexivity.
Qed.

Definition bools : list bool := [true; false].
Definition odd_pad (keypad : bool) (s : Z) : bool := (s =? 0xffbd) || (keypad && ((s =? 0xffaa) || (s =? 0xffaf))).
Definition special_agrees (s : Z) : bool :=
  forallb (fun b => forallb (fun k => forallb (fun c => forallb (fun l => forallb (fun sh => forallb (fun ct =>
    odd_pad k s || eqol (key_special b k c l sh ct s) (option_map (key_seq b k c l sh ct) (key_kind s)))
    bools) bools) bools) bools) bools) bools.
Lemma special_check : forallb special_agrees (zrange 0xfe20 480) = true.
Proof. vm_compute. reflexivity. Qed.
Lemma in_bools b : In b bools.
Proof. destruct b; cbn; auto. Qed.
Lemma special_out b k c l sh ct s : s < 0xfe20 \/ 0xffff < s -> key_special b k c l sh ct s = None /\ key_kind s = None.
Proof.
  intros H. unfold key_special, key_kind, from_to. off s. cbn [orb].
  destruct H as [H|H].
  - replace (0xffb0 <=? s) with false by lia. replace (0xffaa <=? s) with false by lia.
    replace (0xffbe <=? s) with false by lia. replace (0xff91 <=? s) with false by lia. auto.
  - replace (s <=? 0xffb9) with false by lia. replace (s <=? 0xffaf) with false by lia.
    replace (s <=? 0xffd1) with false by lia. replace (s <=? 0xff94) with false by lia. rewrite !andb_false_r. auto.
Qed.
Lemma special_eq b k c l sh ct s : odd_pad k s = false ->
  key_special b k c l sh ct s = option_map (key_seq b k c l sh ct) (key_kind s).
Proof.
  intros O. destruct (Z_lt_le_dec s 0xfe20) as [L|L]; [|destruct (Z_lt_le_dec s 0x10000) as [U|U]].
  - destruct (special_out b k c l sh ct s) as [-> ->]; auto.
  - apply eqol_eq. pose proof (all_in _ _ _ special_check s ltac:(lia)) as A. unfold special_agrees in A.
    rewrite forallb_forall in A. specialize (A b (in_bools b)). cbv beta in A.
    rewrite forallb_forall in A. specialize (A k (in_bools k)). cbv beta in A.
    rewrite forallb_forall in A. specialize (A c (in_bools c)). cbv beta in A.
    rewrite forallb_forall in A. specialize (A l (in_bools l)). cbv beta in A.
    rewrite forallb_forall in A. specialize (A sh (in_bools sh)). cbv beta in A.
    rewrite forallb_forall in A. specialize (A ct (in_bools ct)). cbv beta in A.
    rewrite O in A. exact A.
  - destruct (special_out b k c l sh ct s) as [-> ->]; [lia|auto].
Qed.

Lemma char_eq v u : typable v u -> u <> 0xffffffff ->
  key_char (vfl v VF_7BIT) (vfl v VF_8BIT) u = char_seq (vfl v VF_7BIT) (vfl v VF_8BIT) u.
Proof.
  intros [H|[H0 H]] N; [congruence|]. unfold key_char, char_seq.
  destruct (vfl v VF_7BIT).
  - unfold bit. f_equal. rewrite Z.testbit_eqb by lia. change (2 ^ 7) with 128.
    destruct (Z.ltb_spec u 128) as [L|L].
    + rewrite Z.div_small by lia. change (0 mod 2 =? 1) with false. cbv iota. unfold u8. apply Z.mod_small; lia.
    + replace (u / 128) with 1; [reflexivity|]. apply Z.div_unique with (u - 128); lia.
  - destruct (vfl v VF_8BIT).
    + f_equal. destruct (Z.ltb_spec 0xff u); destruct (Z.ltb_spec u 256); try lia; auto. unfold u8. apply Z.mod_small; lia.
    + destruct H as [S NC]. assert (U : symbol_make u = u).
      { unfold symbol_make. destruct S as [S _]. replace (UCS4_MAX <? u) with false; [auto|]. symmetry. apply Z.ltb_ge. unfold UCS4_MAX. lia. }
      rewrite U. assert (B : 0 <= u < 2 ^ 32) by (destruct S; lia). apply encode_is_utf8; [exact B|].
      apply (proj2 (encodable_iff u B)). auto.
Qed.

Lemma bytes_eq v k a m u : typable v u -> odd_pad (vfl v VF_KEYPAD_APP) k = false ->
  key_bytes v k a m u = key_sends v k a m u.
Proof.
  intros T O. unfold key_bytes, key_sends. cbv zeta. unfold bit, M_CONTROL, M_SHIFT.
  assert (X : (if Z.testbit m 2 then key_ctrl (if a =? 0 then k else a) else None)
            = option_map (fun c => [c]) (if Z.testbit m 2 then ctrl_code (if a =? 0 then k else a) else None))
    by (destruct (Z.testbit m 2); [apply ctrl_eq|reflexivity]).
  rewrite X. destruct (if Z.testbit m 2 then ctrl_code (if a =? 0 then k else a) else None) as [c|]; cbn [option_map]; [reflexivity|].
  rewrite special_eq by exact O. destruct (key_kind k) as [d|]; cbn [option_map]; [reflexivity|].
  unfold VTE_INVALID. destruct (Z.eqb_spec u 0xffffffff) as [E|E]; [reflexivity|]. f_equal. now apply char_eq.
Qed.
(* Alt does not change what a key is. *)
Lemma bytes_alt v k a m u b : key_bytes (set_reset v b VF_PREPEND) k a m u = key_bytes v k a m u.
Proof.
  unfold key_bytes. cbv zeta. rewrite !(sr_other v b VF_PREPEND) by (unfold VF_PREPEND, VF_KEYPAD_APP, VF_CURSOR_KEY, VF_LNM, VF_7BIT, VF_8BIT; lia).
  reflexivity.
Qed.

(* The output grows by writes, nothing else changes. *)
Definition wrote (v : vte) (ws : list (list Z)) : vte := w_out v (v_out v ++ map EWrite ws).
Lemma emit_wrote v r : emit v (EWrite r) = wrote v [r].
Proof. reflexivity. Qed.
Lemma wrote_nil v : wrote v [] = v.
Proof. unfold wrote. cbn [map]. rewrite app_nil_r. destruct v; reflexivity. Qed.
Lemma unprep v : vfl v VF_PREPEND = false -> set_reset (set_reset v true VF_PREPEND) false VF_PREPEND = v.
Proof.
  intros H. unfold set_reset. replace (Z.clearbit (v_flags (w_flags v (Z.setbit (v_flags v) VF_PREPEND))) VF_PREPEND) with (v_flags v);
    [destruct v; reflexivity|]. change (v_flags (w_flags v (Z.setbit (v_flags v) VF_PREPEND))) with (Z.setbit (v_flags v) VF_PREPEND).
  apply Z.bits_inj'. intros n Hn. rewrite Z.clearbit_eqb, Z.setbit_eqb by (unfold VF_PREPEND; lia).
  destruct (Z.eqb_spec VF_PREPEND n).
  - subst n. unfold vfl, bit in H. rewrite H. reflexivity.
  - cbn [orb negb]. now rewrite andb_true_r.
Qed.
Lemma emit_sr v e b n : emit (set_reset v b n) e = set_reset (emit v e) b n.
Proof. destruct v; reflexivity. Qed.
Lemma emit_two v a b : emit (emit v (EWrite a)) (EWrite b) = wrote v [a; b].
Proof.
  unfold wrote. cbn [map]. change (v_out v ++ [EWrite a; EWrite b]) with (v_out v ++ [EWrite a] ++ [EWrite b]). rewrite app_assoc.
  reflexivity.
Qed.
Lemma fl_emit v e n : vfl (emit v e) n = vfl v n.
Proof. reflexivity. Qed.
Lemma send_alt v bs : vfl v VF_PREPEND = false -> vte_send (set_reset v true VF_PREPEND) bs = wrote v [[27]; bs].
Proof.
  intros H. unfold vte_send. rewrite (sr_same v true VF_PREPEND) by (unfold VF_PREPEND; lia). cbv zeta.
  rewrite !emit_sr. rewrite unprep by exact H. exact (emit_two v [27] bs).
Qed.

Definition alt_prefix (m : Z) : list (list Z) := if Z.testbit m 3 then [[27]] else [].
(* A key without local echo. *)
Lemma key_plain sg v k a m u : vreachable sg v -> vfl v VF_SRM = true ->
  typable v u -> odd_pad (vfl v VF_KEYPAD_APP) k = false ->
  vte_key sg v k a m u =
  Ok (match key_sends v k a m u with
      | Some bs => (wrote v (alt_prefix m ++ [bs]), true)
      | None => (v, false)
      end).
Proof.
  intros R S T O. pose proof (reach_noprep _ _ R) as N. unfold vte_key, alt_prefix. cbv zeta. unfold bit, M_ALT.
  destruct (Z.testbit m 3).
  - rewrite bytes_alt, (bytes_eq v k a m u T O). destruct (key_sends v k a m u) as [bs|].
    + unfold vte_write. rewrite (sr_other v true VF_PREPEND VF_SRM) by (unfold VF_PREPEND, VF_SRM; lia). rewrite S. cbn [bind].
      rewrite send_alt by exact N. reflexivity.
    + rewrite unprep by exact N. reflexivity.
  - rewrite (bytes_eq v k a m u T O). destruct (key_sends v k a m u) as [bs|].
    + unfold vte_write. rewrite S. cbn [bind]. rewrite send_plain by exact N. reflexivity.
    + rewrite clear_none by exact N. reflexivity.
Qed.
(* With local echo and without Alt the key is read back first. *)
Lemma key_echo sg v k a m u bs : vreachable sg v -> vfl v VF_SRM = false -> Z.testbit m 3 = false ->
  typable v u -> odd_pad (vfl v VF_KEYPAD_APP) k = false -> key_sends v k a m u = Some bs ->
  vte_key sg v k a m u = (do w <- vte_input sg v bs; Ok (wrote w [bs], true)).
Proof.
  intros R S M T O K. unfold vte_key. cbv zeta. unfold bit, M_ALT. rewrite M, (bytes_eq v k a m u T O), K.
  unfold vte_write. rewrite S, (reach_noprep _ _ R). cbn [bind].
  destruct (vte_input sg v bs) as [w|] eqn:E; cbn [bind]; [|reflexivity].
  assert (Rw : vreachable sg w) by exact (vreachable_step sg v (VInput bs) w R I E).
  rewrite send_plain by exact (reach_noprep _ _ Rw). reflexivity.
Qed.

(* -- mouse ---------------------------------------------------------------- *)
Lemma cstr_id l : Forall (fun b => b <> 0) l -> cstr l = l.
Proof.
  induction 1 as [|b l Hb _ IH]; cbn [cstr]; auto. destruct (Z.eqb_spec b 0); [contradiction|]. now rewrite IH.
Qed.
Lemma buf24_id l : (length l <= 23)%nat -> Forall (fun b => b <> 0) l -> buf24 l = l.
Proof. intros L H. unfold buf24. rewrite firstn_all2 by lia. now apply cstr_id. Qed.
Lemma digits_len f : forall n acc, 0 <= n < 10 ^ Z.of_nat f -> (0 < f)%nat -> forall g, (f <= g)%nat ->
  (length (dec_digits g n acc) <= f + length acc)%nat.
Proof.
  induction f as [|f IH]; intros n acc Hn Hf g Hg; [lia|]. destruct g as [|g]; [lia|]. cbn [dec_digits]. cbv zeta.
  destruct (Z.eqb_spec (n / 10) 0) as [E|E]; [cbn [length]; lia|].
  rewrite Nat2Z.inj_succ, Z.pow_succ_r in Hn by lia.
  assert (B : 0 <= n / 10 < 10 ^ Z.of_nat f) by (split; [apply Z.div_pos; lia|apply Z.div_lt_upper_bound; lia]).
  destruct f as [|f]; [cbn in B; lia|]. pose proof (IH (n / 10) ((48 + n mod 10) :: acc) B ltac:(lia) g ltac:(lia)) as L. cbn [length] in L. lia.
Qed.
Lemma dec_len (f : nat) n : 0 <= n < 10 ^ Z.of_nat f -> (0 < f <= 10)%nat -> (length (dec n) <= f)%nat.
Proof. intros H F. unfold dec. pose proof (digits_len f n [] H ltac:(lia) 10 ltac:(lia)) as L. cbn [length] in L. lia. Qed.
Lemma split_digits l : Forall digit l -> split l = [l].
Proof.
  induction 1 as [|d l Hd _ IH]; [reflexivity|]. cbn [split]. unfold digit in Hd. destruct (Z.eqb_spec d 59); [lia|]. now rewrite IH.
Qed.
Lemma split_field l r : Forall digit l -> split (l ++ 59 :: r) = l :: split r.
Proof.
  induction 1 as [|d l Hd _ IH]; [reflexivity|]. cbn [split app]. unfold digit in Hd. destruct (Z.eqb_spec d 59); [lia|]. now rewrite IH.
Qed.
Lemma report_reads fl x y p : 0 <= fl < 256 -> 0 <= x < 10 ^ 7 -> 0 <= y < 10 ^ 7 ->
  read_report (sgr_report fl x y p) = Some (fl, x, y, p).
Proof.
  intros Hf Hx Hy. unfold sgr_report.
  assert (Dx : dec_i x = dec x) by (unfold dec_i; replace (i32 x) with x by (unfold i32; rewrite Z.mod_small; lia); cbv zeta; destruct (Z.ltb_spec x 0); [lia|auto]).
  assert (Dy : dec_i y = dec y) by (unfold dec_i; replace (i32 y) with y by (unfold i32; rewrite Z.mod_small; lia); cbv zeta; destruct (Z.ltb_spec y 0); [lia|auto]).
  rewrite Dx, Dy. destruct (dec_spec fl ltac:(lia)) as (Af & _ & Vf). destruct (dec_spec x ltac:(lia)) as (Ax & _ & Vx).
  destruct (dec_spec y ltac:(lia)) as (Ay & _ & Vy).
  pose proof (dec_len 3 fl ltac:(cbn; lia) ltac:(lia)) as Lf. pose proof (dec_len 7 x ltac:(cbn; lia) ltac:(lia)) as Lx.
  pose proof (dec_len 7 y ltac:(cbn; lia) ltac:(lia)) as Ly.
  assert (NZ : forall l, Forall digit l -> Forall (fun b => b <> 0) l)
    by (intros l A; eapply Forall_impl; [|exact A]; unfold digit; lia).
  rewrite buf24_id.
  2:{ rewrite !app_length. cbn [length]. lia. }
  2:{ repeat (apply Forall_app; split); auto; repeat constructor; try lia. destruct p; lia. }
  change ([27; 91; 60] ++ ?b) with (27 :: 91 :: 60 :: b). cbn [app].
  set (body := dec fl ++ 59 :: dec x ++ 59 :: dec y ++ [if p then 77 else 109]).
  assert (B : body = (dec fl ++ 59 :: dec x ++ 59 :: dec y) ++ [if p then 77 else 109])
    by (unfold body; rewrite <- !app_assoc; cbn [app]; rewrite <- !app_assoc; reflexivity).
  cbn [read_report]. rewrite B, removelast_last, last_last.
  rewrite split_field by auto. rewrite split_field by auto. rewrite split_digits by auto.
  rewrite Vf, Vx, Vy. destruct p; reflexivity.
Qed.
Lemma wire_check : forallb (fun b => forallb (fun k => (Z.land (Z.lor (wire_button b) (4 * k)) 28 =? 4 * k)
    && (Z.land (Z.lor (wire_button b) (4 * k)) 67 =? wire_button b) && from_to 0 101 (Z.lor (wire_button b) (4 * k))
    && from_to 0 31 (Z.lor b (4 * k)))
  (zrange 0 8)) (zrange 0 6) = true.
Proof. vm_compute. reflexivity. Qed.
Lemma wire_reads b m : button_ok b -> modifiers_ok m ->
  let c := Z.lor (wire_button b) m in
  0 <= c < 128 /\ Z.land c 28 = m /\ Z.land c 67 = wire_button b /\ 0 <= Z.lor b m < 32.
Proof.
  intros Hb [Hm M]. pose proof (all_in _ _ _ wire_check b ltac:(unfold button_ok in Hb; lia)) as A. cbv beta in A.
  assert (Q : m = 4 * (m / 4)) by (pose proof (Z.div_mod m 4); lia).
  pose proof (all_in _ _ _ A (m / 4) ltac:(split; [apply Z.div_pos; lia|apply Z.div_lt_upper_bound; lia])) as B. cbv beta in B.
  rewrite <- Q in B. unfold from_to in B. cbv zeta. lia.
Qed.
Lemma wire_inj b b' : button_ok b -> button_ok b' -> wire_button b = wire_button b' -> b = b'.
Proof. unfold button_ok, wire_button. intros. repeat match goal with H : context [if ?c =? ?d then _ else _] |- _ => destruct (Z.eqb_spec c d) end; lia. Qed.

Lemma write_plain sg v bs : vreachable sg v -> vfl v VF_SRM = true -> vte_write sg v bs = Ok (wrote v [bs]).
Proof. intros R S. unfold vte_write. rewrite S. cbn [bind]. rewrite send_plain by exact (reach_noprep _ _ R). reflexivity. Qed.
Lemma write_moved sg v x y bs : vreachable sg v -> vfl v VF_SRM = true ->
  vte_write sg (w_mrow (w_mcol v x) y) bs = Ok (wrote (w_mrow (w_mcol v x) y) [bs]).
Proof.
  intros R S. unfold vte_write. change (vfl (w_mrow (w_mcol v x) y) VF_SRM) with (vfl v VF_SRM). rewrite S. cbn [bind].
  rewrite send_plain; [reflexivity|]. exact (reach_noprep _ _ R).
Qed.

(* Mode 9. *)
Lemma mouse_x10 sg v cx cy px py b e m : vreachable sg v -> vfl v VF_SRM = true -> v_mmode v = 9 ->
  0 <= cx < 2 ^ 31 -> 0 <= cy < 2 ^ 31 -> button_ok b -> modifiers_ok m ->
  vte_mouse sg v cx cy px py b e m =
  Ok (if Z.testbit e 2 then (v, false)
      else (wrote v [[27; 91; 77; 32 + Z.lor (if Z.testbit e 1 then 3 else b) m; Z.min 255 (33 + cx); Z.min 255 (33 + cy)]], true)).
Proof.
  intros R S Md Hx Hy Hb Hm. unfold vte_mouse. cbv zeta. rewrite Md. change (9 =? MOUSE_X10) with true. cbn [orb andb]. unfold bit, EV_MOVED, EV_RELEASED.
  destruct (Z.testbit e 2); [reflexivity|].
  set (b' := if Z.testbit e 1 then 3 else b).
  assert (Hb' : button_ok b') by (unfold b'; destruct (Z.testbit e 1); [unfold button_ok; lia|auto]).
  pose proof (wire_reads b' m Hb' Hm) as (_ & _ & _ & L).
  rewrite !u32_small by lia. unfold u8. rewrite Z.mod_small by lia.
  replace (if 255 <? cx + 33 then 255 else cx + 33) with (Z.min 255 (33 + cx)) by (destruct (Z.ltb_spec 255 (cx + 33)); lia).
  replace (if 255 <? cy + 33 then 255 else cy + 33) with (Z.min 255 (33 + cy)) by (destruct (Z.ltb_spec 255 (cy + 33)); lia).
  rewrite buf24_id; [|cbn; lia|repeat constructor; lia]. rewrite write_plain by assumption. cbn [bind].
  replace (Z.lor b' m + 32) with (32 + Z.lor b' m) by lia. reflexivity.
Qed.

(* Modes 1006 (cells) and 1016 (pixels). *)
Lemma mouse_sgr sg v cx cy px py b e m : vreachable sg v -> vfl v VF_SRM = true -> v_mmode v = 1006 -> v_mev v <> 0 ->
  0 <= cx < 10 ^ 7 - 1 -> 0 <= cy < 10 ^ 7 - 1 -> button_ok b -> modifiers_ok m ->
  exists r, vte_mouse sg v cx cy px py b e m =
  Ok (if Z.testbit e 2
      then if negb (v_mev v =? 1003) || ((1 + cx =? v_mcol v) && (1 + cy =? v_mrow v)) then (v, false)
           else (wrote (w_mrow (w_mcol v (1 + cx)) (1 + cy)) [r], true)
      else (wrote v [r], true)) /\
  read_report r = Some (if Z.testbit e 2 then (35, 1 + cx, 1 + cy, true)
                        else (Z.lor (wire_button b) m, 1 + cx, 1 + cy, Z.testbit e 0)).
Proof.
  intros R S Md Ev Hx Hy Hb Hm. pose proof (wire_reads b m Hb Hm) as (W & _). cbv zeta in W.
  unfold vte_mouse. cbv zeta. rewrite Md. change (1006 =? MOUSE_X10) with false. change (1006 =? MOUSE_SGR) with true. cbn [orb andb].
  replace (v_mev v =? 0) with false by (symmetry; now apply Z.eqb_neq). cbn [negb]. unfold bit, EV_MOVED, EV_PRESSED, MOUSE_ANY.
  change (if b =? BTN_WHEEL_UP then 64 else if b =? BTN_WHEEL_DOWN then 65 else b) with (wire_button b).
  rewrite !u32_small by lia. unfold u8. rewrite Z.mod_small by lia. rewrite (Z.add_comm cx), (Z.add_comm cy).
  destruct (Z.testbit e 2).
  - exists (sgr_report 35 (1 + cx) (1 + cy) true). split; [|apply report_reads; lia].
    destruct (v_mev v =? 1003); cbn [negb orb andb]; [|reflexivity].
    destruct ((1 + cx =? v_mcol v) && (1 + cy =? v_mrow v)); [reflexivity|].
    rewrite write_moved by assumption. reflexivity.
  - exists (sgr_report (Z.lor (wire_button b) m) (1 + cx) (1 + cy) (Z.testbit e 0)). split; [|apply report_reads; lia].
    rewrite andb_false_r. cbn [andb orb]. rewrite write_plain by assumption. reflexivity.
Qed.
Lemma mouse_pixel sg v cx cy px py b e m : vreachable sg v -> vfl v VF_SRM = true -> v_mmode v = 1016 -> v_mev v <> 0 ->
  0 <= px < 10 ^ 7 -> 0 <= py < 10 ^ 7 -> button_ok b -> modifiers_ok m -> In e [1; 2; 4] ->
  exists r, vte_mouse sg v cx cy px py b e m =
  Ok (if (e =? 4) && negb (v_mev v =? 1003) then (v, false) else (wrote v [r], true)) /\
  read_report r = Some (if e =? 4 then (35, px, py, true) else (Z.lor (wire_button b) m, px, py, e =? 1)).
Proof.
  intros R S Md Ev Hx Hy Hb Hm He. pose proof (wire_reads b m Hb Hm) as (W & _). cbv zeta in W.
  unfold vte_mouse. cbv zeta. rewrite Md. change (1016 =? MOUSE_X10) with false. change (1016 =? MOUSE_SGR) with false.
  change (1016 =? MOUSE_PIXEL) with true. cbn [orb andb].
  replace (v_mev v =? 0) with false by (symmetry; now apply Z.eqb_neq). cbn [negb]. unfold bit, EV_MOVED, EV_PRESSED, MOUSE_ANY.
  change (if b =? BTN_WHEEL_UP then 64 else if b =? BTN_WHEEL_DOWN then 65 else b) with (wire_button b).
  unfold u8. rewrite (Z.mod_small (Z.lor (wire_button b) m)) by lia.
  exists (sgr_report (if e =? 4 then 35 else Z.lor (wire_button b) m) px py ((e =? 4) || Z.testbit e 0)). split.
  - replace (Z.testbit e 2) with (e =? 4) by (destruct He as [<-|[<-|[<-|[]]]]; reflexivity). rewrite (andb_comm (e =? 4)).
    destruct (negb (v_mev v =? 1003) && (e =? 4)); [reflexivity|]. rewrite write_plain by assumption. reflexivity.
  - rewrite report_reads by (try destruct (e =? 4); lia). destruct He as [<-|[<-|[<-|[]]]]; reflexivity.
Qed.
Lemma mouse_quiet sg v cx cy px py b e m : ~ mouse_asked v (Z.testbit e 2) -> vte_mouse sg v cx cy px py b e m = Ok (v, false).
Proof.
  unfold mouse_asked, vte_mouse, MOUSE_X10, MOUSE_SGR, MOUSE_PIXEL, MOUSE_ANY, bit, EV_MOVED. cbv zeta. intros H.
  destruct (Z.eqb_spec (v_mmode v) 9) as [E|E].
  - destruct (Z.testbit e 2); [reflexivity|]. exfalso. auto.
  - cbn [orb]. destruct (Z.eqb_spec (v_mev v) 1003) as [F|F]; cbn [negb andb].
    + destruct (Z.eqb_spec (v_mmode v) 1006) as [G|G]; [exfalso; apply H; repeat split; auto; lia|].
      destruct (Z.eqb_spec (v_mmode v) 1016) as [K|K]; [exfalso; apply H; repeat split; auto; lia|]. reflexivity.
    + destruct (Z.testbit e 2); [reflexivity|].
      destruct (Z.eqb_spec (v_mev v) 0) as [Z0|Z0]; cbn [negb]; rewrite ?andb_false_r; [reflexivity|].
      destruct (Z.eqb_spec (v_mmode v) 1006) as [G|G]; [exfalso; apply H; repeat split; auto; discriminate|].
      destruct (Z.eqb_spec (v_mmode v) 1016) as [K|K]; [exfalso; apply H; repeat split; auto; discriminate|]. reflexivity.
Qed.
Lemma typable_utf8 v u : vfl v VF_7BIT = false -> vfl v VF_8BIT = false -> scalar u -> ~ nonchar u -> typable v u.
Proof. intros A B C D. right. rewrite A, B. unfold scalar in *. split; [lia|auto]. Qed.
