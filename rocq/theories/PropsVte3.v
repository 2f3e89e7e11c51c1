(* Theorems about the terminal emulator: C52 and C53, what editing sequences and
   controls do. The effects are in EditSpec.v. *)
From Verif Require Import Base BaseProofs Utf8 Utf8Spec Symbol Screen ScreenResize ScreenInv ScreenSafe ScreenSpec ScreenThms.
From Verif Require Import VteData Vte VteKeys VteSpec VteView VteInv VteSafe VteParse VteCsi VteThms2 VteThms3 VteDemo EditSpec VteEdit.
Ltac conj := repeat match goal with |- _ /\ _ => split end.
Ltac each := repeat (apply Forall_cons; [unfold pchar, digit; lia|]); apply Forall_nil.
Ltac demos := apply demo_reachable; [repeat constructor; try (vm_compute; congruence); args|vm_compute; reflexivity].
Ltac texts := split; [vm_compute; reflexivity|right; right; vm_compute; auto].

Ltac utf8s := apply encodes_utf8; [vm_compute; reflexivity|vm_compute; reflexivity|vm_compute; reflexivity|repeat (apply Forall_cons; [lia|]); apply Forall_nil].

(* C52: erasing, inserting, deleting and scrolling by control sequence, whatever
   the parameters. *)
Theorem C52_edit : forall sg v pri fl0 P f e, vreachable sg v -> text_mode v -> marker pri = Some fl0 -> Forall pchar P ->
  edit (v_con v) pri P f = Some e -> obeys sg v (csi_bytes pri P f) e.
Proof. exact edit_r. Qed.
Print Assumptions C52_edit.
Theorem C52_margins : forall sg v pri fl0 P, vreachable sg v -> text_mode v -> marker pri = Some fl0 -> Forall pchar P ->
  regions sg v (csi_bytes pri P 114) (fst (margins_for (v_con v) (arg0 P 0) (arg0 P 1))) (snd (margins_for (v_con v) (arg0 P 0) (arg0 P 1))).
Proof. exact stbm_r. Qed.
Print Assumptions C52_margins.
(* Rows "ab", "cd", "ef", the cursor in the second row. *)
Definition three : list Z := [97; 98; 13; 10; 99; 100; 13; 10; 101; 102; 27; 91; 50; 59; 50; 72].
Example C52_ex : let v := demo true [VInput three] in vreachable true v /\ text_mode v /\ Forall pchar [57] /\
  (s_cx (v_con v), s_cy (v_con v)) = (1, 1) /\
  (exists e, edit (v_con v) [] [57] 77 = Some e /\ e_column e = 0 /\ e_picture e 1 0 = Some (blank_glyph (s_def (v_con v)))) /\
  (exists e, edit (v_con v) [63] [] 74 = Some e) /\ (exists e, edit (v_con v) [] [50] 64 = Some e /\ e_picture e 1 3 = at_ (v_con v) 1 1) /\
  let w := vget (vte_input true v (csi_bytes [] [57] 77)) in map (row8 w) [0; 1; 2] = [[97; 98; 0; 0; 0; 0; 0; 0]; [0; 0; 0; 0; 0; 0; 0; 0]; [0; 0; 0; 0; 0; 0; 0; 0]].
Proof.
  cbv zeta. split; [demos|]. split; [texts|]. split; [each|]. split; [vm_compute; reflexivity|].
  split; [eexists; split; [unfold edit; cbn [Z.eqb Pos.eqb]; reflexivity|]; split; vm_compute; reflexivity|].
  split; [eexists; unfold edit; cbn [Z.eqb Pos.eqb]; reflexivity|].
  split; [eexists; split; [unfold edit; cbn [Z.eqb Pos.eqb]; reflexivity|]; vm_compute; reflexivity|].
  vm_compute. reflexivity.
Qed.
Example C52_margins_ex : let v := demo true [VInput three] in
  margins_for (v_con v) (arg0 [50; 59; 51] 0) (arg0 [50; 59; 51] 1) = (1, 2) /\ margins_for (v_con v) (arg0 [51; 59; 50] 0) (arg0 [51; 59; 50] 1) = (0, 2).
Proof. vm_compute. auto. Qed.

(* C53: the controls as single characters and as escape sequences, in each
   encoding; tab stops. *)
Theorem C53_controls : forall sg v l bs e, vreachable sg v -> text_mode v -> control (v_con v) (vfl v VF_LNM) l = Some e ->
  encodes sg (v_flags v) l bs -> obeys sg v bs e.
Proof. exact control_r. Qed.
Print Assumptions C53_controls.
Theorem C53_tab : forall sg v bs, vreachable sg v -> text_mode v -> encodes sg (v_flags v) [9] bs ->
  exists x, tabbed_right (v_con v) 1 x /\ goes sg v bs x (s_cy (v_con v)).
Proof. exact ht_r. Qed.
Print Assumptions C53_tab.
Theorem C53_tabs_forward : forall sg v pri fl0 P, vreachable sg v -> text_mode v -> marker pri = Some fl0 -> Forall pchar P ->
  exists x, tabbed_right (v_con v) (arg1 P 0) x /\ goes sg v (csi_bytes pri P 73) x (s_cy (v_con v)).
Proof. exact cht_r. Qed.
Print Assumptions C53_tabs_forward.
(* Not past the right edge: there CBT is undefined, see C27_tab_refuted. *)
Theorem C53_tabs_back_partial : forall sg v pri fl0 P, vreachable sg v -> text_mode v -> marker pri = Some fl0 -> Forall pchar P ->
  s_cx (v_con v) <= s_sx (v_con v) ->
  exists x, tabbed_left (v_con v) (arg1 P 0) x /\ goes sg v (csi_bytes pri P 90) x (s_cy (v_con v)).
Proof. exact cbt_r. Qed.
Print Assumptions C53_tabs_back_partial.
Theorem C53_set_stop : forall sg v l bs, vreachable sg v -> text_mode v -> l = [0x88] \/ l = [27; 72] -> encodes sg (v_flags v) l bs ->
  retabs sg v bs (fun k => (k =? s_cx (v_con v)) || is_stop (v_con v) k).
Proof. exact set_stop_r. Qed.
Print Assumptions C53_set_stop.
Theorem C53_clear_stop : forall sg v pri fl0 P, vreachable sg v -> text_mode v -> marker pri = Some fl0 -> Forall pchar P ->
  retabs sg v (csi_bytes pri P 103) (fun k => match arg0 P 0 with 0 => negb (k =? s_cx (v_con v)) && is_stop (v_con v) k | 3 => false | _ => is_stop (v_con v) k end).
Proof. exact clear_stop_r. Qed.
Print Assumptions C53_clear_stop.
Example C53_ex : let v := demo true [VInput (three ++ [27; 91; 51; 72])] in vreachable true v /\ text_mode v /\ s_cy (v_con v) = 2 /\
  encodes true (v_flags v) [27; 69] [27; 69] /\ encodes true (v_flags v) [0x85] [0xc2; 0x85] /\ vfl v VF_LNM = false /\
  (exists e, control (v_con v) (vfl v VF_LNM) [0x85] = Some e /\ (e_column e, e_row e) = (0, 2) /\ e_picture e 1 1 = at_ (v_con v) 2 1 /\ zlen (e_off e) = 1) /\
  map (row8 (vget (vte_input true v [0xc2; 0x85]))) [0; 1] = [[99; 100; 0; 0; 0; 0; 0; 0]; [101; 102; 0; 0; 0; 0; 0; 0]].
Proof.
  cbv zeta. split; [demos|]. split; [texts|]. split; [vm_compute; reflexivity|].
  split; [utf8s|]. split; [utf8s|]. split; [vm_compute; reflexivity|].
  split; [eexists; split; [unfold control; cbn [Z.eqb Pos.eqb Z.leb Z.compare Pos.compare Pos.compare_cont andb]; reflexivity|]; split; vm_compute; [reflexivity|split; reflexivity]|].
  vm_compute. reflexivity.
Qed.
Example C53_tabs_ex : let v := demo true [VInput [27; 91; 51; 71; 27; 72; 27; 91; 54; 71; 0xc2; 0x88; 13]] in
  map (is_stop (v_con v)) [0; 1; 2; 3; 4; 5; 6; 7] = [true; false; true; false; false; true; false; false] /\
  s_cx (v_con (vget (vte_input true v [9; 9]))) = 5 /\ s_cx (v_con (vget (vte_input true v [27; 91; 51; 73; 27; 91; 90]))) = 5 /\
  map (is_stop (v_con (vget (vte_input true v [9; 27; 91; 103])))) [0; 2; 5] = [true; false; true] /\ tabbed_right (v_con v) 2 5.
Proof. vm_compute. conj; try reflexivity; intros; conj; try reflexivity; discriminate. Qed.
