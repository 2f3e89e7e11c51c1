(* Properties C07-C19 and C22: the screen. The specification vocabulary (at_,
   shift_up, write_spec, ...) is in ScreenSpec.v; reachable, op_args and
   op_hazard are in ScreenSafe.v. The examples use the screens demo1, demo2,
   demo3 of ScreenThms.v: 4 columns, 3 rows, some text, one scrollback line;
   demo2 has the scroll region 1..2, demo3 shows the alternate screen. *)
From Verif Require Import Base BaseProofs Wcwidth Screen ScreenInv ScreenSpec ScreenResize ScreenSafe ScreenAlt ScreenRz ScreenThms.

(* C07: a run is undefined exactly if it comes upon one of two calls: writing a
   two column symbol in insert mode on a one column screen, or moving to a tab
   stop on the left with the cursor beyond the end of the tab ruler. *)
Theorem C07_safe_partial : forall ops, Forall op_args ops ->
  (run scr_init ops = Ub <->
   exists pre o post s, ops = pre ++ o :: post /\ run scr_init pre = Ok s /\ op_hazard s o).
Proof. exact safe_iff. Qed.
Print Assumptions C07_safe_partial.
Theorem C07_step_safe_partial : forall s o, reachable s -> op_args o -> ~ op_hazard s o ->
  exists s', step s o = Ok s' /\ reachable s'.
Proof. exact step_safe. Qed.
Print Assumptions C07_step_safe_partial.
Example C07_safe_ex : Forall op_args ops3 /\ run scr_init ops3 = Ok demo3 /\ chars demo2 = [[68; 69; 0; 0]; [70; 0; 0; 0]; [71; 0; 0; 0]].
Proof. split; [args|split; vm_compute; reflexivity]. Qed.
Example C07_step_safe_ex : reachable demo2 /\ op_args (OScrollUp 4294967295) /\ ~ op_hazard demo2 (OScrollUp 4294967295).
Proof. split; [exact demo2_reachable|]. split; [args|intros []]. Qed.
(* The full statement is false: both hazards are reachable. *)
Theorem C07_memory_safety_refuted :
  (exists ops ch a, Forall op_args (ops ++ [OWrite ch a]) /\ run scr_init (ops ++ [OWrite ch a]) = Ub) /\
  (exists ops n, Forall op_args (ops ++ [OTabLeft n]) /\ run scr_init (ops ++ [OTabLeft n]) = Ub).
Proof.
  split.
  - exists [OResize 1 1; OSetFlags 1], 19968, at0. split; [args|vm_compute; reflexivity].
  - exists [OMoveTo 79 0; OWrite 19968 at0], 1. split; [args|vm_compute; reflexivity].
Qed.
Print Assumptions C07_memory_safety_refuted.

(* C08 *)
Theorem C08_bounds : forall s, reachable s ->
  0 <= s_cy s < s_sy s /\ 0 <= s_cx s <= s_sx s + 1 /\ 0 <= s_mt s <= s_mb s /\ s_mb s < s_sy s /\ 0 < s_sx s.
Proof. exact bounds. Qed.
Print Assumptions C08_bounds.
(* The cursor leaves the columns of the screen only by writing a symbol that
   reaches the right edge. *)
Theorem C08_beyond_only_by_write : forall s o s', reachable s -> op_args o -> step s o = Ok s' ->
  s_cx s < s_sx s -> s_sx s' <= s_cx s' ->
  exists ch a w, o = OWrite ch a /\ scr_width ch = Ok w /\ s_sx s' <= write_col s + w.
Proof. exact pending. Qed.
Print Assumptions C08_beyond_only_by_write.
Example C08_ex : let s := get (run scr_init (ops1 ++ [OMoveTo 3 2])) in
  reachable s /\ s_cx s = 3 /\ exists s', step s (OWrite 19968 at0) = Ok s' /\ s_cx s' = s_sx s' + 1.
Proof.
  split; [exists (ops1 ++ [OMoveTo 3 2]); split; [args|vm_compute; reflexivity]|]. split; [vm_compute; reflexivity|].
  eexists. split; vm_compute; reflexivity.
Qed.

(* C09 *)
Theorem C09_limit : forall s, reachable s -> zlen (sb_text s) <= s_sbmax s.
Proof. exact sb_bound_r. Qed.
Print Assumptions C09_limit.
Theorem C09_step : forall s o s', reachable s -> op_args o -> step s o = Ok s' ->
  sb_text s' = sb_spec s o /\ s_sbmax s' = sb_limit s o.
Proof. exact sb_step_r. Qed.
Print Assumptions C09_step.
Theorem C09_fifo : forall ops s, Forall op_args ops -> run scr_init ops = Ok s ->
  exists evicted, offs scr_init ops = evicted ++ sb_text s.
Proof. exact sb_history. Qed.
Print Assumptions C09_fifo.
Theorem C09_most_recent : forall ops s s', reachable s -> Forall op_args ops -> Forall keeps_limit ops -> run s ops = Ok s' ->
  sb_text s' = last_n (s_sbmax s) (sb_text s ++ offs s ops).
Proof. exact sb_exact_r. Qed.
Print Assumptions C09_most_recent.
Example C09_ex : let ops := ops1 ++ [OScrollUp 1; OScrollUp 2] in exists s, Forall op_args ops /\ run scr_init ops = Ok s /\
  zlen (offs scr_init ops) = 25 /\ s_sbmax s = 3 /\ sb_chars s = [[68; 69; 0; 0]; [70; 0; 0; 0]; [71; 0; 0; 0]].
Proof.
  cbv zeta. eexists. split; [args|]. split; [vm_compute; reflexivity|]. repeat split; vm_compute; reflexivity.
Qed.
Example C09_most_recent_ex : reachable demo1 /\ Forall keeps_limit [OScrollUp 5; ONewline] /\
  exists s', run demo1 [OScrollUp 5; ONewline] = Ok s' /\ zlen (offs demo1 [OScrollUp 5; ONewline]) = 4 /\ zlen (s_sb s') = 3.
Proof.
  split; [exact demo1_reachable|]. split; [repeat constructor|]. eexists. split; [vm_compute; reflexivity|]. split; vm_compute; reflexivity.
Qed.

(* C10 *)
Theorem C10_view_live_or_present : forall s, reachable s -> 0 <= view_index s <= zlen (s_sb s) /\
  match s_sbpos s with
  | None => view_index s = zlen (s_sb s)
  | Some p => view_index s < zlen (s_sb s) /\ exists l, znth (s_sb s) (view_index s) = Some l /\ l_sbid l = Some p
  end.
Proof. exact view_r. Qed.
Print Assumptions C10_view_live_or_present.
Theorem C10_sb_up : forall s n, reachable s -> u32_arg n -> view_moves s (OSbUp n) (Z.max 0 (view_index s - n)).
Proof. exact sb_up_r. Qed.
Print Assumptions C10_sb_up.
Theorem C10_sb_down : forall s n, reachable s -> u32_arg n ->
  view_moves s (OSbDown n) (Z.min (zlen (s_sb s)) (view_index s + n)).
Proof. exact sb_down_r. Qed.
Print Assumptions C10_sb_down.
Theorem C10_up_down : forall s n, reachable s -> u32_arg n -> n <= view_index s -> exists s1 s2,
  step s (OSbUp n) = Ok s1 /\ step s1 (OSbDown n) = Ok s2 /\ view_index s2 = view_index s /\ s_sb s2 = s_sb s.
Proof. exact up_down_r. Qed.
Print Assumptions C10_up_down.
Theorem C10_sb_reset : forall s, reachable s -> view_moves s OSbReset (zlen (s_sb s)).
Proof. exact sb_reset_r. Qed.
Print Assumptions C10_sb_reset.
Example C10_ex : let ops := ops1 ++ [OScrollUp 2; OSbUp 2] in exists s, Forall op_args ops /\ run scr_init ops = Ok s /\
  view_index s = 1 /\ zlen (s_sb s) = 3 /\ s_sbpos s = Some 2.
Proof. cbv zeta. eexists. split; [args|]. split; [vm_compute; reflexivity|]. repeat split; vm_compute; reflexivity. Qed.
(* The numeric position is not that of the view. *)
Theorem C10_numeric_position_refuted : exists s, reachable s /\ scr_sb_line_pos s <> view_index s.
Proof.
  exists (get (run scr_init [OSetMaxSb 5; OScrollUp 3; OSbUp 1; OSbReset])). split; [|vm_compute; discriminate].
  exists [OSetMaxSb 5; OScrollUp 3; OSbUp 1; OSbReset]. split; [args|vm_compute; reflexivity].
Qed.
Print Assumptions C10_numeric_position_refuted.

(* C11 *)
Theorem C11_resize : forall s x y, reachable s -> 0 < x <= DIM -> 0 < y <= DIM -> s_sx s <> x \/ s_sy s <> y ->
  exists s', scr_resize s x y = Ok (s', 0) /\ s_sx s' = x /\ s_sy s' = y /\ s_mt s' = 0 /\ s_mb s' = y - 1 /\
    (forall k, 0 <= k < x -> is_stop s' k = (k mod 8 =? 0)) /\
    s_cx s' = Z.min (s_cx s) (x - 1) /\ s_cy s' = Z.min (Z.max 0 (s_cy s - rz_off s y)) (y - 1) /\
    forall j i, on_screen s' j i ->
      at_ s' j i = rz_cell s (exposed_attr s) (at_ s (j + rz_off s y) i) (j + rz_off s y) i.
Proof. exact resize_r. Qed.
Print Assumptions C11_resize.
Theorem C11_same_size : forall s, reachable s -> scr_resize s (s_sx s) (s_sy s) = Ok (s, 0).
Proof. exact resize_same_r. Qed.
Print Assumptions C11_same_size.
Theorem C11_zero_size : forall s x y, x = 0 \/ y = 0 -> exists e, e <> 0 /\ scr_resize s x y = Ok (s, e).
Proof. exact resize_zero. Qed.
Print Assumptions C11_zero_size.
Example C11_ex : reachable demo1 /\ exists s', scr_resize demo1 3 2 = Ok (s', 0) /\
  chars s' = [[70; 0; 0]; [71; 0; 0]] /\ sb_chars s' = [[65; 66; 67]; [68; 69; 0]].
Proof. split; [exact demo1_reachable|]. eexists. split; [vm_compute; reflexivity|]. split; vm_compute; reflexivity. Qed.

(* C12: what is exposed is blank; the attributes are the default attributes on
   the alternate screen only, see the refutation. *)
Theorem C12_exposed_partial : forall s x y j i, reachable s -> 0 < x <= DIM -> 0 < y <= DIM ->
  0 <= j < y -> 0 <= i < x -> s_sy s <= j \/ s_sx s <= i ->
  exists s', scr_resize s x y = Ok (s', 0) /\ at_ s' j i = Some (blank_glyph (exposed_attr s)).
Proof. exact exposed_r. Qed.
Print Assumptions C12_exposed_partial.
Example C12_exposed_ex : reachable demo3 /\ exposed_attr demo3 = s_def demo3 /\ s_sx demo3 <= 5 /\
  exists s', scr_resize demo3 6 5 = Ok (s', 0) /\ at_ s' 1 5 = Some (blank_glyph (s_def demo3)).
Proof.
  split; [exact demo3_reachable|]. split; [vm_compute; reflexivity|]. split; [vm_compute; discriminate|].
  eexists. split; vm_compute; reflexivity.
Qed.
Theorem C12_default_attributes_refuted : exists s s' j i, reachable s /\ fl s F_ALT = false /\
  step s (OResize 5 3) = Ok s' /\ on_screen s' j i /\ s_sx s <= i /\ at_ s' j i <> Some (blank_glyph (s_def s)).
Proof.
  exists (get (run scr_init (ops1 ++ [OSetDefAttr prot]))).
  exists (get (step (get (run scr_init (ops1 ++ [OSetDefAttr prot]))) (OResize 5 3))), 0, 4.
  split; [exists (ops1 ++ [OSetDefAttr prot]); split; [args|vm_compute; reflexivity]|].
  split; [vm_compute; reflexivity|]. split; [vm_compute; reflexivity|].
  split; [split; split; vm_compute; congruence|]. split; vm_compute; congruence.
Qed.
Print Assumptions C12_default_attributes_refuted.

(* C13 *)
Theorem C13_scrolls_exactly : forall s o f, reachable s -> scrolls s o f ->
  exists s', step s o = Ok s' /\ forall y x, on_screen s y x -> at_ s' y x = f y x.
Proof. exact scrolls_r. Qed.
Print Assumptions C13_scrolls_exactly.
Theorem C13_outside_untouched : forall s o y x s', reachable s -> op_args o ->
  match o with
  | OScrollUp _ | OScrollDown _ | OMoveDown _ _ | OMoveUp _ _ | ONewline | OInsLines _ | ODelLines _ => True
  | _ => False end ->
  on_screen s y x -> y < s_mt s \/ s_mb s < y -> step s o = Ok s' -> at_ s' y x = at_ s y x.
Proof. exact outside_r. Qed.
Print Assumptions C13_outside_untouched.
Example C13_ex : reachable demo2 /\ scrolls demo2 (OScrollUp 1) (shift_up demo2 1 2 1) /\
  chars demo2 = [[68; 69; 0; 0]; [70; 0; 0; 0]; [71; 0; 0; 0]] /\
  chars (get (step demo2 (OScrollUp 1))) = [[68; 69; 0; 0]; [71; 0; 0; 0]; [0; 0; 0; 0]] /\
  chars (get (step demo2 (OMoveUp 7 true))) = [[68; 69; 0; 0]; [0; 0; 0; 0]; [0; 0; 0; 0]].
Proof.
  split; [exact demo2_reachable|]. split; [|repeat split; vm_compute; reflexivity].
  apply (sc_up demo2 1). args.
Qed.

Theorem C13_cursor : forall s o f, reachable s -> scrolls s o f ->
  exists s', step s o = Ok s' /\ (s_cx s', s_cy s') = scroll_cursor s o.
Proof. exact scroll_cursor_r. Qed.
Print Assumptions C13_cursor.
Theorem C13_margins : forall s t b, reachable s -> u32_arg t -> u32_arg b -> exists s', step s (OSetMargins t b) = Ok s' /\
  (s_mt s', s_mb s') = margins_for s t b /\ s_cx s' = s_cx s /\ s_cy s' = s_cy s /\ s_sb s' = s_sb s /\
  s_flags s' = s_flags s /\ same_text s s'.
Proof. exact margins_r. Qed.
Print Assumptions C13_margins.
Example C13_ex2 : reachable demo2 /\ scrolls demo2 ONewline (shift_up demo2 (s_mt demo2) (s_mb demo2) (over_down demo2 1)) /\ scroll_cursor demo2 (OMoveDown 9 true) = (1, 2) /\
  u32_arg 0 /\ u32_arg 2 /\ margins_for demo2 0 2 = (0, 1) /\ margins_for demo2 3 3 = (0, 2) /\ margins_for demo2 2 4294967295 = (0, 2).
Proof.
  split; [exact demo2_reachable|]. split; [|repeat split; (args || (vm_compute; reflexivity))].
  apply (sc_nl demo2).
Qed.

(* C14 *)
Theorem C14_insert_lines : forall s n, reachable s -> u32_arg n -> 0 < n -> s_mt s <= s_cy s <= s_mb s ->
  exists s', step s (OInsLines n) = Ok s' /\ s_cx s' = 0 /\ s_cy s' = s_cy s /\
  forall y x, on_screen s y x -> at_ s' y x = shift_down s (s_cy s) (s_mb s) (Z.min n (s_mb s + 1 - s_cy s)) y x.
Proof. exact ins_lines_r. Qed.
Print Assumptions C14_insert_lines.
Theorem C14_delete_lines : forall s n, reachable s -> u32_arg n -> 0 < n -> s_mt s <= s_cy s <= s_mb s ->
  exists s', step s (ODelLines n) = Ok s' /\ s_cx s' = 0 /\ s_cy s' = s_cy s /\
  forall y x, on_screen s y x -> at_ s' y x = shift_up s (s_cy s) (s_mb s) (Z.min n (s_mb s + 1 - s_cy s)) y x.
Proof. exact del_lines_r. Qed.
Print Assumptions C14_delete_lines.
Theorem C14_outside_region : forall s n, s_cy s < s_mt s \/ s_mb s < s_cy s ->
  step s (OInsLines n) = Ok s /\ step s (ODelLines n) = Ok s.
Proof. exact ScreenLaws.lines_outside. Qed.
Print Assumptions C14_outside_region.
Example C14_ex : reachable demo2 /\ s_mt demo2 <= s_cy demo2 <= s_mb demo2 /\ s_cx demo2 = 1 /\
  chars (get (step demo2 (OInsLines 1))) = [[68; 69; 0; 0]; [0; 0; 0; 0]; [70; 0; 0; 0]] /\
  chars (get (step demo2 (ODelLines 1))) = [[68; 69; 0; 0]; [71; 0; 0; 0]; [0; 0; 0; 0]].
Proof.
  split; [exact demo2_reachable|]. split; [split; vm_compute; congruence|]. repeat split; vm_compute; reflexivity.
Qed.
Example C14_outside_ex : let s := get (run scr_init (ops2 ++ [OMoveTo 2 0])) in s_cy s < s_mt s.
Proof. vm_compute; reflexivity. Qed.

(* C15 *)
Theorem C15_insert_chars : forall s n, reachable s -> u32_arg n -> 0 < n -> exists s', step s (OInsChars n) = Ok s' /\
  s_cx s' = cursor_col s /\ s_cy s' = s_cy s /\
  forall y x, on_screen s y x -> at_ s' y x = chars_in s (cursor_col s) (Z.min n (s_sx s - cursor_col s)) y x.
Proof. exact ins_chars_r. Qed.
Print Assumptions C15_insert_chars.
Theorem C15_delete_chars : forall s n, reachable s -> u32_arg n -> 0 < n -> exists s', step s (ODelChars n) = Ok s' /\
  s_cx s' = cursor_col s /\ s_cy s' = s_cy s /\
  forall y x, on_screen s y x -> at_ s' y x = chars_out s (cursor_col s) (Z.min n (s_sx s - cursor_col s)) y x.
Proof. exact del_chars_r. Qed.
Print Assumptions C15_delete_chars.
Example C15_ex : let s := get (run scr_init (ops1 ++ [OMoveTo 0 0])) in reachable s /\
  chars (get (step s (OInsChars 2))) = [[0; 0; 68; 69]; [70; 0; 0; 0]; [71; 0; 0; 0]] /\
  chars (get (step s (ODelChars 1))) = [[69; 0; 0; 0]; [70; 0; 0; 0]; [71; 0; 0; 0]].
Proof.
  split; [exists (ops1 ++ [OMoveTo 0 0]); split; [args|vm_compute; reflexivity]|]. split; vm_compute; reflexivity.
Qed.

(* C16: every erase call but erase_chars with a count near 2^32. *)
Theorem C16_erase_exact : forall s o r p, reachable s -> erase_call s o r p -> erases s o r p.
Proof. exact erase_r. Qed.
Print Assumptions C16_erase_exact.
Theorem C16_erase_chars_partial : forall s n, reachable s -> u32_arg n -> 0 < n -> cursor_col s + n <= 4294967296 ->
  erases s (OEraseChars n) (reg_chars s n) false.
Proof. exact erase_chars_r. Qed.
Print Assumptions C16_erase_chars_partial.
Example C16_ex : let s := get (run scr_init (ops1 ++ [OMoveTo 0 0])) in reachable s /\
  erase_call s (OEraseScreen true) reg_all true /\
  chars (get (step s (OEraseScreen true))) = [[0; 69; 0; 0]; [0; 0; 0; 0]; [0; 0; 0; 0]] /\
  chars (get (step s (OEraseChars 2))) = [[0; 0; 0; 0]; [70; 0; 0; 0]; [71; 0; 0; 0]].
Proof.
  split; [exists (ops1 ++ [OMoveTo 0 0]); split; [args|vm_compute; reflexivity]|]. split; [constructor|]. split; vm_compute; reflexivity.
Qed.
(* With a count near 2^32 the end column wraps around and nothing is erased. *)
Theorem C16_erase_chars_refuted : exists s n, reachable s /\ u32_arg n /\ 0 < n /\ ~ erases s (OEraseChars n) (reg_chars s n) false.
Proof.
  exists (get (run scr_init (ops1 ++ [OMoveTo 2 0; OWrite 90 at0; OMoveTo 2 0]))), 4294967295.
  split; [exists (ops1 ++ [OMoveTo 2 0; OWrite 90 at0; OMoveTo 2 0]); split; [args|vm_compute; reflexivity]|]. split; [args|]. split; [lia|].
  intros (s' & E & _ & _ & A). specialize (A 0 2).
  assert (X : on_screen (get (run scr_init (ops1 ++ [OMoveTo 2 0; OWrite 90 at0; OMoveTo 2 0]))) 0 2) by (split; split; vm_compute; congruence).
  specialize (A X). vm_compute in E. inversion E; subst s'. vm_compute in A. discriminate.
Qed.
Print Assumptions C16_erase_chars_refuted.

(* C17 *)
Theorem C17_main_untouched : forall ops s s', reachable s -> Forall op_args ops -> fl s F_ALT = true ->
  forallb stays_alt ops = true -> run s ops = Ok s' ->
  (forall y x, main_at s' y x = main_at s y x) /\ sb_text s' = sb_text s /\ fl s' F_ALT = true.
Proof. exact alt_r. Qed.
Print Assumptions C17_main_untouched.
Theorem C17_leave : forall s f, reachable s -> u32_arg f -> fl s F_ALT = true -> bit f F_ALT = true ->
  exists s', step s (OResetFlags f) = Ok s' /\ sb_text s' = sb_text s /\ forall y x, at_ s' y x = main_at s y x.
Proof. exact alt_leave_r. Qed.
Print Assumptions C17_leave.
Theorem C17_round_trip : forall ops s f s1 s2 s3, reachable s -> Forall op_args ops -> forallb stays_alt ops = true ->
  u32_arg f -> bit f F_ALT = true -> fl s F_ALT = false ->
  step s (OSetFlags f) = Ok s1 -> run s1 ops = Ok s2 -> step s2 (OResetFlags f) = Ok s3 ->
  (forall y x, at_ s3 y x = at_ s y x) /\ sb_text s3 = sb_text s.
Proof. exact alt_round. Qed.
Print Assumptions C17_round_trip.
Example C17_ex : let ops := [OWrite 88 at0; OScrollUp 9; OInsLines 2; OEraseScreen false; ONewline; OWrite 89 at0] in
  reachable demo3 /\ Forall op_args ops /\ fl demo3 F_ALT = true /\ forallb stays_alt ops = true /\
  exists s', run demo3 ops = Ok s' /\ chars s' <> chars demo3.
Proof.
  cbv zeta. split; [exact demo3_reachable|]. split; [args|]. split; [vm_compute; reflexivity|]. split; [reflexivity|].
  eexists. split; [vm_compute; reflexivity|]. vm_compute. discriminate.
Qed.

(* C18 *)
Theorem C18_write : forall s ch a w, reachable s -> ~ op_hazard s (OWrite ch a) -> scr_width ch = Ok w -> 0 < w ->
  exists s', step s (OWrite ch a) = Ok s' /\ s_cx s' = write_col s + w /\ s_cy s' = write_row s /\
  forall y x, on_screen s y x -> at_ s' y x = write_spec s ch w a y x.
Proof. exact write_r. Qed.
Print Assumptions C18_write.
Theorem C18_zero_width : forall s ch a, scr_width ch = Ok 0 -> step s (OWrite ch a) = Ok s.
Proof. exact ScreenLaws.write_zero_law. Qed.
Print Assumptions C18_zero_width.
Example C18_ex : reachable demo2 /\ ~ op_hazard demo2 (OWrite 19968 at0) /\ scr_width 19968 = Ok 2 /\
  chars (get (step demo2 (OWrite 19968 at0))) = [[68; 69; 0; 0]; [70; 19968; 0; 0]; [71; 0; 0; 0]].
Proof.
  split; [exact demo2_reachable|]. split; [intros [E _]; vm_compute in E; discriminate|]. split; vm_compute; reflexivity.
Qed.
Example C18_wrap_ex : let s := get (run scr_init (ops1 ++ [OMoveTo 3 2; OWrite 90 at0])) in reachable s /\
  write_scrolls s = true /\ chars (get (step s (OWrite 91 at0))) = [[70; 0; 0; 0]; [71; 0; 0; 90]; [91; 0; 0; 0]].
Proof.
  split; [exists (ops1 ++ [OMoveTo 3 2; OWrite 90 at0]); split; [args|vm_compute; reflexivity]|]. split; vm_compute; reflexivity.
Qed.
Example C18_zero_ex : scr_width 769 = Ok 0.
Proof. vm_compute; reflexivity. Qed.

(* C19 *)
Theorem C19_tab_right : forall s n, reachable s -> u32_arg n -> 0 < n -> exists x, moves s (OTabRight n) x (s_cy s) /\
  (n <= stops s (s_cx s + 1) (s_sx s) -> s_cx s < x < s_sx s /\ is_stop s x = true /\ stops s (s_cx s + 1) (x + 1) = n) /\
  (stops s (s_cx s + 1) (s_sx s) < n -> x = s_sx s - 1).
Proof. exact tab_right_r. Qed.
Print Assumptions C19_tab_right.
Theorem C19_tab_left_partial : forall s n, reachable s -> u32_arg n -> 0 < n -> s_cx s <= s_sx s ->
  exists x, moves s (OTabLeft n) x (s_cy s) /\
  (n <= stops s 1 (s_cx s) -> 1 <= x < s_cx s /\ is_stop s x = true /\ stops s x (s_cx s) = n) /\
  (stops s 1 (s_cx s) < n -> x = 0).
Proof. exact tab_left_r. Qed.
Print Assumptions C19_tab_left_partial.
Theorem C19_set_reset : forall s (v : bool), reachable s -> exists s',
  step s (if v then OSetTabstop else OResetTabstop) = Ok s' /\
  (forall k, is_stop s' k = if (k =? s_cx s) && (s_cx s <? s_sx s) then v else is_stop s k) /\
  s' = set_tabs s (s_tabs s').
Proof. exact tabstop_r. Qed.
Print Assumptions C19_set_reset.
Theorem C19_clear : forall s, reachable s -> exists s', step s OResetAllTabstops = Ok s' /\
  (forall k, 0 <= k < s_sx s -> is_stop s' k = false) /\ s' = set_tabs s (s_tabs s').
Proof. exact clear_tabs_r. Qed.
Print Assumptions C19_clear.
Example C19_ex : let s := get (run scr_init [OMoveTo 20 5]) in reachable s /\
  stops s (s_cx s + 1) (s_sx s) = 7 /\ s_cx (get (step s (OTabRight 3))) = 40 /\ s_cx (get (step s (OTabLeft 2))) = 8 /\
  s_cx (get (step s (OTabRight 8))) = 79 /\ is_stop (get (step s OSetTabstop)) 20 = true.
Proof. split; [exists [OMoveTo 20 5]; split; [args|vm_compute; reflexivity]|]. repeat split; vm_compute; reflexivity. Qed.
(* With the cursor two columns beyond the last one, tab_left reads outside the
   tab ruler. *)
Theorem C19_tab_left_refuted : exists s n, reachable s /\ u32_arg n /\ 0 < n /\ step s (OTabLeft n) = Ub.
Proof.
  exists (get (run scr_init [OMoveTo 79 0; OWrite 19968 at0])), 1.
  split; [exists [OMoveTo 79 0; OWrite 19968 at0]; split; [args|vm_compute; reflexivity]|]. split; [args|].
  split; [lia|vm_compute; reflexivity].
Qed.
Print Assumptions C19_tab_left_refuted.

(* C22: all motions; move_to in origin mode with a row that does not wrap. *)
Theorem C22_motion_partial : forall s o x y, reachable s -> motion s o x y -> moves s o x y.
Proof. exact motion_r. Qed.
Print Assumptions C22_motion_partial.
Example C22_ex : reachable demo2 /\ motion demo2 (OMoveDown 4294967295 false) 1 2 /\ motion demo2 (OMoveUp 9 false) 1 1 /\
  motion demo2 (OMoveTo 77 88) 3 2.
Proof.
  split; [exact demo2_reachable|].
  split; [apply (mo_down demo2 4294967295); args|]. split; [apply (mo_up demo2 9); args|].
  apply (mo_to demo2 77 88); [args|args|vm_compute; reflexivity].
Qed.
(* Without that bound the row wraps around and the cursor leaves the region. *)
Theorem C22_origin_refuted : exists s x y s', reachable s /\ fl s F_ORIGIN = true /\ u32_arg x /\ u32_arg y /\
  step s (OMoveTo x y) = Ok s' /\ s_cy s' <> Z.min (s_mt s + y) (s_mb s) /\ s_cy s' < s_mt s.
Proof.
  exists (get (run scr_init (ops2 ++ [OSetFlags 4]))), 0, 4294967295, (get (run scr_init (ops2 ++ [OSetFlags 4; OMoveTo 0 4294967295]))).
  split; [exists (ops2 ++ [OSetFlags 4]); split; [args|vm_compute; reflexivity]|]. split; [vm_compute; reflexivity|].
  split; [args|]. split; [args|]. split; [vm_compute; reflexivity|]. split; vm_compute; congruence.
Qed.
Print Assumptions C22_origin_refuted.
