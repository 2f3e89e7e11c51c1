(* Theorems about copying the selection and about how it follows the text:
   C24, C25, C26. *)
From Verif Require Import Base BaseProofs Screen ScreenInv ScreenSpec ScreenResize ScreenSafe ScreenThms.
From Verif Require Import Selection SelectionSpec SelectionThms.
Notation plain := (mkA 7 0 0 0 0 0 0 0 false false false false false false).
Notation say c := (OWrite c plain).
Notation text l := (map (fun c => say c) l).

(* C24: a selection just made, with any coordinates of the screen and any part
   of the scrollback shown: copying stays within bounds if no character takes
   more than 3 bytes or only one row is selected. *)
Theorem C24_fresh_partial : forall s x y x' y', reachable s -> roomy s ->
  0 <= x < s_sx s -> 0 <= y < s_sy s -> 0 <= x' < s_sx s -> 0 <= y' < s_sy s ->
  chars_below 65536 s \/ y = y' ->
  exists s2 o, run s [OSelStart x y; OSelTarget x' y'] = Ok s2 /\ selection_copy s2 = Ok o.
Proof. exact fresh_safe. Qed.
Print Assumptions C24_fresh_partial.
(* At any time later: for ends still on a row and within the width, except for
   combinations of a line scrolled out or evicted and one on the screen. *)
Theorem C24_later_partial : forall s r c r' c', reachable s -> roomy s -> safe_ends s (s_sel1 s) (s_sel2 s) ->
  at_place_or_top s (s_sel1 s) r c -> at_place_or_top s (s_sel2 s) r' c' ->
  chars_below 65536 s \/ r = r' /\ ~ on_top (s_sel1 s) -> exists o, selection_copy s = Ok o.
Proof. exact copy_safe. Qed.
Print Assumptions C24_later_partial.
Theorem C24_none_partial : forall s, s_sela s = false -> selection_copy s = Ok CNone.
Proof. exact no_selection. Qed.
Print Assumptions C24_none_partial.
(* A screen with text of 1, 2 and 3 bytes and scrollback. *)
Notation written := ([OResize 3 2; OSetFlags 2; OSetMaxSb 4] ++ text [97; 233; 0x20AC; 98; 99; 100; 101; 102] ++ [OSbUp 1]).
Example C24_example : exists s, reachable s /\ roomy s /\ chars_below 65536 s /\ s_sx s = 3 /\ s_sy s = 2 /\ zlen (s_sb s) = 1 /\ view_index s = 0.
Proof.
  destruct (sees_reach written (fun s => (4 * s_sx s * (zlen (s_sb s) + s_sy s) + 1 <? 2147483648) &&
     forallb (forallb (fun ch => (0 <=? ch) && (ch <? 65536))) (text_rows s) &&
     (s_sx s =? 3) && (s_sy s =? 2) && (zlen (s_sb s) =? 1) && (view_index s =? 0))) as (s & R & F); [args|vm_compute; reflexivity|].
  exists s. split; [exact R|]. repeat (apply andb_true_iff in F; destruct F as [F ?]). unfold roomy.
  repeat match goal with |- _ /\ _ => split end; try lia.
  now apply below_b.
Qed.
Example C24_later_example : exists s, reachable s /\ s_sela s = true /\ safe_ends s (s_sel1 s) (s_sel2 s) /\ at_place_or_top s (s_sel1 s) 0 0 /\ at_place_or_top s (s_sel2 s) 1 1.
Proof.
  destruct (sees_reach [OResize 3 2; OSetMaxSb 4; say 97; OSelStart 0 0; OSelTarget 1 1; OScrollUp 2]
    (fun s => s_sela s && is_place s (s_sel1 s) 0 0 && is_place s (s_sel2 s) 1 1 && match p_line (s_sel1 s), p_line (s_sel2 s) with Some _, Some _ => true | _, _ => false end))
    as (s & R & F); [args|vm_compute; reflexivity|].
  exists s. repeat (apply andb_true_iff in F; destruct F as [F ?]). pose proof (proj1 (reachable_Inv s R)) as I.
  split; [exact R|]. split; [assumption|]. split; [unfold safe_ends; destruct (p_line (s_sel1 s)), (p_line (s_sel2 s)); congruence || exact Logic.I|].
  split; right; apply is_place_ok; auto.
Qed.

(* The claim itself is false. Full rows of characters of 4 bytes, with a newline
   each, do not fit: *)
Theorem C24_wide_refuted : ~ (forall ops s, Forall op_args ops -> selects_on_screen scr_init ops -> run scr_init ops = Ok s -> s_sb s = [] ->
  exists o, selection_copy s = Ok o).
Proof.
  intros H. set (ops := [OResize 2 3; OSetFlags 2] ++ text [65536; 65536; 65536; 65536; 65536; 65536] ++ [OSelStart 0 0; OSelTarget 1 2]).
  destruct (sees_run ops (fun s => copy_ub s && match s_sb s with [] => true | _ => false end)) as (s & E & F); [vm_compute; reflexivity|].
  apply andb_true_iff in F. destruct F as [F G]. apply (copy_ub_no s F), (H ops s); auto.
  - unfold ops. args.
  - apply picks_ok_ok. vm_compute. reflexivity.
  - clear E. destruct (s_sb s); [reflexivity|discriminate].
Qed.
Print Assumptions C24_wide_refuted.
(* Letters and newlines only; the start of the selection has scrolled out, the
   end has not: *)
Notation typed := [OResize 2 2; OSetMaxSb 5; say 97; OSelStart 0 0; ONewline; say 98; OSelTarget 0 1; ONewline].
Theorem C24_scrolled_refuted : ~ (forall ops s, Forall op_args ops -> selects_on_screen scr_init ops -> run scr_init ops = Ok s ->
  chars_below 128 s -> exists o, selection_copy s = Ok o).
Proof.
  intros H. destruct (sees_run typed (fun s => copy_ub s && forallb (forallb (fun ch => (0 <=? ch) && (ch <? 128))) (text_rows s))) as (s & E & F); [vm_compute; reflexivity|].
  apply andb_true_iff in F. destruct F as [F G]. apply (copy_ub_no s F), (H typed s); auto.
  - args.
  - apply picks_ok_ok. vm_compute. reflexivity.
  - now apply below_b.
Qed.
Print Assumptions C24_scrolled_refuted.
(* Scrolling down moves the end below the last line: *)
Theorem C24_down_refuted : ~ (forall ops s, Forall op_args ops -> selects_on_screen scr_init ops -> run scr_init ops = Ok s -> text_rows s = text_rows scr_init ->
  exists o, selection_copy s = Ok o).
Proof.
  intros H. set (ops := [OSelStart 0 0; OSelTarget 0 23; OScrollDown 1]).
  destruct (sees_run ops (fun s => copy_ub s && (zlen (text_rows s) =? zlen (text_rows scr_init)) && forallb (fun ab => eqb_list (fst ab) (snd ab)) (combine (text_rows s) (text_rows scr_init))))
    as (s & E & F); [vm_compute; reflexivity|].
  apply andb_true_iff in F. destruct F as [F G]. apply andb_true_iff in F. destruct F as [F L]. apply (copy_ub_no s F), (H ops s); auto.
  - unfold ops. args.
  - apply picks_ok_ok. vm_compute. reflexivity.
  - apply rows_eq; [lia|exact G].
Qed.
Print Assumptions C24_down_refuted.
(* Lines of the scrollback keep their length when the screen gets narrower, the
   buffer is sized by the width of the screen: *)
Theorem C24_narrow_refuted : ~ (forall ops s, Forall op_args ops -> selects_on_screen scr_init ops -> run scr_init ops = Ok s ->
  p_line (s_sel1 s) <> None -> p_line (s_sel2 s) = p_line (s_sel1 s) -> chars_below 128 s -> exists o, selection_copy s = Ok o).
Proof.
  intros H. set (ops := [OResize 8 2; OSetFlags 2; OSetMaxSb 5] ++ text [97; 98; 99; 100; 101; 102; 103; 104] ++ [OScrollUp 1; OSbUp 1; OSelStart 0 0; OSelTarget 7 0; OResize 1 2]).
  destruct (sees_run ops (fun s => copy_ub s && match p_line (s_sel1 s), p_line (s_sel2 s) with Some a, Some b => a =? b | _, _ => false end &&
     forallb (forallb (fun ch => (0 <=? ch) && (ch <? 128))) (text_rows s))) as (s & E & F); [vm_compute; reflexivity|].
  apply andb_true_iff in F. destruct F as [F G]. apply andb_true_iff in F. destruct F as [F L]. apply (copy_ub_no s F), (H ops s); auto.
  - unfold ops. args.
  - apply picks_ok_ok. vm_compute. reflexivity.
  - clear E. destruct (p_line (s_sel1 s)); [discriminate|congruence].
  - clear E. destruct (p_line (s_sel1 s)) as [a|], (p_line (s_sel2 s)) as [b|]; try discriminate. apply Z.eqb_eq in L. congruence.
  - now apply below_b.
Qed.
Print Assumptions C24_narrow_refuted.

(* C25: a selection just made, from (x1, y1) to the later (x2, y2), set in this
   order ... *)
Theorem C25_forward_partial : forall s x1 y1 x2 y2, reachable s -> roomy s ->
  0 <= x1 < s_sx s -> 0 <= y1 < s_sy s -> 0 <= x2 < s_sx s -> 0 <= y2 < s_sy s -> before y1 x1 y2 x2 ->
  chars_below 65536 s \/ y1 = y2 /\ chars_below (2 ^ 32) s ->
  y1 = y2 \/ x1 <= zlen (trim (row s (view_index s + y1))) ->
  ~ (view_index s + y1 < zlen (s_sb s) /\ view_index s + y2 = zlen (s_sb s) /\ x2 < x1) ->
  exists s2, run s [OSelStart x1 y1; OSelTarget x2 y2] = Ok s2 /\
    selection_copy s2 = Ok (CText (sel_text [0] s (view_index s + y1) x1 (view_index s + y2) x2)).
Proof. exact fresh_forward. Qed.
Print Assumptions C25_forward_partial.
(* ... or with the later one set first. *)
Theorem C25_backward_partial : forall s x1 y1 x2 y2, reachable s -> roomy s ->
  0 <= x1 < s_sx s -> 0 <= y1 < s_sy s -> 0 <= x2 < s_sx s -> 0 <= y2 < s_sy s -> before y1 x1 y2 x2 ->
  chars_below 65536 s \/ y1 = y2 /\ chars_below (2 ^ 32) s ->
  y1 = y2 \/ x1 <= zlen (trim (row s (view_index s + y1))) ->
  ~ (view_index s + y2 = zlen (s_sb s) - 1 /\ y1 < y2) ->
  exists s2, run s [OSelStart x2 y2; OSelTarget x1 y1] = Ok s2 /\
    selection_copy s2 = Ok (CText (sel_text [0] s (view_index s + y1) x1 (view_index s + y2) x2)).
Proof. exact fresh_backward. Qed.
Print Assumptions C25_backward_partial.
(* The same at any time later, for ends for which the order is determined
   correctly. p and q are the ends in reading order. *)
Theorem C25_later_partial : forall s p q r1 c1 r2 c2, reachable s -> roomy s -> s_sela s = true -> text_ends s (s_sel1 s) (s_sel2 s) ->
  (p = s_sel1 s /\ q = s_sel2 s \/ p = s_sel2 s /\ q = s_sel1 s) ->
  at_place_or_top s p r1 c1 -> at_place_or_top s q r2 c2 -> before r1 c1 r2 c2 ->
  chars_below 65536 s \/ r1 = r2 /\ chars_below (2 ^ 32) s -> r1 = r2 \/ c1 <= zlen (trim (row s r1)) ->
  selection_copy s = Ok (CText (sel_text [0] s r1 c1 r2 c2)).
Proof. exact copy_text_r. Qed.
Print Assumptions C25_later_partial.
(* A blank between characters is a zero byte in the result; without such blanks
   the text does not depend on what stands for them. *)
Theorem C25_solid_partial : forall pad s r1 c1 r2 c2, solid s r1 c1 r2 c2 -> sel_text pad s r1 c1 r2 c2 = sel_text [0] s r1 c1 r2 c2.
Proof. exact solid_text. Qed.
Print Assumptions C25_solid_partial.
(* The text of the screen above, from the second letter in the scrollback to the
   second one of the last row, is what the user sees. *)
Example C25_example : exists s, reachable s /\ before 0 1 1 1 /\ view_index s = 0 /\ zlen (s_sb s) = 1 /\
  sel_text [0] s 0 1 1 1 = [0xC3; 0xA9; 0xE2; 0x82; 0xAC; 10; 98; 99] /\ 1 <= zlen (trim (row s 0)).
Proof.
  destruct (sees_reach written (fun s => (view_index s =? 0) && (zlen (s_sb s) =? 1) && eqb_list (sel_text [0] s 0 1 1 1) [0xC3; 0xA9; 0xE2; 0x82; 0xAC; 10; 98; 99] &&
    (1 <=? zlen (trim (row s 0))))) as (s & R & F); [args|vm_compute; reflexivity|].
  exists s. split; [exact R|]. repeat (apply andb_true_iff in F; destruct F as [F ?]). repeat match goal with |- _ /\ _ => split end; try lia.
  - unfold before. lia.
  - now apply eqb_list_eq.
Qed.

(* Which end is set first matters: two letters in the scrollback, *)
Notation older := [OResize 2 2; OSetMaxSb 9; say 97; ONewline; say 98; ONewline; OScrollUp 1; OSbUp 2].
Theorem C25_order_refuted : ~ (forall s x1 y1 x2 y2, reachable s -> roomy s -> chars_below 128 s ->
  0 <= x1 < s_sx s -> 0 <= y1 < s_sy s -> 0 <= x2 < s_sx s -> 0 <= y2 < s_sy s -> before y1 x1 y2 x2 ->
  exists s2, run s [OSelStart x2 y2; OSelTarget x1 y1] = Ok s2 /\
    selection_copy s2 = Ok (CText (sel_text [0] s (view_index s + y1) x1 (view_index s + y2) x2))).
Proof.
  intros H. destruct (sees_reach older (copies_wrong 0 0 0 1 true)) as (s & R & F); [args|vm_compute; reflexivity|].
  exact (copies_wrong_no 0 0 0 1 true s F (H s 0 0 0 1 R)).
Qed.
Print Assumptions C25_order_refuted.
(* and even if the earlier one is set first: a letter in the scrollback and one
   in the first row of the screen, further left. *)
Notation across := [OResize 2 2; OSetMaxSb 9; say 97; say 98; ONewline; say 99; OScrollUp 1; OSbUp 1].
Theorem C25_first_row_refuted : ~ (forall s x1 y1 x2 y2, reachable s -> roomy s -> chars_below 128 s ->
  0 <= x1 < s_sx s -> 0 <= y1 < s_sy s -> 0 <= x2 < s_sx s -> 0 <= y2 < s_sy s -> before y1 x1 y2 x2 ->
  exists s2, run s [OSelStart x1 y1; OSelTarget x2 y2] = Ok s2 /\
    selection_copy s2 = Ok (CText (sel_text [0] s (view_index s + y1) x1 (view_index s + y2) x2))).
Proof.
  intros H. destruct (sees_reach across (copies_wrong 1 0 0 1 false)) as (s & R & F); [args|vm_compute; reflexivity|].
  exact (copies_wrong_no 1 0 0 1 false s F (H s 1 0 0 1 R)).
Qed.
Print Assumptions C25_first_row_refuted.
(* A selection that starts right of the text of its row lacks the newline: *)
Theorem C25_newline_refuted : ~ (forall s x1 y1 x2 y2, reachable s -> roomy s -> chars_below 128 s -> s_sb s = [] ->
  0 <= x1 < s_sx s -> 0 <= y1 < s_sy s -> 0 <= x2 < s_sx s -> 0 <= y2 < s_sy s -> before y1 x1 y2 x2 ->
  exists s2, run s [OSelStart x1 y1; OSelTarget x2 y2] = Ok s2 /\
    selection_copy s2 = Ok (CText (sel_text [0] s (view_index s + y1) x1 (view_index s + y2) x2))).
Proof.
  intros H. destruct (sees_reach [OResize 4 2; say 97; OMoveTo 0 1; say 98] (fun s => copies_wrong 2 0 0 1 false s && match s_sb s with [] => true | _ => false end)) as (s & R & F); [args|vm_compute; reflexivity|].
  apply andb_true_iff in F. destruct F as [F G].
  refine (copies_wrong_no 2 0 0 1 false s F (fun A B => H s 2 0 0 1 R A B _)). destruct (s_sb s); [reflexivity|discriminate].
Qed.
Print Assumptions C25_newline_refuted.
(* No text with something visible for a blank between letters is ever returned: *)
Theorem C25_blank_refuted : ~ (exists pad, pad <> [0] /\ forall s x1 x2, reachable s -> roomy s -> chars_below 128 s -> s_sb s = [] ->
  0 <= x1 <= x2 -> x2 < s_sx s -> exists s2, run s [OSelStart x1 0; OSelTarget x2 0] = Ok s2 /\
    selection_copy s2 = Ok (CText (sel_text pad s (view_index s) x1 (view_index s) x2))).
Proof.
  intros (pad & N & H). apply N. destruct (sees_reach [OResize 4 2; say 97; OMoveTo 2 0; say 98] (fun s => blank_copy s && match s_sb s with [] => true | _ => false end)) as (s & R & F);
    [args|vm_compute; reflexivity|].
  apply andb_true_iff in F. destruct F as [F G]. apply (blank_copy_pad pad s R F). intros A B. apply (H s 0 2 R A B); [destruct (s_sb s); [reflexivity|discriminate]|lia|].
  now apply blank_copy_sx.
Qed.
Print Assumptions C25_blank_refuted.

(* C26: scrolling up by n, on the main screen, with the region starting at the
   top: the end stays with its row of text, or is "top" once the row is evicted. *)
Theorem C26_scroll_up_partial : forall s n s' p p' r, reachable s -> fl s F_ALT = false -> s_mt s = 0 -> s_sela s = true -> u32_arg n -> 0 < n ->
  step s (OScrollUp n) = Ok s' -> same_end s s' p p' -> end_row s p r -> r <= zlen (s_sb s) + s_mb s ->
  stays s s' p' r (Z.max 0 (zlen (s_sb s) + Z.min n (s_mb s + 1) - s_sbmax s)) 0 /\ p_x p' = p_x p.
Proof. exact scroll_up_follows. Qed.
Print Assumptions C26_scroll_up_partial.
(* Likewise for a newline in the last row. *)
Theorem C26_newline_partial : forall s s' p p' r, reachable s -> fl s F_ALT = false -> s_mt s = 0 -> s_sela s = true -> s_cy s = s_mb s ->
  step s ONewline = Ok s' -> same_end s s' p p' -> end_row s p r -> r <= zlen (s_sb s) + s_mb s ->
  stays s s' p' r (Z.max 0 (zlen (s_sb s) + 1 - s_sbmax s)) 0 /\ p_x p' = p_x p.
Proof. exact newline_follows. Qed.
Print Assumptions C26_newline_partial.
(* Scrolling down, for rows that remain in the region. *)
Theorem C26_scroll_down_partial : forall s n s' p p' r, reachable s -> s_sela s = true -> u32_arg n -> 0 < n ->
  step s (OScrollDown n) = Ok s' -> same_end s s' p p' -> end_row s p r ->
  r < zlen (s_sb s) \/ zlen (s_sb s) + s_mt s <= r /\ r + n <= zlen (s_sb s) + s_mb s ->
  stays s s' p' r 0 (if r <? zlen (s_sb s) then 0 else n) /\ p_x p' = p_x p.
Proof. exact scroll_down_follows. Qed.
Print Assumptions C26_scroll_down_partial.
(* Fewer lines of scrollback; none. *)
Theorem C26_set_max_sb : forall s n s' p p' r, reachable s -> s_sela s = true -> u32_arg n ->
  step s (OSetMaxSb n) = Ok s' -> same_end s s' p p' -> end_row s p r ->
  stays s s' p' r (Z.max 0 (zlen (s_sb s) - n)) 0 /\ p_x p' = p_x p.
Proof. exact set_max_follows. Qed.
Print Assumptions C26_set_max_sb.
Theorem C26_clear_sb : forall s s' p p' r, reachable s -> s_sela s = true -> step s OClearSb = Ok s' -> same_end s s' p p' -> end_row s p r ->
  stays s s' p' r (zlen (s_sb s)) 0 /\ p_x p' = p_x p.
Proof. exact clear_follows. Qed.
Print Assumptions C26_clear_sb.
(* Any sequence of such calls, on the main screen without margins. *)
Theorem C26_history_partial : forall ops s s' p p' r, reachable s -> fl s F_ALT = false -> s_mt s = 0 -> s_mb s = s_sy s - 1 -> s_sela s = true ->
  Forall op_args ops -> Forall scrolls ops -> run s ops = Ok s' -> same_end s s' p p' -> end_row s p r -> attached s s' p' r /\ p_x p' = p_x p.
Proof. exact history_follows. Qed.
Print Assumptions C26_history_partial.
(* A selection from the scrollback to the last row of the screen, cursor there. *)
Example C26_example : exists s, reachable s /\ fl s F_ALT = false /\ s_mt s = 0 /\ s_sela s = true /\ s_cy s = s_mb s /\ s_mb s = s_sy s - 1 /\ zlen (s_sb s) = 1 /\ s_sbmax s = 1 /\
  end_row s (s_sel1 s) 0 /\ end_row s (s_sel2 s) 2 /\ trim (row s 0) = [97] /\ trim (row s 2) = [99].
Proof.
  destruct (sees_reach [OResize 3 2; OSetMaxSb 1; say 97; ONewline; say 98; ONewline; say 99; OSbUp 1; OSelStart 0 0; OSbReset; OSelTarget 0 1]
    (fun s => negb (fl s F_ALT) && (s_mt s =? 0) && s_sela s && (s_cy s =? s_mb s) && (s_mb s =? s_sy s - 1) && (zlen (s_sb s) =? 1) && (s_sbmax s =? 1) && is_row s (s_sel1 s) 0 && is_row s (s_sel2 s) 2 &&
      eqb_list (trim (row s 0)) [97] && eqb_list (trim (row s 2)) [99])) as (s & R & F); [args|vm_compute; reflexivity|].
  exists s. split; [exact R|]. repeat (apply andb_true_iff in F; destruct F as [F ?]). pose proof (proj1 (reachable_Inv s R)) as I.
  repeat match goal with |- _ /\ _ => split end; try lia; try (apply is_row_ok; assumption); try (apply eqb_list_eq; assumption); try assumption.
  now apply negb_true_iff.
Qed.

(* On the alternate screen the end moves to a line of the main screen: *)
Theorem C26_alt_refuted : ~ (forall s n s' p p' r, reachable s -> s_mt s = 0 -> s_sela s = true -> u32_arg n -> 0 < n ->
  step s (OScrollUp n) = Ok s' -> same_end s s' p p' -> end_row s p r -> r <= zlen (s_sb s) + s_mb s -> attached s s' p' r).
Proof.
  intros H. destruct (sees_reach [OResize 2 2; OSetMaxSb 5; say 97; OScrollUp 1; OSetFlags 64; OMoveTo 0 0; say 98; OSelStart 0 0]
    (fun s => detaches (OScrollUp 1) 1 s && (s_mt s =? 0) && (1 <=? zlen (s_sb s) + s_mb s))) as (s & R & F); [args|vm_compute; reflexivity|].
  do 2 (apply andb_true_iff in F; destruct F as [F ?]). destruct (detaches_ok (OScrollUp 1) 1 s R ltac:(args) F) as (A & s' & E & P & N).
  apply N. apply (H s 1 s' (s_sel1 s) (s_sel1 s') 1); auto; try (unfold u32_arg; lia); try lia. now left.
Qed.
Print Assumptions C26_alt_refuted.
(* Ends above the region move although the text does not: *)
Theorem C26_above_refuted : ~ (forall s n s' p p' r, reachable s -> fl s F_ALT = false -> s_sela s = true -> u32_arg n -> 0 < n ->
  step s (OScrollUp n) = Ok s' -> same_end s s' p p' -> end_row s p r -> r <= zlen (s_sb s) + s_mb s -> attached s s' p' r).
Proof.
  intros H. destruct (sees_reach [OResize 2 4; say 97; ONewline; say 98; OSetMargins 3 4; OSelStart 0 1]
    (fun s => detaches (OScrollUp 1) 1 s && negb (fl s F_ALT) && (1 <=? zlen (s_sb s) + s_mb s))) as (s & R & F); [args|vm_compute; reflexivity|].
  do 2 (apply andb_true_iff in F; destruct F as [F ?]). destruct (detaches_ok (OScrollUp 1) 1 s R ltac:(args) F) as (A & s' & E & P & N).
  apply N. apply (H s 1 s' (s_sel1 s) (s_sel1 s') 1); auto; try (unfold u32_arg; lia); try lia; [now apply negb_true_iff|now left].
Qed.
Print Assumptions C26_above_refuted.
(* and below it: *)
Theorem C26_below_refuted : ~ (forall s n s' p p' r, reachable s -> fl s F_ALT = false -> s_mt s = 0 -> s_sela s = true -> u32_arg n -> 0 < n ->
  step s (OScrollUp n) = Ok s' -> same_end s s' p p' -> end_row s p r -> attached s s' p' r).
Proof.
  intros H. destruct (sees_reach [OResize 2 4; OMoveTo 0 3; say 97; OSetMargins 1 2; OSelStart 0 3]
    (fun s => detaches (OScrollUp 1) 3 s && negb (fl s F_ALT) && (s_mt s =? 0))) as (s & R & F); [args|vm_compute; reflexivity|].
  do 2 (apply andb_true_iff in F; destruct F as [F ?]). destruct (detaches_ok (OScrollUp 1) 3 s R ltac:(args) F) as (A & s' & E & P & N).
  apply N. apply (H s 1 s' (s_sel1 s) (s_sel1 s') 3); auto; try (unfold u32_arg; lia); try lia; [now apply negb_true_iff|now left].
Qed.
Print Assumptions C26_below_refuted.
(* Scrolling down moves ends off the screen: *)
Theorem C26_scroll_down_refuted : ~ (forall s n s' p p' r, reachable s -> s_mt s = 0 -> s_mb s = s_sy s - 1 -> s_sela s = true -> u32_arg n -> 0 < n ->
  step s (OScrollDown n) = Ok s' -> same_end s s' p p' -> end_row s p r -> attached s s' p' r).
Proof.
  intros H. destruct (sees_reach [OResize 2 2; OMoveTo 0 1; say 97; OSelStart 0 1]
    (fun s => detaches (OScrollDown 1) 1 s && (s_mt s =? 0) && (s_mb s =? s_sy s - 1))) as (s & R & F); [args|vm_compute; reflexivity|].
  do 2 (apply andb_true_iff in F; destruct F as [F ?]). destruct (detaches_ok (OScrollDown 1) 1 s R ltac:(args) F) as (A & s' & E & P & N).
  apply N. apply (H s 1 s' (s_sel1 s) (s_sel1 s') 1); auto; try (unfold u32_arg; lia); try lia. now left.
Qed.
Print Assumptions C26_scroll_down_refuted.
(* Inserting lines moves the text but not the selection: *)
Theorem C26_insert_refuted : ~ (forall s n s' p p' r, reachable s -> s_mt s = 0 -> s_mb s = s_sy s - 1 -> s_sela s = true -> u32_arg n -> 0 < n ->
  step s (OInsLines n) = Ok s' -> same_end s s' p p' -> end_row s p r -> r + n < zlen (s_sb s) + s_sy s -> attached s s' p' r).
Proof.
  intros H. destruct (sees_reach [OResize 2 2; say 97; OSelStart 0 0]
    (fun s => detaches (OInsLines 1) 0 s && (s_mt s =? 0) && (s_mb s =? s_sy s - 1) && (1 <? zlen (s_sb s) + s_sy s))) as (s & R & F); [args|vm_compute; reflexivity|].
  do 3 (apply andb_true_iff in F; destruct F as [F ?]). destruct (detaches_ok (OInsLines 1) 0 s R ltac:(args) F) as (A & s' & E & P & N).
  apply N. apply (H s 1 s' (s_sel1 s) (s_sel1 s') 0); auto; try (unfold u32_arg; lia); try lia. now left.
Qed.
Print Assumptions C26_insert_refuted.
