(* Property C50: the screen with its scrollback is a window on a page without
   end. The page, the typewriter and "shows" are in Paper.v. *)
From Verif Require Import Base BaseProofs Screen ScreenInv ScreenSpec ScreenResize ScreenSafe ScreenThms Paper PaperProofs.

(* C50: whatever is typed, in whatever order and however long, the run is
   defined, the screen is the part of the page at the carriage, the scrollback
   is the part of the page directly above, as many rows as the limit allows. *)
Theorem C50_window : forall s is, reachable s -> typing s ->
  let p := typed_all (s_sx s) (s_sy s) (paper_of s) is in
  exists s', run s (map item_op is) = Ok s' /\ shows s' p /\ s_sx s' = s_sx s /\ s_sy s' = s_sy s /\
    zlen (sb_text s') = Z.min (s_sbmax s) (zlen (sb_text s) + p_top p).
Proof. exact paper_r. Qed.
Print Assumptions C50_window.
(* Text of single width symbols folds at the right edge: the symbol number i
   stands i places after the cursor, counted along the rows; everything else on
   the page stays. *)
Theorem C50_fold : forall s cps a, reachable s -> typing s -> s_cx s <= s_sx s -> cps <> [] ->
  Forall (fun ch => scr_width ch = Ok 1) cps ->
  let w := s_sx s in let n := zlen cps in
  let row := s_cy s + (s_cx s + n - 1) / w in
  let gone := Z.max 0 (row - (s_sy s - 1)) in
  let page y x := match znth cps ((y - s_cy s) * w + x - s_cx s) with Some ch => Some (ch, 1, a) | None => p_rows (paper_of s) y x end in
  exists s', run s (map (fun ch => OWrite ch a) cps) = Ok s' /\
    s_cy s' = row - gone /\ s_cx s' = (s_cx s + n - 1) mod w + 1 /\
    (forall y x, on_screen s y x -> at_ s' y x = page (gone + y) x) /\
    zlen (sb_text s') = Z.min (s_sbmax s) (zlen (sb_text s) + gone) /\
    (forall d x, 1 <= d <= zlen (sb_text s') -> 0 <= x < w -> above s' d x = page (gone - d) x).
Proof. exact fold_r. Qed.
Print Assumptions C50_fold.

(* Three columns, two rows, two scrollback rows at most; "ab" on the screen. *)
Definition page_ops : list op := [OResize 3 2; OSetFlags 2; OSetMaxSb 2; OWrite 97 at0; OWrite 98 at0].
Definition page0 : screen := get (run scr_init page_ops).
Example C50_window_ex : reachable page0 /\ typing page0 /\ chars page0 = [[97; 98; 0]; [0; 0; 0]].
Proof.
  split; [exists page_ops; split; [args|vm_compute; reflexivity]|]. split; [constructor; vm_compute; reflexivity|vm_compute; reflexivity].
Qed.
(* "c", "d", newline, "e", line feed, "f", backspace, "ghi": five rows typed, of
   which the last two are on the screen and the two before in the scrollback. *)
Definition page_items : list item :=
  [IChar 99 at0; IChar 100 at0; INewline; IChar 101 at0; ILineFeed; IChar 102 at0; IBack; IChar 103 at0; IChar 104 at0; IChar 105 at0].
Example C50_window_run : let s' := get (run page0 (map item_op page_items)) in
  chars s' = [[0; 103; 104]; [105; 0; 0]] /\ sb_chars s' = [[100; 0; 0]; [101; 0; 0]] /\
  p_top (typed_all 3 2 (paper_of page0) page_items) = 3.
Proof. vm_compute. auto. Qed.
Example C50_fold_ex : s_cx page0 <= s_sx page0 /\ Forall (fun ch => scr_width ch = Ok 1) [48; 49; 50; 51; 52; 53; 54; 55; 56; 57; 65] /\
  let s' := get (run page0 (map (fun ch => OWrite ch at0) [48; 49; 50; 51; 52; 53; 54; 55; 56; 57; 65])) in
  sb_chars s' = [[49; 50; 51]; [52; 53; 54]] /\ chars s' = [[55; 56; 57]; [65; 0; 0]] /\ (s_cy s', s_cx s') = (1, 1).
Proof. split; [vm_compute; discriminate|]. split; [repeat constructor|vm_compute; auto]. Qed.
