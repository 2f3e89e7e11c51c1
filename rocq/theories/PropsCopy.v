(* C61: copying all the text gives what the program sent. Vocabulary in
   CopySpec.v; proofs in CopyProofs.v and CopyText.v. *)
From Verif Require Import Base BaseProofs Utf8 Utf8Spec Symbol Screen ScreenInv ScreenSafe ScreenSpec ScreenResize ScreenThms Selection SelectionSpec SelectionThms.
From Verif Require Import VteData Vte VteKeys VteSpec VteView VteInv VteSafe VteParse VteCsi VteFx VteThms2 VteThms3 VteDemo Paper PaperProofs Document DocProofs CopySpec CopyProofs CopyText.
Ltac each := repeat (apply Forall_cons; [unfold pchar, digit; lia|]); apply Forall_nil.
Ltac demos := apply demo_reachable; [repeat constructor; try (vm_compute; congruence); args|vm_compute; reflexivity].
Ltac texts := split; [vm_compute; reflexivity|right; right; vm_compute; auto].
Ltac utf8s := apply encodes_utf8; [vm_compute; reflexivity|vm_compute; reflexivity|vm_compute; reflexivity|repeat (apply Forall_cons; [lia|]); apply Forall_nil].

(* Scrolling to the top, pressing, scrolling to the bottom and dragging to the
   end selects all rows of the scrollback and of the screen, whatever was looked
   at and selected before. *)
Theorem C61_all : forall s n, reachable s -> roomy s -> chars_below 65536 s -> zlen (s_sb s) <= n -> u32_arg n ->
  exists s', run s (select_all s n) = Ok s' /\
    selection_copy s' = Ok (CText (sel_text [0] s 0 0 (zlen (s_sb s) + s_sy s - 1) (s_sx s - 1))).
Proof. exact all_copied. Qed.
Print Assumptions C61_all.

(* Lines sent to a terminal with a clear page are copied as they were sent,
   folded at the width, as many of the last rows as screen and scrollback hold. *)
Theorem C61_text : forall sg v ls bs n, vreachable sg v -> text_mode v -> default_sets v -> typing (v_con v) -> clear_page (v_con v) ->
  ls <> [] -> Forall (Forall line_token) ls -> delivered sg (v_flags v) (sent ls) bs ->
  let s := v_con v in
  let rows := last_n (s_sbmax s + s_sy s) (rows_of (s_sx s) ls) in
  4 * s_sx s * (zlen rows + s_sy s) + 1 < 2147483648 -> zlen rows <= n -> u32_arg n ->
  exists v' s', vte_input sg v bs = Ok v' /\ run (v_con v') (select_all s n) = Ok s' /\ selection_copy s' = Ok (CText (copy_of (s_sy s) rows)).
Proof. exact text_copied. Qed.
Print Assumptions C61_text.

(* A screen of 8 by 3 with two lines of scrollback: "abcdefghij", an empty line,
   a bold e with acute accent and a euro sign, "x", "yz". *)
Definition mail : list (list token) :=
  [map TChar [97; 98; 99; 100; 101; 102; 103; 104; 105; 106]; []; [TStyle [49]; TChar 233; TStyle []; TChar 0x20AC]; [TChar 120]; [TChar 121; TChar 122]].
Definition mail_bytes : list Z :=
  [97; 98; 99; 100; 101; 102; 103; 104; 105; 106] ++ [13; 10; 13; 10] ++ csi_bytes [] [49] 109 ++ [0xC3; 0xA9] ++ csi_bytes [] [] 109 ++ [0xE2; 0x82; 0xAC; 13; 10; 120; 13; 10; 121; 122].
Definition mailbox : vte := demo true [VScreen (OSetMaxSb 2)].
Ltac char1 := match goal with |- exists b1 b2, ?b :: ?r = b1 ++ b2 /\ _ => exists [b], r; split; [reflexivity|split; [utf8s|]] end.
Ltac char2 := match goal with |- exists b1 b2, ?a :: ?b :: ?r = b1 ++ b2 /\ _ => exists [a; b], r; split; [reflexivity|split; [utf8s|]] end.
Ltac char3 := match goal with |- exists b1 b2, ?a :: ?b :: ?c :: ?r = b1 ++ b2 /\ _ => exists [a; b; c], r; split; [reflexivity|split; [utf8s|]] end.
Example C61_ex : vreachable true mailbox /\ text_mode mailbox /\ default_sets mailbox /\ typing (v_con mailbox) /\ clear_page (v_con mailbox) /\
  Forall (Forall line_token) mail /\ delivered true (v_flags mailbox) (sent mail) mail_bytes /\
  last_n (s_sbmax (v_con mailbox) + s_sy (v_con mailbox)) (rows_of (s_sx (v_con mailbox)) mail) = [[105; 106]; []; [233; 0x20AC]; [120]; [121; 122]] /\
  copy_of 3 [[105; 106]; []; [233; 0x20AC]; [120]; [121; 122]] = [105; 106; 10; 10; 0xC3; 0xA9; 0xE2; 0x82; 0xAC; 10; 120; 10; 121; 122].
Proof.
  split; [unfold mailbox; demos|]. split; [texts|]. split; [vm_compute; auto|]. split; [constructor; vm_compute; reflexivity|].
  split; [unfold clear_page; split; [vm_compute; reflexivity|split; [apply blank_b; vm_compute; reflexivity|split; vm_compute; reflexivity]]|].
  split.
  { unfold mail, map. repeat (apply Forall_cons; [|]); try apply Forall_nil; cbn [line_token token_ok];
      try (split; [unfold graphic; split; lia|split; [vm_compute; reflexivity|split; [lia|vm_compute; reflexivity]]]);
      split; try each; intros [X _]; vm_compute in X; discriminate. }
  split.
  { unfold mail_bytes, csi_bytes. cbn [sent mail map app delivered]. do 14 char1. eexists; split; [reflexivity|]. char2. eexists; split; [reflexivity|]. char3. do 7 char1. reflexivity. }
  split; vm_compute; reflexivity.
Qed.
