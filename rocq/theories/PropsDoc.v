(* Property C54: documents sent to the terminal appear as typed on the page. The
   documents are in Document.v, the page in Paper.v. *)
From Verif Require Import Base BaseProofs Utf8 Utf8Spec Symbol Screen ScreenInv ScreenSafe ScreenSpec ScreenThms.
From Verif Require Import VteData Vte VteKeys VteSpec VteView VteInv VteSafe VteParse VteCsi VteFx VteThms2 VteThms3 VteDemo Paper PaperProofs Document DocProofs.
Ltac each := repeat (apply Forall_cons; [unfold pchar, digit; lia|]); apply Forall_nil.
Ltac demos := apply demo_reachable; [repeat constructor; try (vm_compute; congruence); args|vm_compute; reflexivity].
Ltac texts := split; [vm_compute; reflexivity|right; right; vm_compute; auto].
Ltac utf8s := apply encodes_utf8; [vm_compute; reflexivity|vm_compute; reflexivity|vm_compute; reflexivity|repeat (apply Forall_cons; [lia|]); apply Forall_nil].

(* C54: text, line controls and changes of rendition, in any number and any
   order and in the encoding of the terminal: the screen is the part of the page
   at the carriage, the scrollback the part directly above. *)
Theorem C54_document : forall sg v ts bs, vreachable sg v -> text_mode v -> default_sets v -> typing (v_con v) ->
  Forall token_ok ts -> delivered sg (v_flags v) ts bs ->
  let s := v_con v in
  let p := typed_all (s_sx s) (s_sy s) (paper_of s) (document (v_pal v) (v_def v) (vfl v VF_LNM) (vfl v VF_BCE) (v_cattr v) ts) in
  exists v', vte_input sg v bs = Ok v' /\ text_mode v' /\ default_sets v' /\ v_flags v' = v_flags v /\
    shows (v_con v') p /\ s_sx (v_con v') = s_sx s /\ s_sy (v_con v') = s_sy s /\
    zlen (sb_text (v_con v')) = Z.min (s_sbmax s) (zlen (sb_text s) + p_top p).
Proof. exact document_r. Qed.
Print Assumptions C54_document.

(* "a", underlined "e" with acute accent on blue, CR, LF, LF, default rendition, "b". *)
Definition letter : list token :=
  [TChar 97; TStyle [52; 59; 52; 52]; TChar 233; TChar 13; TChar 10; TChar 10; TStyle []; TChar 98].
Definition letter_bytes : list Z :=
  [97] ++ csi_bytes [] [52; 59; 52; 52] 109 ++ [0xc3; 0xa9] ++ [13] ++ [10] ++ [10] ++ csi_bytes [] [] 109 ++ [98] ++ [].
Example C54_ex : let v := demo true [VInput [10]] in vreachable true v /\ text_mode v /\ default_sets v /\ typing (v_con v) /\
  Forall token_ok letter /\ delivered true (v_flags v) letter letter_bytes /\ vfl v VF_BCE = true /\
  let s' := v_con (vget (vte_input true v letter_bytes)) in
  map (fun x => match at_ s' 0 x with Some (ch, _, a) => (ch, a_underline a, a_bc a) | None => (-1, false, 0) end) [0; 1; 2] =
    [(97, false, 17); (233, true, 4); (0, false, 17)] /\
  map (fun x => match at_ s' 2 x with Some (ch, _, a) => (ch, a_underline a, a_bc a) | None => (-1, false, 0) end) [0; 1; 2] =
    [(98, false, 17); (0, true, 4); (0, true, 4)].
Proof.
  cbv zeta. split; [demos|]. split; [texts|]. split; [vm_compute; auto|]. split; [constructor; vm_compute; reflexivity|].
  split.
  { unfold letter. repeat (apply Forall_cons; [|]); try apply Forall_nil; cbn [token_ok];
      try (left; unfold graphic; split; lia); try (right; vm_compute; tauto); split; try each; intros [X _]; vm_compute in X; discriminate. }
  split.
  { unfold letter, letter_bytes. cbn [delivered].
    repeat match goal with
    | |- exists b1 b2, _ => eexists; eexists; split; [reflexivity|]; split; [utf8s|]
    | |- exists b2, _ => eexists; split; [reflexivity|]
    end. reflexivity. }
  vm_compute. auto.
Qed.
