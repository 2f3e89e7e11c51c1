(* C59, C60: what is in the cells was written there, and ids tell apart what is
   drawn. Vocabulary in SeenSpec.v; proofs in SeenThms.v. *)
From Verif Require Import Base BaseProofs Screen ScreenSpec ScreenResize ScreenSafe ScreenThms Render RenderSpec RenderThms SeenSpec SeenThms.

(* C59: every cell there is, shown or not, has a character that some call wrote
   with the attributes of that call, or is blank in default attributes. *)
Theorem C59_stored : forall ops s g, run scr_init ops = Ok s -> stored s g -> given ops g.
Proof. exact stored_given. Qed.
Print Assumptions C59_stored.
Definition red : attr := mkA 1 0 205 0 0 0 0 0 true false false false false false.
Definition seen_ops : list op :=
  [OResize 3 2; OSetMaxSb 4; OWrite 97 red; OSetDefAttr red; OWrite 4352 attr_white; ONewline; ONewline; OSetFlags 64; OWrite 98 attr_white; OInsChars 1].
Definition seen : screen := match run scr_init seen_ops with Ok s => s | Ub => scr_init end.
Example C59_ex : run scr_init seen_ops = Ok seen /\
  map (fun l => map (fun c => (c_ch c, c_width c, a_fc (c_attr c))) (l_cells l)) (s_sb seen) = [[(97, 1, 1); (4352, 2, 0); (0, 0, 0)] ++ repeat (0, 1, 0) 77] /\
  stored seen (98, 1, attr_white) /\ ~ given seen_ops (98, 1, red) /\ ~ given seen_ops (99, 1, attr_white).
Proof.
  split; [vm_compute; reflexivity|]. split; [vm_compute; reflexivity|]. split.
  - exists (nth 1 (s_alt seen) (mkL [] 0 None)), (nth 0 (l_cells (nth 1 (s_alt seen) (mkL [] 0 None))) (mkC 0 0 attr0 0)). split; [right; left; vm_compute; auto|]. split; vm_compute; auto.
  - unfold given, seen_ops. split; (intros [(H & _)|(H & _)]; [discriminate|]; cbn [In] in H; repeat (destruct H as [H|H]; [discriminate H|]); exact H).
Qed.

(* C60: two cells, drawn at any two times on any two screens, have the same id
   just if they have the same characters and the same style. *)
Theorem C60_ids : forall acts k acts' k' ds s age ds' s' age' d d',
  Forall act_args acts -> Forall act_chars acts -> play (client0 scr_init) acts = Ok k -> draw (k_scr k) = Ok (ds, s, age) -> In d ds ->
  Forall act_args acts' -> Forall act_chars acts' -> play (client0 scr_init) acts' = Ok k' -> draw (k_scr k') = Ok (ds', s', age') -> In d' ds' ->
  (d_id d = d_id d' <-> d_ch d = d_ch d' /\ style (d_attr d) = style (d_attr d')).
Proof. exact ids_identify. Qed.
Print Assumptions C60_ids.
Definition draw_acts : list act := [AResize 3 1; ACall (OWrite 97 red); ACall (OWrite 97 attr_white); ADraw; ACall (OWrite 4352 red)].
Example C60_ex : Forall act_args draw_acts /\ Forall act_chars draw_acts /\ exists k ds s age,
  play (client0 scr_init) draw_acts = Ok k /\ draw (k_scr k) = Ok (ds, s, age) /\
  map (fun d => (d_id d, d_ch d)) ds = [(2 ^ 31 + 97, [97]); (97, [97]); (2 ^ 34 + 2 ^ 31 + 4352, [4352])].
Proof.
  split; [args|]. split; [repeat constructor; unfold u32_arg; lia|]. eexists _, _, _, _. split; [vm_compute; reflexivity|]. split; vm_compute; reflexivity.
Qed.
