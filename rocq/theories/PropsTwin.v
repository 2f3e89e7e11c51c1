(* Property C55: scrolling back, selecting and trimming the scrollback do not
   interfere with the program. The relations are in TwinSpec.v and TwinVteSpec.v. *)
From Verif Require Import Base BaseProofs Screen ScreenInv ScreenSpec ScreenResize ScreenSafe ScreenThms VteData Vte VteKeys VteSafe VteDemo
  TwinSpec TwinVteSpec TwinProofs TwinStep TwinVte TwinThms.

(* C55: a screen call has the same effect on the same page, whatever the
   scrollback, the view and the selection are, and is defined on both or neither. *)
Theorem C55_call : forall s t o, reachable s -> reachable t -> same_page s t -> op_args o ->
  (step s o = Ub <-> step t o = Ub) /\
  forall s', step s o = Ok s' -> exists t', step t o = Ok t' /\ same_page s' t' /\
    forall w, w <= s_sx s -> w <= s_sx s' -> same_hist w s t -> same_hist w s' t'.
Proof. exact twin_call. Qed.
Print Assumptions C55_call.
(* Looking leaves the page and the scrollback as they are. *)
Theorem C55_looking : forall s o s', reachable s -> op_args o -> watching o = true -> step s o = Ok s' ->
  same_page s s' /\ s_sbmax s' = s_sbmax s /\ sb_text s' = sb_text s.
Proof. exact twin_looking. Qed.
Print Assumptions C55_looking.
(* Calls left out of a run: those that look; then those that trim as well. *)
Theorem C55_run : forall s ops s', reachable s -> Forall op_args ops -> run s ops = Ok s' ->
  (exists t, run s (unwatched ops) = Ok t /\ same_page s' t /\ forall w, wide_run w s ops -> same_hist w s' t) /\
  (exists t, run s (unkept ops) = Ok t /\ same_page s' t).
Proof. exact twin_run. Qed.
Print Assumptions C55_run.

(* The same of a terminal: parser, modes, attributes, saved state, replies and
   events are equal, return values of keys and mouse events too. *)
Theorem C55_terminal_call : forall sg v u o, vreachable sg v -> vreachable sg u -> same_term v u -> vop_args o ->
  (vstep sg v o = Ub <-> vstep sg u o = Ub) /\
  forall v', vstep sg v o = Ok v' -> exists u', vstep sg u o = Ok u' /\ same_term v' u'.
Proof. exact twin_terminal. Qed.
Print Assumptions C55_terminal_call.
Theorem C55_return : forall sg v u, vreachable sg v -> vreachable sg u -> same_term v u ->
  (forall k a m c v' x, vte_key sg v k a m c = Ok (v', x) -> exists u', vte_key sg u k a m c = Ok (u', x)) /\
  (forall cx cy px py b e m v' x, vte_mouse sg v cx cy px py b e m = Ok (v', x) -> exists u', vte_mouse sg u cx cy px py b e m = Ok (u', x)).
Proof. exact twin_return. Qed.
Print Assumptions C55_return.
Theorem C55_session : forall sg v ops v', vreachable sg v -> Forall vop_args ops -> vrun sg v ops = Ok v' ->
  (exists u, vrun sg v (vunwatched ops) = Ok u /\ same_term v' u /\
     forall w, wide_session sg w v ops -> same_hist w (v_con v') (v_con u)) /\
  (exists u, vrun sg v (vunkept ops) = Ok u /\ same_term v' u).
Proof. exact twin_session. Qed.
Print Assumptions C55_session.

(* Two screens with the same page, one looking at the oldest line of its
   scrollback with a selection, the other without scrollback. *)
Definition twin_ops : list op :=
  [OResize 3 2; OSetMaxSb 3; OWrite 97 at0; ONewline; OWrite 98 at0; ONewline; OWrite 99 at0].
Definition twin_look : list op := [OSbUp 1; OSelStart 0 0; OSelTarget 1 1].
Definition twin_b : screen := get (run scr_init twin_ops).
Definition twin_s : screen := get (run twin_b twin_look).
Definition twin_t : screen := get (run twin_b [OSetMaxSb 0]).
Example C55_call_ex : reachable twin_s /\ reachable twin_t /\ same_page twin_s twin_t /\ op_args ONewline /\
  length (sb_text twin_s) = 1%nat /\ sb_text twin_t = [] /\ s_sela twin_s = true /\ s_sela twin_t = false /\
  at_ (get (step twin_s ONewline)) 0 0 = Some (99, 1, at0).
Proof.
  assert (B : reachable twin_b) by (exists twin_ops; split; [args|vm_compute; reflexivity]).
  assert (E : run twin_b twin_look = Ok twin_s) by (vm_compute; reflexivity).
  assert (E' : run twin_b [OSetMaxSb 0] = Ok twin_t) by (vm_compute; reflexivity).
  split; [exists (twin_ops ++ twin_look); split; [args|vm_compute; reflexivity]|].
  split; [exists (twin_ops ++ [OSetMaxSb 0]); split; [args|vm_compute; reflexivity]|].
  split.
  { apply reachable_Inv in B. apply (page_trans _ twin_b).
    - apply page_sym. apply (keep_run twin_look); [exact B|args|reflexivity|exact E].
    - apply (keep_run [OSetMaxSb 0]); [exact B|args|reflexivity|exact E']. }
  vm_compute. repeat split.
Qed.
Example C55_looking_ex : reachable twin_s /\ op_args (OSbDown 1) /\ watching (OSbDown 1) = true /\
  exists s', step twin_s (OSbDown 1) = Ok s' /\ length (sb_text s') = 1%nat /\ s_sbpos twin_s <> s_sbpos s'.
Proof.
  split; [exact (proj1 C55_call_ex)|]. split; [args|]. split; [reflexivity|].
  exists (get (step twin_s (OSbDown 1))). split; [vm_compute; reflexivity|]. split; [vm_compute; reflexivity|vm_compute; discriminate].
Qed.
(* Output while the view is at the oldest line; two rows enter the scrollback. *)
Definition twin_mix : list op :=
  [OSbUp 1; ONewline; OWrite 100 at0; OSelStart 0 0; ONewline; OSelTarget 2 1; OWrite 101 at0; OSbReset].
Example C55_run_ex : reachable twin_b /\ Forall op_args twin_mix /\ run twin_b twin_mix = Ok (get (run twin_b twin_mix)) /\
  unwatched twin_mix = [ONewline; OWrite 100 at0; ONewline; OWrite 101 at0] /\ wide_run 3 twin_b twin_mix /\
  map (fun r => match r with (ch, _, _) :: _ => ch | [] => -1 end) (sb_text (get (run twin_b twin_mix))) = [97; 98; 99].
Proof.
  split; [exists twin_ops; split; [args|vm_compute; reflexivity]|]. split; [args|]. split; [vm_compute; reflexivity|].
  split; [reflexivity|]. split; [vm_compute; repeat split; discriminate|vm_compute; reflexivity].
Qed.

(* A report of the cursor position is asked for while the user looks at the
   scrollback and selects; the answer is ESC [ 3 ; 2 R in either session. *)
Definition twin_user : list vop :=
  [VScreen (OSetMaxSb 5); VInput [97; 13; 10; 98; 13; 10; 99; 13; 10; 100]; VScreen (OSbUp 1); VScreen (OSelStart 0 0);
   VInput [27; 91; 54; 110]; VScreen (OSelTarget 2 1); VKey 0x61 0x61 0 0x61].
Definition twin_v : vte := vget (vrun true (demo true []) twin_user).
Example C55_session_ex : vreachable true (demo true []) /\ Forall vop_args twin_user /\
  vrun true (demo true []) twin_user = Ok twin_v /\
  length (vunwatched twin_user) = 4%nat /\ length (vunkept twin_user) = 3%nat /\ wide_session true 8 (demo true []) twin_user /\
  length (sb_text (v_con (twin_v))) = 1%nat /\
  v_out (twin_v) = [EWrite [27; 91; 51; 59; 50; 82]; EWrite [97]] /\
  s_sela (v_con (twin_v)) = true.
Proof.
  split; [apply demo_reachable; [constructor|vm_compute; reflexivity]|].
  split; [repeat constructor; try (vm_compute; congruence); args|]. split; [vm_compute; reflexivity|].
  split; [reflexivity|]. split; [reflexivity|]. split; [vm_compute; repeat split; discriminate|]. vm_compute. auto.
Qed.
(* The two terminals at the end of the sessions meet the hypotheses of the theorems on one call. *)
Definition twin_u : vte := vget (vrun true (demo true []) (vunwatched twin_user)).
Example C55_terminal_ex : vreachable true twin_v /\ vreachable true twin_u /\ same_term twin_v twin_u /\
  s_sela (v_con twin_v) = true /\ s_sela (v_con twin_u) = false /\ vop_args (VInput [27; 91; 54; 110]) /\
  length (v_out (vget (vstep true twin_u (VInput [27; 91; 54; 110])))) = 3%nat /\
  exists v', vte_key true twin_v 0x62 0x62 0 0x62 = Ok (v', true).
Proof.
  destruct C55_session_ex as (R & A & E & _).
  assert (Rv : vreachable true twin_v) by exact (vreachable_run true twin_user _ _ R A E).
  destruct (C55_session true _ _ _ R A E) as [(u & U & T & _) _].
  assert (Eu : u = twin_u) by (unfold twin_u; now rewrite U). rewrite Eu in U, T. clear u Eu.
  assert (Ru : vreachable true twin_u).
  { refine (vreachable_run true (vunwatched twin_user) _ _ R _ U). repeat constructor; try (vm_compute; congruence); args. }
  split; [exact Rv|]. split; [exact Ru|]. split; [exact T|].
  split; [vm_compute; reflexivity|]. split; [vm_compute; reflexivity|]. split; [exact I|]. split; [vm_compute; reflexivity|].
  eexists. vm_compute. reflexivity.
Qed.
