(* C68: keys, mouse, frames and titles of the widget. Vocabulary in GadgetSpec.v;
   proofs in GadgetProofs.v. *)
From Verif Require Import Base BaseProofs Utf8 Screen ScreenSpec ScreenResize ScreenInv ScreenSafe ScreenThms Render RenderSpec VteData Vte VteKeys VteSpec VteView VteInv VteSafe VteFrame VteParse VteCsi VteFx VteText VteStr VteDevSpec VteDev VteReset VteDemo VteThms3 Gadget GadgetSpec GadgetProofs TwinSpec GadgetTwinSpec GadgetMore GadgetDemo.
Ltac demos := apply demo_reachable; [repeat constructor; try (vm_compute; congruence); args|vm_compute; reflexivity].
Ltac each := cbn [repeat app]; repeat (apply Forall_cons; [unfold pchar, osc_char, inert, digit; lia|]); apply Forall_nil.

(* If no frame is queued, nothing was done to the screen since the last one. *)
Theorem C68_pending_partial : forall sg es h h', Forall (fun e => (forall n, e <> EvSbSize n) /\ e <> EvFrame) es -> on_gevs sg h es = Ok h' -> h_queued h' = false ->
  v_con (h_vte h') = v_con (h_vte h).
Proof. exact pending. Qed.
Print Assumptions C68_pending_partial.
Example C68_pending_ex : let es := [EvKey true 0 0xffe1 None 0; EvButton Down 1 7 0 0; EvMotion 1024 0; EvButton Up 1 500 1024 0; EvSays [97]] in
  Forall (fun e => (forall n, e <> EvSbSize n) /\ e <> EvFrame) es /\
  match dwell (gadget_new scr_init) (hello ++ es) with Ok h => negb (h_queued h) | Ub => false end = true.
Proof. cbv zeta. split; [repeat constructor; discriminate|vm_compute; reflexivity]. Qed.
(* Setting the size of the scrollback may change what is to be seen, and no frame
   is queued. *)
Theorem C68_sb_size_refuted : ~ (forall sg h0 es1 h es2 h', gadget_new scr_init = Ok h0 -> on_gevs sg h0 (es1 ++ [EvFrame]) = Ok h -> ~ In EvFrame es2 -> on_gevs sg h es2 = Ok h' ->
  h_queued h' = false -> looks (v_con (h_vte h')) = looks (v_con (h_vte h))).
Proof. apply (stale_refutes (gadget_new scr_init) back [EvSbSize 0]); [vm_compute; reflexivity|]. intros [X|[]]. discriminate X. Qed.
Print Assumptions C68_sb_size_refuted.

(* Dragging selects from the cell where the button went down to the last one the
   mouse was moved to, whatever it was moved over. *)
Theorem C68_drag_partial : forall sg h w hh t t' x0 y0 x1 y1 ps x y xu yu cx0 cy0 cx cy, drawn_reachable (v_con (h_vte h)) -> h_face h = Some (w, hh) -> 0 < w -> 0 < hh ->
  0 <= cx0 < 4294967296 -> 0 <= cy0 < 4294967296 -> 0 <= cx < 4294967296 -> 0 <= cy < 4294967296 ->
  in_cell x0 w cx0 -> in_cell y0 hh cy0 -> in_cell x w cx -> in_cell y hh cy -> far x0 y0 x1 y1 -> aimed w hh ps ->
  exists h' s, on_gevs sg h (EvButton Down 1 t x0 y0 :: EvMotion x1 y1 :: moves (ps ++ [(x, y)]) ++ [EvButton Up 1 t' xu yu]) = Ok h' /\
  run (v_con (h_vte h)) [OSelStart cx0 cy0; OSelTarget cx cy] = Ok s /\ same_but_age (v_con (h_vte h')) s /\ h_queued h' = true /\ sent h h' [].
Proof. exact drag. Qed.
Print Assumptions C68_drag_partial.
Example C68_drag_ex : in_cell 5000 2 2 /\ in_cell 7000 3 2 /\ in_cell 100 2 0 /\ in_cell 3100 3 1 /\ far 5000 7000 100 7100 /\ aimed 2 3 [(-1000, 9999); (4000, 0)] /\
  match dwell (gadget_new scr_init) (hello ++ EvButton Down 1 7 5000 7000 :: EvMotion 100 7100 :: moves ([(-1000, 9999); (4000, 0)] ++ [(100, 3100)]) ++ [EvButton Up 1 50 0 0]) with
  | Ok h => s_sela (v_con (h_vte h)) && (p_x (s_sel1 (v_con (h_vte h))) =? 2) && (p_x (s_sel2 (v_con (h_vte h))) =? 0) && (p_y (s_sel2 (v_con (h_vte h))) =? 1)
  | Ub => false
  end = true.
Proof.
  do 4 (split; [unfold in_cell; lia|]). split; [unfold far; lia|]. split; [unfold aimed, has_cell; repeat constructor; cbn; lia|vm_compute; reflexivity].
Qed.
(* The first move is only taken as the start. *)
Theorem C68_jump_refuted : ~ (forall sg h w hh t x0 y0 x y cx0 cy0 cx cy h' s, h_face h = Some (w, hh) -> in_cell x0 w cx0 -> in_cell y0 hh cy0 -> in_cell x w cx -> in_cell y hh cy -> far x0 y0 x y ->
  on_gevs sg h [EvButton Down 1 t x0 y0; EvMotion x y; EvButton Up 1 t x y] = Ok h' -> run (v_con (h_vte h)) [OSelStart cx0 cy0; OSelTarget cx cy] = Ok s -> same_but_age (v_con (h_vte h')) s).
Proof. apply (jumped_refutes (gadget_new scr_init) hello 7 0 0 9000 0 0 0 4 0); [vm_compute; reflexivity|unfold in_cell, far; lia..]. Qed.
Print Assumptions C68_jump_refuted.
(* A click clears the selection. *)
Theorem C68_click_partial : forall sg h f t t' x0 y0 ps x y, h_face h = Some f -> 0 <= t -> t + 100 < 4294967296 -> t' < t + 100 -> Forall (fun p => ~ far x0 y0 (fst p) (snd p)) ps ->
  exists h', on_gevs sg h (EvButton Down 1 t x0 y0 :: moves ps ++ [EvButton Up 1 t' x y]) = Ok h' /\
  s_sela (v_con (h_vte h')) = false /\ same_but_age (v_con (h_vte h')) (set_sela (v_con (h_vte h)) false) /\ h_queued h' = true /\ sent h h' [].
Proof. exact click. Qed.
Print Assumptions C68_click_partial.
Example C68_click_ex : Forall (fun p => ~ far 0 0 (fst p) (snd p)) [(1, 2); (-3072, 3072)] /\
  match dwell (gadget_new scr_init) (hello ++ [EvButton Double 1 7 0 0]) with
  | Ok h => s_sela (v_con (h_vte h)) && match on_gevs true h (EvButton Down 1 7 0 0 :: moves [(1, 2); (-3072, 3072)] ++ [EvButton Up 1 106 0 0]) with Ok h' => negb (s_sela (v_con (h_vte h'))) | Ub => false end
  | Ub => false
  end = true.
Proof. split; [unfold far; repeat constructor; cbn; lia|vm_compute; reflexivity]. Qed.
(* Not so while the clock of 32 bits wraps around. *)
Theorem C68_wrap_refuted : ~ (forall sg h f t x y h', h_face h = Some f -> 0 <= t < 4294967296 -> on_gevs sg h [EvButton Down 1 t x y; EvButton Up 1 t x y] = Ok h' -> s_sela (v_con (h_vte h')) = false).
Proof. apply (wrapped_refutes (gadget_new scr_init) (hello ++ [EvButton Double 1 7 0 0]) 4294967290 0 0); [vm_compute; reflexivity|lia]. Qed.
Print Assumptions C68_wrap_refuted.

(* Positions from a cell left of or above the window on are undefined. *)
Theorem C68_button_partial : forall h w hh k b t x y, drawn_reachable (v_con (h_vte h)) -> h_face h = Some (w, hh) -> 0 <= w -> 0 <= hh ->
  (on_button h k b t x y = Ub <-> b = 1 /\ (k = Double \/ k = Triple) /\ ~ (has_cell w x /\ has_cell hh y)).
Proof. exact button_ub. Qed.
Print Assumptions C68_button_partial.
Theorem C68_motion_partial : forall h w hh x y, drawn_reachable (v_con (h_vte h)) -> h_face h = Some (w, hh) -> 0 <= w -> 0 <= hh ->
  (on_motion h x y = Ub <-> h_sel h = 1 /\ far (h_x h) (h_y h) x y /\ ~ (has_cell w (h_x h) /\ has_cell hh (h_y h)) \/ h_sel h <> 0 /\ h_sel h <> 1 /\ ~ (has_cell w x /\ has_cell hh y)).
Proof. exact motion_ub. Qed.
Print Assumptions C68_motion_partial.
Example C68_motion_ex : drawn_reachable scr_init /\ has_cell 2 (-2047) /\ ~ has_cell 2 (-2048).
Proof. split; [exists [], (client0 scr_init); repeat split; constructor|unfold has_cell; lia]. Qed.
Theorem C68_outside_refuted : ~ (forall sg h0 es, gadget_new scr_init = Ok h0 -> Forall mild es -> on_gevs sg h0 (start ++ es) <> Ub).
Proof.
  apply (out_refutes (gadget_new scr_init) start [EvButton Down 1 7 100 100; EvMotion 5000 100; EvMotion (-2100) 100]); [vm_compute; reflexivity| |vm_compute; reflexivity].
  repeat constructor; lia.
Qed.
Print Assumptions C68_outside_refuted.

(* Shift with cursor or page up or down scrolls, and the child is sent nothing. *)
Theorem C68_scroll : forall sg h state keyval tr ucs4 o s, scrolls state tr o -> step (v_con (h_vte h)) o = Ok s ->
  exists h', on_gev sg h (EvKey true state keyval tr ucs4) = Ok h' /\ v_con (h_vte h') = s /\ h_queued h' = true /\ sent h h' [].
Proof. exact scroll_key_spec. Qed.
Print Assumptions C68_scroll.
Example C68_scroll_ex : scrolls 0x11 (Some (0xff55, 2)) (OSbPageUp 1) /\ scrolls 3 (Some (0xff54, 2)) (OSbDown 1).
Proof. split; (do 2 eexists; split; [reflexivity|]; split; [intros n I; cbn in I; destruct I as [<-|[<-|[<-|[<-|[<-|[]]]]]]; reflexivity|cbn; tauto]). Qed.
(* Any other key: the child is sent what the terminal says (C38), with ESC before
   it for Alt, and the view goes back to the end; or nothing happens. *)
Theorem C68_type_partial : forall sg h state keyval tr ucs4, let v := h_vte h in let u := if ucs4 =? 0 then 0xffffffff else ucs4 in
  (forall o, ~ scrolls state tr o) -> vfl v VF_PREPEND = false -> vfl v VF_SRM = true -> typable v u -> odd_pad (vfl v VF_KEYPAD_APP) keyval = false ->
  exists h', on_gev sg h (EvKey true state keyval tr ucs4) = Ok h' /\
  match key_sends v keyval 0 state u with
  | Some bs => sent h h' ((if Z.testbit state 3 then [27] else []) ++ bs) /\ s_sbpos (v_con (h_vte h')) = None /\ same_but_age (v_con (h_vte h')) (scr_sb_reset (v_con v)) /\ h_queued h' = true
  | None => sent h h' [] /\ v_con (h_vte h') = v_con v /\ h_queued h' = h_queued h
  end.
Proof. exact type_spec. Qed.
Print Assumptions C68_type_partial.
Example C68_type_ex : match dwell (gadget_new scr_init) back with
  | Ok h => vfl (h_vte h) VF_SRM && negb (vfl (h_vte h) VF_PREPEND) && negb (odd_pad (vfl (h_vte h) VF_KEYPAD_APP) 0xe9) && match s_sbpos (v_con (h_vte h)) with Some _ => true | None => false end &&
    match on_gev true h (EvKey true 8 0xe9 (Some (0xe9, 0)) 0xe9) with
    | Ok h' => match h_pty h' with Some q => negb (differ [q] [[27; 195; 169]]) | None => false end && match s_sbpos (v_con (h_vte h')) with Some _ => false | None => true end
    | Ub => false
    end
  | Ub => false
  end = true.
Proof. vm_compute. reflexivity. Qed.

(* The title a program sets is told as it is. *)
Theorem C68_title_partial : forall sg h intro t stop bs rest, vreachable sg (h_vte h) -> text_mode (h_vte h) -> v_oscb (h_vte h) = true -> h_pty h <> None -> h_pipe h = bs ++ rest ->
  osc_intro intro -> osc_stop stop -> Forall osc_char t -> Forall (fun c => 32 <= c) t -> zlen (flat_map ucs4_to_utf8 t) <= 125 ->
  encodes sg (v_flags (h_vte h)) (intro ++ (50 :: 59 :: t) ++ stop) bs ->
  exists h', on_gev sg h (EvRead (length bs)) = Ok h' /\ h_titles h' = h_titles h ++ [flat_map ucs4_to_utf8 t] /\ v_con (h_vte h') = v_con (h_vte h) /\ sent h h' [] /\ h_pipe h' = rest.
Proof. exact title_spec. Qed.
Print Assumptions C68_title_partial.
Example C68_title_ex : let v := demo false [VSetOscCb true] in vreachable false v /\ text_mode v /\ v_oscb v = true /\ osc_intro [27; 93] /\ osc_stop [7] /\
  Forall osc_char [72; 233] /\ encodes false (v_flags v) ([27; 93] ++ (50 :: 59 :: [72; 233]) ++ [7]) [27; 93; 50; 59; 72; 195; 169; 7].
Proof.
  cbv zeta. split; [demos|]. split; [split; [vm_compute; reflexivity|right; right; vm_compute; auto]|]. split; [vm_compute; reflexivity|].
  split; [cbn; auto|]. split; [cbn; auto|]. split; [each|]. apply encodes_utf8; [vm_compute; reflexivity|vm_compute; reflexivity|vm_compute; reflexivity|each].
Qed.

(* What the child wrote before it ended may never be shown. *)
Theorem C68_last_refuted : ~ (forall sg h0 bs n h v, gadget_new scr_init = Ok h0 -> on_gevs sg h0 [EvFork 2 3; EvSays bs; EvExit; EvRead n] = Ok h -> (length bs <= n)%nat -> vte_input sg (h_vte h0) bs = Ok v ->
  looks (v_con (h_vte h)) = looks (v_con v)).
Proof. apply (lost_refutes (gadget_new scr_init) [97] 5); [vm_compute; reflexivity|cbn; lia]. Qed.
Print Assumptions C68_last_refuted.

(* The same in any session, whatever the user looks at meanwhile; any other such
   string tells no title. *)
Theorem C68_title : forall sg h0 es h intro t stop bs rest, gadget_new scr_init = Ok h0 -> Forall gev_ok es -> on_gevs sg h0 es = Ok h -> text_mode (h_vte h) -> h_pty h <> None -> h_pipe h = bs ++ rest ->
  osc_intro intro -> osc_stop stop -> Forall osc_char t -> Forall (fun c => 32 <= c) t -> zlen (flat_map ucs4_to_utf8 t) <= 125 -> encodes sg (v_flags (h_vte h)) (intro ++ (50 :: 59 :: t) ++ stop) bs ->
  exists h', on_gev sg h (EvRead (length bs)) = Ok h' /\ h_titles h' = h_titles h ++ [flat_map ucs4_to_utf8 t] /\ same_page (v_con (h_vte h)) (v_con (h_vte h')) /\ sent h h' [] /\ h_pipe h' = rest.
Proof. exact title_session. Qed.
Print Assumptions C68_title.
Theorem C68_untitled : forall sg h0 es h intro t stop bs rest, gadget_new scr_init = Ok h0 -> Forall gev_ok es -> on_gevs sg h0 es = Ok h -> text_mode (h_vte h) -> h_pty h <> None -> h_pipe h = bs ++ rest ->
  osc_intro intro -> osc_stop stop -> Forall osc_char t -> Forall (fun c => 32 <= c) t -> zlen (flat_map ucs4_to_utf8 t) <= 127 -> (forall r, flat_map ucs4_to_utf8 t <> 50 :: 59 :: r) -> encodes sg (v_flags (h_vte h)) (intro ++ t ++ stop) bs ->
  exists h', on_gev sg h (EvRead (length bs)) = Ok h' /\ h_titles h' = h_titles h /\ same_page (v_con (h_vte h)) (v_con (h_vte h')) /\ sent h h' [] /\ h_pipe h' = rest.
Proof. exact untitled_session. Qed.
Print Assumptions C68_untitled.
(* A session with frames and scrolling, and strings for it. *)
Example C68_untitled_ex : let v := demo false [VSetOscCb true] in let bs := [27; 93; 49; 59; 72; 7] in let cs := [27; 93; 50; 59; 72; 7] in
  Forall gev_ok (back ++ [EvSays (bs ++ cs)]) /\ Forall osc_char [49; 59; 72] /\ (forall r, flat_map ucs4_to_utf8 [49; 59; 72] <> 50 :: 59 :: r) /\ (forall r, flat_map ucs4_to_utf8 [50; 58; 72] <> 50 :: 59 :: r) /\
  encodes true (v_flags v) ([27; 93] ++ [49; 59; 72] ++ [7]) bs /\ encodes true (v_flags v) ([27; 93] ++ (50 :: 59 :: [72]) ++ [7]) cs /\
  match dwell (gadget_new scr_init) (back ++ [EvSays (bs ++ cs)]) with
  | Ok h => match v_state (h_vte h) with SGround => true | _ => false end && (v_flags (h_vte h) =? v_flags v) && match u_state (v_mach (h_vte h)) with UStart | UAccept | UReject => true | _ => false end && negb (differ [h_pipe h] [bs ++ cs]) && match h_pty h with Some _ => true | None => false end &&
    match on_gevs true h [EvRead 6; EvRead 6] with Ok h' => negb (differ (h_titles h') [[72]]) | Ub => false end
  | Ub => false
  end = true.
Proof.
  cbv zeta. split; [repeat constructor; cbn; unfold u32_arg; lia|]. split; [each|]. split; [intros r; vm_compute; discriminate|]. split; [intros r; vm_compute; discriminate|].
  split; [apply encodes_low; repeat constructor; unfold ascii; lia|]. split; [apply encodes_low; repeat constructor; unfold ascii; lia|]. vm_compute. reflexivity.
Qed.
(* The terminal of a widget tells its titles all the time. *)
Theorem C68_told : forall sg h0 es h, gadget_new scr_init = Ok h0 -> on_gevs sg h0 es = Ok h -> v_oscb (h_vte h) = true.
Proof. exact always_told. Qed.
Print Assumptions C68_told.
Example C68_told_ex : match dwell (gadget_new scr_init) (hello ++ [EvSays [27; 99; 27; 93; 50; 59; 72; 7]; EvRead 99]) with Ok h => negb (differ (h_titles h) [[72]]) | Ub => false end = true.
Proof. vm_compute. reflexivity. Qed.

(* The screen gets as many cells as fit into the window. *)
Theorem C68_size : forall sg h0 es h width height, gadget_new scr_init = Ok h0 -> Forall gev_ok es -> on_gevs sg h0 es = Ok h -> 0 <= width <= 1073741824 -> 0 <= height <= 1073741824 ->
  exists h', on_gev sg h (EvConfigure width height) = Ok h' /\ h_queued h' = true /\ h_sel h' = h_sel h /\ h_face h' = h_face h /\ let s := v_con (h_vte h') in
  match h_face h with Some (w, hh) => filled width w (s_sx s) /\ filled height hh (s_sy s) | None => s_sx s = 1 /\ s_sy s = 1 end.
Proof. exact configured. Qed.
Print Assumptions C68_size.
Example C68_size_ex : Forall gev_ok hello /\
  match dwell (gadget_new scr_init) (hello ++ [EvConfigure 11 2]) with Ok h => (s_sx (v_con (h_vte h)) =? 5) && (s_sy (v_con (h_vte h)) =? 1) | Ub => false end = true.
Proof. split; [repeat constructor; cbn; unfold u32_arg; lia|vm_compute; reflexivity]. Qed.
(* A frame leaves nothing queued and the screen as it was. *)
Theorem C68_frame : forall sg h h', on_gev sg h EvFrame = Ok h' -> h_queued h' = false /\ same_but_age (v_con (h_vte h)) (v_con (h_vte h')) /\ h_pty h' = h_pty h /\ h_titles h' = h_titles h.
Proof. exact frame_done. Qed.
Print Assumptions C68_frame.
Example C68_frame_ex : match dwell (gadget_new scr_init) (start ++ [EvSays [97]; EvRead 1]) with Ok h => h_queued h && match on_gev true h EvFrame with Ok h' => negb (h_queued h') | Ub => false end | Ub => false end = true.
Proof. vm_compute. reflexivity. Qed.
(* As long as no button was pressed, moving the mouse does nothing. *)
Theorem C68_hover : forall sg h0 es h x y, gadget_new scr_init = Ok h0 -> Forall unpressed es -> on_gevs sg h0 es = Ok h -> on_gev sg h (EvMotion x y) = Ok h.
Proof. exact hover. Qed.
Print Assumptions C68_hover.
Example C68_hover_ex : Forall unpressed back /\ match dwell (gadget_new scr_init) back with Ok _ => true | Ub => false end = true.
Proof. split; [repeat constructor|vm_compute; reflexivity]. Qed.
(* A new widget has no child, no title, nothing queued, and no button is down. *)
Theorem C68_new : forall h, gadget_new scr_init = Ok h -> h_pty h = None /\ h_titles h = [] /\ h_queued h = false /\ h_sel h = 0 /\ h_pipe h = [].
Proof. exact new_all. Qed.
Print Assumptions C68_new.
Example C68_new_ex : exists h, gadget_new scr_init = Ok h.
Proof. exact new_some. Qed.
