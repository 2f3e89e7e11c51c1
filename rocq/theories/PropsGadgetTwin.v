(* C69: neither looking around nor how its output is cut up changes a session of the
   widget. Vocabulary in GadgetTwinSpec.v; proofs in GadgetTwin.v, GadgetMore.v. *)
From Verif Require Import Base Screen ScreenSpec ScreenResize ScreenSafe VteData Vte VteKeys TwinSpec TwinVteSpec Gadget GadgetSpec GadgetDemo GadgetTwinSpec GadgetTwin GadgetMore.

(* Leaving out clicks, drags, scrolling, frames, sizes of the scrollback. *)
Theorem C69_looking : forall sg h es es', gadget_new scr_init = Ok h -> thinned es es' -> Forall gev_ok es -> alike (on_gevs sg h es) (on_gevs sg h es').
Proof. exact thin_alike. Qed.
Print Assumptions C69_looking.
Example C69_looking_ex : let more := [EvSays [102; 27; 91; 54; 110]; EvRead 9; EvKey true 0 0x78 (Some (0x78, 0)) 0x78] in
  let quiet := start ++ [EvSays [97; 13; 10; 98; 13; 10; 99; 13; 10; 100; 13; 10; 101]; EvRead 99] ++ more in
  thinned (back ++ EvButton Double 1 7 0 0 :: more) quiet /\ Forall gev_ok (back ++ EvButton Double 1 7 0 0 :: more) /\
  match dwell (gadget_new scr_init) (back ++ EvButton Double 1 7 0 0 :: more), dwell (gadget_new scr_init) quiet with
  | Ok a, Ok b => match h_pty a, h_pty b with Some p, Some q => negb (differ [p; p] [q; [27; 91; 51; 59; 51; 82; 120]]) | _, _ => false end
  | _, _ => false
  end = true.
Proof.
  cbv zeta. split; [|split; [repeat constructor; cbn; unfold u32_arg; lia|vm_compute; reflexivity]].
  assert (S : exists o, scrolls 1 (Some (0xff52, 0)) o) by (exists (OSbUp 1); do 2 eexists; split; [reflexivity|]; split; [intros n I; cbn in I; destruct I as [<-|[<-|[<-|[<-|[<-|[]]]]]]; reflexivity|cbn; tauto]).
  cbn [app back hello start]. apply thin_keep, thin_keep. apply thin_out; [exact I|]. apply thin_keep, thin_keep. apply thin_out; [exact I|]. apply thin_out; [split; [reflexivity|exact S]|]. do 2 (apply thin_out; [exact I|]). do 3 apply thin_keep. apply thin_nil.
Qed.
(* However the child's output is cut up: what was read is a beginning of what was
   written, given to the terminal in one piece; the child and the title get what it
   answers. *)
Theorem C69_stream : forall sg es h h' q, Forall piecemeal es -> h_pty h = Some q -> on_gevs sg h es = Ok h' ->
  exists bs new, bs ++ h_pipe h' = h_pipe h ++ says_all es /\ vte_input sg (h_vte h) bs = Ok (h_vte h') /\ v_out (h_vte h') = v_out (h_vte h) ++ new /\
  h_pty h' = Some (q ++ said new) /\ h_titles h' = h_titles h ++ titles new.
Proof. exact stream. Qed.
Print Assumptions C69_stream.
Theorem C69_pieces : forall sg h es1 es2 h1 h2, Forall piecemeal es1 -> Forall piecemeal es2 -> h_pty h <> None -> says_all es1 = says_all es2 -> on_gevs sg h es1 = Ok h1 -> on_gevs sg h es2 = Ok h2 ->
  h_pipe h1 = [] -> h_pipe h2 = [] -> h_vte h1 = h_vte h2 /\ h_pty h1 = h_pty h2 /\ h_titles h1 = h_titles h2.
Proof. exact pieces. Qed.
Print Assumptions C69_pieces.
Example C69_pieces_ex : let a := [EvSays [27; 91; 54; 110; 27; 93; 50; 59; 195; 169; 7]; EvRead 99] in
  let b := [EvSays [27; 91]; EvRead 1; EvSays [54; 110; 27]; EvRead 4; EvSays [93; 50; 59; 195]; EvRead 2; EvRead 2; EvSays [169; 7]; EvRead 2] in
  Forall piecemeal a /\ Forall piecemeal b /\ says_all a = says_all b /\
  match dwell (gadget_new scr_init) (start ++ a), dwell (gadget_new scr_init) (start ++ b) with
  | Ok x, Ok y => (length (h_pipe x) =? 0)%nat && (length (h_pipe y) =? 0)%nat && negb (differ (h_titles x ++ h_titles y) [[195; 169]; [195; 169]])
  | _, _ => false
  end = true.
Proof. cbv zeta. split; [repeat constructor|]. split; [repeat constructor|]. split; [reflexivity|vm_compute; reflexivity]. Qed.

(* Nothing can be undefined but what the terminal makes of its input, be it read from
   the child or echoed (C27 says when). *)
Theorem C69_undefined : forall sg h0 es, gadget_new scr_init = Ok h0 -> Forall gev_ok es -> on_gevs sg h0 es = Ub ->
  exists es1 e es2 h, es = es1 ++ e :: es2 /\ on_gevs sg h0 es1 = Ok h /\
  ((exists n, e = EvRead n /\ h_pty h <> None /\ vte_input sg (h_vte h) (firstn n (h_pipe h)) = Ub) \/
   (exists state keyval tr ucs4, e = EvKey true state keyval tr ucs4 /\ vfl (h_vte h) VF_SRM = false)).
Proof. exact undefined_run. Qed.
Print Assumptions C69_undefined.
(* A wide character in insert mode on one column. *)
Example C69_undefined_ex : let es := [EvFork 2 3; EvConfigure 3 3; EvSays [27; 91; 52; 104; 228; 184; 173]; EvFrame; EvRead 9] in Forall gev_ok es /\ out_of (gadget_new scr_init) es [] = true.
Proof. cbv zeta. split; [repeat constructor; cbn; lia|vm_compute; reflexivity]. Qed.
