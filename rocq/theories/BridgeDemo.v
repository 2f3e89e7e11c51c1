(* Histories of the bridge used as witnesses and examples. *)
From Verif Require Import Base BaseProofs Ring SharedSpec Bridge BridgeSpec.

(* Nothing changes by waiting for the bridge when it has nothing to report. *)
Lemma no_event mend t ls : t_ready t = false -> b_run mend [t] (map (BDispatch 0) ls) = Ok ([t], []).
Proof.
  intros H. induction ls as [|l ls IH]; [reflexivity|]. cbn [map b_run b_step]. unfold at_tty. change (zget [t] 0) with (Ok t). cbn [bind].
  unfold bridge_dispatch. rewrite H. cbn [bind fst snd]. change (zcopy [t] 0 [t]) with (Ok [t]). cbn [bind fst snd]. rewrite IH. reflexivity.
Qed.

Definition asleep_b (t : tty) : bool := t_reg t && negb (t_ready t).
Definition unread_b (x : res (list tty * list event)) : bool :=
  match x with Ok ([t], _) => asleep_b t && (0 <? zlen (t_in t)) | _ => false end.
Definition unsent_b (x : res (list tty * list event)) : bool :=
  match x with
  | Ok ([t], _) => asleep_b t && negb (t_asked t) && (0 <? r_used (t_out t)) && (0 <? t_room t) && negb (t_hup t)
  | _ => false
  end.
Lemma unread_ok x : unread_b x = true ->
  exists t tr, x = Ok ([t], tr) /\ asleep t /\ ~ all_read t /\ forall ls, b_run false [t] (map (BDispatch 0) ls) = Ok ([t], []).
Proof.
  destruct x as [[[|t [|? ?]] tr]|]; cbn [unread_b]; try discriminate. unfold asleep_b, asleep, all_read.
  intros H. exists t, tr. split; [reflexivity|]. destruct (t_reg t); [|discriminate]. destruct (t_ready t) eqn:Y; [discriminate|].
  split; [auto|]. split; [|intros ls; apply no_event; exact Y]. intros X. rewrite X in H. discriminate.
Qed.
Lemma unsent_ok mend x : unsent_b x = true ->
  exists t tr, x = Ok ([t], tr) /\ asleep t /\ t_asked t = false /\ ~ all_sent t /\ forall ls, b_run mend [t] (map (BDispatch 0) ls) = Ok ([t], []).
Proof.
  destruct x as [[[|t [|? ?]] tr]|]; cbn [unsent_b]; try discriminate. unfold asleep_b, asleep, all_sent.
  intros H. exists t, tr. split; [reflexivity|]. destruct (t_reg t); [|discriminate]. destruct (t_ready t) eqn:Y; [discriminate|].
  destruct (t_asked t); [discriminate|]. split; [auto|]. split; [reflexivity|]. split; [|intros ls; apply no_event; exact Y].
  destruct (t_hup t); [rewrite andb_false_r in H; discriminate|]. cbn [andb negb] in H. intros [X|[X|X]]; [| |discriminate]; lia.
Qed.

(* The whole of the buffer at once, no write inside fn_input. *)
Definition usual : luck := mkLuck (MTake 16383) [] (MTake 16383) [] (MTake 100) (MTake 100).
(* The first system call of each side is interrupted. *)
Definition interrupted : luck := mkLuck MIntr [] MIntr [] MIntr MIntr.
(* A slow kernel, and an application that answers. *)
Definition slow : luck := mkLuck (MTake 2) [(true, [48; 49; 50])] (MTake 3) [(true, [51])] (MTake 1) (MTake 2).

(* The child writes more than two reads fetch. *)
Definition flood : list bop := [BAdd 0; KSay 0 (repeat 97 (Z.to_nat 40000)); BDispatch 0 usual].
(* The signal comes while the program writes what was typed. *)
Definition typed : luck := mkLuck (MTake 16383) [] (MTake 16383) [] MIntr MIntr.
Definition nudge : list bop := [BAdd 0; BDispatch 0 usual; BWrite 0 true [108; 115; 10]; BDispatchPty 0 typed].
(* Two ptys, one of which talks and is talked to. *)
Definition session : list bop :=
  [BAdd 0; BAdd 1; KSay 1 [1; 2; 3; 4; 5; 6]; BWrite 1 true [65; 66]; BDispatch 1 slow; KDrain 1 2; BDispatch 1 slow;
   KSay 0 [9]; BDispatchPty 0 usual; KGone 1; BDispatch 1 usual; BClose 1; BWrite 1 true [7]].

Definition possible_b (n : Z) (ops : list bop) : bool :=
  forallb (fun o => (0 <=? about o) && (about o <? n)) ops && forallb (fun o => match o with KDrain _ k => 0 <=? k | _ => true end) ops &&
  (asks_all ops <=? MEM_MAX).
Lemma possible_ok n ops : possible_b n ops = true -> possible n ops.
Proof.
  unfold possible_b, possible. intros H. apply andb_true_iff in H. destruct H as [H H3]. apply andb_true_iff in H. destruct H as [H1 H2].
  rewrite forallb_forall in H1, H2. split; [|split; [|lia]]; apply Forall_forall; intros o I; [specialize (H1 o I); lia|].
  specialize (H2 o I). destruct o; auto. lia.
Qed.
