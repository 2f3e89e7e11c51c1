(* Properties C46, C47, C49: the ring, the dynamic array and the output side of
   the pty. Vocabulary in SharedSpec.v. *)
From Verif Require Import Base Ring Array SharedSpec RingProofs ArrayProofs.

(* C46 *)
Theorem C46_ring_is_fifo : forall ops, Forall ring_args ops -> ring_pushed ops <= MEM_MAX ->
  exists r obs q, ring_run ring_zero ops = Ok (r, obs) /\ fifo [] ops obs q /\ zlen q = r_used r.
Proof. exact ring_fifo0. Qed.
Print Assumptions C46_ring_is_fifo.
Definition ring_demo : list ring_op :=
  [RPush true [1; 2; 3]; RPull 1; RPush true (repeat 7 (Z.to_nat 4095)); RPull 4090; RPush true [8; 9]; RCopy 6; RPush false [5]; RPeek].
Example C46_ex : Forall ring_args ring_demo /\ ring_pushed ring_demo <= MEM_MAX /\
  exists r, ring_run ring_zero ring_demo = Ok (r, [RRet 0; RNone; RRet 0; RNone; RRet 0;
    RBytes (map Some [7; 7; 7; 7; 7; 7]); RRet 0; RBytes (map Some [7; 7; 7; 7; 7; 7; 7; 8; 9; 5])]).
Proof. split; [unfold ring_demo; repeat (apply Forall_cons || apply Forall_nil); cbn; (lia || exact I)|]. split; [vm_compute; discriminate|]. eexists. vm_compute. reflexivity. Qed.

(* C47 *)
Theorem C47_array_is_list : forall esz init ops, 0 < esz -> 0 <= init -> Forall push_pop ops ->
  esz * (4 * (init + zlen ops + 5)) < 18446744073709551616 ->
  exists a0 a cs l, array_new esz init = Some a0 /\ array_run a0 ops = Ok (a, cs) /\ listlike [] ops cs l /\
    v_len a = zlen l /\ v_len a <= zlen (v_data a) /\
    forall i x, znth l i = Some x -> array_at a i = Ok (Some x).
Proof. exact array_list0. Qed.
Print Assumptions C47_array_is_list.
Example C47_ex : exists a0 a, array_new 8 2 = Some a0 /\
  array_run a0 [APush true 5; APush true 6; APush false 9; APush true 7; APop; APush true 8] = Ok (a, [0; 0; -12; 0; 0; 0]) /\
  v_data a = [Some 5; Some 6; Some 8; None] /\ v_len a = 3.
Proof. eexists _, _. split; [reflexivity|]. split; [vm_compute; reflexivity|]. split; vm_compute; reflexivity. Qed.
(* A resize beyond the capacity: the capacity becomes the least power of two
   that is enough, what was stored stays, the rest is 0; if there is no memory
   nothing changes. *)
Theorem C47_zresize : forall a n, 0 < v_esz a -> 0 <= v_len a <= zlen (v_data a) -> zlen (v_data a) < n -> v_esz a * (2 * n) <= 2 ^ 64 ->
  array_zresize false a n = Ok (a, -12) /\
  exists a' k, array_zresize true a n = Ok (a', 0) /\ v_len a' = n /\ v_esz a' = v_esz a /\ zlen (v_data a') = 2 ^ k /\ n <= 2 ^ k < 2 * n /\
    forall i, 0 <= i < n -> array_at a' i = if i <? v_len a then array_at a i else Ok (Some 0).
Proof. exact array_grows. Qed.
Print Assumptions C47_zresize.
Example C47_zresize_ex : exists a0 a, array_new 8 2 = Some a0 /\ array_run a0 [APush true 5; AResize true 5; APush true 6] = Ok (a, [0; 0; 0]) /\
  v_data a = map Some [5; 0; 0; 0; 0; 6] ++ [None; None].
Proof. eexists _, _. split; [reflexivity|]. split; vm_compute; reflexivity. Qed.
(* Outside the property: a resize within the capacity does not zero the entries
   it adds, contrary to the comment of shl_array_zresize. *)
Theorem C47_zresize_zeroes_refuted : exists a0 a cs, array_new 8 4 = Some a0 /\
  array_run a0 [APush true 7; APop; AResize true 1] = Ok (a, cs) /\ array_at a 0 = Ok (Some 7).
Proof. eexists _, _, _. split; [reflexivity|]. split; vm_compute; reflexivity. Qed.
Print Assumptions C47_zresize_zeroes_refuted.

(* C49 *)
Theorem C49_delivery : forall ops, Forall pty_args ops -> pty_pushed ops <= MEM_MAX ->
  exists p q, pty_run pty0 ops = Ok p /\ zlen q = r_used (y_out p) /\
    y_sent p ++ map Some q = map Some (accepted ops (y_codes p)) /\
    Forall (fun c => c = 0 \/ c = -12) (y_codes p).
Proof. exact pty_delivery. Qed.
Print Assumptions C49_delivery.
Example C49_ex : let ops := [PWrite true [1; 2; 3]; PDispatch (KTake 2) (KErr 11); PWrite true [4; 5]; PDispatch (KErr 4) KZero;
    PDispatch (KTake 2) (KTake 1)] in
  Forall pty_args ops /\ exists p, pty_run pty0 ops = Ok p /\ y_sent p = map Some [1; 2; 3; 4; 5] /\ r_used (y_out p) = 0.
Proof. split; [repeat (apply Forall_cons || apply Forall_nil); cbn; lia|]. eexists. split; [vm_compute; reflexivity|]. split; vm_compute; reflexivity. Qed.
