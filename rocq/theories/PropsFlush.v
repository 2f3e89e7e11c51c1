(* C49: what pty_write returns. Vocabulary in FlushSpec.v; proofs in FlushProofs.v. *)
From Verif Require Import Base Ring Array SharedSpec FlushSpec FlushProofs.

(* Whatever was written and dispatched before and whatever the kernel does: the
   bytes left are those waiting less those taken, and what is returned tells whether
   something is left and why. *)
Theorem C49_result : forall ops p k1 k2, Forall pty_args ops -> pty_pushed ops <= MEM_MAX -> pty_run pty0 ops = Ok p -> pty_args (PDispatch k1 k2) ->
  exists r' s c, pty_write (y_out p) k1 k2 = Ok (r', s, c) /\ r_used r' = still (r_used (y_out p)) k1 k2 /\ zlen s = r_used (y_out p) - r_used r' /\
    tells (r_used r') (last_call (r_used (y_out p)) k1 k2) c.
Proof. exact result. Qed.
Print Assumptions C49_result.
Example C49_result_ex : let ops := [PWrite true [1; 2; 3]; PDispatch (KTake 1) (KErr 11); PWrite true [4; 5]] in
  Forall pty_args ops /\
  match pty_run pty0 ops with
  | Ok p => map (fun k => match pty_write (y_out p) (fst k) (snd k) with Ok (r, s, c) => (r_used r, zlen s, c) | Ub => (0, 0, 1) end)
              [(KTake 2, KTake 1); (KTake 2, KTake 2); (KTake 3, KErr 11); (KErr 4, KZero); (KZero, KZero); (KTake 4, KErr 5); (KErr 5, KZero)] =
            [(1, 3, -11); (0, 4, 0); (1, 3, 0); (4, 0, -11); (4, 0, -32); (0, 4, 0); (4, 0, -5)]
  | Ub => False
  end.
Proof. split; [repeat (apply Forall_cons || apply Forall_nil); cbn; lia|vm_compute; reflexivity]. Qed.
