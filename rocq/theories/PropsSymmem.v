(* C57: the symbol table in memory, with its hash table, its array and the
   blocks it allocates, behaves as a table of strings. Proofs: SymmemThms.v. *)
From Verif Require Import Base Symbol Array Htable Symmem SymmemSpec SymmemThms.

(* Whichever blocks malloc hands out and however often it fails, the appends
   return what a table of strings would return, every symbol reads the same,
   and dropping the table frees every block once and no other. The keys have to
   have the same highest address bit (C48), and hash table and array have to be
   given the memory they ask for (see below). *)
Theorem C57_refines_partial : forall k l t0,
  1 <= k < 64 -> symmem_new = Ok t0 -> served k t0 l -> zlen l <= 3 * 2 ^ 28 -> tables_grow l ->
  exists t, sm_run t0 l = Ok (t, snd (symbol_session symtab_new l)) /\
    (forall sym, 0 <= sym < 2 ^ 32 -> sm_get t sym = Ok (symbol_get (fst (symbol_session symtab_new l)) sym)) /\
    sm_unref t = Ok [].
Proof. exact symmem_refines. Qed.
Print Assumptions C57_refines_partial.
(* Two strings, the first one again, one refused by malloc, a third one. *)
Example C57_refines_ex : exists t, symmem_new = Ok fresh_table /\ served 12 fresh_table demo_appends /\ tables_grow demo_appends /\
  sm_run fresh_table demo_appends = Ok (t, [2147483650; 2147483651; 2147483650; 2147483651; 2147483652]) /\
  sm_get t 2147483650 = Ok [0x61; 0x308] /\ map fst (sm_mem t) = [0x1040; 0x1020; 0x1000] /\ sm_unref t = Ok [].
Proof.
  eexists. split; [exact new_table|]. split; [exact (demo_served _ new_table)|]. split; [repeat constructor|]. split; [vm_compute; reflexivity|].
  vm_compute. repeat split; reflexivity.
Qed.

(* Without that memory an append is either undefined or still does this. *)
Theorem C57_either : forall k l t0,
  1 <= k < 64 -> symmem_new = Ok t0 -> served k t0 l -> zlen l <= 3 * 2 ^ 28 ->
  match sm_run t0 l with
  | Ub => True
  | Ok (t, rs) => rs = snd (symbol_session symtab_new l) /\
    (forall sym, 0 <= sym < 2 ^ 32 -> sm_get t sym = Ok (symbol_get (fst (symbol_session symtab_new l)) sym)) /\
    sm_unref t = Ok []
  end.
Proof. exact symmem_either. Qed.
Print Assumptions C57_either.
(* The array is not asked to grow by the second string. *)
Example C57_either_ex : exists t, symmem_new = Ok fresh_table /\ served 12 fresh_table small_index /\ ~ tables_grow small_index /\
  sm_run fresh_table small_index = Ok (t, [2147483650; 2147483651]).
Proof.
  eexists. split; [exact new_table|]. split; [exact (small_served _ new_table)|]. split; [|vm_compute; reflexivity].
  intros H. inversion H as [|? ? [_ X] _]. discriminate.
Qed.

(* It is undefined exactly when it has a new string, a block for it, and then
   the hash table or the array is full and cannot grow: the pointer passed to
   free is not the one malloc returned. *)
Theorem C57_undefined : forall k l t0 t rs sym u g,
  1 <= k < 64 -> symmem_new = Ok t0 -> served k t0 l -> sm_run t0 l = Ok (t, rs) ->
  served k t [(sym, u, g)] -> zlen l < 3 * 2 ^ 28 ->
  (sm_append t sym u g = Ub <-> denied (fst (symbol_session symtab_new l)) sym u g).
Proof. exact symmem_undefined. Qed.
Print Assumptions C57_undefined.
Example C57_undefined_ex : (served 12 fresh_table no_table /\ sm_run fresh_table no_table = Ub) /\
  (served 12 fresh_table no_index /\ sm_run fresh_table no_index = Ub) /\ denied symtab_new 0x65 0x301 (mkG (Some 0x1000) false true).
Proof.
  split; [exact (no_table_ub _ new_table)|]. split; [exact (no_index_ub _ new_table)|]. split; [vm_compute; congruence|]. split; [reflexivity|]. left. split; [|reflexivity]. exists 0. split; [lia|reflexivity].
Qed.

(* So the append does not survive every failing allocation. *)
Theorem C57_append_survives_refuted : ~ append_survives.
Proof. exact append_survives_false. Qed.
Print Assumptions C57_append_survives_refuted.
