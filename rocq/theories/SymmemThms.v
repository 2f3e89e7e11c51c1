(* The statements of PropsSymmem.v, proved. *)
From Verif Require Import Base BaseProofs Symbol SymbolProofs Ring Array Htable Symmem SymmemSpec SymmemProofs SymmemExact.

Definition fresh_table : symmem := mkSM (UCS4_MAX + 2) (mkV [Some 0; None; None; None] 1 8) ht_init [].
Lemma new_table : symmem_new = Ok fresh_table.
Proof. exact new_is. Qed.

Lemma symmem_refines k l t0 : 1 <= k < 64 -> symmem_new = Ok t0 -> served k t0 l -> zlen l <= 3 * 2 ^ 28 -> tables_grow l ->
  exists t, sm_run t0 l = Ok (t, snd (symbol_session symtab_new l)) /\
    (forall sym, 0 <= sym < 2 ^ 32 -> sm_get t sym = Ok (symbol_get (fst (symbol_session symtab_new l)) sym)) /\
    sm_unref t = Ok [].
Proof.
  intros Hk E Sv Ln G. destruct (run_ok k Hk l t0 symtab_new (srep_new k t0 E) Sv Ln) as [[_ N]|(t & ER & R)]; [contradiction|].
  exists t. split; [exact ER|]. split; [|exact (unref_ok _ _ _ R)]. intros sym Hs. exact (proj1 (get_ok _ _ _ _ R Hs)).
Qed.

Lemma symmem_either k l t0 : 1 <= k < 64 -> symmem_new = Ok t0 -> served k t0 l -> zlen l <= 3 * 2 ^ 28 ->
  match sm_run t0 l with
  | Ub => True
  | Ok (t, rs) => rs = snd (symbol_session symtab_new l) /\
    (forall sym, 0 <= sym < 2 ^ 32 -> sm_get t sym = Ok (symbol_get (fst (symbol_session symtab_new l)) sym)) /\
    sm_unref t = Ok []
  end.
Proof.
  intros Hk E Sv Ln. destruct (run_ok k Hk l t0 symtab_new (srep_new k t0 E) Sv Ln) as [[-> _]|(t & -> & R)]; [exact I|].
  split; [reflexivity|]. split; [|exact (unref_ok _ _ _ R)]. intros sym Hs. exact (proj1 (get_ok _ _ _ _ R Hs)).
Qed.

Lemma symmem_undefined k l t0 t rs sym u g : 1 <= k < 64 -> symmem_new = Ok t0 -> served k t0 l -> sm_run t0 l = Ok (t, rs) ->
  served k t [(sym, u, g)] -> zlen l < 3 * 2 ^ 28 ->
  (sm_append t sym u g = Ub <-> denied (fst (symbol_session symtab_new l)) sym u g).
Proof.
  intros Hk E Sv ER S1 Ln. pose proof (srep_new k t0 E) as R0.
  assert (SL : forall l T, zlen (t_syms (fst (symbol_session T l))) <= zlen (t_syms T) + zlen l).
  { clear. induction l as [|[[s u] g] l IH]; intros T; cbn [symbol_session length]; [cbn; lia|]. cbn [fst].
    pose proof (append_or_len (has_room g) T s u). specialize (IH (fst (symbol_append_or (has_room g) T s u))). lia. }
  pose proof (run_exact k Hk l t0 symtab_new t rs R0 (snug_new _ E) Sv ltac:(cbn [symtab_new t_syms length]; lia) ER) as Sn.
  destruct (run_ok k Hk l t0 symtab_new R0 Sv ltac:(cbn [symtab_new t_syms length]; lia)) as [[EU _]|(t1 & E1 & R1)]; [congruence|].
  assert (t1 = t) by congruence. subst t1. destruct S1 as (Hs & Hu & Hm & _). specialize (SL l symtab_new). cbn [symtab_new t_syms length] in SL.
  exact (proj1 (append_exact k t _ sym u g Hk R1 Sn Hs Hu ltac:(lia) Hm)).
Qed.

(* Concrete blocks. *)
Definition room (b : Z) : grants := mkG (Some b) true true.
Definition demo_appends : list (Z * Z * grants) :=
  [(0x65, 0x301, room 0x1000); (0x61, 0x308, room 0x1020); (0x65, 0x301, room 0x1040); (2147483651, 0x300, mkG None true true); (0x6f, 0x308, room 0x1040)].
Ltac served_tac :=
  repeat (split; [lia|split; [lia|split;
    [first [exact I | let s := fresh in let E := fresh in intros s E; vm_compute in E; inversion E; subst; split; [vm_compute; split; congruence|repeat constructor; vm_compute; intuition congruence]]
    |let t' := fresh in let s := fresh in let E := fresh in intros t' s E; vm_compute in E; inversion E; subst; clear E]]]); try exact I.
Lemma demo_served t0 : symmem_new = Ok t0 -> served 12 t0 demo_appends.
Proof. intros E. rewrite new_is in E. inversion E. subst. clear E. unfold demo_appends. served_tac. Qed.
Definition small_index : list (Z * Z * grants) := [(0x65, 0x301, mkG (Some 0x1000) true false); (0x61, 0x308, mkG (Some 0x1020) true false)].
Lemma small_served t0 : symmem_new = Ok t0 -> served 12 t0 small_index.
Proof. intros E. rewrite new_is in E. inversion E. subst. clear E. unfold small_index. served_tac. Qed.
(* The full claim: whatever allocations fail, the append returns. *)
Definition append_survives : Prop := forall k l t0, 1 <= k < 64 -> symmem_new = Ok t0 -> served k t0 l -> zlen l <= 3 * 2 ^ 28 -> sm_run t0 l <> Ub.
Definition no_table : list (Z * Z * grants) := [(0x65, 0x301, mkG (Some 0x1000) false true)].
Definition no_index : list (Z * Z * grants) :=
  [(0x65, 0x301, room 0x1000); (0x61, 0x308, room 0x1020); (0x6f, 0x308, room 0x1040); (0x75, 0x308, mkG (Some 0x1060) true false)].
Lemma no_table_ub t0 : symmem_new = Ok t0 -> served 12 t0 no_table /\ sm_run t0 no_table = Ub.
Proof. intros E. rewrite new_is in E. inversion E. subst. clear E. split; [|vm_compute; reflexivity]. unfold no_table. served_tac. Qed.
Lemma no_index_ub t0 : symmem_new = Ok t0 -> served 12 t0 no_index /\ sm_run t0 no_index = Ub.
Proof. intros E. rewrite new_is in E. inversion E. subst. clear E. split; [|vm_compute; reflexivity]. unfold no_index. served_tac. Qed.
Lemma append_survives_false : ~ append_survives.
Proof.
  intros H. destruct (no_table_ub _ new_table) as [Sv U]. apply (H 12 no_table _ ltac:(lia) new_table Sv); [|exact U]. cbn [no_table length]. lia.
Qed.
