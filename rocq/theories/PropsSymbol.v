(* Property C05: combined symbols. Vocabulary in SymbolProofs.v: interned t is
   the list of texts interned so far (oldest first), nth_id n the symbol handed
   out for the n-th of them, appendable the conditions under which
   tsm_symbol_append is not refused. *)
From Verif Require Import Base BaseProofs Symbol SymbolProofs SymbolMake.

(* A symbol made from a code point reads back as that code point. *)
Theorem C05_make_get : forall t u, 0 <= u <= UCS4_MAX -> symbol_get t (symbol_make u) = [u].
Proof. exact make_get. Qed.
Print Assumptions C05_make_get.
Example C05_make_get_ex : symbol_get symtab_new (symbol_make 0x1F600) = [0x1F600].
Proof. vm_compute; reflexivity. Qed.

(* The full claim "append reads back as old text plus new code point" is false:
   the index of a new id is one too large. *)
Theorem C05_append_get_refuted : ~ append_reads_back.
Proof. exact append_reads_back_false. Qed.
Print Assumptions C05_append_get_refuted.
Example C05_append_get_refuted_ex :
  let '(t, s) := symbol_append symtab_new 0x65 0x301 in
  let '(t', s') := symbol_append t 0x61 0x308 in
  symbol_get t s = [0] /\ symbol_get t' s = [0x61; 0x308].
Proof. vm_compute; auto. Qed.

(* What reading back gives instead, in every reachable table. Missing with
   respect to the full claim: the text is that of the next symbol. *)
Theorem C05_readback_shifted_partial : forall l n,
  let t := symbol_run l in
  0 <= n < zlen (interned t) ->
  symbol_get t (nth_id n) =
  match znth (interned t) (n + 1) with Some k => k | None => [0] end.
Proof. exact readback_shifted. Qed.
Print Assumptions C05_readback_shifted_partial.
Example C05_readback_shifted_ex :
  interned (symbol_run [(0x65, 0x301); (0x61, 0x308)]) = [[0x65; 0x301]; [0x61; 0x308]].
Proof. vm_compute; reflexivity. Qed.

(* Equal texts give equal symbols and different texts different symbols, where
   the text is the one tsm_symbol_append builds (what the base symbol reads
   back as, plus the new code point). *)
Theorem C05_intern_injective_partial : forall l s1 u1 s2 u2,
  let t := symbol_run l in
  let t1 := fst (symbol_append t s1 u1) in
  appendable t s1 u1 -> appendable t1 s2 u2 ->
  (snd (symbol_append t s1 u1) = snd (symbol_append t1 s2 u2)
   <-> appended_text t s1 u1 = appended_text t1 s2 u2).
Proof. exact intern_injective. Qed.
Print Assumptions C05_intern_injective_partial.
Example C05_intern_injective_ex :
  snd (symbol_append symtab_new 0x65 0x301) = 2147483650 /\
  snd (symbol_append (fst (symbol_append symtab_new 0x65 0x301)) 0x65 0x301) = 2147483650 /\
  snd (symbol_append (fst (symbol_append symtab_new 0x65 0x301)) 0x65 0x302) = 2147483651.
Proof. vm_compute; auto. Qed.

(* The text behind an id never changes once interned. *)
Theorem C05_ids_stable : forall l l' n k,
  znth (interned (symbol_run l)) n = Some k -> znth (interned (symbol_run (l ++ l'))) n = Some k.
Proof. exact append_stable. Qed.
Print Assumptions C05_ids_stable.
Example C05_ids_stable_ex :
  znth (interned (symbol_run [(0x65, 0x301)])) 0 = Some [0x65; 0x301].
Proof. vm_compute; reflexivity. Qed.

(* Beyond the range of characters it is the default one, 0. *)
Theorem C05_make_any : forall t u, 0 <= u -> symbol_get t (symbol_make u) = [if u <=? UCS4_MAX then u else 0].
Proof. exact make_any. Qed.
Print Assumptions C05_make_any.
Example C05_make_any_ex : 0 <= 0x80000000 /\ symbol_get symtab_new (symbol_make 0x80000000) = [0] /\ symbol_get symtab_new (symbol_make 0x20ac) = [0x20ac].
Proof. split; [lia|]. split; vm_compute; reflexivity. Qed.
