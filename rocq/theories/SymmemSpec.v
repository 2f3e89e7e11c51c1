(* What the symbol table in memory should do: the same as a table of strings. *)
From Verif Require Import Base Symbol Symmem.

(* malloc returned a block of n words that meets no block in use. The keys, one
   word further on, are between 2^k and 2^(k+1). *)
Definition apart (n : Z) (b : Z) (x : Z * list Z) : Prop := b + 4 * n <= fst x \/ fst x + 4 * zlen (snd x) <= b.
Definition new_block (k : Z) (m : store) (n b : Z) : Prop := 2 ^ k <= b + 4 < 2 ^ (k + 1) /\ Forall (apart n b) m.
(* The appends of a run are given 32 bit words, and blocks as malloc hands them
   out: an append to a string of n characters asks for n + 3 words, for the id,
   the string, the character appended and the terminator. *)
Fixpoint served (k : Z) (t : symmem) (l : list (Z * Z * grants)) : Prop :=
  match l with
  | [] => True
  | (sym, u, g) :: r =>
    0 <= sym < 2 ^ 32 /\ 0 <= u < 2 ^ 32 /\
    match g_malloc g with
    | Some b => forall s, sm_get t sym = Ok s -> new_block k (sm_mem t) (zlen s + 3) b
    | None => True
    end /\
    forall t' s, sm_append t sym u g = Ok (t', s) -> served k t' r
  end.

(* Appends to a table of strings, where room for a new string may be missing:
   then the symbol itself is the result and nothing changes. *)
Definition symbol_append_or (room : bool) (t : symtab) (sym u : Z) : symtab * Z :=
  let x := symbol_append t sym u in
  if room then x else if t_next (fst x) =? t_next t then x else (t, sym).
Definition has_room (g : grants) : bool := match g_malloc g with Some _ => true | None => false end.
Fixpoint symbol_session (t : symtab) (l : list (Z * Z * grants)) : symtab * list Z :=
  match l with
  | [] => (t, [])
  | (sym, u, g) :: r =>
    let x := symbol_append_or (has_room g) t sym u in
    let y := symbol_session (fst x) r in (fst y, snd x :: snd y)
  end.
(* calloc and realloc do not fail. *)
Definition tables_grow (l : list (Z * Z * grants)) : Prop := Forall (fun x => g_calloc (snd x) = true /\ g_realloc (snd x) = true) l.

(* An append to a table holding n strings that has to enlarge the hash table,
   filled to three quarters, or the array, whose first element is not used; and
   is denied the memory for it. *)
Definition interns (T : symtab) (sym u : Z) : Prop := t_next (fst (symbol_append T sym u)) <> t_next T.
Definition table_full (n : Z) : Prop := exists j, 0 <= j /\ n = 3 * 2 ^ j / 4.
Definition index_full (n : Z) : Prop := exists j, 2 <= j /\ n + 1 = 2 ^ j.
Definition denied (T : symtab) (sym u : Z) (g : grants) : Prop :=
  interns T sym u /\ has_room g = true /\
  (table_full (zlen (t_syms T)) /\ g_calloc g = false \/ index_full (zlen (t_syms T)) /\ g_realloc g = false).
