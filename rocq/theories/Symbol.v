(* Model of the symbol table in /repo/src/tsm/tsm-unicode.c:100-328. *)
From Verif Require Import Base Wcwidth.

(* libtsm.h:113-114 TSM_UCS4_MAX, libtsm-int.h:40 TSM_UCS4_MAXLEN. *)
Definition UCS4_MAX : Z := 2147483647.
Definition UCS4_MAXLEN : Z := 10.

(* tsm-unicode.c:102-107 struct tsm_symbol_table. t_index is the shl_array of
   pointers to interned strings (None = NULL); t_syms is the hash table,
   simplified to an association list from string to symbol id (the hash table
   itself is modelled separately in Htable.v). Strings are lists of code points
   without the terminator value TSM_UCS4_MAX+1. *)
Record symtab := mkT { t_next : Z; t_index : list (option (list Z)); t_syms : list (list Z * Z) }.

(* tsm-unicode.c:144-174 tsm_symbol_table_new: one unused dummy index entry. *)
Definition symtab_new : symtab := mkT (UCS4_MAX + 2) [None] [].

(* tsm-unicode.c:194-200 tsm_symbol_make. *)
Definition symbol_make (ucs4 : Z) : Z := if UCS4_MAX <? ucs4 then 0 else ucs4.

(* tsm-unicode.c:213-246 tsm_symbol_get: the string the returned pointer and
   size denote; uint32_t index arithmetic; a lookup beyond the array or of a
   NULL entry gives the default symbol (line 100). *)
Definition symbol_get (t : symtab) (sym : Z) : list Z :=
  if sym <=? UCS4_MAX then [sym]
  else match znth (t_index t) (u32 (sym - (UCS4_MAX + 1))) with
       | Some (Some s) => s
       | _ => [0]
       end.

(* tsm-unicode.c:120-134 cmp_ucs4: equality of strings. *)
Fixpoint str_eqb (a b : list Z) : bool :=
  match a, b with
  | [], [] => true
  | x :: a', y :: b' => (x =? y) && str_eqb a' b'
  | _, _ => false
  end.

(* tsm-unicode.c:271-276 lookup of an interned string. *)
Fixpoint syms_lookup (l : list (list Z * Z)) (k : list Z) : option Z :=
  match l with
  | [] => None
  | (k', v) :: l' => if str_eqb k' k then Some v else syms_lookup l' k
  end.

(* tsm-unicode.c:248-312 tsm_symbol_append (allocations succeed; the local
   buffer of 11 entries is written at most at index 10 because s < 10). *)
Definition symbol_append (t : symtab) (sym ucs4 : Z) : symtab * Z :=
  if UCS4_MAX <? ucs4 then (t, sym)
  else
    let p := symbol_get t sym in
    if UCS4_MAXLEN <=? zlen p then (t, sym)
    else
      let key := p ++ [ucs4] in
      match syms_lookup (t_syms t) key with
      | Some v => (t, v)
      | None =>
        let nsym := u32 (t_next t + 1) in
        if nsym <=? t_next t then (t, sym)
        else (mkT nsym (t_index t ++ [Some key]) ((key, nsym) :: t_syms t), nsym)
      end.

(* tsm-unicode.c:314-328 tsm_symbol_get_width. *)
Definition symbol_width (t : symtab) (sym : Z) : res Z :=
  match symbol_get t sym with
  | [] => Ok 0
  | c :: _ => ucs4_get_width c
  end.

(* A history of tsm_symbol_append calls starting from a new table. *)
Definition symbol_run (l : list (Z * Z)) : symtab :=
  fold_left (fun t a => fst (symbol_append t (fst a) (snd a))) l symtab_new.
