(* Model of the symbol table /repo/src/tsm/tsm-unicode.c:100-312 as it is laid
   out in memory: the hash table of Htable.v and the array of Array.v hold
   pointers to blocks obtained from malloc. Symbol.v has the same table with
   strings in place of pointers. The table's reference count, its own block and
   the blocks of hash table and array are not modelled. *)
From Verif Require Import Base Symbol Array Htable.

(* The blocks from tsm-unicode.c:281: address and 32 bit words. *)
Definition store := list (Z * list Z).
(* The words of the block starting at an address (tsm-unicode.c:281). *)
Fixpoint block_at (m : store) (b : Z) : option (list Z) :=
  match m with
  | [] => None
  | (b', w) :: r => if b' =? b then Some w else block_at r b
  end.
(* free, as called in tsm-unicode.c:141 and 310: anything but the start of a
   block is undefined. *)
Fixpoint free_block (m : store) (b : Z) : res store :=
  match m with
  | [] => Ub
  | (b', w) :: r => if b' =? b then Ok r else do r' <- free_block r b; Ok ((b', w) :: r')
  end.

(* tsm-unicode.c:238-243: the words up to the first one above TSM_UCS4_MAX;
   reading past the end of the block is undefined. *)
Fixpoint text_of (w : list Z) : res (list Z) :=
  match w with
  | [] => Ub
  | c :: r => if UCS4_MAX <? c then Ok [] else do t <- text_of r; Ok (c :: t)
  end.
(* tsm-unicode.c:109-118 hash_ucs4. *)
Fixpoint hash_from (val : Z) (w : list Z) : res Z :=
  match w with
  | [] => Ub
  | c :: r => if UCS4_MAX <? c then Ok val else hash_from (u64 (val * 33 + c)) r
  end.
(* tsm-unicode.c:111: the start value. *)
Definition hash_ucs4 (w : list Z) : res Z := hash_from 5381 w.
(* tsm-unicode.c:120-134 cmp_ucs4. *)
Fixpoint cmp_ucs4 (v1 v2 : list Z) : res bool :=
  match v1, v2 with
  | a :: r1, b :: r2 =>
    if (UCS4_MAX <? a) && (UCS4_MAX <? b) then Ok true
    else if negb (a =? b) then Ok false
    else cmp_ucs4 r1 r2
  | _, _ => Ub
  end.

(* A key pointer points to the second word of its block (tsm-unicode.c:285); the
   words from there on, and the one before. *)
Definition key_words (m : store) (p : Z) : option (list Z) :=
  match block_at m (p - 4) with Some (_ :: w) => Some w | _ => None end.
Definition key_id (m : store) (p : Z) : res Z :=
  match block_at m (p - 4) with Some (i :: _) => Ok i | _ => Ub end.
(* What the hash table computes from a key pointer (tsm-unicode.c:157 passes
   cmp_ucs4 and hash_ucs4). Where the read is undefined the value here is
   arbitrary: see keys_readable. *)
Definition key_hash (m : store) (p : Z) : Z :=
  match key_words m p with
  | Some w => match hash_ucs4 w with Ok h => h | Ub => 0 end
  | None => 0
  end.
Definition key_cmp (m : store) (buf : list Z) (p : Z) : bool :=
  match key_words m p with
  | Some w => match cmp_ucs4 buf w with Ok b => b | Ub => false end
  | None => false
  end.
(* A key that may be hashed and compared (tsm-unicode.c:109-134): a block with a terminator. *)
Definition readable (m : store) (p : Z) : bool :=
  match key_words m p with
  | Some w => match text_of w with Ok _ => true | Ub => false end
  | None => false
  end.
(* The hash table only ever looks at keys it holds (shl-htable.c:170-246,
   349-397). Here a call on a table holding any unreadable key is undefined,
   whether or not it would look at that key. *)
Definition keys_readable (m : store) (ht : htable) : bool := forallb (readable m) (visited ht).

(* tsm-unicode.c:102-107 struct tsm_symbol_table. *)
Record symmem := mkSM { sm_next : Z; sm_index : array; sm_ht : htable; sm_mem : store }.

(* tsm-unicode.c:144-174 tsm_symbol_table_new: an array with room for 4
   pointers and a NULL pushed. *)
Definition symmem_new : res symmem :=
  match array_new 8 4 with
  | None => Ub
  | Some a => do p <- array_push true a 0; Ok (mkSM (UCS4_MAX + 2) (fst p) ht_init [])
  end.

(* tsm-unicode.c:213-246 tsm_symbol_get: the string. An element of the array
   that was never written is undefined. *)
Definition sm_get (t : symmem) (sym : Z) : res (list Z) :=
  if sym <=? UCS4_MAX then Ok [sym]
  else
    let idx := u32 (sym - (UCS4_MAX + 1)) in
    do p <- (if v_len (sm_index t) <=? idx then Ok (Some 0) else array_at (sm_index t) idx);
    match p with
    | None => Ub
    | Some p =>
      if p =? 0 then Ok [0]
      else match key_words (sm_mem t) p with Some w => text_of w | None => Ub end
    end.

(* How the allocations of one append turn out: the address malloc returns, if
   any; whether calloc (hash table) and realloc (array) succeed if called. *)
Record grants := mkG { g_malloc : option Z; g_calloc : bool; g_realloc : bool }.

(* tsm-unicode.c:308-311: next_id gets its old value back, the pointer freed is
   the one to the key. *)
Definition append_fails (next : Z) (a : array) (ht : htable) (m : store) (nval sym : Z) : res (symmem * Z) :=
  do m' <- free_block m nval; Ok (mkSM next a ht m', sym).
(* tsm-unicode.c:248-312 tsm_symbol_append. *)
Definition sm_append (t : symmem) (sym ucs4 : Z) (g : grants) : res (symmem * Z) :=
  if UCS4_MAX <? ucs4 then Ok (t, sym)
  else
    do p <- sm_get t sym;
    if UCS4_MAXLEN <=? zlen p then Ok (t, sym)
    else
      let buf := p ++ [ucs4; UCS4_MAX + 1] in
      if UCS4_MAXLEN + 1 <? zlen buf then Ub
      else if negb (keys_readable (sm_mem t) (sm_ht t)) then Ub
      else
        do h <- hash_ucs4 buf;
        do f <- ht_search (sm_ht t) (key_cmp (sm_mem t) buf) h;
        match f with
        | Some (_, q) => do i <- key_id (sm_mem t) q; Ok (t, i)
        | None =>
          match g_malloc g with
          | None => Ok (t, sym)
          | Some b =>
            let nval := b + 4 in
            let nsym := u32 (sm_next t + 1) in
            let m := (b, nsym :: buf) :: sm_mem t in
            if nsym <=? sm_next t then append_fails (sm_next t) (sm_index t) (sm_ht t) m nval sym
            else
              do r <- htable_add (key_hash m) (g_calloc g) (sm_ht t) h nval;
              if negb (fst r) then append_fails (sm_next t) (sm_index t) (snd r) m nval sym
              else
                do a <- array_push (g_realloc g) (sm_index t) nval;
                if snd a =? 0 then Ok (mkSM nsym (fst a) (snd r) m, nsym)
                else
                  do f <- ht_search (snd r) (key_cmp m buf) h;
                  do ht <- match f with None => Ok (snd r) | Some (off, _) => htable_delval (snd r) off end;
                  append_fails (sm_next t) (fst a) ht m nval sym
          end
        end.

(* tsm-unicode.c:136-142 free_ucs4 for each key. *)
Fixpoint free_keys (m : store) (ps : list Z) : res store :=
  match ps with
  | [] => Ok m
  | p :: r => do m' <- free_block m (p - 4); free_keys m' r
  end.
(* tsm-unicode.c:184-192 tsm_symbol_table_unref dropping the last reference: the
   blocks that remain. *)
Definition sm_unref (t : symmem) : res store := free_keys (sm_mem t) (visited (sm_ht t)).

(* Appends one after the other (tsm-unicode.c:248-312): the table and what each
   returned. *)
Fixpoint sm_run (t : symmem) (l : list (Z * Z * grants)) : res (symmem * list Z) :=
  match l with
  | [] => Ok (t, [])
  | (sym, u, g) :: r => do x <- sm_append t sym u g; do y <- sm_run (fst x) r; Ok (fst y, snd x :: snd y)
  end.
