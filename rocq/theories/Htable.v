(* Model of the hash table /repo/src/shared/shl-htable.c. Objects are pointers
   (64 bit words); comparing and hashing them are parameters. *)
From Verif Require Import Base.

(* shl-htable.c:30-40 struct htable, without rehash and priv. h_tab is None while
   table points to perfect_bit. *)
Record htable := mkH {
  h_bits : Z; h_elems : Z; h_deleted : Z; h_max : Z; h_maxd : Z;
  h_mask : Z; h_cbits : Z; h_perf : Z; h_tab : option (list Z)
}.
(* shl-htable.c:42-43 HTABLE_INITIALIZER, 89-98 htable_init. *)
Definition ht_init : htable := mkH 0 0 0 0 0 (2 ^ 64 - 1) 0 0 None.

(* The words reached through table (shl-htable.c:39). *)
Definition ht_tab (ht : htable) : list Z := match h_tab ht with Some t => t | None => [h_perf ht] end.
(* An assignment to ht->table[i] (shl-htable.c:182, 238, 241, 312); it does not happen while table points to
   perfect_bit, because htable_add first allocates a table. *)
Definition ht_set (ht : htable) (i v : Z) : res htable :=
  match h_tab ht with
  | Some t => do t' <- zmod t i (fun _ => v);
    Ok (mkH (h_bits ht) (h_elems ht) (h_deleted ht) (h_max ht) (h_maxd ht) (h_mask ht) (h_cbits ht) (h_perf ht) (Some t'))
  | None => Ub
  end.
(* shl-htable.c:33: assignments to deleted and elems. *)
Definition set_deleted (ht : htable) (d : Z) : htable :=
  mkH (h_bits ht) (h_elems ht) d (h_max ht) (h_maxd ht) (h_mask ht) (h_cbits ht) (h_perf ht) (h_tab ht).
Definition set_elems (ht : htable) (n : Z) : htable :=
  mkH (h_bits ht) n (h_deleted ht) (h_max ht) (h_maxd ht) (h_mask ht) (h_cbits ht) (h_perf ht) (h_tab ht).

(* shl-htable.c:54 HTABLE_DELETED. *)
Definition HT_DELETED : Z := 1.
(* shl-htable.c:57-61 get_extra_ptr_bits. *)
Definition extra_bits (ht : htable) (e : Z) : Z := Z.land e (h_mask ht).
(* shl-htable.c:63-66 get_raw_ptr. *)
Definition raw_ptr (ht : htable) (e : Z) : Z := Z.lor (Z.ldiff e (h_mask ht)) (h_cbits ht).
(* shl-htable.c:68-72 make_hval. *)
Definition make_hval (ht : htable) (p bits : Z) : Z := Z.lor (Z.ldiff p (h_mask ht)) bits.
(* shl-htable.c:74-77 entry_is_valid. *)
Definition entry_valid (e : Z) : bool := HT_DELETED <? e.
(* shl-htable.c:79-87 get_hash_ptr_bits. *)
Definition hash_ptr_bits (ht : htable) (hash : Z) : Z :=
  Z.ldiff (Z.land (Z.lxor hash (Z.shiftr hash (h_bits ht))) (h_mask ht)) (h_perf ht).
(* shl-htable.c:137, 150, 167, 180, 233: (1 << ht->bits) - 1; bits stays below 31, see double_table. *)
Definition low_mask (ht : htable) : Z := 2 ^ h_bits ht - 1.
(* shl-htable.c:135-138 hash_bucket. *)
Definition hash_bucket (ht : htable) (h : Z) : Z := Z.land h (low_mask ht).
(* shl-htable.c:150, 167, 180: the next slot. *)
Definition next_slot (ht : htable) (i : Z) : Z := Z.land (u64 (i + 1)) (low_mask ht).

(* shl-htable.c:140-154 htable_val: slot and pointer. The loop visits at most
   every slot once when there is an empty one; otherwise it would not end, which
   is Ub here. *)
Fixpoint ht_val (n : nat) (ht : htable) (off h2 perfect : Z) : res (option (Z * Z)) :=
  match n with
  | O => Ub
  | S n =>
    do e <- zget (ht_tab ht) off;
    if e =? 0 then Ok None
    else if negb (e =? HT_DELETED) && (extra_bits ht e =? h2) then Ok (Some (off, raw_ptr ht e))
    else ht_val n ht (next_slot ht off) (Z.ldiff h2 perfect) perfect
  end.
(* Number of iterations allowed (shl-htable.c:145-152, 178-181). *)
Definition ht_fuel (ht : htable) : nat := S (length (ht_tab ht)).
(* shl-htable.c:156-161 htable_firstval. *)
Definition ht_first (ht : htable) (hash : Z) : res (option (Z * Z)) :=
  ht_val (ht_fuel ht) ht (hash_bucket ht hash) (Z.lor (hash_ptr_bits ht hash) (h_perf ht)) (h_perf ht).
(* shl-htable.c:163-168 htable_nextval. *)
Definition ht_next (ht : htable) (off hash : Z) : res (option (Z * Z)) :=
  ht_val (ht_fuel ht) ht (next_slot ht off) (hash_ptr_bits ht hash) 0.

(* shl-htable.c:170-183 ht_add: the loop finds a slot, ... *)
Fixpoint add_slot (n : nat) (ht : htable) (i perfect : Z) : res (Z * Z) :=
  match n with
  | O => Ub
  | S n =>
    do e <- zget (ht_tab ht) i;
    if entry_valid e then add_slot n ht (next_slot ht i) 0 else Ok (i, perfect)
  end.
(* ... into which the entry is stored. *)
Definition ht_add (ht : htable) (p h : Z) : res htable :=
  do ip <- add_slot (ht_fuel ht) ht (hash_bucket ht h) (h_perf ht);
  ht_set ht (fst ip) (make_hval ht p (Z.lor (hash_ptr_bits ht h) (snd ip))).

(* shl-htable.c:212-217, one iteration. *)
Definition move_entry (rehash : Z -> Z) (old ht : htable) (e : Z) : res htable :=
  if entry_valid e then let p := raw_ptr old e in ht_add ht p (rehash p) else Ok ht.
(* shl-htable.c:212-217, the loop. *)
Fixpoint move_entries (rehash : Z -> Z) (old : htable) (es : list Z) (ht : htable) : res htable :=
  match es with
  | [] => Ok ht
  | e :: r => do ht' <- move_entry rehash old ht e; move_entries rehash old r ht'
  end.
(* shl-htable.c:202-208: the lowest bit of the mask. *)
Fixpoint lowest_bit (n : nat) (i m : Z) : Z :=
  match n with
  | O => 0
  | S n => if Z.testbit m i then 2 ^ i else lowest_bit n (i + 1) m
  end.
(* shl-htable.c:185-222 double_table; None if calloc fails. 1 << 31 is not an
   int. *)
Definition double_table (rehash : Z -> Z) (mem : bool) (ht : htable) : res (option htable) :=
  if 31 <=? h_bits ht + 1 then Ub
  else if negb mem then Ok None
  else
    let b := h_bits ht + 1 in
    let perf := if (h_perf ht =? 0) && negb (h_mask ht =? 0) then lowest_bit 64 0 (h_mask ht) else h_perf ht in
    let new := mkH b (h_elems ht) (h_deleted ht) (3 * 2 ^ b / 4) (9 * 2 ^ b / 10) (h_mask ht) (h_cbits ht) perf
                 (Some (repeat 0 (Z.to_nat (2 ^ b)))) in
    do ht' <- match h_tab ht with Some t => move_entries rehash new t new | None => Ok new end;
    Ok (Some (set_deleted ht' 0)).

(* shl-htable.c:230: the first empty slot; reads past the end otherwise. *)
Fixpoint first_empty (t : list Z) : res Z :=
  match t with
  | [] => Ub
  | e :: r => if e =? 0 then Ok 0 else do i <- first_empty r; Ok (i + 1)
  end.
(* shl-htable.c:232-244, one iteration. *)
Definition rehash_slot (rehash : Z -> Z) (start i : Z) (ht : htable) : res htable :=
  let h := Z.land (u64 (i + start)) (low_mask ht) in
  do e <- zget (ht_tab ht) h;
  if e =? 0 then Ok ht
  else if e =? HT_DELETED then ht_set ht h 0
  else if Z.land e (h_perf ht) =? 0 then
    let p := raw_ptr ht e in
    do ht' <- ht_set ht h 0; ht_add ht' p (rehash p)
  else Ok ht.
(* shl-htable.c:224-246 rehash_table. *)
Definition rehash_table (rehash : Z -> Z) (ht : htable) : res htable :=
  do start <- first_empty (ht_tab ht);
  do ht' <- forz 0 (2 ^ h_bits ht) (rehash_slot rehash start) ht;
  Ok (set_deleted ht' 0).

(* shl-htable.c:259-262: the highest bit set of p, 0 if there is none above 0. *)
Fixpoint highest_bit (n : nat) (p : Z) : Z :=
  match n with
  | O => 0
  | S m => if Z.testbit p (Z.of_nat n) then Z.of_nat n else highest_bit m p
  end.
(* shl-htable.c:248-289 update_common. *)
Definition update_common (ht : htable) (p : Z) : htable :=
  if h_elems ht =? 0 then
    let mask := Z.ldiff (2 ^ 64 - 1) (2 ^ highest_bit 63 p) in
    mkH (h_bits ht) (h_elems ht) (h_deleted ht) (h_max ht) (h_maxd ht) mask (Z.land p mask) 1 (h_tab ht)
  else
    let maskdiff := Z.lxor (h_cbits ht) (Z.land p (h_mask ht)) in
    let bitsdiff := Z.land (h_cbits ht) maskdiff in
    mkH (h_bits ht) (h_elems ht) (h_deleted ht) (h_max ht) (h_maxd ht)
      (Z.ldiff (h_mask ht) maskdiff) (Z.ldiff (h_cbits ht) maskdiff) (Z.ldiff (h_perf ht) maskdiff)
      (match h_tab ht with
       | Some t => Some (map (fun e => if entry_valid e then Z.lor (Z.ldiff e maskdiff) bitsdiff else e) t)
       | None => None
       end).

(* shl-htable.c:291-304 htable_add; p is not NULL (asserted). *)
Definition htable_add (rehash : Z -> Z) (mem : bool) (ht : htable) (hash p : Z) : res (bool * htable) :=
  do d <- (if h_max ht <? u64 (h_elems ht + 1) then double_table rehash mem ht else Ok (Some ht));
  match d with
  | None => Ok (false, ht)
  | Some ht1 =>
    do ht2 <- (if h_maxd ht1 <? u64 (h_elems ht1 + 1 + h_deleted ht1) then rehash_table rehash ht1 else Ok ht1);
    if p =? 0 then Ub
    else
      let ht3 := if Z.land p (h_mask ht2) =? h_cbits ht2 then ht2 else update_common ht2 p in
      do ht4 <- ht_add ht3 p hash;
      Ok (true, set_elems ht4 (u64 (h_elems ht4 + 1)))
  end.
(* shl-htable.c:306-314 htable_delval; a failed assertion aborts, Ub here. *)
Definition htable_delval (ht : htable) (off : Z) : res htable :=
  if negb (off <? 2 ^ h_bits ht) then Ub
  else
    do e <- zget (ht_tab ht) off;
    if negb (entry_valid e) then Ub
    else
      do ht' <- ht_set (set_elems ht (u64 (h_elems ht - 1))) off HT_DELETED;
      Ok (set_deleted ht' (u64 (h_deleted ht' + 1))).

(* shl-htable.c:356-366 and 385-396: the loop of lookup and remove; cmp is the
   comparison with the object looked for. *)
Fixpoint search (n : nat) (ht : htable) (cmp : Z -> bool) (hash : Z) (c : option (Z * Z)) : res (option (Z * Z)) :=
  match n with
  | O => Ub
  | S n =>
    match c with
    | None => Ok None
    | Some (off, p) => if cmp p then Ok (Some (off, p)) else do c' <- ht_next ht off hash; search n ht cmp hash c'
    end
  end.
(* shl-htable.c:356-366 and 385-396, from the start. *)
Definition ht_search (ht : htable) (cmp : Z -> bool) (hash : Z) : res (option (Z * Z)) :=
  do c <- ht_first ht hash; search (ht_fuel ht) ht cmp hash c.

(* The calls (shl-htable.c:331-397). mem: whether calloc succeeds if called. *)
Inductive hop :=
  | HInsert (mem : bool) (p hash : Z)
  | HLookup (cmp : Z -> bool) (hash : Z)
  | HRemove (cmp : Z -> bool) (hash : Z)
  | HVisit
  | HClear.
(* Their results (shl-htable.c:331-397): success of insert, the object found, the objects visited. *)
Inductive hres := RDone (ok : bool) | RFound (p : option Z) | RList (ps : list Z).

(* shl-htable.c:349-397 shl_htable_lookup, _insert, _remove; 100-133 htable_clear
   and htable_visit: the callback is called for every valid entry. *)
Definition visited (ht : htable) : list Z :=
  match h_tab ht with Some t => map (raw_ptr ht) (filter entry_valid t) | None => [] end.
(* The calls as one function. *)
Definition hstep (rehash : Z -> Z) (ht : htable) (o : hop) : res (hres * htable) :=
  match o with
  | HInsert mem p hash => do r <- htable_add rehash mem ht hash p; Ok (RDone (fst r), snd r)
  | HLookup cmp hash => do r <- ht_search ht cmp hash; Ok (RFound (option_map snd r), ht)
  | HRemove cmp hash =>
    do r <- ht_search ht cmp hash;
    match r with
    | None => Ok (RFound None, ht)
    | Some (off, p) => do ht' <- htable_delval ht off; Ok (RFound (Some p), ht')
    end
  | HVisit => Ok (RList (visited ht), ht)
  | HClear => Ok (RList (visited ht), ht_init)
  end.
(* Sequences of calls. *)
Fixpoint hrun (rehash : Z -> Z) (ht : htable) (ops : list hop) : res (list hres * htable) :=
  match ops with
  | [] => Ok ([], ht)
  | o :: r => do x <- hstep rehash ht o; do y <- hrun rehash (snd x) r; Ok (fst x :: fst y, snd y)
  end.
