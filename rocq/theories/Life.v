(* Model of the lifetimes of screens and terminals: every block of memory they
   allocate, who points to it, the reference counters, and the calls that
   allocate, free and count: tsm_screen_new, _ref, _unref, _resize and the calls
   that scroll, tsm_vte_new, _ref, _unref, _set_palette, _set_custom_palette
   (/repo/src/tsm/tsm-screen.c, tsm-vte.c, tsm-unicode.c). Any allocation may
   fail. What is stored in the blocks other than pointers, counters and what
   decides about allocations is left out. The scrollback is the list of its
   lines (its links are in Own.v); that scrolling moves pointers within an array
   of lines is left out (it is in Own.v as well), here each row scrolled out is
   replaced in its place. No library call puts a symbol in the table of a
   screen, so its hash table is empty. *)
From Verif Require Import Base.

(* libtsm-int.h:106-158 struct tsm_screen. *)
Record scr := mkScr {
  r_ref : Z; r_tab : Z; r_main : Z; r_alt : Z; r_num : Z; r_ruler : Z;
  r_sx : Z; r_sy : Z; r_sb : list Z; r_max : Z; r_altscr : bool
}.
(* tsm-vte.c:150-190 struct tsm_vte. *)
Record term := mkTerm { t_ref : Z; t_con : Z; t_mach : Z; t_name : Z; t_custom : Z }.
(* What is in a block (the structures at the lines given). *)
Inductive obj :=
  | Bytes                           (* cells, tab ruler, strings, UTF-8 machine, array contents without pointers *)
  | Ptrs (room : Z) (l : list Z)    (* main_lines, alt_lines: places, and the pointers stored so far *)
  | Line (cells size : Z)           (* libtsm-int.h:89-97 *)
  | Arr (data : Z)                  (* shl-array.h:38-43 *)
  | Tab (ref index : Z)             (* tsm-unicode.c:102-107 *)
  | Scr (s : scr)
  | Vte (t : term).
(* The blocks alive and the number of allocations tried so far: what malloc and
   free know (e.g. tsm-screen.c:136, 159). *)
Definition mem := list (Z * obj).
Record world := mkL { w_mem : mem; w_tick : Z }.
(* How malloc, calloc, realloc and strdup behave: for the i-th try and the other
   blocks alive the address, None on failure. *)
Definition allocator := Z -> mem -> option Z.

(* Reading through a pointer (e.g. tsm-screen.c:540); undefined unless a block is there. *)
Fixpoint rd (m : mem) (p : Z) : res obj :=
  match m with
  | [] => Ub
  | (a, o) :: r => if a =? p then Ok o else rd r p
  end.
(* Writing through a pointer (e.g. tsm-screen.c:532). *)
Fixpoint wr (m : mem) (p : Z) (o' : obj) : res mem :=
  match m with
  | [] => Ub
  | (a, o) :: r => if a =? p then Ok ((a, o') :: r) else do r' <- wr r p o'; Ok ((a, o) :: r')
  end.
(* free of a pointer that is not NULL (e.g. tsm-screen.c:159); undefined unless a block is there. *)
Fixpoint drop (m : mem) (p : Z) : res mem :=
  match m with
  | [] => Ub
  | (a, o) :: r => if a =? p then Ok r else do r' <- drop r p; Ok ((a, o) :: r')
  end.
(* free (e.g. tsm-screen.c:550-552). *)
Definition fr (m : mem) (p : Z) : res mem := if p =? 0 then Ok m else drop m p.
(* Pointers to a structure of a type (e.g. tsm-screen.c:532, 546, tsm-unicode.c:186). *)
Definition rd_scr (m : mem) (p : Z) : res scr := do o <- rd m p; match o with Scr s => Ok s | _ => Ub end.
Definition rd_vte (m : mem) (p : Z) : res term := do o <- rd m p; match o with Vte t => Ok t | _ => Ub end.
Definition rd_line (m : mem) (p : Z) : res (Z * Z) := do o <- rd m p; match o with Line c n => Ok (c, n) | _ => Ub end.
Definition rd_ptrs (m : mem) (p : Z) : res (Z * list Z) := do o <- rd m p; match o with Ptrs n l => Ok (n, l) | _ => Ub end.

(* malloc (e.g. tsm-screen.c:136): the address, 0 on failure. *)
Definition alloc (al : allocator) (w : world) (o : obj) : world * Z :=
  match al (w_tick w) (w_mem w) with
  | None => (mkL (w_mem w) (w_tick w + 1), 0)
  | Some p => (mkL ((p, o) :: w_mem w) (w_tick w + 1), p)
  end.
(* realloc (e.g. tsm-screen.c:625): the old block is gone if it succeeds and as
   it was otherwise; the new one may be at the same address. *)
Definition resized (al : allocator) (w : world) (p : Z) (o : obj) : res (world * Z) :=
  do m <- fr (w_mem w) p;
  match al (w_tick w) m with
  | None => Ok (mkL (w_mem w) (w_tick w + 1), 0)
  | Some q => Ok (mkL ((q, o) :: m) (w_tick w + 1), q)
  end.
(* Writing and freeing again (e.g. tsm-screen.c:532, 159), in the whole state. *)
Definition put (w : world) (m : mem) : world := mkL m (w_tick w).
Definition wwr (w : world) (p : Z) (o : obj) : res world := do m <- wr (w_mem w) p o; Ok (put w m).
Definition wfr (w : world) (p : Z) : res world := do m <- fr (w_mem w) p; Ok (put w m).

(* Assignments to members of struct tsm_screen (libtsm-int.h:106-158). *)
Definition set_ref (s : scr) (n : Z) : scr := mkScr n (r_tab s) (r_main s) (r_alt s) (r_num s) (r_ruler s) (r_sx s) (r_sy s) (r_sb s) (r_max s) (r_altscr s).
Definition set_tab (s : scr) (p : Z) : scr := mkScr (r_ref s) p (r_main s) (r_alt s) (r_num s) (r_ruler s) (r_sx s) (r_sy s) (r_sb s) (r_max s) (r_altscr s).
Definition set_main (s : scr) (p : Z) : scr := mkScr (r_ref s) (r_tab s) p (r_alt s) (r_num s) (r_ruler s) (r_sx s) (r_sy s) (r_sb s) (r_max s) (r_altscr s).
Definition set_alt (s : scr) (p : Z) : scr := mkScr (r_ref s) (r_tab s) (r_main s) p (r_num s) (r_ruler s) (r_sx s) (r_sy s) (r_sb s) (r_max s) (r_altscr s).
Definition set_num (s : scr) (n : Z) : scr := mkScr (r_ref s) (r_tab s) (r_main s) (r_alt s) n (r_ruler s) (r_sx s) (r_sy s) (r_sb s) (r_max s) (r_altscr s).
Definition set_ruler (s : scr) (p : Z) : scr := mkScr (r_ref s) (r_tab s) (r_main s) (r_alt s) (r_num s) p (r_sx s) (r_sy s) (r_sb s) (r_max s) (r_altscr s).
Definition set_size (s : scr) (x y : Z) : scr := mkScr (r_ref s) (r_tab s) (r_main s) (r_alt s) (r_num s) (r_ruler s) x y (r_sb s) (r_max s) (r_altscr s).
Definition set_sb (s : scr) (l : list Z) : scr := mkScr (r_ref s) (r_tab s) (r_main s) (r_alt s) (r_num s) (r_ruler s) (r_sx s) (r_sy s) l (r_max s) (r_altscr s).
Definition set_max (s : scr) (n : Z) : scr := mkScr (r_ref s) (r_tab s) (r_main s) (r_alt s) (r_num s) (r_ruler s) (r_sx s) (r_sy s) (r_sb s) n (r_altscr s).
Definition set_altscr (s : scr) (b : bool) : scr := mkScr (r_ref s) (r_tab s) (r_main s) (r_alt s) (r_num s) (r_ruler s) (r_sx s) (r_sy s) (r_sb s) (r_max s) b.

(* tsm-screen.c:127-155 line_new: 0 if it fails; width is not 0 where it is called. *)
Definition line_new (al : allocator) (w : world) (width : Z) : res (world * Z) :=
  let '(w1, l) := alloc al w (Line 0 width) in
  if l =? 0 then Ok (w1, 0)
  else
    let '(w2, c) := alloc al w1 Bytes in
    do w3 <- wwr w2 l (Line c width);
    if c =? 0 then do w4 <- wfr w3 l; Ok (w4, 0) else Ok (w3, l).
(* tsm-screen.c:157-161 line_free. *)
Definition line_free (w : world) (l : Z) : res world :=
  do x <- rd_line (w_mem w) l; do w1 <- wfr w (fst x); wfr w1 l.
(* tsm-screen.c:163-185 line_resize: false if memory ran out. *)
Definition line_resize (al : allocator) (w : world) (l width : Z) : res (world * bool) :=
  do x <- rd_line (w_mem w) l;
  if snd x <? width then
    do r <- resized al w (fst x) Bytes;
    if snd r =? 0 then Ok (fst r, false) else do w1 <- wwr (fst r) l (Line (snd r) width); Ok (w1, true)
  else Ok (w, true).

(* tsm-unicode.c:144-174 tsm_symbol_table_new with shl-array.h:47-76 inlined: 0
   if it fails. The array has room for what is pushed. *)
Definition table_new (al : allocator) (w : world) : res (world * Z) :=
  let '(w1, t) := alloc al w (Tab 1 0) in
  if t =? 0 then Ok (w1, 0)
  else
    let '(w2, a) := alloc al w1 (Arr 0) in
    if a =? 0 then do w3 <- wfr w2 t; Ok (w3, 0)
    else
      let '(w3, d) := alloc al w2 Bytes in
      do w4 <- wwr w3 a (Arr d);
      if d =? 0 then do w5 <- wfr w4 a; do w6 <- wfr w5 t; Ok (w6, 0)
      else do w5 <- wwr w4 t (Tab 1 a); Ok (w5, t).
(* tsm-unicode.c:184-192 tsm_symbol_table_unref with shl-array.h:78-85. *)
Definition table_unref (w : world) (t : Z) : res world :=
  if t =? 0 then Ok w
  else
    do o <- rd (w_mem w) t;
    match o with
    | Tab ref a =>
      if ref =? 0 then Ok w
      else if negb (u64 (ref - 1) =? 0) then wwr w t (Tab (u64 (ref - 1)) a)
      else
        do o' <- rd (w_mem w) a;
        match o' with
        | Arr d => do w1 <- wfr w d; do w2 <- wfr w1 a; wfr w2 t
        | _ => Ub
        end
    | _ => Ub
    end.

(* tsm-screen.c:647-653: the pointer to a new line is stored after those there
   are; undefined if the array has no room. *)
Definition store (w : world) (arr p : Z) : res world :=
  do a <- rd_ptrs (w_mem w) arr;
  if zlen (snd a) <? fst a then wwr w arr (Ptrs (fst a) (snd a ++ [p])) else Ub.
(* tsm-screen.c:646-661: pairs of lines until there are y. line_num is raised
   after both lines are stored; storing only succeeded pairs, a pointer left in
   main_lines[line_num] by a failure is not looked at. *)
Fixpoint grow_rows (n : nat) (al : allocator) (w : world) (con width : Z) : res (world * bool) :=
  match n with
  | O => Ok (w, true)
  | S n =>
    do s <- rd_scr (w_mem w) con;
    do a <- line_new al w width;
    if snd a =? 0 then Ok (fst a, false)
    else
      do b <- line_new al (fst a) width;
      if snd b =? 0 then do w1 <- line_free (fst b) (snd a); Ok (w1, false)
      else
        do w1 <- store (fst b) (r_main s) (snd a);
        do w2 <- store w1 (r_alt s) (snd b);
        do w3 <- wwr w2 con (Scr (set_num s (r_num s + 1)));
        grow_rows n al w3 con width
  end.
(* realloc of an array of pointers to lines (tsm-screen.c:625, 634). *)
Definition realloc_ptrs (al : allocator) (w : world) (p y : Z) : res (world * Z) :=
  do l <- (if p =? 0 then Ok [] else do a <- rd_ptrs (w_mem w) p; Ok (snd a));
  resized al w p (Ptrs y l).
(* tsm-screen.c:623-662. *)
Definition grow_y (al : allocator) (w : world) (con x y : Z) : res (world * bool) :=
  do s <- rd_scr (w_mem w) con;
  if r_num s <? y then
    do a <- realloc_ptrs al w (r_main s) y;
    if snd a =? 0 then Ok (fst a, false)
    else
      do w1 <- wwr (fst a) con (Scr (set_main s (snd a)));
      do b <- realloc_ptrs al w1 (r_alt s) y;
      if snd b =? 0 then Ok (fst b, false)
      else
        do w2 <- wwr (fst b) con (Scr (set_alt (set_main s (snd a)) (snd b)));
        grow_rows (Z.to_nat (y - r_num s)) al w2 con (if r_sx s <? x then x else r_sx s)
  else Ok (w, true).
(* tsm-screen.c:673-680: the lines of both arrays in turn. *)
Fixpoint resize_rows (al : allocator) (w : world) (ms os : list Z) (x : Z) : res (world * bool) :=
  match ms, os with
  | p :: ms', q :: os' =>
    do a <- line_resize al w p x;
    if negb (snd a) then Ok a
    else
      do b <- line_resize al (fst a) q x;
      if negb (snd b) then Ok b else resize_rows al (fst b) ms' os' x
  | _, _ => Ok (w, true)
  end.
(* The pointers in an array (tsm-screen.c:545-548); there may be no array if there are no lines. *)
Definition row_ptrs (m : mem) (arr num : Z) : res (list Z) :=
  if num =? 0 then Ok []
  else do a <- rd_ptrs m arr; if num =? zlen (snd a) then Ok (snd a) else Ub.
(* tsm-screen.c:667-681. *)
Definition grow_x (al : allocator) (w : world) (con x : Z) : res (world * bool) :=
  do s <- rd_scr (w_mem w) con;
  if r_sx s <? x then
    do a <- resized al w (r_ruler s) Bytes;
    if snd a =? 0 then Ok (fst a, false)
    else
      do w1 <- wwr (fst a) con (Scr (set_ruler s (snd a)));
      do ms <- row_ptrs (w_mem w1) (r_main s) (r_num s);
      do os <- row_ptrs (w_mem w1) (r_alt s) (r_num s);
      resize_rows al w1 ms os x
  else Ok (w, true).

(* Freeing lines one after the other (tsm-screen.c:215-254, 790-815, 833-837). *)
Fixpoint free_lines (w : world) (l : list Z) : res world :=
  match l with
  | [] => Ok w
  | p :: r => do w1 <- line_free w p; free_lines w1 r
  end.
(* tsm-screen.c:187-270 link_to_scrollback. *)
Definition link_sb (w : world) (con p : Z) : res world :=
  do s <- rd_scr (w_mem w) con;
  if r_max s =? 0 then line_free w p
  else if r_max s <=? zlen (r_sb s) then
    match r_sb s with
    | [] => Ub
    | old :: r => do w1 <- wwr w con (Scr (set_sb s (r ++ [p]))); line_free w1 old
    end
  else wwr w con (Scr (set_sb s (r_sb s ++ [p]))).
(* tsm-screen.c:298-321: n rows from row i on; their lines go to the scrollback
   if a new line is to be had, and stay otherwise. *)
Fixpoint scroll_rows (n : nat) (al : allocator) (w : world) (con i : Z) : res world :=
  match n with
  | O => Ok w
  | S n =>
    do s <- rd_scr (w_mem w) con;
    do a <- line_new al w (r_sx s);
    if snd a =? 0 then scroll_rows n al (fst a) con (i + 1)
    else
      do ps <- rd_ptrs (w_mem (fst a)) (r_main s);
      do p <- zget (snd ps) i;
      do w1 <- link_sb (fst a) con p;
      do l <- zcopy (snd ps) i [snd a];
      do w2 <- wwr w1 (r_main s) (Ptrs (fst ps) l);
      scroll_rows n al w2 con (i + 1)
  end.
(* Scrolling n rows from the row top on (tsm-screen.c:272-343); on the alternate
   screen no line is made (tsm-screen.c:300-303). *)
Definition scroll (al : allocator) (w : world) (con top n : Z) : res world :=
  do s <- rd_scr (w_mem w) con;
  if r_altscr s then Ok w else scroll_rows (Z.to_nat n) al w con top.

(* Looking at every line of a list (tsm-screen.c:690-706). *)
Fixpoint look (m : mem) (l : list Z) : res unit :=
  match l with
  | [] => Ok tt
  | p :: r => do x <- rd_line m p; look m r
  end.
(* tsm-screen.c:601-768 tsm_screen_resize; true if it returns 0. *)
Definition scr_resize (al : allocator) (w : world) (con x y : Z) : res (world * bool) :=
  do s <- rd_scr (w_mem w) con;
  if (x =? 0) || (y =? 0) then Ok (w, false)
  else if (r_sx s =? x) && (r_sy s =? y) then Ok (w, true)
  else
    do a <- grow_y al w con x y;
    if negb (snd a) then Ok a
    else
      do b <- grow_x al (fst a) con x;
      if negb (snd b) then Ok b
      else
        let w2 := fst b in
        do s2 <- rd_scr (w_mem w2) con;
        do ms <- row_ptrs (w_mem w2) (r_main s2) (r_num s2);
        do os <- row_ptrs (w_mem w2) (r_alt s2) (r_num s2);
        do u <- look (w_mem w2) (ms ++ os);
        do w3 <- wwr w2 con (Scr (set_size s2 x (r_sy s2)));
        do w4 <- (if y <? r_sy s2 then scroll al w3 con 0 (r_sy s2 - y) else Ok w3);
        do s4 <- rd_scr (w_mem w4) con;
        do w5 <- wwr w4 con (Scr (set_size s4 x y));
        Ok (w5, true).

(* tsm-screen.c:514-517, 545-548: both lines of each row. *)
Fixpoint free_rows (w : world) (ms os : list Z) : res world :=
  match ms, os with
  | p :: ms', q :: os' => do w1 <- line_free w p; do w2 <- line_free w1 q; free_rows w2 ms' os'
  | _, _ => Ok w
  end.
(* tsm-screen.c:514-520, 545-552. *)
Definition free_buffers (w : world) (s : scr) : res world :=
  do ms <- row_ptrs (w_mem w) (r_main s) (r_num s);
  do os <- row_ptrs (w_mem w) (r_alt s) (r_num s);
  do w1 <- free_rows w ms os;
  do w2 <- wfr w1 (r_main s); do w3 <- wfr w2 (r_alt s); wfr w3 (r_ruler s).
(* tsm-screen.c:822-855 tsm_screen_clear_sb. *)
Definition clear_sb (w : world) (con : Z) : res world :=
  do s <- rd_scr (w_mem w) con;
  do w1 <- free_lines w (r_sb s);
  wwr w1 con (Scr (set_sb s [])).
(* tsm-screen.c:536-556 tsm_screen_unref. *)
Definition scr_unref (w : world) (con : Z) : res world :=
  do s <- rd_scr (w_mem w) con;
  if r_ref s =? 0 then Ok w
  else
    let n := u64 (r_ref s - 1) in
    do w1 <- wwr w con (Scr (set_ref s n));
    if negb (n =? 0) then Ok w1
    else
      do w2 <- free_buffers w1 (set_ref s n);
      do w3 <- table_unref w2 (r_tab s);
      do w4 <- clear_sb w3 con;
      wfr w4 con.
(* tsm-screen.c:527-533 tsm_screen_ref. *)
Definition scr_ref (w : world) (con : Z) : res world :=
  do s <- rd_scr (w_mem w) con; wwr w con (Scr (set_ref s (u64 (r_ref s + 1)))).
(* tsm-screen.c:513-523, the cleaning up when creation fails. *)
Definition scr_give_up (w : world) (con : Z) : res world :=
  do s <- rd_scr (w_mem w) con;
  do w1 <- free_buffers w s;
  do w2 <- table_unref w1 (r_tab s);
  wfr w2 con.
(* tsm-screen.c:477-524 tsm_screen_new: the screen, 0 if it fails. *)
Definition scr_new (al : allocator) (w : world) : res (world * Z) :=
  let '(w1, con) := alloc al w (Scr (mkScr 1 0 0 0 0 0 0 0 [] 0 false)) in
  if con =? 0 then Ok (w1, 0)
  else
    do t <- table_new al w1;
    if snd t =? 0 then do w2 <- scr_give_up (fst t) con; Ok (w2, 0)
    else
      do s <- rd_scr (w_mem (fst t)) con;
      do w2 <- wwr (fst t) con (Scr (set_tab s (snd t)));
      do r <- scr_resize al w2 con 80 24;
      if negb (snd r) then do w3 <- scr_give_up (fst r) con; Ok (w3, 0) else Ok (fst r, con).
(* tsm-screen.c:775-818 tsm_screen_set_max_sb: the oldest lines go. *)
Definition scr_max_sb (w : world) (con m : Z) : res world :=
  do s <- rd_scr (w_mem w) con;
  let k := Z.to_nat (zlen (r_sb s) - m) in
  do w1 <- free_lines w (firstn k (r_sb s));
  wwr w1 con (Scr (set_max (set_sb s (skipn k (r_sb s))) m)).

(* tsm-vte.c:459-506 tsm_vte_new: the terminal, 0 if it fails. tsm_vte_reset and
   erasing look at the screen (tsm-vte.c:495-496). *)
Definition vte_new (al : allocator) (w : world) (con : Z) : res (world * Z) :=
  let '(w1, v) := alloc al w (Vte (mkTerm 1 con 0 0 0)) in
  if v =? 0 then Ok (w1, 0)
  else
    let '(w2, u) := alloc al w1 Bytes in
    do w3 <- wwr w2 v (Vte (mkTerm 1 con u 0 0));
    if u =? 0 then do w4 <- wfr w3 v; Ok (w4, 0)
    else do s <- rd_scr (w_mem w3) con; do w4 <- scr_ref w3 con; Ok (w4, v).
(* tsm-vte.c:509-515 tsm_vte_ref. *)
Definition vte_ref (w : world) (v : Z) : res world :=
  do t <- rd_vte (w_mem w) v;
  wwr w v (Vte (mkTerm (u64 (t_ref t + 1)) (t_con t) (t_mach t) (t_name t) (t_custom t))).
(* tsm-vte.c:518-532 tsm_vte_unref. *)
Definition vte_unref (w : world) (v : Z) : res world :=
  do t <- rd_vte (w_mem w) v;
  if t_ref t =? 0 then Ok w
  else
    let n := u64 (t_ref t - 1) in
    do w1 <- wwr w v (Vte (mkTerm n (t_con t) (t_mach t) (t_name t) (t_custom t)));
    if negb (n =? 0) then Ok w1
    else
      do w2 <- wfr w1 (t_name t);
      do w3 <- scr_unref w2 (t_con t);
      do w4 <- wfr w3 (t_mach t);
      do w5 <- wfr w4 (t_custom t);
      wfr w5 v.
(* tsm-vte.c:570-587 tsm_vte_set_palette (given: a name, not NULL) and 590-609
   tsm_vte_set_custom_palette; both then look at the screen (554-567). *)
Definition vte_palette (custom given : bool) (al : allocator) (w : world) (v : Z) : res world :=
  do t <- rd_vte (w_mem w) v;
  let '(w1, p) := if given then alloc al w Bytes else (w, 0) in
  if given && (p =? 0) then Ok w1
  else
    do w2 <- wfr w1 (if custom then t_custom t else t_name t);
    do w3 <- wwr w2 v (Vte (mkTerm (t_ref t) (t_con t) (t_mach t) (if custom then t_name t else p) (if custom then p else t_custom t)));
    do s <- rd_scr (w_mem w3) (t_con t);
    Ok w3.

(* The calls a client makes (libtsm.h). *)
Inductive call :=
  | ScrNew | ScrRef (con : Z) | ScrUnref (con : Z)
  | Resize (con x y : Z) | ScrollUp (con top n : Z) | MaxSb (con m : Z) | ClearSb (con : Z) | AltScr (con : Z) (on : bool)
  | VteNew (con : Z) | VteRef (v : Z) | VteUnref (v : Z)
  | Palette (custom given : bool) (v : Z).
(* The functions at the lines given above, and the object returned or 0. Rows
   scrolled are rows of the screen (tsm-screen.c:283-285); TSM_SCREEN_ALTERNATE
   is set and reset in tsm-screen.c:1002-1040. *)
Definition lstep (al : allocator) (w : world) (c : call) : res (world * Z) :=
  match c with
  | ScrNew => scr_new al w
  | ScrRef p => do w' <- scr_ref w p; Ok (w', 0)
  | ScrUnref p => do w' <- scr_unref w p; Ok (w', 0)
  | Resize p x y => do r <- scr_resize al w p x y; Ok (fst r, 0)
  | ScrollUp p top n =>
    do s <- rd_scr (w_mem w) p;
    if (0 <=? top) && (0 <=? n) && (top + n <=? r_sy s) then do w' <- scroll al w p top n; Ok (w', 0) else Ok (w, 0)
  | MaxSb p m => do w' <- scr_max_sb w p m; Ok (w', 0)
  | ClearSb p => do w' <- clear_sb w p; Ok (w', 0)
  | AltScr p b => do s <- rd_scr (w_mem w) p; do w' <- wwr w p (Scr (set_altscr s b)); Ok (w', 0)
  | VteNew p => vte_new al w p
  | VteRef v => do w' <- vte_ref w v; Ok (w', 0)
  | VteUnref v => do w' <- vte_unref w v; Ok (w', 0)
  | Palette custom given v => do w' <- vte_palette custom given al w v; Ok (w', 0)
  end.
(* Before anything is made (tsm-screen.c:477). *)
Definition nothing : world := mkL [] 0.
