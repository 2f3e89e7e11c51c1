(* Model of the line objects of /repo/src/tsm/tsm-screen.c as pointers: who
   points to which object, when objects are allocated and freed, and the links
   of the scrollback list. Screen.v has lists of lines in place of all this.
   Cells, ages, attributes and numbers that no pointer depends on are left out;
   margins, flags and the cursor row are arguments of the calls. Arrays of
   pointers are lists of addresses; 0 is NULL. *)
From Verif Require Import Base Screen.

(* libtsm-int.h:89-97 struct line: its links. *)
Record obj := mkO { o_prev : Z; o_next : Z }.
(* The objects alive: address and links (tsm-screen.c:127-161). *)
Definition heap := list (Z * obj).
(* Reading through a pointer, e.g. tsm-screen.c:217; undefined unless it points to an object. *)
Fixpoint hget (h : heap) (p : Z) : res obj :=
  match h with
  | [] => Ub
  | (a, o) :: r => if a =? p then Ok o else hget r p
  end.
(* Writing through a pointer, e.g. tsm-screen.c:219. *)
Fixpoint hset (h : heap) (p : Z) (f : obj -> obj) : res heap :=
  match h with
  | [] => Ub
  | (a, o) :: r => if a =? p then Ok ((a, f o) :: r) else do r' <- hset r p f; Ok ((a, o) :: r')
  end.
(* tsm-screen.c:157-161 line_free; freeing anything but an object is undefined. *)
Fixpoint hfree (h : heap) (p : Z) : res heap :=
  match h with
  | [] => Ub
  | (a, o) :: r => if a =? p then Ok r else do r' <- hfree r p; Ok ((a, o) :: r')
  end.
(* Assignments through a pointer, line->prev = p and line->next = p (tsm-screen.c:218, 260). *)
Definition with_prev (p : Z) (o : obj) : obj := mkO p (o_next o).
Definition with_next (p : Z) (o : obj) : obj := mkO (o_prev o) p.
(* tsm-screen.c:127-155 line_new at an address: no links. That line and cells
   are two allocations is not modelled: a failure of either is one. *)
Definition hnew (h : heap) (p : Z) : heap := (p, mkO 0 0) :: h.

(* How malloc behaves in one call: for the i-th line_new in it and the objects
   alive at that moment the address, None on failure. *)
Definition allocator := Z -> heap -> option Z.

(* libtsm-int.h:106-158 struct tsm_screen, the pointers to lines. main_lines and
   alt_lines have line_num elements. A selection end is its line and its y. *)
Record own := mkW {
  w_main : list Z; w_alt : list Z; w_act : bool  (* lines == alt_lines *);
  w_first : Z; w_last : Z; w_count : Z; w_max : Z; w_pos : Z;
  w_sela : bool; w_sel1 : Z * Z; w_sel2 : Z * Z;
  w_heap : heap
}.
(* Assignments to the members (libtsm-int.h:106-158). *)
Definition w_rows (w : own) : list Z := if w_act w then w_alt w else w_main w.
Definition put_rows (w : own) (ls : list Z) : own :=
  mkW (if w_act w then w_main w else ls) (if w_act w then ls else w_alt w) (w_act w)
    (w_first w) (w_last w) (w_count w) (w_max w) (w_pos w) (w_sela w) (w_sel1 w) (w_sel2 w) (w_heap w).
Definition put_heap (w : own) (h : heap) : own :=
  mkW (w_main w) (w_alt w) (w_act w) (w_first w) (w_last w) (w_count w) (w_max w) (w_pos w) (w_sela w) (w_sel1 w) (w_sel2 w) h.
Definition put_list (w : own) (first last count : Z) (h : heap) : own :=
  mkW (w_main w) (w_alt w) (w_act w) first last count (w_max w) (w_pos w) (w_sela w) (w_sel1 w) (w_sel2 w) h.
Definition put_pos (w : own) (p : Z) : own :=
  mkW (w_main w) (w_alt w) (w_act w) (w_first w) (w_last w) (w_count w) (w_max w) p (w_sela w) (w_sel1 w) (w_sel2 w) (w_heap w).
Definition put_sel (w : own) (active : bool) (a b : Z * Z) : own :=
  mkW (w_main w) (w_alt w) (w_act w) (w_first w) (w_last w) (w_count w) (w_max w) (w_pos w) active a b (w_heap w).
Definition put_max (w : own) (m : Z) : own :=
  mkW (w_main w) (w_alt w) (w_act w) (w_first w) (w_last w) (w_count w) m (w_pos w) (w_sela w) (w_sel1 w) (w_sel2 w) (w_heap w).
Definition put_act (w : own) (b : bool) : own :=
  mkW (w_main w) (w_alt w) b (w_first w) (w_last w) (w_count w) (w_max w) (w_pos w) (w_sela w) (w_sel1 w) (w_sel2 w) (w_heap w).

(* tsm-screen.c:196-205, 243-252, 804-813. *)
Definition forget_end (p : Z) (e : Z * Z) : Z * Z := if fst e =? p then (0, SELECTION_TOP) else e.
(* Both ends, if a selection is active (tsm-screen.c:196-205). *)
Definition forget (w : own) (p : Z) : own :=
  if w_sela w then put_sel w true (forget_end p (w_sel1 w)) (forget_end p (w_sel2 w)) else w.
(* Freeing (tsm-screen.c:206, 253, 814). *)
Definition free_line (w : own) (p : Z) : res own := do h <- hfree (w_heap w) p; Ok (put_heap w h).

(* tsm-screen.c:216-222, 791-797: take the first line out of the list. *)
Definition unlink_first (w : own) : res own :=
  do o <- hget (w_heap w) (w_first w);
  if o_next o =? 0 then Ok (put_list w 0 0 (u32 (w_count w - 1)) (w_heap w))
  else do h <- hset (w_heap w) (o_next o) (with_prev 0); Ok (put_list w (o_next o) (w_last w) (u32 (w_count w - 1)) h).
(* tsm-screen.c:215-254; fixed: TSM_SCREEN_FIXED_POS. *)
Definition evict (fixed : bool) (line : Z) (w : own) : res own :=
  let tmp := w_first w in
  do w1 <- unlink_first w;
  do w2 <-
    (if w_pos w1 =? 0 then Ok w1
     else if (w_pos w1 =? tmp) || negb fixed then
       do o <- hget (w_heap w1) (w_pos w1);
       Ok (put_pos w1 (if o_next o =? 0 then line else o_next o))
     else Ok w1);
  free_line (forget w2 tmp) tmp.
(* tsm-screen.c:256-265: append a line to the list. *)
Definition append_line (w : own) (line : Z) : res own :=
  do h1 <- hset (w_heap w) line (fun _ => mkO (w_last w) 0);
  if w_last w =? 0 then Ok (put_list w line line (u32 (w_count w + 1)) h1)
  else do h2 <- hset h1 (w_last w) (with_next line); Ok (put_list w (w_first w) line (u32 (w_count w + 1)) h2).
(* tsm-screen.c:187-270 link_to_scrollback. *)
Definition link_line (fixed : bool) (w : own) (line : Z) : res own :=
  if w_max w =? 0 then free_line (forget w line) line
  else
    do w1 <- (if w_max w <=? w_count w then evict fixed line w else Ok w);
    append_line w1 line.

(* tsm-screen.c:298-312, one iteration; k counts the allocations of the call. On
   the alternate screen line_new is not called. *)
Definition up_row (alt fixed : bool) (al : allocator) (k mt i : Z) (st : own * list Z) : res (own * list Z) :=
  let '(w, cache) := st in
  match (if alt then None else al (k + i) (w_heap w)) with
  | Some p =>
    let w1 := put_heap w (hnew (w_heap w) p) in
    do l <- zget (w_rows w1) (mt + i);
    do w2 <- link_line fixed w1 l;
    Ok (w2, cache ++ [p])
  | None =>
    do l <- zget (w_rows w) (mt + i);
    do o <- hget (w_heap w) l;
    Ok (w, cache ++ [l])
  end.
(* tsm-screen.c:327-329: from the last line back. *)
Fixpoint back_to (n : nat) (h : heap) (l y : Z) : res Z :=
  match n with
  | O => Ub
  | S n => if l =? 0 then Ok 0 else if y + 1 <? 0 then do o <- hget h l; back_to n h (o_prev o) (y + 1) else Ok l
  end.
(* tsm-screen.c:324-332, 333-341. The list has no more lines than there are objects. *)
Definition end_up (w : own) (num : Z) (e : Z * Z) : res (Z * Z) :=
  if (fst e =? 0) && (0 <=? snd e) then
    let y := i32 (snd e - num) in
    if y <? 0 then do l <- back_to (S (S (length (w_heap w)))) (w_heap w) (w_last w) y; Ok (l, SELECTION_TOP) else Ok (0, y)
  else Ok e.
(* tsm-screen.c:298-342. *)
Definition up_chunk (alt fixed : bool) (al : allocator) (k mt max num : Z) (w : own) : res own :=
  do r <- forz 0 num (up_row alt fixed al k mt) (w, []);
  let '(w1, cache) := r in
  do ls <- (if num <? max then zmove (w_rows w1) mt (mt + num) (max - num) else Ok (w_rows w1));
  do ls' <- zcopy ls (mt + (max - num)) cache;
  let w2 := put_rows w1 ls' in
  if w_sela w2 then
    do a <- end_up w2 num (w_sel1 w2); do b <- end_up w2 num (w_sel2 w2); Ok (put_sel w2 true a b)
  else Ok w2.
(* tsm-screen.c:272-343 screen_scroll_up. *)
Fixpoint up_rec (fuel : nat) (alt fixed : bool) (al : allocator) (k mt mb num0 : Z) (w : own) : res own :=
  if num0 =? 0 then Ok w
  else
    let max := mb + 1 - mt in
    let num := if max <? num0 then max else num0 in
    if 128 <? num then
      match fuel with
      | O => Ub
      | S fuel => do w1 <- up_chunk alt fixed al k mt max 128 w; up_rec fuel alt fixed al (k + 128) mt mb (num - 128) w1
      end
    else up_chunk alt fixed al k mt max num w.
(* The depth of the recursion (tsm-screen.c:292-295). *)
Definition up_fuel (mt mb num : Z) : nat := Z.to_nat (Z.min num (mb + 1 - mt) / 128).

(* tsm-screen.c:366-370, 1399-1403, 1439-1443: the cells of num lines are
   written, which needs the lines. *)
Definition take_rows (w : own) (idx : Z -> Z) (num : Z) : res (list Z) :=
  forz 0 num (fun i cache => do l <- zget (w_rows w) (idx i); do o <- hget (w_heap w) l; Ok (cache ++ [l])) [].
(* tsm-screen.c:381-386. *)
Definition end_down (num : Z) (e : Z * Z) : Z * Z :=
  if (fst e =? 0) && (0 <=? snd e) then (0, i32 (snd e + num)) else e.
(* tsm-screen.c:366-386. *)
Definition down_chunk (mt mb max num : Z) (w : own) : res own :=
  do cache <- take_rows w (fun i => mb - i) num;
  do ls <- (if num <? max then zmove (w_rows w) (mt + num) mt (max - num) else Ok (w_rows w));
  do ls' <- zcopy ls mt cache;
  let w2 := put_rows w ls' in
  Ok (if w_sela w2 then put_sel w2 true (end_down num (w_sel1 w2)) (end_down num (w_sel2 w2)) else w2).
(* tsm-screen.c:345-387 screen_scroll_down. *)
Fixpoint down_rec (fuel : nat) (mt mb num0 : Z) (w : own) : res own :=
  if num0 =? 0 then Ok w
  else
    let max := mb + 1 - mt in
    let num := if max <? num0 then max else num0 in
    if 128 <? num then
      match fuel with
      | O => Ub
      | S fuel => do w1 <- down_chunk mt mb max 128 w; down_rec fuel mt mb (num - 128) w1
      end
    else down_chunk mt mb max num w.
(* tsm-screen.c:1389-1412 tsm_screen_insert_lines within the margins. *)
Definition ins_rows (mb cy num0 : Z) (w : own) : res own :=
  let max := mb - cy + 1 in
  let num := if max <? num0 then max else num0 in
  do cache <- take_rows w (fun i => mb - i) num;
  if num <? max then
    do ls <- zmove (w_rows w) (cy + num) cy (max - num); do ls' <- zcopy ls cy cache; Ok (put_rows w ls')
  else Ok w.
(* tsm-screen.c:1429-1452 tsm_screen_delete_lines within the margins. *)
Definition del_rows (mb cy num0 : Z) (w : own) : res own :=
  let max := mb - cy + 1 in
  let num := if max <? num0 then max else num0 in
  do cache <- take_rows w (fun i => cy + i) num;
  if num <? max then
    do ls <- zmove (w_rows w) cy (cy + num) (max - num); do ls' <- zcopy ls (cy + (max - num)) cache; Ok (put_rows w ls')
  else Ok w.

(* tsm-screen.c:647-661: a pair of lines at a time until there are y; false if
   memory ran out. *)
Fixpoint grow_rows (n : nat) (al : allocator) (k : Z) (w : own) : res (own * bool) :=
  match n with
  | O => Ok (w, true)
  | S n =>
    match al k (w_heap w) with
    | None => Ok (w, false)
    | Some p =>
      let h1 := hnew (w_heap w) p in
      match al (k + 1) h1 with
      | None => do h2 <- hfree h1 p; Ok (put_heap w h2, false)
      | Some q =>
        grow_rows n al (k + 2)
          (mkW (w_main w ++ [p]) (w_alt w ++ [q]) (w_act w) (w_first w) (w_last w) (w_count w) (w_max w) (w_pos w)
             (w_sela w) (w_sel1 w) (w_sel2 w) (hnew h1 q))
      end
    end
  end.
(* tsm-screen.c:673-680, 690-706: all lines are looked at. *)
Fixpoint touch_all (h : heap) (ps : list Z) : res unit :=
  match ps with
  | [] => Ok tt
  | p :: r => do o <- hget h p; touch_all h r
  end.
(* tsm-screen.c:623-706, the part of tsm_screen_resize before the screen is
   scrolled; arrays: the two reallocs of the arrays succeed. *)
Definition grow (y : Z) (arrays : bool) (al : allocator) (w : own) : res own :=
  do r <- (if zlen (w_main w) <? y then if arrays then grow_rows (Z.to_nat (y - zlen (w_main w))) al 0 w else Ok (w, false) else Ok (w, true));
  let '(w1, ok) := r in
  if ok then do u <- touch_all (w_heap w1) (w_main w1 ++ w_alt w1); Ok w1 else Ok w1.

(* tsm-screen.c:790-815, n iterations. *)
Fixpoint trim (n : nat) (w : own) : res own :=
  match n with
  | O => Ok w
  | S n =>
    let line := w_first w in
    do w1 <- unlink_first w;
    let w2 := if w_pos w1 =? line then put_pos w1 (w_first w1) else w1 in
    do w3 <- free_line (forget w2 line) line;
    trim n w3
  end.
(* tsm-screen.c:775-818 tsm_screen_set_max_sb. *)
Definition max_sb (m : Z) (w : own) : res own := do w1 <- trim (Z.to_nat (w_count w - m)) w; Ok (put_max w1 m).
(* tsm-screen.c:833-837: free along the list. *)
Fixpoint free_list (n : nat) (h : heap) (iter : Z) : res heap :=
  match n with
  | O => Ub
  | S n => if iter =? 0 then Ok h else do o <- hget h iter; do h' <- hfree h iter; free_list n h' (o_next o)
  end.
(* tsm-screen.c:820-856 tsm_screen_clear_sb. *)
Definition clear_end (e : Z * Z) : Z * Z := if fst e =? 0 then e else (0, SELECTION_TOP).
(* All of it (tsm-screen.c:820-856). *)
Definition clear_list (w : own) : res own :=
  do h <- free_list (S (length (w_heap w))) (w_heap w) (w_first w);
  let w1 := put_pos (put_list w 0 0 0 h) 0 in
  Ok (if w_sela w1 then put_sel w1 true (clear_end (w_sel1 w1)) (clear_end (w_sel2 w1)) else w1).
(* tsm-screen.c:867-880 tsm_screen_sb_up. *)
Fixpoint view_up (n : nat) (w : own) : res own :=
  match n with
  | O => Ok w
  | S n =>
    if w_pos w =? 0 then if w_last w =? 0 then Ok w else view_up n (put_pos w (w_last w))
    else do o <- hget (w_heap w) (w_pos w); if o_prev o =? 0 then Ok w else view_up n (put_pos w (o_prev o))
  end.
(* tsm-screen.c:893-900 tsm_screen_sb_down. *)
Fixpoint view_down (n : nat) (w : own) : res own :=
  match n with
  | O => Ok w
  | S n => if w_pos w =? 0 then Ok w else do o <- hget (w_heap w) (w_pos w); view_down n (put_pos w (o_next o))
  end.
(* tsm-selection.c:63-83 selection_set: down from the view. *)
Fixpoint sel_find (n : nat) (h : heap) (l y : Z) : res (Z * Z) :=
  match n with
  | O => Ub
  | S n => if (y =? 0) || (l =? 0) then Ok (l, y) else do o <- hget h l; sel_find n h (o_next o) (y - 1)
  end.
(* From con->sb_pos; sel->y is an int (tsm-selection.c:68-82). *)
Definition find_end (w : own) (y : Z) : res (Z * Z) :=
  do e <- sel_find (S (S (length (w_heap w)))) (w_heap w) (w_pos w) (u32 y); Ok (fst e, i32 (snd e)).
(* tsm-render.c:88-99: the rows to draw, n of them, from the scrollback while
   there are lines and then from the screen. *)
Fixpoint draw_rows (n : nat) (w : own) (iter k : Z) : res (list Z) :=
  match n with
  | O => Ok []
  | S n =>
    if iter =? 0 then do l <- zget (w_rows w) k; do o <- hget (w_heap w) l; do r <- draw_rows n w 0 (k + 1); Ok (l :: r)
    else do o <- hget (w_heap w) iter; do r <- draw_rows n w (o_next o) k; Ok (iter :: r)
  end.

(* tsm-render.c:82-87: the ends of an active selection are looked at (here also
   where the code does not need to). *)
Definition touch_end (w : own) (e : Z * Z) : res unit :=
  if fst e =? 0 then Ok tt else do o <- hget (w_heap w) (fst e); Ok tt.
(* Both ends, if a selection is active (tsm-render.c:82). *)
Definition touch_sel (w : own) : res unit :=
  if w_sela w then do a <- touch_end w (w_sel1 w); touch_end w (w_sel2 w) else Ok tt.

(* The ways in which screen calls handle lines. mt, mb: margins; cy: row of the
   cursor; alt, fixed: flags. *)
Inductive wop :=
  | WTouch (y : Z)                                              (* any access to con->lines[y] *)
  | WUp (alt fixed : bool) (mt mb num : Z) (al : allocator)     (* screen_scroll_up *)
  | WDown (mt mb num : Z)                                       (* screen_scroll_down *)
  | WIns (mb cy num : Z)                                        (* insert_lines *)
  | WDel (mb cy num : Z)                                        (* delete_lines *)
  | WGrow (y : Z) (arrays : bool) (al : allocator)              (* resize *)
  | WMax (m : Z) | WClear | WViewUp (n : Z) | WViewDown (n : Z) | WViewReset
  | WAct (alt : bool)                                           (* con->lines = ... *)
  | WSelStart (y : Z) | WSelTarget (y : Z) | WSelReset
  | WDraw (n : Z).
(* tsm-screen.c and tsm-selection.c at the lines given above. *)
Definition wstep (w : own) (o : wop) : res own :=
  match o with
  | WTouch y => do l <- zget (w_rows w) y; do o <- hget (w_heap w) l; Ok w
  | WUp alt fixed mt mb num al => up_rec (up_fuel mt mb num) alt fixed al 0 mt mb num w
  | WDown mt mb num => down_rec (up_fuel mt mb num) mt mb num w
  | WIns mb cy num => ins_rows mb cy num w
  | WDel mb cy num => del_rows mb cy num w
  | WGrow y arrays al => grow y arrays al w
  | WMax m => max_sb m w
  | WClear => clear_list w
  | WViewUp n => view_up (Z.to_nat n) w
  | WViewDown n => view_down (Z.to_nat n) w
  | WViewReset => Ok (put_pos w 0)
  | WAct alt => Ok (put_act w alt)
  | WSelStart y => do e <- find_end w y; Ok (put_sel w true e e)
  | WSelTarget y => if w_sela w then do e <- find_end w y; Ok (put_sel w true (w_sel1 w) e) else Ok w
  | WSelReset => Ok (put_sel w false (w_sel1 w) (w_sel2 w))
  | WDraw n => do u <- touch_sel w; do r <- draw_rows (Z.to_nat n) w (w_pos w) 0; Ok w
  end.
(* Sequences. *)
Fixpoint wrun (w : own) (os : list wop) : res own :=
  match os with
  | [] => Ok w
  | o :: r => do w' <- wstep w o; wrun w' r
  end.
(* tsm-screen.c:485 memset of a new screen. *)
Definition own_new : own := mkW [] [] false 0 0 0 0 0 false (0, 0) (0, 0) [].
(* tsm-screen.c:545-556 tsm_screen_unref, last reference: the objects left. *)
Fixpoint free_pairs (h : heap) (ms als : list Z) : res heap :=
  match ms, als with
  | p :: ms', q :: als' => do h1 <- hfree h p; do h2 <- hfree h1 q; free_pairs h2 ms' als'
  | _, _ => Ok h
  end.
(* The rows, then the scrollback (tsm-screen.c:545-556). *)
Definition destroy (w : own) : res heap :=
  do h <- free_pairs (w_heap w) (w_main w) (w_alt w);
  do w' <- clear_list (put_heap w h);
  Ok (w_heap w').
