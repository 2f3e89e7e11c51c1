(* Model of the copying part of /repo/src/tsm/tsm-selection.c; selection_set and
   the calls that set the end points are in Screen.v. Line pointers are ids of
   scrollback lines as in Screen.v; following a dangling pointer is undefined.
   The buffer is represented by the bytes written so far: its bytes are written
   one after the other, so all writes are within it if and only if their number
   is at most its size; this is checked once, at the end. Allocations succeed
   unless the requested size, an int converted to size_t, is negative. *)
From Verif Require Import Base Utf8 Screen.

(* tsm-selection.c:130-142 calc_line_len; i is the index of the first of cs. *)
Fixpoint calc_len (i len : Z) (cs : list cell) : Z :=
  match cs with
  | [] => len
  | c :: r => calc_len (i + 1) (if c_ch c =? 0 then len else i + 1) r
  end.
Definition calc_line_len (l : line) : Z := calc_len 0 0 (l_cells l).

(* tsm-selection.c:147-175 copy_line, the bytes written. The condition in the
   loop body (line 166) is always true. *)
Definition copy_line (l : line) (start len : Z) : res (list Z) :=
  let line_len := calc_line_len l in
  if line_len <? start then Ok []
  else
    let e0 := u32 (start + len) in
    let e := if line_len <? e0 then line_len else e0 in
    do b <- forz start (Z.min (zlen (l_cells l)) e) (fun i b =>
        do c <- zget (l_cells l) i; Ok (b ++ ucs4_to_utf8 (c_ch c))) [];
    Ok (b ++ ucs4_to_utf8 10).

(* Comparison of two line pointers (tsm-selection.c:204, 263, 302). *)
Definition same_line (a b : option Z) : bool :=
  match a, b with
  | Some x, Some y => x =? y
  | None, None => true
  | _, _ => false
  end.

(* The scrollback from the line p points to up to sb_last (tsm-selection.c:219,
   267, 367: iter = ...->line; iter = iter->next). *)
Definition from_line (s : screen) (p : option Z) : res (list line) :=
  match p with
  | None => Ok []
  | Some k => match sb_from k (s_sb s) with Some l => Ok l | None => Ub end
  end.

(* tsm-selection.c:196, 440-441, 448: "top". *)
Definition is_top (p : selpos) : bool :=
  match p_line p with None => p_y p =? SELECTION_TOP | Some _ => false end.

(* tsm-selection.c:191-250 norm_selection (with 177-184 swap_selections). *)
Definition norm_selection (s : screen) (st en : selpos) : res (selpos * selpos) :=
  if is_top en then Ok (en, st)
  else
    match p_line st, p_line en with
    | Some _, Some _ =>
      if same_line (p_line st) (p_line en) then
        Ok (if p_x en <? p_x st then (en, st) else (st, en))
      else
        do ls <- from_line s (p_line en);
        (* the loop ends before sb_last is looked at *)
        Ok (fold_left (fun ab l => if ptr_is (p_line (fst ab)) l then (snd ab, fst ab) else ab)
              (removelast ls) (st, en))
    | None, Some _ => Ok (en, st)
    | _, _ =>
      if p_y st =? p_y en then Ok (if p_x en <? p_x st then (en, st) else (st, en))
      else Ok (if p_y en <? p_y st then (en, st) else (st, en))
    end.

(* Signed overflow is undefined (tsm-selection.c:269, 293, 459). *)
Definition int_ok (z : Z) : res Z :=
  if (-2147483648 <=? z) && (z <? 2147483648) then Ok z else Ub.

(* tsm-selection.c:257-279 selection_count_lines_sb. *)
Definition count_lines_sb (s : screen) (st en : selpos) : res Z :=
  match p_line st with
  | Some _ =>
    if same_line (p_line st) (p_line en) then Ok 1
    else do ls <- from_line s (p_line st); int_ok (zlen ls)
  | None => Ok 0
  end.

(* tsm-selection.c:286-294 selection_count_lines. *)
Definition count_lines (st en : selpos) : res Z :=
  match p_line st, p_line en with
  | Some _, Some _ => Ok 0
  | _, _ => do d <- int_ok (p_y en - p_y st); int_ok (d + 1)
  end.

(* tsm-selection.c:299-318 calc_selection_line_len_sb; the unsigned results are
   converted to int and back. *)
Definition sel_len_sb (s : screen) (st en : selpos) (l : line) : Z :=
  if same_line (p_line st) (p_line en) then u32 (p_x en - p_x st + 1)
  else if ptr_is (p_line st) l then u32 (s_sx s - p_x st)
  else if ptr_is (p_line en) l then u32 (p_x en + 1)
  else s_sx s.

(* tsm-selection.c:323-344 calc_selection_line_len. *)
Definition sel_len (s : screen) (st en : selpos) (i : Z) : Z :=
  let rest := if i =? p_y en then u32 (p_x en + 1) else s_sx s in
  match p_line st with
  | None =>
    if p_y st =? p_y en then u32 (p_x en - p_x st + 1)
    else if i =? p_y st then u32 (s_sx s - p_x st)
    else rest
  | Some _ => rest
  end.

(* tsm-selection.c:367-382, the loop of copy_lines_sb over the scrollback. *)
Fixpoint copy_sb_loop (s : screen) (st en : selpos) (ls : list line) (b : list Z) : res (list Z) :=
  match ls with
  | [] => Ok b
  | l :: r =>
    do t <- copy_line l (if ptr_is (p_line st) l then p_x st else 0) (sel_len_sb s st en l);
    if ptr_is (p_line en) l then Ok (b ++ t) else copy_sb_loop s st en r (b ++ t)
  end.
(* tsm-selection.c:358-385 copy_lines_sb. *)
Definition copy_lines_sb (s : screen) (st en : selpos) (b : list Z) : res (list Z) :=
  do ls <- from_line s (p_line st); copy_sb_loop s st en ls b.

(* tsm-selection.c:390-411 copy_lines; end.y is below INT_MAX wherever the loop
   ends. *)
Definition copy_lines (s : screen) (st en : selpos) (b : list Z) : res (list Z) :=
  match p_line en with
  | Some _ => Ok b
  | None =>
    forz (p_y st) (p_y en + 1) (fun i b =>
      let x := match p_line st with None => if i =? p_y st then p_x st else 0 | Some _ => 0 end in
      do l <- zget (lines s) i;
      do t <- copy_line l x (sel_len s st en i);
      Ok (b ++ t)) b
  end.

(* The results of tsm_screen_selection_copy: -ENOENT, -ENOMEM, or the bytes of
   *out, whose number is returned (tsm-selection.c:414-476). *)
Inductive copied := CNone | CNoMem | CText (t : list Z).

(* tsm-selection.c:448-456. *)
Definition top_start (s : screen) (st : selpos) : selpos :=
  if is_top st then
    match s_sb s with
    | l :: _ => mkP (l_sbid l) 0 (p_y st)
    | [] => mkP None 0 0
    end
  else st.

(* tsm-selection.c:349-353 calc_line_copy_buffer, assigned to an int (460). *)
Definition copy_buffer (s : screen) (n : Z) : Z := i32 (u32 (s_sx s * n * 4 + 1)).

(* tsm-selection.c:458-475, after the end points have been put in order. *)
Definition copy_from (s : screen) (st en : selpos) : res copied :=
  do n1 <- count_lines_sb s st en;
  do n2 <- count_lines st en;
  do n <- int_ok (n1 + n2);
  let size := copy_buffer s n in
  if size <? 0 then Ok CNoMem
  else
    do b1 <- copy_lines_sb s st en [];
    do b <- copy_lines s st en b1;
    if zlen b <=? size then Ok (CText (removelast b)) else Ub.

(* tsm-selection.c:414-476 tsm_screen_selection_copy. *)
Definition selection_copy (s : screen) : res copied :=
  if negb (s_sela s) then Ok CNone
  else if is_top (s_sel1 s) && is_top (s_sel2 s) then Ok (CText [])
  else
    do se <- norm_selection s (s_sel1 s) (s_sel2 s);
    copy_from s (top_start s (fst se)) (snd se).
