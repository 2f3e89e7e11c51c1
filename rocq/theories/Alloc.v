(* Model of the screen calls that allocate memory, with allocations that may
   fail. The calls get a list of verdicts, one per call of malloc or realloc in
   the order of execution; true means it returns NULL. Behind the end of the
   list every allocation succeeds. Calls that do not allocate are those of
   Screen.v. *)
From Verif Require Import Base Wcwidth Symbol Screen.

Definition verdicts := list bool.
(* One call of malloc or realloc (tsm-screen.c:136, 144, 172, 624, 633, 668): does
   it fail, and the verdicts left. *)
Definition ask (al : verdicts) : bool * verdicts :=
  match al with [] => (false, []) | b :: r => (b, r) end.

(* tsm-screen.c:127-155 line_new: the struct, then the cells; None is an error.
   The cells are not asked for if there is no struct (line 137). *)
Definition f_line_new (s : screen) (width : Z) (al : verdicts) : option line * verdicts :=
  if width =? 0 then (None, al)
  else
    let '(b1, al1) := ask al in
    if b1 then (None, al1)
    else
      let '(b2, al2) := ask al1 in
      if b2 then (None, al2) else (Some (line_new s width), al2).

(* tsm-screen.c:163-185 line_resize: asks only if the line is too short. *)
Definition f_line_resize (s : screen) (width : Z) (l : line) (al : verdicts) : option line * verdicts :=
  if zlen (l_cells l) <? width then
    let '(b, al1) := ask al in
    if b then (None, al1) else (Some (line_resize s width l), al1)
  else (Some l, al).

(* tsm-screen.c:300-316, one iteration: on the main screen a new line is asked
   for; if there is none the old one is blanked and used again, and nothing goes
   into the scrollback. *)
Definition f_scroll_body (i : Z) (st : screen * list line * verdicts) : res (screen * list line * verdicts) :=
  let '(s, cache, al) := st in
  let pos := u32 (s_mt s + i) in
  let '(nl, al1) := if negb (fl s F_ALT) then f_line_new s (s_sx s) al else (None, al) in
  do l <- zget (lines s) pos;
  match nl with
  | Some n => do s' <- link_to_scrollback s l; Ok (s', cache ++ [n], al1)
  | None =>
    do l' <- line_blank s l;
    do ls <- zmod (lines s) pos (fun _ => l');
    Ok (set_lines s ls, cache ++ [l'], al1)
  end.
(* tsm-screen.c:298-342, see scroll_up_chunk in Screen.v. *)
Definition f_scroll_up_chunk (s : screen) (max num : Z) (al : verdicts) : res (screen * verdicts) :=
  do r <- forz 0 num f_scroll_body (s, [], al);
  let '(s1, cache, al1) := r in
  do s2 <- (if num <? max then lines_move s1 (s_mt s1) (u32 (s_mt s1 + num)) (max - num)
            else Ok s1);
  do s3 <- lines_copy s2 (u32 (s_mt s2 + (max - num))) cache;
  Ok (sel_map s3 (sel_scroll_up (s_sb s3) num), al1).
(* tsm-screen.c:272-343 screen_scroll_up, see scroll_up_rec in Screen.v. *)
Fixpoint f_scroll_up_rec (fuel : nat) (s0 : screen) (num0 : Z) (al : verdicts) : res (screen * verdicts) :=
  if num0 =? 0 then Ok (s0, al)
  else
    let s := age_all s0 in
    let max := u32 (s_mb s + 1 - s_mt s) in
    let num := if max <? num0 then max else num0 in
    if 128 <? num then
      match fuel with
      | O => Ub
      | S fuel' =>
        do r <- f_scroll_up_chunk s max 128 al;
        f_scroll_up_rec fuel' (fst r) (num - 128) (snd r)
      end
    else f_scroll_up_chunk s max num al.
(* tsm-screen.c:272 screen_scroll_up with enough fuel, see scroll_up in Screen.v. *)
Definition f_scroll_up (s : screen) (num : Z) (al : verdicts) : res (screen * verdicts) :=
  f_scroll_up_rec (Z.to_nat (Z.min num (u32 (s_mb s + 1 - s_mt s)) / 128)) s num al.

(* tsm-screen.c:647-661: pairs of new lines, line_num counts the pairs that are
   complete; a main line whose alternate line fails is freed again (657). *)
Fixpoint f_new_lines (n : nat) (s : screen) (width : Z) (al : verdicts) : screen * bool * verdicts :=
  match n with
  | O => (s, true, al)
  | S n' =>
    match f_line_new s width al with
    | (None, al1) => (s, false, al1)
    | (Some m, al1) =>
      match f_line_new s width al1 with
      | (None, al2) => (s, false, al2)
      | (Some a, al2) =>
        f_new_lines n' (set_ln (set_alt (set_main s (s_main s ++ [m])) (s_alt s ++ [a])) (u32 (s_ln s + 1))) width al2
      end
    end
  end.
(* tsm-screen.c:622-662: the two arrays of line pointers, then the lines. An
   array enlarged without getting lines has entries behind line_num only. *)
Definition f_grow_y (s : screen) (x y : Z) (al : verdicts) : screen * bool * verdicts :=
  if s_ln s <? y then
    let '(b1, al1) := ask al in
    if b1 then (s, false, al1)
    else
      let '(b2, al2) := ask al1 in
      if b2 then (s, false, al2)
      else f_new_lines (Z.to_nat (y - s_ln s)) s (if s_sx s <? x then x else s_sx s) al2
  else (s, true, al).

(* tsm-screen.c:673-680: both lines of every row in turn. *)
Fixpoint f_resize_lines (n : nat) (s : screen) (x : Z) (ms os : list line) (al : verdicts)
  : res (list line * list line * bool * verdicts) :=
  match n, ms, os with
  | O, _, _ => Ok (ms, os, true, al)
  | S n', m :: ms', o :: os' =>
    match f_line_resize s x m al with
    | (None, al1) => Ok (ms, os, false, al1)
    | (Some m1, al1) =>
      match f_line_resize s x o al1 with
      | (None, al2) => Ok (m1 :: ms', os, false, al2)
      | (Some o1, al2) =>
        do r <- f_resize_lines n' s x ms' os' al2;
        let '(mr, or, b, al3) := r in Ok (m1 :: mr, o1 :: or, b, al3)
      end
    end
  | S _, _, _ => Ub
  end.
(* tsm-screen.c:667-681. If the call fails after the ruler was reallocated, the
   entries of the ruler that are set are the old ones below x; entries behind
   them are not initialised, so they are left out and reading one is Ub. *)
Definition f_grow_x (s : screen) (x : Z) (al : verdicts) : res (screen * bool * verdicts) :=
  if s_sx s <? x then
    let '(b, al1) := ask al in
    if b then Ok (s, false, al1)
    else
      do r <- f_resize_lines (Z.to_nat (s_ln s)) s x (s_main s) (s_alt s) al1;
      let '(m, a, ok, al2) := r in
      let old := firstn (Z.to_nat x) (s_tabs s) in
      let tabs := if ok : bool then old ++ repeat false (Z.to_nat (x - zlen (s_tabs s))) else old in
      Ok (set_alt (set_main (set_tabs s tabs) m) a, ok, al2)
  else Ok (s, true, al).

(* tsm-screen.c:600-746 tsm_screen_resize; -22 is -EINVAL, -12 is -ENOMEM. *)
Definition f_resize (s : screen) (x y : Z) (al : verdicts) : res (screen * Z * verdicts) :=
  if (x =? 0) || (y =? 0) then Ok (s, -22, al)
  else if (s_sx s =? x) && (s_sy s =? y) then Ok (s, 0, al)
  else
    let '(s1, ok1, al1) := f_grow_y s x y al in
    if negb ok1 then Ok (s1, -12, al1)
    else
    do r2 <- f_grow_x s1 x al1;
    let '(s2, ok2, al2) := r2 in
    if negb ok2 then Ok (s2, -12, al2)
    else
    let s3 := inc_age s2 in
    do s4 <- resize_clear s3 x;
    let s5 := set_mb (set_mt s4 0) (u32 (s_sy s4 - 1)) in
    do tabs <- reset_tabs x (s_tabs s5);
    let s6 := set_sx (set_tabs s5 tabs) x in
    do s7 <- (if s_sx s6 <=? s_cx s6 then move_cursor s6 (u32 (s_sx s6 - 1)) (s_cy s6) else Ok s6);
    do r8 <- (if y <? s_sy s7 then
                let diff := s_sy s7 - y in
                do r <- f_scroll_up s7 diff al2;
                let '(s', al3) := r in
                do s'' <- (if diff <? s_cy s' then move_cursor s' (s_cx s') (s_cy s' - diff)
                           else move_cursor s' (s_cx s') 0);
                Ok (s'', al3)
              else Ok (s7, al2));
    let '(s8, al4) := r8 in
    let s9 := set_mb (set_sy s8 y) (u32 (y - 1)) in
    do s10 <- (if s_sy s9 <=? s_cy s9 then move_cursor s9 (s_cx s9) (u32 (s_sy s9 - 1)) else Ok s9);
    Ok (s10, 0, al4).

(* tsm-screen.c:1106-1141 tsm_screen_write. *)
Definition f_write (s0 : screen) (ch : Z) (a : attr) (al : verdicts) : res (screen * verdicts) :=
  do len <- scr_width ch;
  if len =? 0 then Ok (s0, al)
  else
    let s := inc_age s0 in
    let last := if (s_cy s <=? s_mb s) || (s_sy s <=? s_cy s) then s_mb s
                else u32 (s_sy s - 1) in
    do s1 <- (if s_sx s <=? s_cx s then
                if fl s F_WRAP then move_cursor s 0 (u32 (s_cy s + 1))
                else move_cursor s (u32 (s_sx s - 1)) (s_cy s)
              else Ok s);
    do r2 <- (if last <? s_cy s1 then
                do s' <- move_cursor s1 (s_cx s1) last; f_scroll_up s' 1 al
              else Ok (s1, al));
    let '(s2, al2) := r2 in
    do s3 <- screen_write s2 (s_cx s2) (s_cy s2) ch len a;
    do s4 <- move_cursor s3 (u32 (s_cx s3 + len)) (s_cy s3);
    Ok (s4, al2).

(* tsm-screen.c:1231-1256 tsm_screen_move_down. *)
Definition f_move_down (s0 : screen) (num : Z) (scroll : bool) (al : verdicts) : res (screen * verdicts) :=
  if num =? 0 then Ok (s0, al)
  else
    let s := inc_age s0 in
    let size := if s_cy s <=? s_mb s then u32 (s_mb s + 1) else s_sy s in
    let diff := u32 (size - s_cy s - 1) in
    if diff <? num then
      do r1 <- (if scroll then f_scroll_up s (num - diff) al else Ok (s, al));
      let '(s1, al1) := r1 in
      do s2 <- move_cursor s1 (s_cx s1) (u32 (size - 1));
      Ok (s2, al1)
    else do s1 <- move_cursor s (s_cx s) (u32 (s_cy s + num)); Ok (s1, al).
(* tsm-screen.c:1143-1153 tsm_screen_newline. *)
Definition f_newline (s : screen) (al : verdicts) : res (screen * verdicts) :=
  do r <- f_move_down (inc_age s) 1 true al;
  do s2 <- scr_line_home (fst r); Ok (s2, snd r).
(* tsm-screen.c:1155-1164 tsm_screen_scroll_up. *)
Definition f_scroll_up_call (s : screen) (num : Z) (al : verdicts) : res (screen * verdicts) :=
  if num =? 0 then Ok (s, al) else f_scroll_up (inc_age s) num al.

(* One API call (libtsm.h:190-300) and its return value, 0 for the calls
   without one. *)
Definition fstep (s : screen) (o : op) (al : verdicts) : res (screen * Z * verdicts) :=
  match o with
  | OResize x y => f_resize s x y al
  | OWrite ch a => do r <- f_write s ch a al; Ok (fst r, 0, snd r)
  | ONewline => do r <- f_newline s al; Ok (fst r, 0, snd r)
  | OScrollUp n => do r <- f_scroll_up_call s n al; Ok (fst r, 0, snd r)
  | OMoveDown n b => do r <- f_move_down s n b al; Ok (fst r, 0, snd r)
  | _ => do s' <- step s o; Ok (s', 0, al)
  end.
(* A sequence of calls: the screen and the return values. *)
Fixpoint frun (s : screen) (ops : list op) (al : verdicts) : res (screen * list Z * verdicts) :=
  match ops with
  | [] => Ok (s, [], al)
  | o :: r =>
    do p <- fstep s o al;
    let '(s1, c, al1) := p in
    do q <- frun s1 r al1;
    let '(s2, cs, al2) := q in Ok (s2, c :: cs, al2)
  end.
