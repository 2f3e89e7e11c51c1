(* Which of the operations of Own.v a call of the screen API performs, and how
   the pointers correspond to a screen of Screen.v. Accesses to single rows are
   left out: Screen.v shows their numbers to be in range, and then any is
   defined (WTouch). *)
From Verif Require Import Base Screen ScreenSpec ScreenResize Own OwnSpec.

(* The lines cited at step (Screen.v) of each call. *)
Definition calls (al : allocator) (s : screen) (o : op) : list wop :=
  let up n := [WUp (fl s F_ALT) (fl s F_FIXED) (s_mt s) (s_mb s) n al] in
  match o with
  | OResize x y => (* tsm-screen.c:600-746 *)
    if (x =? 0) || (y =? 0) || ((s_sx s =? x) && (s_sy s =? y)) then []
    else WGrow y true al :: (if y <? s_sy s then [WUp (fl s F_ALT) (fl s F_FIXED) 0 (s_sy s - 1) (s_sy s - y) al] else [])
  | OSetMaxSb n => [WMax n]                                              (* :775-818 *)
  | OClearSb => [WClear]                                                 (* :820-856 *)
  | OSbUp n => [WViewUp n] | OSbDown n => [WViewDown n]                  (* :857-901 *)
  | OSbPageUp n => [WViewUp (u32 (n * s_sy s))]                          (* :903-911 *)
  | OSbPageDown n => [WViewDown (u32 (n * s_sy s))]                      (* :913-921 *)
  | OSbReset => [WViewReset]                                             (* :923-935 *)
  | OReset => [WAct false]                                               (* :964-986 *)
  | OSetFlags f => if negb (fl s F_ALT) && bit f F_ALT then [WAct true] else []   (* :988-1018 *)
  | OResetFlags f => if fl s F_ALT && bit f F_ALT then [WAct false] else []       (* :1020-1047 *)
  | OWrite ch _ => (* :1106-1141 *)
    match scr_width ch with Ok w => if (0 <? w) && write_scrolls s then up 1 else [] | Ub => [] end
  | ONewline => up (over_down s 1)                                       (* :1143-1153 *)
  | OScrollUp n => up n                                                  (* :1155-1164 *)
  | OScrollDown n => [WDown (s_mt s) (s_mb s) n]                         (* :1166-1175 *)
  | OMoveUp n true => [WDown (s_mt s) (s_mb s) (over_up s n)]            (* :1204-1229 *)
  | OMoveDown n true => up (over_down s n)                               (* :1231-1256 *)
  | OInsLines n => (* :1372-1415 *)
    if (n =? 0) || (s_cy s <? s_mt s) || (s_mb s <? s_cy s) then [] else [WIns (s_mb s) (s_cy s) n]
  | ODelLines n => (* :1417-1455 *)
    if (n =? 0) || (s_cy s <? s_mt s) || (s_mb s <? s_cy s) then [] else [WDel (s_mb s) (s_cy s) n]
  | OSelReset => [WSelReset] | OSelStart _ y => [WSelStart y] | OSelTarget _ y => [WSelTarget y]   (* tsm-selection.c:63-127 *)
  | _ => []
  end.
(* tsm-screen.c:476-524 tsm_screen_new and the calls after it. *)
Fixpoint calls_from (al : allocator) (s : screen) (os : list op) : list wop :=
  match os with
  | [] => []
  | o :: r => calls al s o ++ match step s o with Ok s' => calls_from al s' r | Ub => [] end
  end.
Definition life (al : allocator) (os : list op) : list wop := WGrow 24 true al :: calls_from al scr_init os.
(* The pointers are those of the screen s, as far as its size, the buffer shown
   and the length and limit of the scrollback tell. *)
Definition agree (s : screen) (w : own) (sb : list Z) : Prop :=
  s_sy s <= zlen (w_main w) /\ w_act w = s_act s /\ zlen sb = zlen (s_sb s) /\ w_max w = s_sbmax s.
