(* Model of what the widget of /repo/src/gtktsm/gtktsm-terminal.c does with keys,
   the mouse, the child's output and its end: lines 1163-1181, 1249-1345,
   1345-1612, 1680-1745, 1944-2010. GTK is modelled by the events it passes on and
   by whether a frame is queued. Coordinates of the mouse are in units of 1/1024
   pixel; at this grain dividing them as doubles and cutting off gives the exact
   quotient (lines 1447-1448). shl_pty_write is taken to have the memory it needs. *)
From Verif Require Import Base Screen Render VteData Vte VteKeys.

(* gtktsm-terminal.c:1439-1463: types of events of buttons. *)
Inductive press := Down | Double | Triple | Up.
(* Events: a key (pressed or not, modifiers, keyval, what
   gdk_keymap_translate_keyboard_state says: key and modifiers used up,
   xkb_keysym_to_utf32 of keyval), gtktsm-terminal.c:1345; a button, 1421; the
   mouse moved, 1472; the child writes; n bytes of this are read and passed to
   terminal_read_fn, 1944; the child's end is reported, 1956; gtktsm_terminal_fork
   with the size of the font's cells, 1975; the size of the scrollback set,
   1696; the window's size set, 1249; a frame drawn, 1298. *)
Inductive gev :=
| EvKey (pressed : bool) (state keyval : Z) (tr : option (Z * Z)) (ucs4 : Z)
| EvButton (k : press) (button time x y : Z)
| EvMotion (x y : Z)
| EvSays (bs : list Z)
| EvRead (n : nat)
| EvExit
| EvFork (w h : Z)
| EvSbSize (n : Z)
| EvConfigure (width height : Z)
| EvFrame.

(* gtktsm-terminal.c:1091-1136 struct _GtkTsmTerminalPrivate: terminal with its
   screen, cell size of the regular face if there is one, state of the selection;
   the pty, with all that was written to it; what its child wrote that is not read
   yet; is a frame queued; the titles told by TERMINAL_SIGNAL_TITLE. *)
Record gadget := mkGd {
  h_vte : vte; h_face : option (Z * Z); h_sel : Z; h_time : Z; h_x : Z; h_y : Z;
  h_pty : option (list Z); h_pipe : list Z; h_queued : bool; h_titles : list (list Z) }.
(* Assignments to p->sel and the like (gtktsm-terminal.c:1440-1443, 1462, 1491). *)
Definition set_sel (h : gadget) (sel time x y : Z) : gadget :=
  mkGd (h_vte h) (h_face h) sel time x y (h_pty h) (h_pipe h) (h_queued h) (h_titles h).
(* gtk_widget_queue_draw (gtktsm-terminal.c:1386). *)
Definition queue (h : gadget) : gadget :=
  mkGd (h_vte h) (h_face h) (h_sel h) (h_time h) (h_x h) (h_y h) (h_pty h) (h_pipe h) true (h_titles h).
(* gtktsm-terminal.c:1584-1596 terminal_osc_fn; the string ends with NUL. *)
Definition title_of (bs : list Z) : option (list Z) :=
  match bs with a :: b :: t => if (a =? 50) && (b =? 59) then Some (cstr t) else None | _ => None end.
(* What terminal_write_fn was called with by tsm_vte (gtktsm-terminal.c:1526-1545). *)
Definition said (es : list event) : list Z := flat_map (fun e => match e with EWrite bs => bs | _ => [] end) es.
(* The titles that terminal_osc_fn tells (gtktsm-terminal.c:1584-1596). *)
Definition titles (es : list event) : list (list Z) :=
  flat_map (fun e => match e with EOsc bs => match title_of bs with Some t => [t] | None => [] end | _ => [] end) es.
(* The terminal is now v: gtktsm-terminal.c:1526-1545 terminal_write_fn and
   1584-1596 terminal_osc_fn are run on what it has sent since. *)
Definition served (h : gadget) (v : vte) : gadget :=
  let es := skipn (length (v_out (h_vte h))) (v_out v) in
  mkGd v (h_face h) (h_sel h) (h_time h) (h_x h) (h_y h)
    (match h_pty h with Some q => Some (q ++ said es) | None => None end) (h_pipe h) (h_queued h) (h_titles h ++ titles es).
(* A call on the screen and a frame (gtktsm-terminal.c:1385-1386). *)
Definition on_screen (h : gadget) (o : op) : res gadget :=
  do v <- scr (h_vte h) o; Ok (queue (served h v)).

(* A coordinate as a cell: a conversion of a double to unsigned int, undefined out
   of its range (gtktsm-terminal.c:1447-1448). *)
Definition to_cell (pos size : Z) : res Z :=
  if size =? 0 then Ub
  else let q := Z.quot pos (1024 * size) in if (0 <=? q) && (q <? 4294967296) then Ok q else Ub.
(* gtktsm-terminal.c:1446-1449 and the like. *)
Definition sel_call (h : gadget) (f : Z * Z) (start : bool) (x y : Z) : res gadget :=
  do cx <- to_cell x (fst f); do cy <- to_cell y (snd f);
  on_screen h (if start then OSelStart cx cy else OSelTarget cx cy).
(* gtktsm-terminal.c:1421-1470 terminal_button_fn. *)
Definition on_button (h : gadget) (k : press) (button time x y : Z) : res gadget :=
  if negb (button =? 1) then Ok h
  else
    match h_face h with
    | None => Ok h
    | Some f =>
      match k with
      | Down => Ok (set_sel h 1 time x y)
      | Double | Triple => sel_call (set_sel h 2 (h_time h) (h_x h) (h_y h)) f true x y
      | Up =>
        do h' <- (if (h_sel h =? 1) && (time <? u32 (h_time h + 100)) then on_screen h OSelReset else Ok h);
        Ok (set_sel h' 0 (h_time h) (h_x h) (h_y h))
      end
    end.
(* gtktsm-terminal.c:1472-1507 terminal_motion_fn. *)
Definition on_motion (h : gadget) (x y : Z) : res gadget :=
  if h_sel h =? 0 then Ok h
  else
    match h_face h with
    | None => Ok h
    | Some f =>
      if h_sel h =? 1 then
        if (3 * 1024 <? Z.abs (h_x h - x)) || (3 * 1024 <? Z.abs (h_y h - y))
        then sel_call (set_sel h 2 (h_time h) (h_x h) (h_y h)) f true (h_x h) (h_y h)
        else Ok h
      else sel_call h f false x y
    end.

(* gtktsm-terminal.c:1342-1343 ALL_MODS: Shift, Lock, Control, Mod1, Mod4. *)
Definition ALL_MODS : Z := 79.
(* gtktsm-terminal.c:1361-1370. *)
Definition tsm_mods (state : Z) : Z :=
  (if bit state 0 then 1 else 0) + (if bit state 1 then 2 else 0) + (if bit state 2 then 4 else 0) +
  (if bit state 3 then 8 else 0) + (if bit state 6 then 16 else 0).
(* gtktsm-terminal.c:1384-1404: the keys that scroll, with Shift alone. *)
Definition scroll_key (state : Z) (tr : option (Z * Z)) : option op :=
  match tr with
  | Some (key, cmod) =>
    if Z.land (Z.land state (Z.lnot cmod)) ALL_MODS =? 1 then
      if key =? 0xff52 then Some (OSbUp 1)
      else if key =? 0xff54 then Some (OSbDown 1)
      else if key =? 0xff55 then Some (OSbPageUp 1)
      else if key =? 0xff56 then Some (OSbPageDown 1)
      else None
    else None
  | None => None
  end.
(* gtktsm-terminal.c:1345-1419 terminal_key_fn. sg = char is signed. *)
Definition on_key (sg : bool) (h : gadget) (pressed : bool) (state keyval : Z) (tr : option (Z * Z)) (ucs4 : Z) : res gadget :=
  if negb pressed then Ok h
  else
    match scroll_key state tr with
    | Some o => on_screen h o
    | None =>
      do r <- vte_key sg (h_vte h) keyval 0 (tsm_mods state) (if ucs4 =? 0 then VTE_INVALID else ucs4);
      let h' := served h (fst r) in
      if snd r then on_screen h' OSbReset else Ok h'
    end.

(* gtktsm-terminal.c:1163-1181 terminal_recalculate_cells, one direction. *)
Definition cells_in (len : Z) (size : option Z) : Z :=
  match size with Some s => if s =? 0 then 1 else if len / s =? 0 then 1 else len / s | None => 1 end.
(* One event (lines as above). A child's output is only read while there is a pty
   (1777, 1966: the pty is removed from the bridge when it goes). *)
Definition on_gev (sg : bool) (h : gadget) (e : gev) : res gadget :=
  match e with
  | EvKey pressed state keyval tr ucs4 => on_key sg h pressed state keyval tr ucs4
  | EvButton k button time x y => on_button h k button time x y
  | EvMotion x y => on_motion h x y
  | EvSays bs =>
    Ok match h_pty h with
       | Some _ => mkGd (h_vte h) (h_face h) (h_sel h) (h_time h) (h_x h) (h_y h) (h_pty h) (h_pipe h ++ bs) (h_queued h) (h_titles h)
       | None => h
       end
  | EvRead n =>
    match h_pty h with
    | None => Ok h
    | Some _ =>
      do v <- vte_input sg (h_vte h) (firstn n (h_pipe h));
      let h' := served h v in
      Ok (queue (mkGd (h_vte h') (h_face h') (h_sel h') (h_time h') (h_x h') (h_y h') (h_pty h') (skipn n (h_pipe h)) (h_queued h') (h_titles h')))
    end
  | EvExit => Ok (mkGd (h_vte h) (h_face h) (h_sel h) (h_time h) (h_x h) (h_y h) None [] (h_queued h) (h_titles h))
  | EvFork w hh =>
    match h_pty h with
    | Some _ => Ok h
    | None =>
      Ok (mkGd (h_vte h) (match h_face h with Some f => Some f | None => Some (w, hh) end) (h_sel h) (h_time h) (h_x h) (h_y h) (Some []) []
            (match h_face h with Some _ => h_queued h | None => true end) (h_titles h))
    end
  | EvSbSize n => do v <- scr (h_vte h) (OSetMaxSb n); Ok (served h v)
  | EvConfigure width height =>
    on_screen h (OResize (cells_in width (match h_face h with Some f => Some (fst f) | None => None end))
                         (cells_in height (match h_face h with Some f => Some (snd f) | None => None end)))
  | EvFrame =>
    match h_face h with
    | None => Ok (mkGd (h_vte h) None (h_sel h) (h_time h) (h_x h) (h_y h) (h_pty h) (h_pipe h) false (h_titles h))
    | Some f =>
      do r <- draw (v_con (h_vte h));
      let '(_, s, _) := r in
      Ok (mkGd (w_con (h_vte h) s) (Some f) (h_sel h) (h_time h) (h_x h) (h_y h) (h_pty h) (h_pipe h) false (h_titles h))
    end
  end.
(* Events one after the other, as the main loop passes them to the handlers
   set in gtktsm-terminal.c:1820-1847. *)
Fixpoint on_gevs (sg : bool) (h : gadget) (es : list gev) : res gadget :=
  match es with [] => Ok h | e :: r => do h' <- on_gev sg h e; on_gevs sg h' r end.
(* gtktsm-terminal.c:1780-1847 gtktsm_terminal_init: a new terminal, whose OSC
   callback is set, on a new screen; no font and no pty. *)
Definition gadget_new (con : screen) : res gadget :=
  do v <- vte_new con; Ok (mkGd (w_oscb v true) None 0 0 0 0 None [] false []).
