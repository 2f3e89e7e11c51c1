(* Specification of what each screen call may change at all. *)
From Verif Require Import Base Screen ScreenSpec.

(* The calls that may change the size, the mode flags, the scroll
   region, the default attributes, the tab stops, the scrollback limit, the
   presence of a selection, the cursor. *)
Definition may_size (o : op) : bool := match o with OResize _ _ => true | _ => false end.
Definition may_flags (o : op) : bool := match o with OSetFlags _ | OResetFlags _ | OReset => true | _ => false end.
Definition may_margins (o : op) : bool := match o with OSetMargins _ _ | OResize _ _ | OReset => true | _ => false end.
Definition may_def (o : op) : bool := match o with OSetDefAttr _ => true | _ => false end.
Definition may_tabs (o : op) : bool :=
  match o with OSetTabstop | OResetTabstop | OResetAllTabstops | OResize _ _ | OReset => true | _ => false end.
Definition may_limit (o : op) : bool := match o with OSetMaxSb _ => true | _ => false end.
Definition may_select (o : op) : bool := match o with OSelStart _ _ | OSelReset => true | _ => false end.
Definition may_cursor (o : op) : bool :=
  match o with
  | OWrite _ _ | ONewline | OMoveTo _ _ | OMoveUp _ _ | OMoveDown _ _ | OMoveLeft _ | OMoveRight _ | OLineEnd | OLineHome
  | OTabRight _ | OTabLeft _ | OInsLines _ | ODelLines _ | OInsChars _ | ODelChars _ | OResize _ _ => true
  | _ => false end.
(* The calls that may change a cell; switching between the buffers is not such a change. *)
Definition may_text (o : op) : bool :=
  match o with
  | OResize _ _ | OWrite _ _ | ONewline | OScrollUp _ | OScrollDown _ | OInsLines _ | ODelLines _ | OInsChars _ | ODelChars _
  | OEraseCursor | OEraseChars _ | OEraseToEnd _ | OEraseHome _ | OEraseLine _ | OEraseScreenToCursor _ | OEraseCursorToScreen _ | OEraseScreen _ => true
  | OMoveUp _ scroll | OMoveDown _ scroll => scroll
  | _ => false end.
(* The calls that may change the scrollback. *)
Definition may_history (o : op) : bool :=
  match o with
  | OSetMaxSb _ | OClearSb | OResize _ _ | OWrite _ _ | ONewline | OScrollUp _ => true
  | OMoveDown _ scroll => scroll
  | _ => false end.

(* Everything the call o may not change is as it was. *)
Record framed (o : op) (s s' : screen) : Prop := mkFramed {
  fr_size : may_size o = false -> s_sx s' = s_sx s /\ s_sy s' = s_sy s;
  fr_flags : may_flags o = false -> s_flags s' = s_flags s;
  fr_margins : may_margins o = false -> s_mt s' = s_mt s /\ s_mb s' = s_mb s;
  fr_def : may_def o = false -> s_def s' = s_def s;
  fr_tabs : may_tabs o = false -> s_tabs s' = s_tabs s;
  fr_limit : may_limit o = false -> s_sbmax s' = s_sbmax s;
  fr_select : may_select o = false -> s_sela s' = s_sela s;
  fr_cursor : may_cursor o = false -> s_cx s' = s_cx s /\ s_cy s' = s_cy s;
  fr_text : may_text o = false -> same_text s s';
  fr_history : may_history o = false -> sb_text s' = sb_text s
}.
