(* Specification vocabulary for statements about terminals: what of the state is
   visible to a client, control sequences as byte strings, and the values of
   their parameters. *)
From Verif Require Import Utf8Spec.
From Verif Require Import Base Utf8 Screen ScreenSpec VteData Vte VteSpec.

(* The terminal without parser and decoder: two terminals with the same core
   differ only in how far they are into a sequence. *)
Definition core (v : vte) : vte :=
  w_osc (w_osclen (w_cfl (w_argv (w_argc (w_state (w_mach v umach_new) SGround) 0) []) 0) 0) [].

(* ESC [ intermediate parameters final. *)
Definition csi_bytes (pri P : list Z) (f : Z) : list Z := 27 :: 91 :: pri ++ P ++ [f].
(* A character of a parameter string. *)
Definition pchar (c : Z) : Prop := digit c \/ c = 59.

(* The value of a digit string, cut off once it exceeds 65535. *)
Definition clip (ds : list Z) : Z := fold_left (fun n d => if 65535 <? n then n else 10 * n + (d - 48)) ds 0.
(* A parameter; -1 when it is empty. *)
Definition argval (ds : list Z) : Z := match ds with [] => -1 | _ => clip ds end.
(* At most 16 parameters count. *)
Definition args (P : list Z) : list Z := firstn 16 (map argval (split P)).
(* Parameter k of a sequence, -1 if missing. *)
Definition arg (P : list Z) (k : nat) : Z := nth k (args P) (-1).
(* A parameter whose default is 1, and zero means the default. *)
Definition arg1 (P : list Z) (k : nat) : Z := if arg P k <=? 0 then 1 else arg P k.
(* A parameter whose default is 0. *)
Definition arg0 (P : list Z) (k : nat) : Z := Z.max 0 (arg P k).

(* The screen calls a control sequence stands for; None: it does something else. *)
Definition screen_calls (s : screen) (pri P : list Z) (f : Z) : option (list op) :=
  let n := arg1 P 0 in
  let keep := match pri with [63] => true | _ => false end in
  if f =? 65 (* A *) then Some [OMoveUp n false]
  else if f =? 66 (* B *) then Some [OMoveDown n false]
  else if f =? 67 (* C *) then Some [OMoveRight n]
  else if f =? 68 (* D *) then Some [OMoveLeft n]
  else if f =? 69 (* E *) then Some [OMoveDown n false; OLineHome]
  else if f =? 70 (* F *) then Some [OMoveUp n false; OLineHome]
  else if f =? 71 (* G *) then Some [OMoveTo (n - 1) (s_cy s)]
  else if f =? 72 (* H *) then Some [OMoveTo (arg1 P 1 - 1) (n - 1)]
  else if f =? 102 (* f *) then Some [OMoveTo (arg1 P 1 - 1) (n - 1)]
  else if f =? 100 (* d *) then Some [OMoveTo (s_cx s) (n - 1)]
  else if f =? 101 (* e *) then Some [OMoveTo (s_cx s) (s_cy s + n)]
  else if f =? 74 (* J *) then
    match arg0 P 0 with
    | 0 => Some [OEraseCursorToScreen keep] | 1 => Some [OEraseScreenToCursor keep] | 2 => Some [OEraseScreen keep]
    | _ => Some [] end
  else if f =? 75 (* K *) then
    match arg0 P 0 with
    | 0 => Some [OEraseToEnd keep] | 1 => Some [OEraseHome keep] | 2 => Some [OEraseLine keep]
    | _ => Some [] end
  else if f =? 88 (* X *) then Some [OEraseChars n]
  else if f =? 114 (* r *) then Some [OSetMargins (arg0 P 0) (arg0 P 1)]
  else if f =? 76 (* L *) then Some [OInsLines n]
  else if f =? 77 (* M *) then Some [ODelLines n]
  else if f =? 64 (* @ *) then Some [OInsChars n]
  else if f =? 80 (* P *) then Some [ODelChars n]
  else if f =? 103 (* g *) then
    match arg0 P 0 with 0 => Some [OResetTabstop] | 3 => Some [OResetAllTabstops] | _ => Some [] end
  else if f =? 73 (* I *) then Some [OTabRight n]
  else if f =? 90 (* Z *) then Some [OTabLeft n]
  else if f =? 83 (* S *) then Some [OScrollUp n]
  else if f =? 84 (* T *) then Some [OScrollDown n]
  else None.

(* -- modes ---------------------------------------------------------------- *)
(* The flag of the terminal a mode number stands for (dec: with the marker ?),
   and the flag of the screen it drives. *)
Definition mode_flag (dec : bool) (n : Z) : option Z :=
  if dec then
    match n with
    | 1 => Some VF_CURSOR_KEY | 5 => Some VF_INVERSE | 6 => Some VF_ORIGIN | 7 => Some VF_WRAP
    | 8 => Some VF_REPEAT | 25 => Some VF_TEXT_CURSOR | 42 => Some VF_NRC | _ => None end
  else match n with 2 => Some VF_KAM | 4 => Some VF_IRM | 12 => Some VF_SRM | 20 => Some VF_LNM | _ => None end.
Definition mode_screen (dec set : bool) (n : Z) : list op :=
  let sw (b : bool) f := [if b then OSetFlags f else OResetFlags f] in
  if dec then match n with 5 => sw set SF_INVERSE | 6 => sw set SF_ORIGIN | 7 => sw set SF_WRAP | 25 => sw (negb set) SF_HIDE | _ => [] end
  else match n with 4 => sw set SF_INSERT | _ => [] end.
(* Alternate screen and its cursor, and mouse reporting. *)
Definition alt_mode (n : Z) : Prop := n = 47 \/ n = 1047 \/ n = 1048 \/ n = 1049.
Definition mouse_mode (n : Z) : Prop := n = MOUSE_X10 \/ n = MOUSE_BTN \/ n = MOUSE_ANY \/ n = MOUSE_SGR \/ n = MOUSE_PIXEL.
Definition alt_calls (v : vte) (set : bool) (n : Z) : list op :=
  if vfl v VF_TITE then [] else
  match n, set with
  | 47, true | 1047, true => [OSetFlags SF_ALT]
  | 47, false => [OResetFlags SF_ALT]
  | 1047, false => [OEraseScreen false; OResetFlags SF_ALT]
  | 1048, false => [OMoveTo (v_altx v) (v_alty v)]
  | 1049, true => [OSetFlags SF_ALT; OEraseScreen false]
  | 1049, false => [OResetFlags SF_ALT; OMoveTo (v_altx v) (v_alty v)]
  | _, _ => []
  end.
Definition alt_saves (v : vte) (set : bool) (n : Z) : bool := set && ((n =? 1048) || (n =? 1049)) && negb (vfl v VF_TITE).
(* Of a screen only the flags changed. *)
Definition only_flags (s s' : screen) (f : Z) : Prop :=
  s_flags s' = f /\ same_text s s' /\ s_sb s' = s_sb s /\ s_cx s' = s_cx s /\ s_cy s' = s_cy s /\ s_sx s' = s_sx s /\ s_sy s' = s_sy s /\
  s_mt s' = s_mt s /\ s_mb s' = s_mb s /\ s_tabs s' = s_tabs s /\ s_def s' = s_def s.
(* The mouse protocol and the kind of events a mode selects: new protocol, new
   event mask, and whether the client is told. *)
Definition mouse_spec (set : bool) (n mm me : Z) : Z * Z * option bool :=
  if n =? MOUSE_X10 then (if set then n else 0, MOUSE_BTN, Some false)
  else if (n =? MOUSE_BTN) || (n =? MOUSE_ANY) then
    (mm, if mm =? MOUSE_X10 then MOUSE_BTN else if set then n else 0,
     if mm =? 0 then None else Some (mm =? MOUSE_PIXEL))
  else if n =? MOUSE_SGR then (if set then n else 0, me, if set && (me =? 0) then None else Some false)
  else (if set then n else 0, me, if set && (me =? 0) then None else Some set).
Definition mouse_after (v : vte) (set : bool) (n : Z) : vte :=
  let '(mm, me, tell) := mouse_spec set n (v_mmode v) (v_mev v) in
  let v1 := w_mev (w_mmode v mm) me in
  match tell with Some px => if v_mcb v then emit v1 (EMouse me px) else v1 | None => v1 end.

(* -- text ----------------------------------------------------------------- *)
(* Code points that are shown. *)
Definition graphic (cp : Z) : Prop := 32 <= cp <= 0x10FFFF /\ ~ (0x80 <= cp <= 0x9f).
(* The set a code point is looked up in and the entry found. *)
Definition set_at (v : vte) (g : gsel) (i : Z) : Z := match znth (cs_table (gset v g)) i with Some c => c | None => 0 end.
Definition mapped (v : vte) (cp : Z) : Z :=
  if (33 <=? cp) && (cp <=? 126) then set_at v (match v_glt v with Some g => g | None => v_gl v end) (cp - 32)
  else if (161 <=? cp) && (cp <=? 254) then set_at v (match v_grt v with Some g => g | None => v_gr v end) (cp - 160)
  else cp.
(* A character of the left or right half uses up a pending single shift. *)
Definition unshift (v : vte) (cp : Z) : vte :=
  if (33 <=? cp) && (cp <=? 126) then w_glt v None
  else if (161 <=? cp) && (cp <=? 254) then w_grt v None else v.
Fixpoint shown_text (v : vte) (cps : list Z) : list Z :=
  match cps with [] => [] | c :: r => mapped v c :: shown_text (unshift v c) r end.
Definition unshifts (v : vte) (cps : list Z) : vte := fold_left unshift cps v.
(* The default sets: ASCII on the left, Latin-1 on the right, no shift pending. *)
Definition default_sets (v : vte) : Prop :=
  gset v (v_gl v) = CsLower /\ gset v (v_gr v) = CsUpper /\ v_glt v = None /\ v_grt v = None.
(* The bytes that deliver a string of code points, in each of the three input
   modes: 7 bits of each byte, single bytes as chars, or UTF-8. *)
Definition encodes (sg : bool) (F : Z) (cps bs : list Z) : Prop :=
  if bit F VF_7BIT then map (fun b => Z.land b 0x7f) bs = cps
  else if bit F VF_8BIT then map (char_to_u32 sg) bs = cps
  else bs = utf8_text cps /\ Forall (fun cp => 0 <= cp <= 0x10FFFF) cps.

(* -- strings -------------------------------------------------------------- *)
(* A code point that neither ends nor cancels a string. *)
Definition inert (cp : Z) : Prop := 0 <= cp /\ cp <> 0x18 /\ cp <> 0x1a /\ cp <> 0x1b /\ ~ (0x80 <= cp <= 0x9f).
(* DCS, SOS, PM, APC; then ST. Each has a 7-bit and an 8-bit form. *)
Definition skipped_intro (l : list Z) : Prop :=
  In l [[27; 80]; [27; 88]; [27; 94]; [27; 95]; [0x90]; [0x98]; [0x9e]; [0x9f]].
Definition string_end (l : list Z) : Prop := In l [[27; 92]; [0x9c]].
Definition osc_intro (l : list Z) : Prop := In l [[27; 93]; [0x9d]].
Definition osc_stop (l : list Z) : Prop := In l [[7]; [27; 92]; [0x9c]].
(* What is kept of the text of an operating system command: every character
   that can be encoded, is no control and still fits into 127 bytes. *)
Fixpoint osc_keep (acc cps : list Z) : list Z :=
  match cps with
  | [] => acc
  | c :: r => if c <? 32 then osc_keep acc r
              else if 127 <? zlen (acc ++ ucs4_to_utf8 c) then osc_keep acc r
              else osc_keep (acc ++ ucs4_to_utf8 c) r
  end.
(* What a client is told. *)
Definition told_osc (v : vte) (text : list Z) : vte := if v_oscb v then emit v (EOsc text) else v.

(* -- controls and escape sequences as screen calls ------------------------- *)
(* BS, HT, LF, VT, FF, CR and the 8-bit IND, NEL, HTS, RI; lnm is the mode in
   which a line feed also returns to the left. *)
Definition control_calls (lnm : bool) (c : Z) : option (list op) :=
  if c =? 0x08 then Some [OMoveLeft 1]
  else if c =? 0x09 then Some [OTabRight 1]
  else if (0x0a <=? c) && (c <=? 0x0c) then Some [if lnm then ONewline else OMoveDown 1 true]
  else if c =? 0x0d then Some [OLineHome]
  else if c =? 0x84 then Some [OMoveDown 1 true]
  else if c =? 0x85 then Some [ONewline]
  else if c =? 0x88 then Some [OSetTabstop]
  else if c =? 0x8d then Some [OMoveUp 1 true]
  else if (c =? 0) || (c =? 7) || (c =? 0x11) || (c =? 0x13) || (c =? 0x9c) then Some []
  else None.
(* ESC followed by D, E, H, M, \. *)
Definition esc_calls (d : Z) : option (list op) :=
  if d =? 68 then Some [OMoveDown 1 true]
  else if d =? 69 then Some [ONewline]
  else if d =? 72 then Some [OSetTabstop]
  else if d =? 77 then Some [OMoveUp 1 true]
  else if d =? 92 then Some []
  else None.
(* -- shifts and designations ----------------------------------------------- *)
(* Locking shifts SO, SI, LS1R, LS2, LS2R, LS3, LS3R; single shifts SS2, SS3 in
   both forms. *)
Definition shifted (v : vte) (l : list Z) : option vte :=
  match l with
  | [c] =>
    if c =? 0x0e then Some (w_gl v G1) else if c =? 0x0f then Some (w_gl v G0)
    else if c =? 0x8e then Some (w_glt v (Some G2)) else if c =? 0x8f then Some (w_glt v (Some G3)) else None
  | [e; d] =>
    if negb (e =? 27) then None
    else if d =? 110 then Some (w_gl v G2) else if d =? 111 then Some (w_gl v G3)
    else if d =? 126 then Some (w_gr v G1) else if d =? 125 then Some (w_gr v G2) else if d =? 124 then Some (w_gr v G3)
    else if d =? 78 then Some (w_glt v (Some G2)) else if d =? 79 then Some (w_glt v (Some G3)) else None
  | _ => None
  end.
(* ESC ( ) * + and a final character. *)
Definition designated (v : vte) (l : list Z) : option vte :=
  match l with
  | [e; i; f] =>
    match (if negb (e =? 27) then None else if f =? 66 then Some CsLower else if f =? 60 then Some CsDecSupp else if f =? 48 then Some CsDecSpec
           else if existsb (Z.eqb f) [65; 52; 67; 53; 82; 81; 75; 89; 69; 54; 90; 72; 55; 61] then Some CsUpper else None) with
    | Some c => if i =? 40 then Some (w_g0 v c) else if i =? 41 then Some (w_g1 v c)
                else if i =? 42 then Some (w_g2 v c) else if i =? 43 then Some (w_g3 v c) else None
    | None => None
    end
  | _ => None
  end.
