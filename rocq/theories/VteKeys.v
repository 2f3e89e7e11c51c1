(* Model of the keyboard and mouse part of /repo/src/tsm/tsm-vte.c and of a whole
   terminal session. *)
From Verif Require Import Base Utf8 Symbol Screen VteData Vte.

(* tsm-vte.c:682-711 vte_write_debug called from outside tsm_vte_input
   (parse_cnt is 0). sg = char is signed. *)
Definition vte_write (sg : bool) (v : vte) (bs : list Z) : res vte :=
  do v1 <- (if vfl v VF_SRM then Ok v
            else
              do v0 <- (if vfl v VF_PREPEND then vte_input sg v [27] else Ok v);
              vte_input sg v0 bs);
  Ok (vte_send v1 bs).

(* tsm-vte.c:2582-2719: bytes sent for a key pressed with Control, if any. *)
Definition key_ctrl (sym : Z) : option (list Z) :=
  if (sym =? 0x0032) (* 2 *) || (sym =? 0x0020) (* space *) then Some [0] else
  if (sym =? 0x0061) (* a *) || (sym =? 0x0041) (* A *) then Some [1] else
  if (sym =? 0x0062) (* b *) || (sym =? 0x0042) (* B *) then Some [2] else
  if (sym =? 0x0063) (* c *) || (sym =? 0x0043) (* C *) then Some [3] else
  if (sym =? 0x0064) (* d *) || (sym =? 0x0044) (* D *) then Some [4] else
  if (sym =? 0x0065) (* e *) || (sym =? 0x0045) (* E *) then Some [5] else
  if (sym =? 0x0066) (* f *) || (sym =? 0x0046) (* F *) then Some [6] else
  if (sym =? 0x0067) (* g *) || (sym =? 0x0047) (* G *) then Some [7] else
  if (sym =? 0x0068) (* h *) || (sym =? 0x0048) (* H *) then Some [8] else
  if (sym =? 0x0069) (* i *) || (sym =? 0x0049) (* I *) then Some [9] else
  if (sym =? 0x006a) (* j *) || (sym =? 0x004a) (* J *) then Some [10] else
  if (sym =? 0x006b) (* k *) || (sym =? 0x004b) (* K *) then Some [11] else
  if (sym =? 0x006c) (* l *) || (sym =? 0x004c) (* L *) then Some [12] else
  if (sym =? 0x006d) (* m *) || (sym =? 0x004d) (* M *) then Some [13] else
  if (sym =? 0x006e) (* n *) || (sym =? 0x004e) (* N *) then Some [14] else
  if (sym =? 0x006f) (* o *) || (sym =? 0x004f) (* O *) then Some [15] else
  if (sym =? 0x0070) (* p *) || (sym =? 0x0050) (* P *) then Some [16] else
  if (sym =? 0x0071) (* q *) || (sym =? 0x0051) (* Q *) then Some [17] else
  if (sym =? 0x0072) (* r *) || (sym =? 0x0052) (* R *) then Some [18] else
  if (sym =? 0x0073) (* s *) || (sym =? 0x0053) (* S *) then Some [19] else
  if (sym =? 0x0074) (* t *) || (sym =? 0x0054) (* T *) then Some [20] else
  if (sym =? 0x0075) (* u *) || (sym =? 0x0055) (* U *) then Some [21] else
  if (sym =? 0x0076) (* v *) || (sym =? 0x0056) (* V *) then Some [22] else
  if (sym =? 0x0077) (* w *) || (sym =? 0x0057) (* W *) then Some [23] else
  if (sym =? 0x0078) (* x *) || (sym =? 0x0058) (* X *) then Some [24] else
  if (sym =? 0x0079) (* y *) || (sym =? 0x0059) (* Y *) then Some [25] else
  if (sym =? 0x007a) (* z *) || (sym =? 0x005a) (* Z *) then Some [26] else
  if (sym =? 0x0033) (* 3 *) || (sym =? 0x005b) (* bracketleft *) || (sym =? 0x007b) (* braceleft *) then Some [27] else
  if (sym =? 0x0034) (* 4 *) || (sym =? 0x005c) (* backslash *) || (sym =? 0x007c) (* bar *) then Some [28] else
  if (sym =? 0x0035) (* 5 *) || (sym =? 0x005d) (* bracketright *) || (sym =? 0x007d) (* braceright *) then Some [29] else
  if (sym =? 0x0036) (* 6 *) || (sym =? 0x0060) (* grave *) || (sym =? 0x007e) (* asciitilde *) then Some [30] else
  if (sym =? 0x0037) (* 7 *) || (sym =? 0x002f) (* slash *) || (sym =? 0x003f) (* question *) then Some [31] else
  if (sym =? 0x0038) (* 8 *) then Some [127] else
  None.

(* tsm-vte.c:2722-3092: bytes sent for a special key, if any; the flags are
   backspace_sends_delete, the three keyboard modes and the modifiers. *)
Definition key_special (bsd keypad cursor lnm shift ctrl : bool) (sym : Z) : option (list Z) :=
  if (sym =? 0xff08) (* BackSpace *) then Some (if bsd then [127] else [8]) else
  if (sym =? 0xff09) (* Tab *) || (sym =? 0xff89) (* KP_Tab *) then Some [9] else
  if (sym =? 0xfe20) (* ISO_Left_Tab *) then Some [27; 91; 90] else
  if (sym =? 0xff0a) (* Linefeed *) then Some [10] else
  if (sym =? 0xff0b) (* Clear *) then Some [11] else
  if (sym =? 0xff15) (* Sys_Req *) then Some [21] else
  if (sym =? 0xff1b) (* Escape *) then Some [27] else
  if (sym =? 0xff8d) (* KP_Enter *) then Some (if keypad then [27; 79; 77] else (if lnm then [13; 10] else [13])) else
  if (sym =? 0xff0d) (* Return *) then Some (if lnm then [13; 10] else [13]) else
  if (sym =? 0xff68) (* Find *) then Some [27; 91; 49; 126] else
  if (sym =? 0xff63) (* Insert *) then Some [27; 91; 50; 126] else
  if (sym =? 0xffff) (* Delete *) then Some [27; 91; 51; 126] else
  if (sym =? 0xff60) (* Select *) then Some [27; 91; 52; 126] else
  if (sym =? 0xff55) (* Page_Up *) || (sym =? 0xff9a) (* KP_Page_Up *) then Some [27; 91; 53; 126] else
  if (sym =? 0xff9b) (* KP_Page_Down *) || (sym =? 0xff56) (* Page_Down *) then Some [27; 91; 54; 126] else
  if (sym =? 0xff52) (* Up *) || (sym =? 0xff97) (* KP_Up *) then Some (if ctrl then [27; 91; 49; 59; 53; 65] else if cursor then [27; 79; 65] else [27; 91; 65]) else
  if (sym =? 0xff54) (* Down *) || (sym =? 0xff99) (* KP_Down *) then Some (if ctrl then [27; 91; 49; 59; 53; 66] else if cursor then [27; 79; 66] else [27; 91; 66]) else
  if (sym =? 0xff53) (* Right *) || (sym =? 0xff98) (* KP_Right *) then Some (if ctrl then [27; 91; 49; 59; 53; 67] else if cursor then [27; 79; 67] else [27; 91; 67]) else
  if (sym =? 0xff51) (* Left *) || (sym =? 0xff96) (* KP_Left *) then Some (if ctrl then [27; 91; 49; 59; 53; 68] else if cursor then [27; 79; 68] else [27; 91; 68]) else
  if (sym =? 0xff9e) (* KP_Insert *) || (sym =? 0xffb0) (* KP_0 *) then Some (if keypad then [27; 79; 112] else [48]) else
  if (sym =? 0xffb1) (* KP_1 *) then Some (if keypad then [27; 79; 113] else [49]) else
  if (sym =? 0xffb2) (* KP_2 *) then Some (if keypad then [27; 79; 114] else [50]) else
  if (sym =? 0xffb3) (* KP_3 *) then Some (if keypad then [27; 79; 115] else [51]) else
  if (sym =? 0xffb4) (* KP_4 *) then Some (if keypad then [27; 79; 116] else [52]) else
  if (sym =? 0xffb5) (* KP_5 *) then Some (if keypad then [27; 79; 117] else [53]) else
  if (sym =? 0xffb6) (* KP_6 *) then Some (if keypad then [27; 79; 118] else [54]) else
  if (sym =? 0xffb7) (* KP_7 *) then Some (if keypad then [27; 79; 119] else [55]) else
  if (sym =? 0xffb8) (* KP_8 *) then Some (if keypad then [27; 79; 120] else [56]) else
  if (sym =? 0xffb9) (* KP_9 *) then Some (if keypad then [27; 79; 121] else [57]) else
  if (sym =? 0xffad) (* KP_Subtract *) then Some (if keypad then [27; 79; 109] else [45]) else
  if (sym =? 0xffac) (* KP_Separator *) then Some (if keypad then [27; 79; 108] else [44]) else
  if (sym =? 0xff9f) (* KP_Delete *) || (sym =? 0xffae) (* KP_Decimal *) then Some (if keypad then [27; 79; 110] else [46]) else
  if (sym =? 0xffbd) (* KP_Equal *) || (sym =? 0xffaf) (* KP_Divide *) then Some (if keypad then [27; 79; 106] else [47]) else
  if (sym =? 0xffaa) (* KP_Multiply *) then Some (if keypad then [27; 79; 111] else [42]) else
  if (sym =? 0xffab) (* KP_Add *) then Some (if keypad then [27; 79; 107] else [43]) else
  if (sym =? 0xff50) (* Home *) || (sym =? 0xff95) (* KP_Home *) then Some (if cursor then [27; 79; 72] else [27; 91; 72]) else
  if (sym =? 0xff57) (* End *) || (sym =? 0xff9c) (* KP_End *) then Some (if cursor then [27; 79; 70] else [27; 91; 70]) else
  if (sym =? 0xff80) (* KP_Space *) then Some [32] else
  if (sym =? 0xffbe) (* F1 *) || (sym =? 0xff91) (* KP_F1 *) then Some (if shift then [27; 91; 50; 51; 126] else [27; 79; 80]) else
  if (sym =? 0xffbf) (* F2 *) || (sym =? 0xff92) (* KP_F2 *) then Some (if shift then [27; 91; 50; 52; 126] else [27; 79; 81]) else
  if (sym =? 0xffc0) (* F3 *) || (sym =? 0xff93) (* KP_F3 *) then Some (if shift then [27; 91; 50; 53; 126] else [27; 79; 82]) else
  if (sym =? 0xffc1) (* F4 *) || (sym =? 0xff94) (* KP_F4 *) then Some (if shift then [27; 91; 50; 54; 126] else [27; 79; 83]) else
  if (sym =? 0xffc2) (* F5 *) then Some (if shift then [27; 91; 50; 56; 126] else [27; 91; 49; 53; 126]) else
  if (sym =? 0xffc3) (* F6 *) then Some (if shift then [27; 91; 50; 57; 126] else [27; 91; 49; 55; 126]) else
  if (sym =? 0xffc4) (* F7 *) then Some (if shift then [27; 91; 51; 49; 126] else [27; 91; 49; 56; 126]) else
  if (sym =? 0xffc5) (* F8 *) then Some (if shift then [27; 91; 51; 50; 126] else [27; 91; 49; 57; 126]) else
  if (sym =? 0xffc6) (* F9 *) then Some (if shift then [27; 91; 51; 51; 126] else [27; 91; 50; 48; 126]) else
  if (sym =? 0xffc7) (* F10 *) then Some (if shift then [27; 91; 51; 52; 126] else [27; 91; 50; 49; 126]) else
  if (sym =? 0xffc8) (* F11 *) then Some (if shift then [27; 91; 50; 51; 59; 50; 126] else [27; 91; 50; 51; 126]) else
  if (sym =? 0xffc9) (* F12 *) then Some (if shift then [27; 91; 50; 52; 59; 50; 126] else [27; 91; 50; 52; 126]) else
  if (sym =? 0xffca) (* F13 *) then Some (if shift then [27; 91; 50; 53; 59; 50; 126] else [27; 91; 50; 53; 126]) else
  if (sym =? 0xffcb) (* F14 *) then Some (if shift then [27; 91; 50; 54; 59; 50; 126] else [27; 91; 50; 54; 126]) else
  if (sym =? 0xffcc) (* F15 *) then Some (if shift then [27; 91; 50; 56; 59; 50; 126] else [27; 91; 50; 56; 126]) else
  if (sym =? 0xffcd) (* F16 *) then Some (if shift then [27; 91; 50; 57; 59; 50; 126] else [27; 91; 50; 57; 126]) else
  if (sym =? 0xffce) (* F17 *) then Some (if shift then [27; 91; 51; 49; 59; 50; 126] else [27; 91; 51; 49; 126]) else
  if (sym =? 0xffcf) (* F18 *) then Some (if shift then [27; 91; 51; 50; 59; 50; 126] else [27; 91; 51; 50; 126]) else
  if (sym =? 0xffd0) (* F19 *) then Some (if shift then [27; 91; 51; 51; 59; 50; 126] else [27; 91; 51; 51; 126]) else
  if (sym =? 0xffd1) (* F20 *) then Some (if shift then [27; 91; 51; 52; 59; 50; 126] else [27; 91; 51; 52; 126]) else
  None.

(* libtsm.h:311-317 modifiers, as bit numbers; libtsm.h:319 TSM_VTE_INVALID. *)
Definition M_SHIFT : Z := 0.
Definition M_CONTROL : Z := 2.
Definition M_ALT : Z := 3.
Definition VTE_INVALID : Z := 0xffffffff.

(* tsm-vte.c:3094-3116: bytes sent for a character; val = unicode is a conversion
   to char. *)
Definition key_char (seven eight : bool) (unicode : Z) : list Z :=
  if seven then [if bit unicode 7 then 63 else u8 unicode]
  else if eight then [if 0xff <? unicode then 63 else u8 unicode]
  else ucs4_to_utf8 (symbol_make unicode).

(* tsm-vte.c:2581-3116: what is sent for a key, if anything. *)
Definition key_bytes (v : vte) (keysym ascii mods unicode : Z) : option (list Z) :=
  let sym := if ascii =? 0 then keysym else ascii in
  match (if bit mods M_CONTROL then key_ctrl sym else None) with
  | Some bs => Some bs
  | None =>
    match key_special (v_bsd v) (vfl v VF_KEYPAD_APP) (vfl v VF_CURSOR_KEY) (vfl v VF_LNM)
                      (bit mods M_SHIFT) (bit mods M_CONTROL) keysym with
    | Some bs => Some bs
    | None =>
      if unicode =? VTE_INVALID then None
      else Some (key_char (vfl v VF_7BIT) (vfl v VF_8BIT) unicode)
    end
  end.

(* tsm-vte.c:2544-3120 tsm_vte_handle_keyboard: new state and return value. *)
Definition vte_key (sg : bool) (v0 : vte) (keysym ascii mods unicode : Z) : res (vte * bool) :=
  let v := if bit mods M_ALT then set_reset v0 true VF_PREPEND else v0 in
  match key_bytes v keysym ascii mods unicode with
  | Some bs => do v1 <- vte_write sg v bs; Ok (v1, true)
  | None => Ok (set_reset v false VF_PREPEND, false)
  end.

(* printf("%d") of an unsigned argument (tsm-vte.c:3188, 3198). *)
Definition dec_i (n : Z) : list Z := let i := i32 n in if i <? 0 then 45 :: dec (- i) else dec i.
(* strlen: the bytes before the first NUL (tsm-vte.c:3173, 3190, 3200). *)
Fixpoint cstr (bs : list Z) : list Z :=
  match bs with [] => [] | b :: r => if b =? 0 then [] else b :: cstr r end.
(* What snprintf leaves in the buffer of 24 bytes and strlen then finds. *)
Definition buf24 (bs : list Z) : list Z := cstr (firstn 23 bs).

(* libtsm.h:385-399. *)
Definition BTN_WHEEL_UP : Z := 4.
Definition BTN_WHEEL_DOWN : Z := 5.
Definition EV_PRESSED : Z := 0.  (* bit numbers *)
Definition EV_RELEASED : Z := 1.
Definition EV_MOVED : Z := 2.

(* tsm-vte.c:3188 and 3198: ESC [ < flags ; x ; y M or m. *)
Definition sgr_report (fl x y : Z) (pressed : bool) : list Z :=
  buf24 ([27; 91; 60] ++ dec fl ++ [59] ++ dec_i x ++ [59] ++ dec_i y ++ [if pressed then 77 else 109]).

(* tsm-vte.c:3122-3205 tsm_vte_handle_mouse. *)
Definition vte_mouse (sg : bool) (v : vte) (cx cy px py button event modifiers : Z) : res (vte * bool) :=
  let mode := v_mmode v in
  let pressed := bit event EV_PRESSED in
  let moved := bit event EV_MOVED in
  if ((mode =? MOUSE_X10) || negb (v_mev v =? MOUSE_ANY)) && moved then Ok (v, false)
  else if mode =? MOUSE_X10 then
    let x0 := u32 (cx + 0x21) in
    let y0 := u32 (cy + 0x21) in
    let x := if 0xff <? x0 then 0xff else x0 in
    let y := if 0xff <? y0 then 0xff else y0 in
    let b := if bit event EV_RELEASED then 3 else button in
    let fl := u8 (u32 (Z.lor b modifiers + 0x20)) in
    do v1 <- vte_write sg v (buf24 [27; 91; 77; fl; x; y]);
    Ok (v1, true)
  else
    let b := if button =? BTN_WHEEL_UP then 64 else if button =? BTN_WHEEL_DOWN then 65 else button in
    let fl := u8 (Z.lor b modifiers) in
    if (mode =? MOUSE_SGR) && negb (v_mev v =? 0) then
      let x := u32 (cx + 1) in
      let y := u32 (cy + 1) in
      if moved && (x =? v_mcol v) && (y =? v_mrow v) then Ok (v, false)
      else
        let v1 := if moved then w_mrow (w_mcol v x) y else v in
        do v2 <- vte_write sg v1 (sgr_report (if moved then 35 else fl) x y (moved || pressed));
        Ok (v2, true)
    else if (mode =? MOUSE_PIXEL) && negb (v_mev v =? 0) then
      let only := event =? 4 in
      do v1 <- vte_write sg v (sgr_report (if only then 35 else fl) px py (only || pressed));
      Ok (v1, true)
    else Ok (v, false).

(* The API of libtsm.h:416-520 as one operation type: input, keys, mouse, resets,
   settings, and direct calls of screen functions by the client. *)
Inductive vop :=
| VInput (bs : list Z)
| VKey (keysym ascii mods unicode : Z)
| VMouse (cx cy px py button event modifiers : Z)
| VReset
| VHardReset
| VSetPalette (n : palname)
| VSetCustom (p : option palette)
| VSetOscCb (b : bool)
| VSetMouseCb (b : bool)
| VBackspaceDelete (b : bool)
| VScreen (o : op).

(* tsm-vte.c:534-552, 2538-2542 for the setters; other lines as cited above. *)
Definition vstep (sg : bool) (v : vte) (o : vop) : res vte :=
  match o with
  | VInput bs => vte_input sg v bs
  | VKey k a m u => do x <- vte_key sg v k a m u; Ok (fst x)
  | VMouse cx cy px py b e m => do x <- vte_mouse sg v cx cy px py b e m; Ok (fst x)
  | VReset => vte_reset v
  | VHardReset => vte_hard_reset v
  | VSetPalette n => vte_set_palette v n
  | VSetCustom p => vte_set_custom v p
  | VSetOscCb b => Ok (w_oscb v b)
  | VSetMouseCb b => Ok (w_mcb v b)
  | VBackspaceDelete b => Ok (w_bsd v b)
  | VScreen o => scr v o
  end.

(* A session: the calls one after the other. *)
Fixpoint vrun (sg : bool) (v : vte) (ops : list vop) : res vte :=
  match ops with
  | [] => Ok v
  | o :: r => do v1 <- vstep sg v o; vrun sg v1 r
  end.
