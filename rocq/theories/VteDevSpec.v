(* What keys and mouse events have to send: rules written down from the
   documents the source cites (VT220 and xterm key codes, xterm mouse reports),
   independent of the model's tables. Only data of the model is used. *)
From Verif Require Import Base Utf8Spec Screen VteData Vte VteSpec.

(* -- keyboard ------------------------------------------------------------- *)
(* Control with an ASCII key: letters and [ \ ] { | } keep their low five bits;
   2..8, space, grave, tilde, slash and question mark follow the VT220 table. *)
Definition ctrl_code (sym : Z) : option Z :=
  if ((0x41 <=? sym) && (sym <=? 0x5d)) || ((0x61 <=? sym) && (sym <=? 0x7d) && negb (sym =? 0x60))
  then Some (Z.land sym 31)
  else if (0x33 <=? sym) && (sym <=? 0x37) then Some (sym - 24)
  else if (sym =? 0x32) || (sym =? 0x20) then Some 0
  else if (sym =? 0x60) || (sym =? 0x7e) then Some 30
  else if (sym =? 0x2f) || (sym =? 0x3f) then Some 31
  else if sym =? 0x38 then Some 127 else None.

(* The keys that are not characters (numbers of xkbcommon-keysyms.h). *)
Inductive keykind :=
| KBytes (bs : list Z)          (* always these bytes *)
| KBackspace
| KReturn (pad : bool)          (* Return, or Enter on the keypad *)
| KEdit (n : Z)                 (* Find Insert Delete Select PageUp PageDown: 1..6 *)
| KArrow (letter : Z)
| KEnds (letter : Z)            (* Home, End *)
| KPad (application numeric : Z)
| KFn (n : Z).                  (* F1..F20 *)
Definition from_to (a b x : Z) : bool := (a <=? x) && (x <=? b).
Definition key_kind (sym : Z) : option keykind :=
  if sym =? 0xff08 then Some KBackspace
  else if (sym =? 0xff09) || (sym =? 0xff89) then Some (KBytes [9])
  else if sym =? 0xfe20 then Some (KBytes [27; 91; 90])
  else if (sym =? 0xff0a) || (sym =? 0xff0b) || (sym =? 0xff15) || (sym =? 0xff1b)
       then Some (KBytes [sym - 0xff00])
  else if sym =? 0xff8d then Some (KReturn true)
  else if sym =? 0xff0d then Some (KReturn false)
  else if sym =? 0xff68 then Some (KEdit 1)
  else if sym =? 0xff63 then Some (KEdit 2)
  else if sym =? 0xffff then Some (KEdit 3)
  else if sym =? 0xff60 then Some (KEdit 4)
  else if (sym =? 0xff55) || (sym =? 0xff9a) then Some (KEdit 5)
  else if (sym =? 0xff56) || (sym =? 0xff9b) then Some (KEdit 6)
  else if (sym =? 0xff52) || (sym =? 0xff97) then Some (KArrow 65)
  else if (sym =? 0xff54) || (sym =? 0xff99) then Some (KArrow 66)
  else if (sym =? 0xff53) || (sym =? 0xff98) then Some (KArrow 67)
  else if (sym =? 0xff51) || (sym =? 0xff96) then Some (KArrow 68)
  else if (sym =? 0xff50) || (sym =? 0xff95) then Some (KEnds 72)
  else if (sym =? 0xff57) || (sym =? 0xff9c) then Some (KEnds 70)
  else if sym =? 0xff80 then Some (KBytes [32])
  else if from_to 0xffb0 0xffb9 sym then Some (KPad (112 + (sym - 0xffb0)) (48 + (sym - 0xffb0)))
  else if sym =? 0xff9e then Some (KPad 112 48)
  else if sym =? 0xff9f then Some (KPad 110 46)
  (* star + , - . and slash send themselves or the letter 64 above; = sends X *)
  else if from_to 0xffaa 0xffaf sym then Some (KPad (sym - 0xff80 + 64) (sym - 0xff80))
  else if sym =? 0xffbd then Some (KPad 88 61)
  else if from_to 0xffbe 0xffd1 sym then Some (KFn (sym - 0xffbd))
  else if from_to 0xff91 0xff94 sym then Some (KFn (sym - 0xff90))
  else None.

Definition two (n : Z) : list Z := [48 + n / 10; 48 + n mod 10].
(* VT220 function key numbers: the gaps at 16, 22, 27, 30 are historical. *)
Definition fn_code (n : Z) : Z :=
  n + (if n <=? 5 then 10 else if n <=? 10 then 11 else if n <=? 14 then 12 else if n <=? 16 then 13 else 14).
Definition key_seq (bsd keypad cursor lnm shift ctrl : bool) (k : keykind) : list Z :=
  match k with
  | KBytes bs => bs
  | KBackspace => if bsd then [127] else [8]
  | KReturn pad => if pad && keypad then [27; 79; 77] else 13 :: (if lnm then [10] else [])
  | KEdit n => [27; 91; 48 + n; 126]
  | KArrow l => if ctrl then [27; 91; 49; 59; 53; l] else [27; (if cursor then 79 else 91); l]
  | KEnds l => [27; (if cursor then 79 else 91); l]
  | KPad a n => if keypad then [27; 79; a] else [n]
  | KFn n =>
    if shift then
      if n <=? 10 then [27; 91] ++ two (fn_code (n + 10)) ++ [126]
      else [27; 91] ++ two (fn_code n) ++ [59; 50; 126]
    else if n <=? 4 then [27; 79; 79 + n] else [27; 91] ++ two (fn_code n) ++ [126]
  end.
(* A character: UTF-8, or one byte in the 8-bit and 7-bit modes, '?' standing for
   what does not fit. *)
Definition char_seq (seven eight : bool) (u : Z) : list Z :=
  if seven then [if u <? 128 then u else 63]
  else if eight then [if u <? 256 then u else 63]
  else utf8 u.

(* What a key sends; None: the key is not one of the terminal's. *)
Definition key_sends (v : vte) (keysym ascii mods unicode : Z) : option (list Z) :=
  let shift := Z.testbit mods 0 in
  let ctrl := Z.testbit mods 2 in
  match (if ctrl then ctrl_code (if ascii =? 0 then keysym else ascii) else None) with
  | Some c => Some [c]
  | None =>
    match key_kind keysym with
    | Some k => Some (key_seq (v_bsd v) (vfl v VF_KEYPAD_APP) (vfl v VF_CURSOR_KEY) (vfl v VF_LNM) shift ctrl k)
    | None => if unicode =? 0xffffffff then None else Some (char_seq (vfl v VF_7BIT) (vfl v VF_8BIT) unicode)
    end
  end.
(* A character that keys can produce: a Unicode scalar value that is not one of
   the noncharacters; in 7-bit mode below 256. *)
Definition typable (v : vte) (u : Z) : Prop :=
  u = 0xffffffff \/
  (0 <= u /\ if vfl v VF_7BIT then u < 256 else if vfl v VF_8BIT then u < 2 ^ 32 else scalar u /\ ~ nonchar u).

(* -- mouse ---------------------------------------------------------------- *)
(* Is an event of this kind asked for? *)
Definition mouse_asked (v : vte) (moved : bool) : Prop :=
  if v_mmode v =? 9 then moved = false
  else (v_mmode v = 1006 \/ v_mmode v = 1016) /\ v_mev v <> 0 /\ (moved = true -> v_mev v = 1003).
(* Buttons and modifiers of the client (libtsm.h:385-394) and on the wire. *)
Definition button_ok (b : Z) : Prop := 0 <= b <= 5.
Definition modifiers_ok (m : Z) : Prop := 0 <= m < 32 /\ m mod 4 = 0.
Definition wire_button (b : Z) : Z := if b =? 4 then 64 else if b =? 5 then 65 else b.
(* A client reading ESC [ < code ; x ; y M or m: code, column, row, pressed. *)
Definition read_report (r : list Z) : option (Z * Z * Z * bool) :=
  match r with
  | 27 :: 91 :: 60 :: body =>
    match split (removelast body) with
    | [c; x; y] => if (last body 0 =? 77) || (last body 0 =? 109) then Some (dval c, dval x, dval y, last body 0 =? 77) else None
    | _ => None
    end
  | _ => None
  end.
