(* Model of the UTF-8 encoder and decoder in /repo/src/tsm/tsm-unicode.c. *)
From Verif Require Import Base.

(* tsm-unicode.c:361-392 tsm_ucs4_to_utf8: the bytes written to txt (as
   unsigned values); the returned length is the length of the list. *)
Definition ucs4_to_utf8 (g : Z) : list Z :=
  if (0xd800 <=? g) && (g <=? 0xdfff) then []
  else if (0x10ffff <? g) || (Z.land g 0xffff =? 0xffff) || (Z.land g 0xffff =? 0xfffe) then []
  else if (0xfdd0 <=? g) && (g <=? 0xfdef) then []
  else if g <? Z.shiftl 1 7 then [Z.land g 0x7f]
  else if g <? Z.shiftl 1 (5 + 6) then
    [ Z.lor 0xc0 (Z.land (Z.shiftr g 6) 0x1f);
      Z.lor 0x80 (Z.land g 0x3f) ]
  else if g <? Z.shiftl 1 (4 + 6 + 6) then
    [ Z.lor 0xe0 (Z.land (Z.shiftr g 12) 0x0f);
      Z.lor 0x80 (Z.land (Z.shiftr g 6) 0x3f);
      Z.lor 0x80 (Z.land g 0x3f) ]
  else if g <? Z.shiftl 1 (3 + 6 + 6 + 6) then
    [ Z.lor 0xf0 (Z.land (Z.shiftr g 18) 0x07);
      Z.lor 0x80 (Z.land (Z.shiftr g 12) 0x3f);
      Z.lor 0x80 (Z.land (Z.shiftr g 6) 0x3f);
      Z.lor 0x80 (Z.land g 0x3f) ]
  else [].

(* tsm-unicode.c:405-406, the copy loop of tsm_ucs4_to_utf8_alloc writing into
   a buffer of cap bytes; writing past it is undefined. *)
Fixpoint utf8_alloc_loop (cap : Z) (ucs4 : list Z) (buf : list Z) : res (list Z) :=
  match ucs4 with
  | [] => Ok buf
  | c :: cs =>
    let b := ucs4_to_utf8 c in
    if zlen buf + zlen b <=? cap then utf8_alloc_loop cap cs (buf ++ b) else Ub
  end.

(* tsm-unicode.c:394-416 tsm_ucs4_to_utf8_alloc: buffer of 4*len bytes; None is
   the NULL return for an empty result. Allocation is assumed to succeed. *)
Definition ucs4_to_utf8_alloc (ucs4 : list Z) : res (option (list Z)) :=
  do buf <- utf8_alloc_loop (4 * zlen ucs4) ucs4 [];
  Ok (match buf with [] => None | _ => Some buf end).

(* libtsm-int.h:64-71 enum tsm_utf8_mach_state. *)
Inductive ustate := UStart | UAccept | UReject | UExpect1 | UExpect2 | UExpect3.

(* tsm-unicode.c:466-469 struct tsm_utf8_mach. *)
Record umach := mkU { u_state : ustate; u_ch : Z }.

(* tsm-unicode.c:471-487 tsm_utf8_mach_new. *)
Definition umach_new : umach := mkU UStart 0.

(* tsm-unicode.c:574-580 tsm_utf8_mach_reset. *)
Definition umach_reset (m : umach) : umach := mkU UStart (u_ch m).

(* tsm-unicode.c:504  c = ci: conversion of a char to uint32_t; with a signed
   char (x86-64) bytes from 0x80 on are sign-extended. sg = char is signed. *)
Definition char_to_u32 (sg : bool) (b : Z) : Z :=
  if sg && (128 <=? b) then u32 (b - 256) else b.

(* tsm-unicode.c:497-564 tsm_utf8_mach_feed; the default case of the switch
   (line 558) has no counterpart because ustate has only the six values. *)
Definition umach_feed (sg : bool) (m : umach) (b : Z) : umach :=
  let c := char_to_u32 sg b in
  match u_state m with
  | UStart | UAccept | UReject =>
    if (c =? 0xC0) || (c =? 0xC1) then mkU UReject (u_ch m)
    else if Z.land c 0x80 =? 0 then mkU UAccept c
    else if Z.land c 0xC0 =? 0x80 then mkU UStart (u_ch m)
    else if Z.land c 0xE0 =? 0xC0 then mkU UExpect1 (Z.shiftl (Z.land c 0x1F) 6)
    else if Z.land c 0xF0 =? 0xE0 then mkU UExpect2 (Z.shiftl (Z.land c 0x0F) 12)
    else if Z.land c 0xF8 =? 0xF0 then mkU UExpect3 (Z.shiftl (Z.land c 0x07) 18)
    else mkU UReject (u_ch m)
  | UExpect3 =>
    mkU (if Z.land c 0xC0 =? 0x80 then UExpect2 else UReject)
        (Z.lor (u_ch m) (Z.shiftl (Z.land c 0x3F) 12))
  | UExpect2 =>
    mkU (if Z.land c 0xC0 =? 0x80 then UExpect1 else UReject)
        (Z.lor (u_ch m) (Z.shiftl (Z.land c 0x3F) 6))
  | UExpect1 =>
    mkU (if Z.land c 0xC0 =? 0x80 then UAccept else UReject)
        (Z.lor (u_ch m) (Z.land c 0x3F))
  end.

(* tsm-unicode.c:566-572 tsm_utf8_mach_get. *)
Definition umach_get (m : umach) : Z :=
  match u_state m with UAccept => u_ch m | _ => 0xfffd end.

(* How the decoder is driven, tsm-vte.c:2527-2532 (tsm_vte_input): a code point
   is taken after a byte iff the new state is ACCEPT or REJECT. *)
Definition umach_out (m : umach) : option Z :=
  match u_state m with
  | UAccept | UReject => Some (umach_get m)
  | _ => None
  end.

(* tsm-vte.c:2518-2534, the byte loop of tsm_vte_input seen from the decoder:
   per byte, the code point reported after it (if any). *)
Fixpoint umach_run (sg : bool) (m : umach) (bs : list Z) : umach * list (option Z) :=
  match bs with
  | [] => (m, [])
  | b :: bs' =>
    let m1 := umach_feed sg m b in
    let '(m2, os) := umach_run sg m1 bs' in (m2, umach_out m1 :: os)
  end.

(* The code points reported for a byte string (tsm-vte.c:2518-2534). *)
Fixpoint somes {A} (l : list (option A)) : list A :=
  match l with [] => [] | Some x :: r => x :: somes r | None :: r => somes r end.
Definition umach_decode (sg : bool) (m : umach) (bs : list Z) : list Z :=
  somes (snd (umach_run sg m bs)).
