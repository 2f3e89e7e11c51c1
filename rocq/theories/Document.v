(* Specification for C54: a document, which is text, line controls and changes
   of rendition, and what it looks like typed on a page (Paper.v). *)
From Verif Require Import Base Screen ScreenSpec VteData Vte VteSpec VteInv VteSafe VteView VteFx Paper.

Inductive token :=
| TChar (cp : Z)            (* a graphic character or a line control *)
| TStyle (P : list Z).      (* CSI P m *)
(* BS, LF, VT, FF, CR, IND, NEL. *)
Definition line_control (cp : Z) : Prop := In cp [8; 10; 11; 12; 13; 0x84; 0x85].
Definition token_ok (t : token) : Prop :=
  match t with
  | TChar cp => graphic cp \/ line_control cp
  | TStyle P => Forall pchar P /\ ~ sgr_overrun P
  end.
(* The bytes of a document in the encoding of the terminal. *)
Fixpoint delivered (sg : bool) (F : Z) (ts : list token) (bs : list Z) : Prop :=
  match ts with
  | [] => bs = []
  | TChar cp :: r => exists b1 b2, bs = b1 ++ b2 /\ encodes sg F [cp] b1 /\ delivered sg F r b2
  | TStyle P :: r => exists b2, bs = csi_bytes [] P 109 ++ b2 /\ delivered sg F r b2
  end.
(* A character typed with attributes a; lnm: line feeds also return. *)
Definition char_item (lnm : bool) (a : attr) (cp : Z) : item :=
  if cp =? 8 then IBack
  else if (10 <=? cp) && (cp <=? 12) then if lnm then INewline else ILineFeed
  else if cp =? 13 then IReturn
  else if cp =? 0x84 then ILineFeed
  else if cp =? 0x85 then INewline
  else IChar cp a.
(* The document as typed: a is the rendition in force, def the default one, pal
   the palette; bce: a new rendition also colours the paper to come. *)
Fixpoint document (pal : palette) (def : attr) (lnm bce : bool) (a : attr) (ts : list token) : list item :=
  match ts with
  | [] => []
  | TChar cp :: r => char_item lnm (resolve pal a) cp :: document pal def lnm bce a r
  | TStyle P :: r =>
      let a' := sgr_list def (sgr_params (args P)) a in
      (if bce then [IPaint (resolve pal a')] else []) ++ document pal def lnm bce a' r
  end.
