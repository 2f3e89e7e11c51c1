(* What is expected of the pointers to line objects, independently of how they
   are handled. *)
From Verif Require Import Base Screen Own.
From Coq Require Import Permutation.

(* Following next from p passes the objects sb and ends with NULL; following
   prev passes them likewise. *)
Fixpoint forward (h : heap) (p : Z) (sb : list Z) : Prop :=
  match sb with
  | [] => p = 0
  | x :: r => p = x /\ exists o, hget h x = Ok o /\ forward h (o_next o) r
  end.
Fixpoint backward (h : heap) (p : Z) (sb : list Z) : Prop :=
  match sb with
  | [] => p = 0
  | x :: r => p = x /\ exists o, hget h x = Ok o /\ backward h (o_prev o) r
  end.
Definition null_or_in (p : Z) (sb : list Z) : Prop := p = 0 \/ In p sb.

(* The scrollback is the objects sb, oldest first. Every object alive is in
   exactly one place of the two buffers and the scrollback, every pointer there
   is to an object alive; the view and an active selection point into the
   scrollback or nowhere. *)
Record well (w : own) (sb : list Z) : Prop := mkWell {
  wl_pairs : zlen (w_main w) = zlen (w_alt w);
  wl_once : NoDup (w_main w ++ w_alt w ++ sb);
  wl_alive : Permutation (map fst (w_heap w)) (w_main w ++ w_alt w ++ sb);
  wl_null : ~ In 0 (map fst (w_heap w));
  wl_forward : forward (w_heap w) (w_first w) sb;
  wl_backward : backward (w_heap w) (w_last w) (rev sb);
  wl_count : w_count w = zlen sb;
  wl_max : zlen sb <= w_max w < 2 ^ 32;
  wl_view : null_or_in (w_pos w) sb;
  wl_sel : w_sela w = true -> null_or_in (fst (w_sel1 w)) sb /\ null_or_in (fst (w_sel2 w)) sb
}.

(* malloc returns addresses at which no object is. *)
Definition fair (al : allocator) : Prop := forall i h p, al i h = Some p -> 0 < p /\ ~ In p (map fst h).
(* Memory does not run out. *)
Definition plenty (al : allocator) : Prop := forall i h, al i h <> None.
(* Arguments as the screen calls have them: rows within the buffers. *)
Definition in_range (w : own) (o : wop) : Prop :=
  match o with
  | WTouch y => 0 <= y < zlen (w_main w)
  | WUp _ _ mt mb num al => 0 <= mt <= mb /\ mb < zlen (w_main w) /\ 0 <= num /\ fair al
  | WDown mt mb num => 0 <= mt <= mb /\ mb < zlen (w_main w) /\ 0 <= num
  | WIns mb cy num | WDel mb cy num => 0 <= cy <= mb /\ mb < zlen (w_main w) /\ 0 <= num
  | WGrow _ _ al => fair al
  | WMax m => 0 <= m < 2 ^ 32
  | WDraw n => 0 <= n <= zlen (w_main w)
  | _ => True
  end.
Fixpoint proper (w : own) (os : list wop) : Prop :=
  match os with
  | [] => True
  | o :: r => in_range w o /\ forall w', wstep w o = Ok w' -> proper w' r
  end.

(* The youngest m of a list. *)
Definition youngest (m : Z) (l : list Z) : list Z := skipn (length l - Z.to_nat m) l.
(* Rows R are exchanged for rows C: each is either kept or replaced by a new
   object, and the replaced ones G are gone, in their order. *)
Inductive exchanged : list Z -> list Z -> list Z -> Prop :=
  | ex_nil : exchanged [] [] []
  | ex_keep x R C G : exchanged R C G -> exchanged (x :: R) (x :: C) G
  | ex_new x p R C G : exchanged R C G -> exchanged (x :: R) (p :: C) (x :: G).
(* The rows of the active buffer are A, R, B and become A, R', B; the other
   buffer stays. *)
Definition region_becomes (w w' : own) (top n : Z) (P : list Z -> list Z -> Prop) : Prop :=
  exists A R R' B, w_rows w = A ++ R ++ B /\ zlen A = top /\ zlen R = n /\ P R R' /\ w_rows w' = A ++ R' ++ B /\
    w_act w' = w_act w /\ (if w_act w then w_main w' = w_main w else w_alt w' = w_alt w).
Definition buffers_same (w w' : own) : Prop := w_main w' = w_main w /\ w_alt w' = w_alt w /\ w_act w' = w_act w.
(* What becomes of the buffers and the scrollback. *)
Definition handled (w : own) (sb : list Z) (o : wop) (w' : own) (sb' : list Z) : Prop :=
  w_max w' = match o with WMax m => m | _ => w_max w end /\
  match o with
  | WUp alt _ mt mb num al => (* the rows above move into the scrollback and the others up *)
    exists G, region_becomes w w' mt (mb + 1 - mt) (fun R R' =>
        let n := Z.to_nat (Z.min num (mb + 1 - mt)) in
        exists C, exchanged (firstn n R) C G /\ R' = skipn n R ++ C /\ (alt = false -> plenty al -> G = firstn n R)) /\
      (alt = true -> G = []) /\ sb' = youngest (w_max w) (sb ++ G)
  | WDown mt mb num => (* the last rows become the first *)
    region_becomes w w' mt (mb + 1 - mt) (fun R R' =>
        let n := Z.to_nat (mb + 1 - mt - Z.min num (mb + 1 - mt)) in
        exists C, Permutation C (skipn n R) /\ R' = C ++ firstn n R) /\ sb' = sb
  | WIns mb cy num =>
    region_becomes w w' cy (mb + 1 - cy) (fun R R' =>
        let n := Z.to_nat (mb + 1 - cy - Z.min num (mb + 1 - cy)) in
        exists C, Permutation C (skipn n R) /\ R' = C ++ firstn n R) /\ sb' = sb
  | WDel mb cy num => (* the first rows become the last *)
    region_becomes w w' cy (mb + 1 - cy) (fun R R' =>
        let n := Z.to_nat (Z.min num (mb + 1 - cy)) in
        R' = skipn n R ++ firstn n R) /\ sb' = sb
  | WGrow y arrays al => exists ms als, w_main w' = w_main w ++ ms /\ w_alt w' = w_alt w ++ als /\ w_act w' = w_act w /\
      zlen (w_main w') <= Z.max y (zlen (w_main w)) /\
      (arrays = true -> plenty al -> zlen (w_main w') = Z.max y (zlen (w_main w))) /\ sb' = sb
  | WAct b => w_main w' = w_main w /\ w_alt w' = w_alt w /\ w_act w' = b /\ sb' = sb
  | WMax m => buffers_same w w' /\ sb' = youngest m sb
  | WClear => buffers_same w w' /\ sb' = []
  | _ => buffers_same w w' /\ sb' = sb
  end.
