(* What is expected of lifetimes, independently of how they are managed: a
   client holds references; what it can still reach is alive and nothing else
   is. *)
From Verif Require Import Base Life.
From Coq Require Import Permutation.

(* The pointers in a block. *)
Definition ptrs (o : obj) : list Z :=
  match o with
  | Bytes => []
  | Ptrs _ l => l
  | Line c _ => [c]
  | Arr d => [d]
  | Tab _ a => [a]
  | Scr s => r_tab s :: r_main s :: r_alt s :: r_ruler s :: r_sb s
  | Vte t => [t_con t; t_mach t; t_name t; t_custom t]
  end.
Definition alive (m : mem) (p : Z) : Prop := In p (map fst m).
(* What can be reached from a pointer. *)
Inductive reach (m : mem) : Z -> Z -> Prop :=
  | reach_here : forall p, alive m p -> reach m p p
  | reach_on : forall p o q a, In (p, o) m -> In q (ptrs o) -> reach m q a -> reach m p a.

(* A reference held by the client; one for each time it is held. *)
Inductive handle := HScr (p : Z) | HVte (v : Z).
Definition handle_eq_dec (a b : handle) : {a = b} + {a <> b}.
Proof. decide equality; apply Z.eq_dec. Defined.
Definition addr (h : handle) : Z := match h with HScr p => p | HVte v => v end.
Fixpoint give_back (x : handle) (h : list handle) : list handle :=
  match h with
  | [] => []
  | y :: r => if handle_eq_dec x y then r else y :: give_back x r
  end.
(* What the client may do: call with objects it holds. A counter can count less
   than 2^64 references. *)
Definition may (h : list handle) (c : call) : Prop :=
  zlen h < 2 ^ 62 /\
  match c with
  | ScrNew => True
  | ScrRef p | ScrUnref p | ClearSb p | AltScr p _ | VteNew p | ScrollUp p _ _ => In (HScr p) h
  | Resize p x y => In (HScr p) h /\ 0 <= x < 2 ^ 32 /\ 0 <= y < 2 ^ 32
  | MaxSb p m => In (HScr p) h /\ 0 <= m < 2 ^ 32
  | VteRef v | VteUnref v | Palette _ _ v => In (HVte v) h
  end.
(* What it holds afterwards. *)
Definition held (h : list handle) (c : call) (got : Z) : list handle :=
  match c with
  | ScrNew => if got =? 0 then h else HScr got :: h
  | VteNew _ => if got =? 0 then h else HVte got :: h
  | ScrRef p => HScr p :: h
  | VteRef v => HVte v :: h
  | ScrUnref p => give_back (HScr p) h
  | VteUnref v => give_back (HVte v) h
  | _ => h
  end.

(* A history of calls, with what the client holds at each moment. *)
Fixpoint history (al : allocator) (w : world) (h : list handle) (cs : list call) : res (world * list handle) :=
  match cs with
  | [] => Ok (w, h)
  | c :: r => do x <- lstep al w c; history al (fst x) (held h c (snd x)) r
  end.
Fixpoint lawful (al : allocator) (w : world) (h : list handle) (cs : list call) : Prop :=
  match cs with
  | [] => True
  | c :: r => may h c /\ forall w' got, lstep al w c = Ok (w', got) -> lawful al w' (held h c got) r
  end.

(* malloc returns addresses at which there is nothing. *)
Definition fair (al : allocator) : Prop := forall i m p, al i m = Some p -> 0 < p /\ ~ alive m p.
(* Memory does not run out. *)
Definition plenty (al : allocator) : Prop := forall i m, al i m <> None.

(* What is held is what it is said to be. *)
Definition is_what (m : mem) (x : handle) : Prop :=
  match x with
  | HScr p => exists s, In (p, Scr s) m /\ 0 < r_ref s
  | HVte v => exists t, In (v, Vte t) m /\ 0 < t_ref t
  end.
Record sound (m : mem) (h : list handle) : Prop := mkSound {
  so_once : NoDup (map fst m);
  so_held : forall x, In x h -> is_what m x;
  so_valid : forall p o q, In (p, o) m -> In q (ptrs o) -> q = 0 \/ alive m q;
  so_needed : forall a, alive m a -> exists x, In x h /\ reach m (addr x) a
}.
