(* Fixed replies, written as text. *)
From Coq Require Import ZArith List String Ascii.
Import ListNotations.
Local Open Scope string_scope.

(* The bytes of ESC followed by text. *)
Definition typed (t : string) : list Z := 27%Z :: List.map (fun a => Z.of_N (N_of_ascii a)) (list_ascii_of_string t).
(* Device attributes, the operating status. *)
Definition FIRST_DA : list Z := typed "[?60;1;6;9;15c".
Definition SECOND_DA : list Z := typed "[>1;1;0c".
Definition STATUS_OK : list Z := typed "[0n".
