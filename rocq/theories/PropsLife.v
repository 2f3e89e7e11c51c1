(* C62: screens and terminals live as long as they are referred to, and what
   they allocated lives exactly as long. Proofs: LifeSound.v. *)
From Verif Require Import Base Life LifeSpec LifeSound LifeDemo.
From Coq Require Import Permutation.

(* Whatever a client does with the references it holds and whichever allocations
   fail: no pointer is followed and none freed that does not lead to a block
   alive; what it holds is alive, no pointer dangles, and every block alive can
   be reached from what it holds. *)
Theorem C62_sound : forall al cs, fair al -> lawful al nothing [] cs ->
  exists w h, history al nothing [] cs = Ok (w, h) /\ sound (w_mem w) h /\ (h = [] -> w_mem w = []).
Proof. exact histories_sound. Qed.
Print Assumptions C62_sound.
Example C62_sound_ex : fair bump /\ lawful bump nothing [] story /\ zlen story = 17 /\
  (exists w, history bump nothing [] story = Ok (w, [HVte 104]) /\ zlen (w_mem w) = 134 /\
     exists s, rd (w_mem w) 1 = Ok (Scr s) /\ r_ref s = 1 /\ zlen (r_sb s) = 2) /\
  exists w', history bump nothing [] (story ++ [VteUnref 104]) = Ok (w', []).
Proof.
  split; [exact bump_fair|]. split; [apply lawful_b_ok; vm_compute; reflexivity|]. split; [reflexivity|]. split.
  - eexists. split; [vm_compute; reflexivity|]. split; [vm_compute; reflexivity|]. eexists. split; [vm_compute; reflexivity|]. split; vm_compute; reflexivity.
  - eexists. vm_compute. reflexivity.
Qed.

(* Making a screen or a terminal fails only if memory ran out, and then leaves
   nothing behind; otherwise the client holds a reference to something new. *)
Theorem C62_created : forall al cs w h c, fair al -> lawful al nothing [] (cs ++ [c]) -> history al nothing [] cs = Ok (w, h) ->
  c = ScrNew \/ (exists p, c = VteNew p) ->
  exists w' got, lstep al w c = Ok (w', got) /\
    (got = 0 -> Permutation (w_mem w') (w_mem w) /\ ~ plenty al) /\
    (got <> 0 -> ~ alive (w_mem w) got /\ exists x, held h c got = x :: h /\ addr x = got).
Proof. exact creation. Qed.
Print Assumptions C62_created.
Example C62_created_ex : fair (fails 200) /\ lawful (fails 200) nothing [] [ScrNew; VteNew 1; ScrNew] /\
  (exists w, history (fails 200) nothing [] [ScrNew; VteNew 1] = Ok (w, [HVte 104; HScr 1]) /\ zlen (w_mem w) = 105 /\
   exists w', lstep (fails 200) w ScrNew = Ok (w', 0) /\ w_mem w' = w_mem w /\ w_tick w = 105 /\ w_tick w' = 201) /\
  exists w', lstep bump nothing ScrNew = Ok (w', 1) /\ zlen (w_mem w') = 103.
Proof.
  split; [apply fails_fair|]. split; [apply lawful_b_ok; vm_compute; reflexivity|]. split.
  - eexists. split; [vm_compute; reflexivity|]. split; [vm_compute; reflexivity|]. eexists. split; [vm_compute; reflexivity|]. vm_compute. auto.
  - eexists. split; [vm_compute; reflexivity|]. vm_compute. reflexivity.
Qed.
