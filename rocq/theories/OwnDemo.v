(* Allocators and sessions for the examples of PropsOwn.v. *)
From Verif Require Import Base BaseProofs Screen ScreenInv ScreenSpec ScreenResize ScreenSafe Own OwnSpec OwnCalls OwnProofs OwnThms.
From Coq Require Import Permutation.

Definition top_addr (h : heap) : Z := fold_right Z.max 0 (map fst h).
(* Always the address above all others. *)
Definition bump : allocator := fun _ h => Some (1 + top_addr h).
(* The same, but every second allocation of a call fails. *)
Definition stingy : allocator := fun i h => if Z.even i then Some (1 + top_addr h) else None.
Lemma top_addr_max h : forall p, In p (map fst h) -> p <= top_addr h.
Proof. unfold top_addr. induction (map fst h) as [|a l IH]; intros p I; [destruct I|]. cbn [fold_right]. destruct I as [->|I]; [lia|]. specialize (IH p I). lia. Qed.
Lemma top_addr_pos h : 0 <= top_addr h.
Proof. unfold top_addr. induction (map fst h) as [|a l IH]; cbn [fold_right]; lia. Qed.
Lemma above_fresh h : 0 < 1 + top_addr h /\ ~ In (1 + top_addr h) (map fst h).
Proof. pose proof (top_addr_pos h). split; [lia|]. intros I. pose proof (top_addr_max h _ I). lia. Qed.
Lemma bump_fair : fair bump.
Proof. intros i h p E. unfold bump in E. assert (X : p = 1 + top_addr h) by congruence. rewrite X. apply above_fresh. Qed.
Lemma bump_plenty : plenty bump.
Proof. intros i h. unfold bump. discriminate. Qed.
Lemma stingy_fair : fair stingy.
Proof. intros i h p E. unfold stingy in E. destruct (Z.even i); [|discriminate]. assert (X : p = 1 + top_addr h) by congruence. rewrite X. apply above_fresh. Qed.

(* Three rows, room for two lines of scrollback; one line scrolls off, a
   selection is begun and pulled, the view moves up; then three more scroll
   off, of which one cannot be replaced. *)
Definition story : list wop :=
  [WGrow 3 true bump; WMax 2; WUp false false 0 2 1 bump; WViewUp 1; WSelStart 0; WSelTarget 2; WDraw 3; WUp false false 0 2 3 stingy; WTouch 2].
(* The state before the last scrolling. *)
Definition before : own := match wrun own_new (firstn 7 story) with Ok w => w | Ub => own_new end.
(* The same in calls of the screen API: a limit, twenty-six lines, a view and a
   selection, the alternate screen and back, a smaller and a larger screen, a
   smaller limit. *)
Definition session : list op :=
  [OSetMaxSb 2] ++ repeat ONewline 26 ++ [OSbUp 1; OSelStart 0 0; OSelTarget 3 5; OSetFlags 8; OScrollUp 3; OResetFlags 8; OResize 80 20; OInsLines 2; OScrollDown 1; OResize 80 25; OSetMaxSb 1].
Definition session_end : screen := match run scr_init session with Ok s => s | Ub => scr_init end.
Lemma session_ok : Forall op_args session.
Proof.
  assert (N : forall n, Forall op_args (repeat ONewline n)) by (intros n; apply Forall_forall; intros o J; apply repeat_spec in J; rewrite J; exact I).
  unfold session. apply Forall_app. split; [|apply Forall_app; split; [apply N|]];
  repeat (apply Forall_cons; [cbn [op_args]; unfold u32_arg, DIM; repeat split; vm_compute; congruence|]); apply Forall_nil.
Qed.
Lemma session_runs : run scr_init session = Ok session_end.
Proof. vm_compute. reflexivity. Qed.
(* In the middle of it: two lines in the scrollback, the view and the selection
   at the younger one. *)
Definition viewing : screen := match run scr_init (firstn 30 session) with Ok s => s | Ub => scr_init end.
Lemma viewing_reachable : reachable viewing.
Proof.
  exists (firstn 30 session). split; [|vm_compute; reflexivity].
  pose proof session_ok as A. rewrite <- (firstn_skipn 30 session) in A. apply Forall_app in A. apply A.
Qed.
Lemma before_well : well before [1].
Proof.
  constructor; try (vm_compute; reflexivity).
  - assert (X : w_main before ++ w_alt before ++ [1] = [3; 5; 7; 2; 4; 6; 1]) by (vm_compute; reflexivity). rewrite X. repeat (constructor; [cbn; lia|]). constructor.
  - assert (X : w_main before ++ w_alt before ++ [1] = [3; 5; 7; 2; 4; 6; 1]) by (vm_compute; reflexivity). rewrite X.
    assert (Y : map fst (w_heap before) = [7; 6; 5; 4; 3; 2; 1]) by (vm_compute; reflexivity). rewrite Y.
    apply NoDup_Permutation; [repeat (constructor; [cbn; lia|]); constructor|repeat (constructor; [cbn; lia|]); constructor|].
    intros x. cbn. lia.
  - vm_compute. intuition discriminate.
  - vm_compute. split; [reflexivity|]. eexists. split; reflexivity.
  - vm_compute. split; [reflexivity|]. eexists. split; reflexivity.
  - vm_compute. split; [discriminate|reflexivity].
  - right. vm_compute. auto.
  - intros _. split; [right|left]; vm_compute; auto.
Qed.
Lemma proper_cons w o r w1 : in_range w o -> wstep w o = Ok w1 -> proper w1 r -> proper w (o :: r).
Proof. intros A E P. cbn [proper]. split; [exact A|]. intros w' E'. rewrite E in E'. assert (X : w1 = w') by congruence. rewrite <- X. exact P. Qed.
Lemma story_proper : proper own_new story.
Proof.
  pose proof bump_fair as BF. pose proof stingy_fair as SF. unfold story.
  eapply proper_cons; [exact BF|vm_compute; reflexivity|].
  eapply proper_cons; [split; [lia|vm_compute; reflexivity]|vm_compute; reflexivity|].
  eapply proper_cons; [split; [lia|]; split; [vm_compute; reflexivity|]; split; [lia|exact BF]|vm_compute; reflexivity|].
  do 3 (eapply proper_cons; [exact I|vm_compute; reflexivity|]).
  eapply proper_cons; [split; [lia|vm_compute; congruence]|vm_compute; reflexivity|].
  eapply proper_cons; [split; [lia|]; split; [vm_compute; reflexivity|]; split; [lia|exact SF]|vm_compute; reflexivity|].
  eapply proper_cons; [split; [lia|vm_compute; reflexivity]|vm_compute; reflexivity|]. exact I.
Qed.
