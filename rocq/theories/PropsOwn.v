(* C58: every line object is owned exactly once, and the view and the selection
   point to the right ones. Proofs: OwnThms.v, OwnCallThms.v, OwnViewThms.v. *)
From Verif Require Import Base Screen ScreenSpec ScreenResize ScreenSafe ScreenThms Own OwnSpec OwnCalls OwnThms OwnRows OwnCallThms OwnDemo OwnViewSpec OwnViewThms.

(* However lines are scrolled, inserted, deleted, added and given up, and
   whichever allocations fail: no pointer is followed that does not lead to an
   object alive, none is freed twice, afterwards each object alive is in exactly
   one place, the scrollback is a proper list in both directions, and the rows
   are where they should be. *)
Theorem C58_step : forall w sb o, well w sb -> in_range w o ->
  exists w' sb', wstep w o = Ok w' /\ well w' sb' /\ handled w sb o w' sb'.
Proof. exact step_well. Qed.
Print Assumptions C58_step.
Example C58_step_ex : well before [1] /\ in_range before (WUp false false 0 2 3 stingy) /\
  exists w', wstep before (WUp false false 0 2 3 stingy) = Ok w' /\ w_main before = [3; 5; 7] /\ w_main w' = [8; 5; 9] /\ w_alt w' = [2; 4; 6] /\
    w_first w' = 3 /\ w_last w' = 7 /\ map fst (w_heap w') = [9; 8; 7; 6; 5; 4; 3; 2] /\ w_pos w' = 3 /\ w_sel1 w' = (0, -1).
Proof.
  split; [exact before_well|]. split; [split; [lia|]; split; [vm_compute; reflexivity|]; split; [lia|exact stingy_fair]|].
  eexists. split; [vm_compute; reflexivity|]. vm_compute. auto 10.
Qed.

(* So from a new screen on, whatever is done; and when the screen is dropped,
   all that was allocated is freed and nothing else. *)
Theorem C58_run : forall os, proper own_new os ->
  exists w sb, wrun own_new os = Ok w /\ well w sb /\ destroy w = Ok [].
Proof. exact run_well. Qed.
Print Assumptions C58_run.
Example C58_run_ex : proper own_new story /\ exists w, wrun own_new story = Ok w /\ zlen (w_heap w) = 8 /\ destroy w = Ok [].
Proof. split; [exact story_proper|]. eexists. split; [vm_compute; reflexivity|]. split; vm_compute; reflexivity. Qed.

(* The calls of the screen API do nothing else to the lines than calls says, and
   the lists of Screen.v and the pointers stay in step. *)
Theorem C58_calls : forall al s o s' w sb, reachable s -> op_args o -> step s o = Ok s' -> fair al -> plenty al ->
  well w sb -> agree s w sb ->
  exists w' sb', wrun w (calls al s o) = Ok w' /\ well w' sb' /\ agree s' w' sb'.
Proof. exact calls_agree. Qed.
Print Assumptions C58_calls.
Example C58_calls_ex : calls bump session_end (OScrollUp 2) = [WUp false false 0 24 2 bump] /\
  calls bump session_end (OResize 80 10) = [WGrow 10 true bump; WUp false false 0 24 15 bump] /\
  exists w sb, wrun own_new (life bump session) = Ok w /\ well w sb /\ agree session_end w sb.
Proof.
  split; [vm_compute; reflexivity|]. split; [vm_compute; reflexivity|].
  destruct (life_agree bump session session_end bump_fair bump_plenty session_ok session_runs) as (w & sb & E & W & G & _). exists w, sb. auto.
Qed.

(* Every history of calls. *)
Theorem C58_life : forall al os s, fair al -> plenty al -> Forall op_args os -> run scr_init os = Ok s ->
  exists w sb, wrun own_new (life al os) = Ok w /\ well w sb /\ agree s w sb /\ destroy w = Ok [].
Proof. exact life_agree. Qed.
Print Assumptions C58_life.
Example C58_life_ex : fair bump /\ plenty bump /\ Forall op_args session /\ run scr_init session = Ok session_end /\
  zlen (s_sb session_end) = 1 /\ s_sy session_end = 25 /\
  exists w, wrun own_new (life bump session) = Ok w /\ zlen (w_main w) = 25 /\ w_count w = 1 /\ zlen (w_heap w) = 51 /\ destroy w = Ok [].
Proof.
  split; [exact bump_fair|]. split; [exact bump_plenty|]. split; [exact session_ok|]. split; [exact session_runs|].
  split; [vm_compute; reflexivity|]. split; [vm_compute; reflexivity|]. eexists. split; [vm_compute; reflexivity|]. vm_compute. auto.
Qed.

(* The pointers of the view and of an active selection lead to the same lines as
   those of Screen.v, whatever is scrolled, evicted, trimmed or cleared. *)
Theorem C58_view : forall al s o s' w sb, reachable s -> op_args o -> step s o = Ok s' -> fair al -> plenty al ->
  well w sb -> agree s w sb -> looks s w sb ->
  exists w' sb', wrun w (calls al s o) = Ok w' /\ well w' sb' /\ agree s' w' sb' /\ looks s' w' sb'.
Proof. exact calls_look. Qed.
Print Assumptions C58_view.
Example C58_view_ex : reachable viewing /\ s_sbpos viewing = Some 3 /\ s_sela viewing = true /\ p_line (s_sel1 viewing) = Some 3 /\
  exists w, wrun own_new (life bump (firstn 30 session)) = Ok w /\ w_pos w <> 0 /\ fst (w_sel1 w) = w_pos w /\
  exists w', wrun w (calls bump viewing (OScrollUp 2)) = Ok w' /\ w_pos w' <> 0 /\ w_pos w' <> w_pos w /\ w_sel1 w' = (0, -1).
Proof.
  split; [exact viewing_reachable|]. split; [vm_compute; reflexivity|]. split; [vm_compute; reflexivity|]. split; [vm_compute; reflexivity|].
  eexists. split; [vm_compute; reflexivity|]. split; [vm_compute; discriminate|]. split; [vm_compute; reflexivity|].
  eexists. split; [vm_compute; reflexivity|]. split; [vm_compute; discriminate|]. split; [vm_compute; discriminate|]. vm_compute. reflexivity.
Qed.
Theorem C58_view_life : forall al os s, fair al -> plenty al -> Forall op_args os -> run scr_init os = Ok s ->
  exists w sb, wrun own_new (life al os) = Ok w /\ well w sb /\ agree s w sb /\ looks s w sb.
Proof. exact life_look. Qed.
Print Assumptions C58_view_life.
Example C58_view_life_ex : fair bump /\ plenty bump /\ Forall op_args session /\ run scr_init session = Ok session_end /\ zlen session = 38.
Proof. split; [exact bump_fair|]. split; [exact bump_plenty|]. split; [exact session_ok|]. split; [exact session_runs|]. reflexivity. Qed.

(* Drawing takes the lines from the one the view is at on, first those of the
   scrollback and then the rows of the screen. *)
Theorem C58_draw : forall s w sb n, reachable s -> well w sb -> agree s w sb -> looks s w sb -> 0 <= n <= s_sy s ->
  exists r, draw_rows (Z.to_nat n) w (w_pos w) 0 = Ok r /\ zlen r = n /\
    forall i, 0 <= i < n -> znth r i = znth (sb ++ w_rows w) (view_index s + i).
Proof. exact draw_shows. Qed.
Print Assumptions C58_draw.
Example C58_draw_ex : view_index viewing = 1 /\ zlen (s_sb viewing) = 2 /\
  exists w r, wrun own_new (life bump (firstn 30 session)) = Ok w /\ draw_rows 3 w (w_pos w) 0 = Ok r /\
    znth r 0 = Some (w_last w) /\ w_first w <> w_last w /\ znth r 1 = znth (w_main w) 0.
Proof.
  split; [vm_compute; reflexivity|]. split; [vm_compute; reflexivity|]. eexists. eexists. split; [vm_compute; reflexivity|]. split; [vm_compute; reflexivity|]. split; [vm_compute; reflexivity|]. split; [vm_compute; discriminate|]. vm_compute. reflexivity.
Qed.
