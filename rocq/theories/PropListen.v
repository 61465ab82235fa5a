(* C112: stopping a live check that listens for telemetry. *)
From Coq Require Import String Bool Arith NArith Lia List.
From Verif Require Import ListenModel ListenSpec ListenProofs.
Import ListNotations.

(* Whatever the schedule, what is checked is what was acknowledged before the stop, in
   the order of the acknowledgements; all of it once the report is given or the command
   has ended well. *)
Theorem C112_checked_partial : forall c es s os,
  run c es = Some (s, os) ->
  (exists rest, acked_before_stop os = checked os ++ rest) /\
  (0 < reports os \/ In (OExit true) os -> acked_before_stop os = checked os).
Proof.
  intros c es s os H. pose proof (run_checked _ _ _ _ H) as HC. pose proof (run_once _ _ _ _ H) as [_ HO].
  unfold InvChecked in HC. split.
  - destruct (main s) as [| | | | | | |[]]; try (destruct HC as [X _]; exists []; rewrite app_nil_r; exact X).
    + destruct HC as [X _]. eauto.
    + destruct HC as [X _]. eauto.
    + exact HC.
  - intros [X|X].
    + destruct (main s) as [| | | | | | |[]]; cbn in HO; try lia; apply HC.
    + rewrite (run_exit _ _ _ _ H true X) in HC. apply HC.
Qed.

(* The report is given once at most. *)
Theorem C112_once_partial : forall c es s os, run c es = Some (s, os) -> reports os <= 1.
Proof.
  intros c es s os H. destruct (run_once _ _ _ _ H) as [_ HO]. destruct (delivered (main s)); lia.
Qed.

(* It is given exactly once by a command that ends well, if nobody who asked to stop
   leaves and no wait is cut short. *)
Theorem C112_given_partial : forall c es s os,
  run c es = Some (s, os) -> patient es -> In (OExit true) os -> reports os = 1.
Proof.
  intros c es s os H P X. destruct (run_1 _ _ _ _ H P) as (_ & _ & _ & _ & E).
  apply E. now apply (run_exit _ _ _ _ H).
Qed.

(* With --output http, somebody who asked to stop is given it, and nothing is printed,
   when the request came after the start of the check and before the decision. *)
Theorem C112_client_partial : forall c a r b d f s os,
  http c = true ->
  run c (a ++ EReady :: b ++ EStopReq r :: d ++ EDecide :: f) = Some (s, os) ->
  patient (a ++ EReady :: b ++ EStopReq r :: d ++ EDecide :: f) ->
  In (OExit true) os ->
  (exists q, In (OAnswer q AReport) os) /\ ~ In OStdout os.
Proof.
  intros c a r b d f s os Hh H P X.
  pose proof (C112_given_partial _ _ _ _ H P X) as R1.
  assert (NS : ~ In OStdout os).
  { change (a ++ EReady :: b ++ EStopReq r :: d ++ EDecide :: f)
      with (a ++ [EReady] ++ b ++ [EStopReq r] ++ d ++ [EDecide] ++ f) in H.
    rewrite run_app in H. destruct (run c a) as [[s0 o0]|] eqn:H0; [|discriminate].
    rewrite steps_app in H. destruct (steps c s0 [EReady]) as [[s1 o1]|] eqn:H1; [|discriminate].
    rewrite steps_app in H. destruct (steps c s1 b) as [[s2 o2]|] eqn:H2; [|discriminate].
    rewrite steps_app in H. destruct (steps c s2 [EStopReq r]) as [[s3 o3]|] eqn:H3; [|discriminate].
    rewrite steps_app in H. destruct (steps c s3 d) as [[s4 o4]|] eqn:H4; [|discriminate].
    rewrite steps_app in H. destruct (steps c s4 [EDecide]) as [[s5 o5]|] eqn:H5; [|discriminate].
    destruct (steps c s5 f) as [[s6 o6]|] eqn:H6; [|discriminate].
    assert (E1 : expect s1 = true /\ main s1 = PRead).
    { cbn [steps] in H1. unfold step in H1. destruct (is_exit (main s0)); [discriminate|].
      destruct (main s0); try discriminate. injection H1 as <- <-. auto. }
    assert (E2 : expect s2 = true).
    { apply (steps_expect _ _ _ _ _ H2); [tauto|]. destruct E1 as [_ ->]. discriminate. }
    assert (E3 : slot s3 <> None).
    { cbn [steps] in H3. unfold step in H3. destruct (is_exit (main s2)); [discriminate|].
      destruct (bound c && negb (trigger s2)); [|discriminate].
      destruct (find_handler (handlers s2) r); [discriminate|]. injection H3 as <- <-.
      rewrite offer_slot. unfold begin_stop. rewrite E2. discriminate. }
    assert (E4 : main s4 = PClosed /\ main s5 = (match slot s4 with Some _ => PFormat | None => PStdout end) /\ o5 = []).
    { cbn [steps] in H5. unfold step in H5. rewrite Hh in H5. destruct (is_exit (main s4)); [discriminate|].
      destruct (main s4); try discriminate. injection H5 as <- <-. auto. }
    destruct E4 as (E4 & E5 & ->).
    assert (E6 : slot s4 <> None) by (apply (steps_slot _ _ _ _ _ H4); [exact E3|rewrite E4; auto]).
    destruct (slot s4) as [q|]; [|congruence].
    pose proof (steps_silent _ _ _ _ _ H6 (or_introl E5)) as N6.
    assert (RB : run c (a ++ [EReady] ++ b ++ [EStopReq r] ++ d) = Some (s4, o0 ++ o1 ++ o2 ++ o3 ++ o4)).
    { rewrite run_app, H0, steps_app, H1, steps_app, H2, steps_app, H3, H4. reflexivity. }
    assert (NB : ~ In OStdout (o0 ++ o1 ++ o2 ++ o3 ++ o4)).
    { intro Y. pose proof (run_stdout _ _ _ _ RB Y). congruence. }
    injection H as <- <-. intro Y. rewrite !in_app_iff in Y. rewrite !in_app_iff in NB. cbn in Y. tauto. }
  split; [|exact NS]. apply reports_pos; [lia|exact NS].
Qed.

(* A request to stop is told that the report failed only when another request came
   after it. *)
Theorem C112_failed_partial : forall c es s os r,
  run c es = Some (s, os) -> In (OAnswer r AFailed) os ->
  exists a b q d, es = a ++ EStopReq r :: b ++ EStopReq q :: d /\ q <> r.
Proof. intros c es s os r H X. exact (proj2 (run_asked _ _ _ _ H) r X). Qed.

(* As long as nobody who asked to stop leaves, a command that was told to stop can end
   well without being told again. *)
Theorem C112_ends_partial : forall c es s os,
  run c es = Some (s, os) -> nobody_leaves es -> In OStopIn os -> (forall ok, ~ In (OExit ok) os) ->
  exists more s' os',
    no_stop_request more /\ run c (es ++ more) = Some (s', os') /\ In (OExit true) os'.
Proof.
  intros c es s os H N S X.
  assert (HX : is_exit (main s) = false).
  { destruct (main s) as [| | | | | | |ok] eqn:Em; try reflexivity.
    destruct (X ok (run_exited _ _ _ _ H ok Em)). }
  destruct (can_go c s os (run_prog _ _ _ _ H N) (run_checked _ _ _ _ H)) as (m & s' & o & M1 & M2 & M3).
  - now apply stopped_in.
  - exact HX.
  - exists m, s', (os ++ o). split; [exact M1|]. rewrite run_app, H, M2. split; [reflexivity|].
    apply in_or_app. now right.
Qed.

(* The monitor never stops the check within the timeout of an export, nor before the
   timeout has passed; and it does stop it, in less than twice the timeout after the
   last one when the sleeps end on time. *)
Theorem C112_inactivity_partial : forall timeout acts late,
  0 < timeout ->
  (forall fuel t, monitor_loop fuel timeout late (last_activity acts) 0 0 = Some t ->
     timeout <= t /\ (forall a, In a acts -> a <= t -> a + timeout <= t)) /\
  (forall z d, (forall a, In a acts -> a <= z) -> (forall k, late k <= d) ->
     exists fuel t, monitor_loop fuel timeout late (last_activity acts) 0 0 = Some t /\
       t < z + 2 * timeout + d).
Proof.
  intros timeout acts late HT. split.
  - intros fuel t H. apply monitor_quiet in H. destruct H as [H1 H2]. split; [lia|].
    intros a Hi Ha. pose proof (last_ge acts t a Hi Ha). lia.
  - intros z d Hz Hd. exists (z + timeout + 1).
    apply (monitor_stops z d); auto; try lia. intro t. now apply last_bound.
Qed.

(* ---------- what does not hold ---------- *)

(* An export is acknowledged and never checked. *)
Theorem C112_behind_refuted :
  ~ (forall c es s os i, run c es = Some (s, os) -> In (OExit true) os -> In (OAck i) os ->
       In (OChecked i) os).
Proof.
  intro H.
  destruct (run on_stdout behind_run) as [[s os]|] eqn:E; [|vm_compute in E; discriminate].
  specialize (H on_stdout behind_run s os 2 E).
  assert (Eo : os = [OAck 1; OStopIn; OAck 2; OChecked 1; OStdout; OExit true]) by (vm_compute in E; congruence).
  subst os. cbn in H. intuition discriminate.
Qed.

(* A check that is slower than the wait of the request: the command ends well and the
   report is given to nobody. *)
Theorem C112_slow_refuted :
  exists s os, run on_http slow_run = Some (s, os) /\ nobody_leaves slow_run /\
    In (OExit true) os /\ reports os = 0.
Proof.
  eexists _, _. split; [vm_compute; reflexivity|]. split.
  - intros r H. cbn in H. intuition discriminate.
  - cbn. intuition.
Qed.

(* A client that does not wait for the report: the command never ends, whatever signal
   it is sent, unless another client asks it to stop. *)
Theorem C112_left_refuted :
  exists s os, run on_http left_run = Some (s, os) /\ In OStopIn os /\
    forall more s' os', no_stop_request more ->
      run on_http (left_run ++ more) = Some (s', os') -> forall ok, ~ In (OExit ok) os'.
Proof.
  destruct (run on_http left_run) as [[s os]|] eqn:E; [|vm_compute in E; discriminate].
  exists s, os. split; [reflexivity|]. split.
  - assert (os = [OAck 1; OStopIn; OChecked 1]) as -> by (vm_compute in E; congruence). cbn. auto.
  - intros more s' os' N H ok X.
    assert (HH : hung s).
    { assert (Es : Some s = option_map fst (run on_http left_run)) by now rewrite E.
      vm_compute in Es. injection Es as ->. repeat split. }
    pose proof (run_exit _ _ _ _ H ok X) as Em. rewrite run_app, E in H.
    destruct (steps on_http s more) as [[s2 o2]|] eqn:E2; [|discriminate]. injection H as <- <-.
    destruct (steps_hung _ _ _ _ _ HH N E2) as [Y _]. congruence.
Qed.

(* The report is made, and the first of two requests is told that it failed. *)
Theorem C112_twice_refuted :
  exists s os, run on_http twice_run = Some (s, os) /\ patient twice_run /\
    In (OAnswer 7 AFailed) os /\ reports os = 1 /\ In (OExit true) os.
Proof.
  eexists _, _. split; [vm_compute; reflexivity|]. split.
  - repeat split; repeat intro; cbn in *; intuition discriminate.
  - cbn. intuition.
Qed.

(* The report cannot be made, and the request is not told: the process ends without an
   answer, in every schedule with one request. *)
Theorem C112_unformatted_refuted :
  (exists s os, run on_http unformatted_run = Some (s, os) /\ In (OExit false) os /\
     forall x, ~ In (OAnswer 7 x) os) /\
  (forall c es s os r, run c es = Some (s, os) -> (forall q, In (EStopReq q) es -> q = r) ->
     forall q, ~ In (OAnswer q AFailed) os).
Proof.
  split.
  - eexists _, _. split; [vm_compute; reflexivity|]. cbn. split; [intuition|]. intro x. intuition discriminate.
  - intros c es s os r H U q X. destruct (C112_failed_partial _ _ _ _ _ H X) as (a & b & p & d & E & N).
    apply N. rewrite (U p), (U q); auto; rewrite E; apply in_or_app; right; [now left|].
    right. apply in_or_app. right. now left.
Qed.

(* With --output http, a request that is early is answered without the report, which is
   printed. *)
Theorem C112_early_refuted :
  exists s os, run on_http early_run = Some (s, os) /\ patient early_run /\
    In (OAnswer 7 AOk) os /\ In OStdout os.
Proof.
  eexists _, _. split; [vm_compute; reflexivity|]. split.
  - repeat split; repeat intro; cbn in *; intuition discriminate.
  - cbn. intuition.
Qed.

(* Without --output http the command does not wait for the answer to be sent. *)
Theorem C112_unanswered_refuted :
  exists s os, run on_stdout unanswered_run = Some (s, os) /\ patient unanswered_run /\
    In (OExit true) os /\ forall x, ~ In (OAnswer 7 x) os.
Proof.
  eexists _, _. split; [vm_compute; reflexivity|]. split.
  - repeat split; repeat intro; cbn in *; intuition discriminate.
  - cbn. split; [intuition|]. intro x. intuition discriminate.
Qed.

(* When the admin port is taken nothing is ever checked, and the command ends well. *)
Theorem C112_unbound_refuted :
  (forall c es s os, bound c = false -> run c es = Some (s, os) -> checked os = []) /\
  (exists s os, run unbound unbound_run = Some (s, os) /\ In (OAck 1) os /\ In (OExit true) os).
Proof.
  split.
  - intros c es s os Hb H. destruct (C112_checked_partial _ _ _ _ H) as [[rest X] _].
    unfold run in H. destruct (steps c (init c) es) as [[s1 o1]|]; [|discriminate].
    injection H as <- <-. unfold init_obs in *. rewrite Hb in *. cbn in X.
    symmetry in X. apply app_eq_nil in X. apply X.
  - eexists _, _. split; [vm_compute; reflexivity|]. cbn. intuition.
Qed.

(* "The OTLP receiver will stop after 10 seconds of inactivity": 19 seconds. *)
Theorem C112_inactivity_refuted :
  ~ (forall timeout acts z, 0 < timeout -> In z acts -> (forall a, In a acts -> a <= z) ->
       exists fuel, monitor_loop fuel timeout (fun _ => 0) (last_activity acts) 0 0 = Some (z + timeout)).
Proof.
  intro H. destruct (H 10 [1] 1 ltac:(lia) ltac:(now left)) as [fuel F].
  - intros a [<-|[]]. auto.
  - destruct fuel as [|[|fuel]]; cbn in F; discriminate.
Qed.

(* Two exports checked and the report given to the request that stopped the check. *)
Example C112_case :
  patient good_run /\
  option_map snd (run on_http good_run) =
  Some [OAck 1; OAck 2; OChecked 1; OStopIn; OChecked 2; OAnswer 7 AReport; OExit true].
Proof.
  split; [repeat split; repeat intro; cbn in *; intuition discriminate|vm_compute; reflexivity].
Qed.

Print Assumptions C112_checked_partial.
Print Assumptions C112_once_partial.
Print Assumptions C112_given_partial.
Print Assumptions C112_client_partial.
Print Assumptions C112_failed_partial.
Print Assumptions C112_ends_partial.
Print Assumptions C112_inactivity_partial.
Print Assumptions C112_behind_refuted.
Print Assumptions C112_slow_refuted.
Print Assumptions C112_left_refuted.
Print Assumptions C112_twice_refuted.
Print Assumptions C112_unformatted_refuted.
Print Assumptions C112_early_refuted.
Print Assumptions C112_unanswered_refuted.
Print Assumptions C112_unbound_refuted.
Print Assumptions C112_inactivity_refuted.
