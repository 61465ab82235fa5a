(* Lemmas about the receiver of a live check. *)
From Coq Require Import String Bool Arith NArith Lia List.
From Verif Require Import ListenModel ListenSpec.
Import ListNotations.

Lemma steps_app : forall c a s b,
  steps c s (a ++ b) =
  match steps c s a with
  | Some (s1, o1) => match steps c s1 b with Some (s2, o2) => Some (s2, o1 ++ o2) | None => None end
  | None => None
  end.
Proof.
  intros c a; induction a as [|e a IH]; intros s b; cbn [steps app].
  - destruct (steps c s b) as [[? ?]|]; reflexivity.
  - destruct (step c s e) as [[s1 o1]|]; [|reflexivity]. rewrite IH.
    destruct (steps c s1 a) as [[s2 o2]|]; [|reflexivity].
    destruct (steps c s2 b) as [[s3 o3]|]; [|reflexivity]. now rewrite app_assoc.
Qed.

Lemma run_app : forall c a b,
  run c (a ++ b) =
  match run c a with
  | Some (s1, o1) => match steps c s1 b with Some (s2, o2) => Some (s2, o1 ++ o2) | None => None end
  | None => None
  end.
Proof.
  intros c a b. unfold run. rewrite steps_app. destruct (steps c (init c) a) as [[s1 o1]|]; [|reflexivity].
  destruct (steps c s1 b) as [[s2 o2]|]; [|reflexivity]. now rewrite app_assoc.
Qed.

Lemma run_ind : forall c (P : list ev -> st -> list obs -> Prop),
  P [] (init c) (init_obs c) ->
  (forall es s os e s' o, run c es = Some (s, os) -> P es s os ->
     step c s e = Some (s', o) -> P (es ++ [e]) s' (os ++ o)) ->
  forall es s os, run c es = Some (s, os) -> P es s os.
Proof.
  intros c P H0 HS es. induction es as [|e es IH] using rev_ind; intros s os H.
  - unfold run in H. cbn in H. inversion H. rewrite app_nil_r. exact H0.
  - rewrite run_app in H. destruct (run c es) as [[s1 o1]|] eqn:E; [|discriminate].
    cbn [steps] in H. destruct (step c s1 e) as [[s2 o2]|] eqn:E2; [|discriminate].
    rewrite app_nil_r in H. inversion H; subst. eapply HS; eauto.
Qed.

(* ---------- what is checked ---------- *)

Fixpoint data_prefix (b : list msg) : list nat :=
  match b with Data i :: r => i :: data_prefix r | _ => [] end.
Fixpoint all_data (b : list msg) : bool :=
  match b with [] => true | Data _ :: r => all_data r | _ => false end.
Fixpoint stopped (o : list obs) : bool :=
  match o with [] => false | OStopIn :: _ => true | _ :: r => stopped r end.

Lemma before_app : forall a b,
  acked_before_stop (a ++ b) =
  if stopped a then acked_before_stop a else acked_before_stop a ++ acked_before_stop b.
Proof.
  induction a as [|x a IH]; intro b; [reflexivity|].
  destruct x; cbn; rewrite ?IH; destruct (stopped a); reflexivity.
Qed.
Lemma stopped_app : forall a b, stopped (a ++ b) = stopped a || stopped b.
Proof. induction a as [|x a IH]; intro b; [reflexivity|]. destruct x; cbn; auto. Qed.
Lemma checked_app : forall a b, checked (a ++ b) = checked a ++ checked b.
Proof. induction a as [|x a IH]; intro b; [reflexivity|]. destruct x; cbn; rewrite ?IH; reflexivity. Qed.
Lemma reports_app : forall a b, reports (a ++ b) = reports a + reports b.
Proof.
  induction a as [|x a IH]; intro b; [reflexivity|].
  destruct x as [| | | |r []| |]; cbn; rewrite ?IH; reflexivity.
Qed.
Lemma stopped_in : forall o, stopped o = true <-> In OStopIn o.
Proof.
  induction o as [|x o IH]; [split; [discriminate|intros []]|].
  destruct x; cbn; rewrite ?IH; split; intuition (try discriminate); auto.
Qed.
Lemma prefix_app : forall b m,
  data_prefix (b ++ [m]) =
  data_prefix b ++ (if all_data b then match m with Data i => [i] | _ => [] end else []).
Proof.
  induction b as [|x b IH]; intro m; [destruct m; reflexivity|].
  destruct x; cbn; rewrite ?IH; reflexivity.
Qed.
Lemma all_data_app : forall b m,
  all_data (b ++ [m]) = all_data b && match m with Data _ => true | _ => false end.
Proof. induction b as [|x b IH]; intro m; [destruct m; reflexivity|]. destruct x; cbn; auto. Qed.

Lemma refused_before : forall w, acked_before_stop (refused w) = [].
Proof. induction w as [|[] w IH]; cbn; auto. Qed.
Lemma refused_stopped : forall w, stopped (refused w) = false.
Proof. induction w as [|[] w IH]; cbn; auto. Qed.
Lemma refused_checked : forall w, checked (refused w) = [].
Proof. induction w as [|[] w IH]; cbn; auto. Qed.
Lemma refused_reports : forall w, reports (refused w) = 0.
Proof. induction w as [|[] w IH]; cbn; auto. Qed.
Lemma refused_in : forall w x, In x (refused w) -> exists i, x = ORefuse i.
Proof.
  induction w as [|m w IH]; cbn; [contradiction|]. intros x H. destruct m as [i| |]; auto.
  destruct H as [H|H]; [exists i; auto|auto].
Qed.

Definition InvChecked (s : st) (os : list obs) : Prop :=
  match main s with
  | PStart | PRead =>
      acked_before_stop os = checked os ++ data_prefix (buffer s) /\
      stopped os = negb (all_data (buffer s))
  | PExit false => exists rest, acked_before_stop os = checked os ++ rest
  | _ => acked_before_stop os = checked os /\ stopped os = true
  end.

(* Every event, with what it needs and what it leaves. *)
Ltac split_step H :=
  repeat match type of H with
  | context [match ?x with _ => _ end] => destruct x eqn:?; try discriminate H
  end.

Ltac inv_step H := injection H as <- <-.

(* Events that leave the buffer, the main thread and what is counted as they are. *)
Lemma offer_main : forall s m, main (offer s m) = main s.
Proof. intros s m. unfold offer. destruct (closed s); reflexivity. Qed.
Lemma offer_buffer : forall s m, buffer (offer s m) = buffer s.
Proof. intros s m. unfold offer. destruct (closed s); reflexivity. Qed.
Lemma offer_handlers : forall s m, handlers (offer s m) = handlers s.
Proof. intros s m. unfold offer. destruct (closed s); reflexivity. Qed.
Lemma offer_slot : forall s m, slot (offer s m) = slot s.
Proof. intros s m. unfold offer. destruct (closed s); reflexivity. Qed.
Lemma offer_trigger : forall s m, trigger (offer s m) = trigger s.
Proof. intros s m. unfold offer. destruct (closed s); reflexivity. Qed.
Lemma offer_done : forall s m, done (offer s m) = done s.
Proof. intros s m. unfold offer. destruct (closed s); reflexivity. Qed.
Lemma offer_expect : forall s m, expect (offer s m) = expect s.
Proof. intros s m. unfold offer. destruct (closed s); reflexivity. Qed.
Lemma offer_closed : forall s m, closed (offer s m) = closed s.
Proof. intros s m. unfold offer. destruct (closed s) eqn:E; cbn; auto. Qed.

Lemma begin_main : forall s r, main (begin_stop s r) = main s.
Proof. intros. unfold begin_stop. destruct (expect s); reflexivity. Qed.
Lemma begin_buffer : forall s r, buffer (begin_stop s r) = buffer s.
Proof. intros. unfold begin_stop. destruct (expect s); reflexivity. Qed.
Lemma begin_trigger : forall s r, trigger (begin_stop s r) = trigger s.
Proof. intros. unfold begin_stop. destruct (expect s); reflexivity. Qed.
Lemma begin_done : forall s r, done (begin_stop s r) = done s.
Proof. intros. unfold begin_stop. destruct (expect s); reflexivity. Qed.
Lemma begin_expect : forall s r, expect (begin_stop s r) = expect s.
Proof. intros. unfold begin_stop. destruct (expect s) eqn:E; cbn; auto. Qed.
Lemma begin_closed : forall s r, closed (begin_stop s r) = closed s.
Proof. intros. unfold begin_stop. destruct (expect s); reflexivity. Qed.
Lemma deliver_main : forall s, main (deliver s) = main s.
Proof. intros. unfold deliver. destruct (slot s); reflexivity. Qed.
Lemma deliver_buffer : forall s, buffer (deliver s) = buffer s.
Proof. intros. unfold deliver. destruct (slot s); reflexivity. Qed.
Lemma deliver_trigger : forall s, trigger (deliver s) = trigger s.
Proof. intros. unfold deliver. destruct (slot s); reflexivity. Qed.
Lemma deliver_done : forall s, done (deliver s) = done s.
Proof. intros. unfold deliver. destruct (slot s); reflexivity. Qed.
Lemma deliver_slot : forall s, slot (deliver s) = None.
Proof. intros. unfold deliver. destruct (slot s) eqn:E; [reflexivity|exact E]. Qed.
Lemma deliver_expect : forall s, expect (deliver s) = expect s.
Proof. intros. unfold deliver. destruct (slot s); reflexivity. Qed.
Lemma deliver_closed : forall s, closed (deliver s) = closed s.
Proof. intros. unfold deliver. destruct (slot s); reflexivity. Qed.

#[export] Hint Rewrite offer_main offer_buffer offer_handlers offer_slot offer_trigger offer_done
  offer_expect offer_closed begin_main begin_buffer begin_trigger begin_done begin_expect begin_closed
  deliver_main deliver_buffer deliver_trigger deliver_done deliver_slot deliver_expect deliver_closed : lst.

Lemma not_exit : forall c s e s' o, step c s e = Some (s', o) -> is_exit (main s) = false.
Proof. intros c s e s' o H. unfold step in H. destruct (is_exit (main s)); [discriminate|reflexivity]. Qed.

(* The message that gets room. *)
Lemma sent_main : forall s m, main (fst (sent s m)) = main s.
Proof. intros s [i|[]|]; reflexivity. Qed.
Lemma sent_buffer : forall s m, buffer (fst (sent s m)) = buffer s.
Proof. intros s [i|[]|]; reflexivity. Qed.
Lemma sent_obs : forall s m, snd (sent s m) = match m with Data i => [OAck i] | _ => [OStopIn] end.
Proof. intros s [i|[]|]; reflexivity. Qed.

Lemma quiet_checked : forall s s' os o,
  main s' = main s -> buffer s' = buffer s ->
  acked_before_stop o = [] -> stopped o = false -> checked o = [] ->
  InvChecked s os -> InvChecked s' (os ++ o).
Proof.
  intros s s' os o Hm Hb Ha Hs Hc H. unfold InvChecked in *. rewrite Hm, Hb.
  rewrite before_app, checked_app, stopped_app, Ha, Hs, Hc, !app_nil_r, orb_false_r.
  destruct (stopped os); exact H.
Qed.

Lemma step_checked : forall c s e s' o os,
  InvChecked s os -> step c s e = Some (s', o) -> InvChecked s' (os ++ o).
Proof.
  intros c s e s' o os HI H. pose proof (not_exit _ _ _ _ _ H) as NX.
  unfold step in H. rewrite NX in H.
  destruct e.
  - (* ready *) split_step H. inv_step H. unfold InvChecked in *. rewrite app_nil_r. cbn.
    rewrite Heqp in HI. exact HI.
  - (* export *) split_step H; inv_step H;
      (apply (quiet_checked s); autorewrite with lst; auto).
  - (* enter *)
    destruct (waiting s) as [|m w] eqn:Ew; [discriminate|].
    destruct (full_room (buffer s)); [|discriminate].
    injection H as H. assert (Hs' : s' = fst (sent (set_chan s w (buffer s ++ [m])) m)) by now rewrite H.
    assert (Ho : o = snd (sent (set_chan s w (buffer s ++ [m])) m)) by now rewrite H.
    subst s' o. unfold InvChecked in *. rewrite sent_main, sent_buffer, sent_obs. cbn [main buffer set_chan].
    rewrite before_app, checked_app, stopped_app.
    assert (Hc : checked (match m with Data i => [OAck i] | _ => [OStopIn] end) = [])
      by (destruct m; reflexivity).
    rewrite Hc, app_nil_r.
    destruct (main s); try discriminate NX.
    1,2: destruct HI as [H1 H2]; rewrite prefix_app, all_data_app, H2, H1;
      destruct (all_data (buffer s)); destruct m; cbn; rewrite ?app_nil_r, <- ?app_assoc; auto.
    all: destruct HI as [H1 H2]; rewrite H2; auto.
  - (* take *)
    destruct (main s) eqn:Em; try discriminate. destruct (buffer s) as [|m b] eqn:Eb; [discriminate|].
    unfold InvChecked in HI. rewrite Em, Eb in HI. destruct HI as [H1 H2].
    destruct m; inv_step H; unfold InvChecked; cbn [main buffer set_chan set_main]; rewrite ?Em;
      rewrite before_app, checked_app, stopped_app; cbn in *; rewrite ?app_nil_r, ?orb_false_r in *.
    + rewrite H1, <- app_assoc. cbn. destruct (stopped os); rewrite ?app_nil_r; auto.
    + rewrite H2, H1; auto.
    + rewrite H2, H1; auto.
  - (* abort *) split_step H. inv_step H. unfold InvChecked in *. cbn. rewrite Heqp in HI.
    destruct HI as [H1 _]. rewrite before_app, checked_app. cbn. rewrite !app_nil_r.
    exists (data_prefix (buffer s)). destruct (stopped os); exact H1.
  - (* close *) split_step H. inv_step H. unfold InvChecked in *. cbn. rewrite Heqp in HI.
    destruct HI as [H1 H2]. rewrite before_app, checked_app, stopped_app, refused_checked, H2, app_nil_r. auto.
  - (* stop request *) split_step H. inv_step H. apply (quiet_checked s); autorewrite with lst; auto.
  - split_step H; inv_step H; apply (quiet_checked s); auto.
  - split_step H; inv_step H; apply (quiet_checked s); auto.
  - split_step H; inv_step H; apply (quiet_checked s); auto.
  - split_step H; inv_step H; apply (quiet_checked s); auto.
  - split_step H; inv_step H; apply (quiet_checked s); autorewrite with lst; auto.
  - split_step H; inv_step H; apply (quiet_checked s); autorewrite with lst; auto.
  - split_step H; inv_step H; apply (quiet_checked s); autorewrite with lst; auto.
  - (* decide *) split_step H; inv_step H; unfold InvChecked in *; cbn; rewrite app_nil_r;
      rewrite Heqp in HI; exact HI.
  - (* format *) split_step H; inv_step H; unfold InvChecked in *; cbn; rewrite app_nil_r;
      rewrite Heqp in HI; exact HI.
  - (* format fails *) split_step H; inv_step H; unfold InvChecked in *; cbn; rewrite Heqp in HI;
      destruct HI as [H1 H2]; exists []; rewrite before_app, checked_app, H2; cbn; rewrite !app_nil_r; exact H1.
  - (* print *) split_step H; inv_step H; unfold InvChecked in *; cbn; rewrite Heqp in HI;
      destruct HI as [H1 H2]; rewrite before_app, checked_app, stopped_app, H2; cbn; rewrite !app_nil_r; auto.
  - split_step H; inv_step H; apply (quiet_checked s); auto.
  - split_step H; inv_step H; apply (quiet_checked s); auto.
  - (* exit *) split_step H; inv_step H; unfold InvChecked in *; cbn; rewrite Heqp in HI;
      destruct HI as [H1 H2]; rewrite before_app, checked_app, stopped_app, H2; cbn; rewrite !app_nil_r; auto.
Qed.

Lemma run_checked : forall c es s os, run c es = Some (s, os) -> InvChecked s os.
Proof.
  intros c. apply (run_ind c (fun _ s os => InvChecked s os)).
  - unfold InvChecked, init, init_obs. cbn. destruct (bound c); auto.
  - intros. eapply step_checked; eauto.
Qed.

(* ---------- the report ---------- *)

Definition has_report (h : handler) : bool := match h_rx h with RxReport => true | _ => false end.
Fixpoint holding (hs : list handler) : nat :=
  match hs with [] => 0 | h :: r => (if has_report h then 1 else 0) + holding r end.
Definition ids (s : st) : list nat := map h_id (handlers s).

Definition delivered (p : phase) : bool :=
  match p with PWait | PExit true => true | _ => false end.

Lemma holding_app : forall a b, holding (a ++ b) = holding a + holding b.
Proof. induction a as [|h a IH]; intro b; [reflexivity|]. cbn. rewrite IH. lia. Qed.
Lemma holding_sent_all : forall hs, holding (map with_sent hs) = holding hs.
Proof. induction hs as [|h hs IH]; [reflexivity|]. cbn. rewrite IH. reflexivity. Qed.
Lemma holding_sent : forall r hs, holding (on_handler r with_sent hs) = holding hs.
Proof.
  intros r hs; induction hs as [|h hs IH]; [reflexivity|]. unfold on_handler in *. cbn. rewrite IH.
  destruct (Nat.eqb (h_id h) r); reflexivity.
Qed.
Lemma holding_dropped : forall r hs, holding (on_handler r (with_rx RxDropped) hs) <= holding hs.
Proof.
  intros r hs; induction hs as [|h hs IH]; [auto|]. unfold on_handler in *. cbn.
  unfold has_report; destruct (Nat.eqb (h_id h) r); cbn; destruct (h_rx h); lia.
Qed.
Lemma holding_drop : forall r hs, holding (drop_handler hs r) <= holding hs.
Proof.
  intros r hs; induction hs as [|h hs IH]; [auto|]. unfold drop_handler in *. cbn.
  destruct (Nat.eqb (h_id h) r); cbn; lia.
Qed.
Lemma holding_drop_report : forall r hs h,
  find_handler hs r = Some h -> h_rx h = RxReport -> S (holding (drop_handler hs r)) <= holding hs.
Proof.
  intros r hs h. unfold find_handler. induction hs as [|x hs IH]; [discriminate|]. cbn.
  destruct (Nat.eqb (h_id x) r) eqn:E; cbn; rewrite ?E; cbn; intros Hf Hr.
  - inversion Hf; subst. unfold has_report. rewrite Hr. pose proof (holding_drop r hs).
    unfold drop_handler in *. lia.
  - specialize (IH Hf Hr). unfold drop_handler in *. lia.
Qed.
Lemma on_handler_ids : forall r f hs, (forall h, h_id (f h) = h_id h) ->
  map h_id (on_handler r f hs) = map h_id hs.
Proof.
  intros r f hs Hf. unfold on_handler. rewrite map_map. apply map_ext. intro h.
  destruct (Nat.eqb (h_id h) r); auto.
Qed.
Lemma on_handler_absent : forall r f hs, ~ In r (map h_id hs) -> on_handler r f hs = hs.
Proof.
  intros r f hs; induction hs as [|h hs IH]; [reflexivity|]. cbn. intro H.
  destruct (Nat.eqb (h_id h) r) eqn:E; [apply Nat.eqb_eq in E; tauto|].
  f_equal. apply IH. tauto.
Qed.
Lemma holding_report : forall r hs, NoDup (map h_id hs) -> holding hs = 0 ->
  holding (on_handler r (with_rx RxReport) hs) <= 1.
Proof.
  intros r hs; induction hs as [|h hs IH]; cbn; [lia|]. intros N H. inversion N; subst.
  destruct (Nat.eqb (h_id h) r) eqn:E.
  - apply Nat.eqb_eq in E. fold (on_handler r (with_rx RxReport) hs). rewrite on_handler_absent by congruence.
    cbn. lia.
  - assert (holding hs = 0) by lia. specialize (IH H3 H0). unfold on_handler in IH. lia.
Qed.
Lemma holding_report_one : forall r hs h, NoDup (map h_id hs) -> holding hs = 0 ->
  find_handler hs r = Some h -> holding (on_handler r (with_rx RxReport) hs) = 1.
Proof.
  intros r hs h0; unfold find_handler; induction hs as [|h hs IH]; cbn; [discriminate|].
  intros N H F. inversion N; subst.
  destruct (Nat.eqb (h_id h) r) eqn:E.
  - apply Nat.eqb_eq in E. fold (on_handler r (with_rx RxReport) hs). rewrite on_handler_absent by congruence.
    cbn. lia.
  - assert (H0 : holding hs = 0) by lia. specialize (IH H3 H0 F). unfold on_handler in IH. lia.
Qed.
Lemma drop_nodup : forall r hs, NoDup (map h_id hs) -> NoDup (map h_id (drop_handler hs r)).
Proof.
  intros r hs; induction hs as [|h hs IH]; cbn; [auto|]. intro N. inversion N; subst.
  destruct (Nat.eqb (h_id h) r); cbn; auto. constructor; auto.
  intro H. apply H1. apply in_map_iff in H. destruct H as (x & Hx & Hin).
  apply filter_In in Hin. rewrite <- Hx. apply in_map. tauto.
Qed.
Lemma find_none : forall hs r, find_handler hs r = None -> ~ In r (map h_id hs).
Proof.
  intros hs r H Hin. apply in_map_iff in Hin. destruct Hin as (h & Hh & Hin).
  pose proof (find_none _ _ H h Hin) as X. cbn in X. rewrite Hh, Nat.eqb_refl in X. discriminate.
Qed.
Lemma find_some_in : forall hs r h, find_handler hs r = Some h -> In h hs /\ h_id h = r.
Proof.
  intros hs r h H. apply find_some in H. destruct H as [H1 H2]. apply Nat.eqb_eq in H2. auto.
Qed.

(* Handlers of the state after each event. *)
Definition InvOnce (s : st) (os : list obs) : Prop :=
  NoDup (ids s) /\ reports os + holding (handlers s) <= if delivered (main s) then 1 else 0.

Lemma quiet_once : forall s s' os o,
  delivered (main s') = delivered (main s) -> handlers s' = handlers s -> reports o = 0 ->
  InvOnce s os -> InvOnce s' (os ++ o).
Proof.
  intros s s' os o Hm Hh Hr [H1 H2]. unfold InvOnce, ids in *. rewrite Hm, Hh, reports_app, Hr, Nat.add_0_r. auto.
Qed.

Lemma once_drop : forall s os r a k,
  InvOnce s os -> reports [OAnswer r a] <= k ->
  k + holding (drop_handler (handlers s) r) <= holding (handlers s) ->
  InvOnce (fst (answered s r a)) (os ++ snd (answered s r a)).
Proof.
  intros s os r a k [H1 H2] Hk Hh. unfold InvOnce, ids in *. unfold answered.
  cbn [fst snd handlers main set_trigger set_hands]. split; [now apply drop_nodup|].
  rewrite reports_app. destruct (delivered (main s)); lia.
Qed.

Lemma step_once : forall c s e s' o os,
  InvOnce s os -> step c s e = Some (s', o) -> InvOnce s' (os ++ o).
Proof.
  intros c s e s' o os HI H. pose proof (not_exit _ _ _ _ _ H) as NX.
  unfold step in H. rewrite NX in H.
  destruct e.
  - split_step H. inv_step H. apply (quiet_once s); auto. cbn. now rewrite Heqp.
  - split_step H; inv_step H; (apply (quiet_once s); autorewrite with lst; auto).
  - destruct (waiting s) as [|m w] eqn:Ew; [discriminate|].
    destruct (full_room (buffer s)); [|discriminate].
    destruct HI as [H1 H2].
    destruct m as [i|[| |r|]|]; inv_step H; unfold InvOnce, ids in *; cbn;
      rewrite reports_app; cbn; rewrite ?Nat.add_0_r; auto.
    rewrite on_handler_ids by reflexivity. rewrite holding_sent. auto.
  - destruct (main s) eqn:Em; try discriminate. destruct (buffer s) as [|m b] eqn:Eb; [discriminate|].
    destruct m; inv_step H; apply (quiet_once s); auto; cbn; rewrite ?Em; auto.
  - split_step H. inv_step H. apply (quiet_once s); auto. cbn. now rewrite Heqp.
  - split_step H. inv_step H. destruct HI as [H1 H2]. unfold InvOnce, ids in *. cbn.
    rewrite reports_app, refused_reports, holding_sent_all, map_map. cbn. rewrite Heqp in H2. cbn in H2.
    split; [exact H1|lia].
  - split_step H. inv_step H. destruct HI as [H1 H2]. unfold InvOnce, ids in *. autorewrite with lst.
    rewrite app_nil_r. pose proof (find_none _ _ Heqo0) as NI.
    unfold begin_stop. destruct (expect s).
    + cbn. set (hs := match slot s with Some p => _ | None => _ end).
      assert (Hid : map h_id hs = map h_id (handlers s)).
      { unfold hs. destruct (slot s); [apply on_handler_ids; reflexivity|reflexivity]. }
      assert (Hh : holding hs <= holding (handlers s)).
      { unfold hs. destruct (slot s); [apply holding_dropped|auto]. }
      rewrite map_app, holding_app, Hid. cbn. split; [|destruct (delivered (main s)); lia].
      rewrite <- Hid in *. clear - H1 NI. set (l := map h_id hs) in *. clearbody l.
      induction l as [|x l IH]; cbn; [constructor; auto; constructor|]. inversion H1; subst.
      constructor; [|apply IH; auto; cbn in NI; tauto].
      rewrite in_app_iff. cbn. cbn in NI. intros [?|[?|[]]]; subst; tauto.
    + cbn. rewrite map_app, holding_app. cbn. split; [|destruct (delivered (main s)); lia].
      clear - H1 NI. set (l := map h_id (handlers s)) in *. clearbody l.
      induction l as [|x l IH]; cbn; [constructor; auto; constructor|]. inversion H1; subst.
      constructor; [|apply IH; auto; cbn in NI; tauto].
      rewrite in_app_iff. cbn. cbn in NI. intros [?|[?|[]]]; subst; tauto.
  - split_step H; inv_step H.
    + apply (once_drop s os r AOk 0 HI); [auto|]. apply holding_drop.
    + apply (once_drop s os r AReport 1 HI); [auto|]. eapply holding_drop_report; eauto.
  - split_step H; inv_step H. apply (once_drop s os r AFailed 0 HI); [auto|]. apply holding_drop.
  - split_step H; inv_step H. apply (once_drop s os r ATimeout 0 HI); [auto|]. apply holding_drop.
  - split_step H; inv_step H. destruct HI as [H1 H2]. unfold InvOnce, ids in *. cbn. rewrite app_nil_r.
    split; [now apply drop_nodup|]. pose proof (holding_drop r (handlers s)). lia.
  - split_step H; inv_step H; apply (quiet_once s); autorewrite with lst; auto.
  - split_step H; inv_step H; apply (quiet_once s); autorewrite with lst; auto.
  - split_step H; inv_step H; apply (quiet_once s); autorewrite with lst; auto.
  - split_step H; inv_step H; apply (quiet_once s); auto; cbn; rewrite Heqp; auto.
  - split_step H; inv_step H. destruct HI as [H1 H2]. rewrite Heqp in H2. cbn in H2.
    unfold InvOnce, ids in *. rewrite app_nil_r. cbn [handlers set_main main].
    unfold deliver. destruct (slot s) as [r|]; cbn.
    + rewrite on_handler_ids by reflexivity. split; [exact H1|].
      pose proof (holding_report r (handlers s) H1 ltac:(lia)). lia.
    + split; [exact H1|lia].
  - split_step H; inv_step H; apply (quiet_once s); auto; cbn; rewrite Heqp; auto.
  - split_step H; inv_step H. destruct HI as [H1 H2]. rewrite Heqp in H2. cbn in H2.
    unfold InvOnce, ids in *. rewrite reports_app. cbn. split; [exact H1|lia].
  - split_step H; inv_step H; apply (quiet_once s); auto.
  - split_step H; inv_step H; apply (quiet_once s); auto.
  - split_step H; inv_step H; apply (quiet_once s); auto; cbn; rewrite Heqp; auto.
Qed.

Lemma run_once : forall c es s os, run c es = Some (s, os) -> InvOnce s os.
Proof.
  intros c. apply (run_ind c (fun _ s os => InvOnce s os)).
  - unfold InvOnce, ids, init, init_obs. cbn. split; [constructor|]. destruct (bound c); cbn; lia.
  - intros. eapply step_once; eauto.
Qed.

(* ---------- the end of the process ---------- *)

Lemma exit_obs : forall c s e s' o ok, step c s e = Some (s', o) ->
  (In (OExit ok) o <-> main s' = PExit ok).
Proof.
  intros c s e s' o ok H. pose proof (not_exit _ _ _ _ _ H) as NX.
  assert (NE : main s <> PExit ok) by (intro X; rewrite X in NX; discriminate).
  unfold step in H. rewrite NX in H.
  destruct e.
  3: { destruct (waiting s) as [|m w]; [discriminate|]. destruct (full_room (buffer s)); [|discriminate].
       destruct m as [i|[| |r|]|]; inv_step H; cbn; split; intro X; try contradiction;
         destruct X as [X|[]]; discriminate. }
  5: { split_step H. inv_step H. cbn. split; intro X; [|discriminate].
       apply refused_in in X. destruct X; discriminate. }
  all: split_step H; inv_step H; unfold answered; cbn; autorewrite with lst; split; intro X;
    try contradiction; try discriminate;
    repeat match goal with
    | X : _ \/ _ |- _ => destruct X
    | X : False |- _ => destruct X
    end; try discriminate; try congruence; auto;
    try (inversion X; subst; auto; fail); try (inversion H; subst; auto; fail);
    try (exfalso; unfold set_main, set_chan in X; cbn in X; congruence).
Qed.

Lemma run_exit : forall c es s os, run c es = Some (s, os) ->
  forall ok, In (OExit ok) os -> main s = PExit ok.
Proof.
  intros c. apply (run_ind c (fun _ s os => forall ok, In (OExit ok) os -> main s = PExit ok)).
  - intros ok H. unfold init_obs in H. destruct (bound c); cbn in H; intuition discriminate.
  - intros es s os e s' o _ HI HS ok Hin. apply in_app_or in Hin. destruct Hin as [Hin|Hin].
    + specialize (HI ok Hin). pose proof (not_exit _ _ _ _ _ HS) as NX. rewrite HI in NX. discriminate.
    + eapply exit_obs; eauto.
Qed.

Lemma run_exited : forall c es s os, run c es = Some (s, os) ->
  forall ok, main s = PExit ok -> In (OExit ok) os.
Proof.
  intros c. apply (run_ind c (fun _ s os => forall ok, main s = PExit ok -> In (OExit ok) os)).
  - discriminate.
  - intros es s os e s' o _ _ HS ok Em. apply in_or_app. right. now apply (exit_obs _ _ _ _ _ ok HS).
Qed.

(* ---------- a patient schedule gives the report to somebody ---------- *)

Definition Inv1 (s : st) (os : list obs) : Prop :=
  (forall r, slot s = Some r ->
     exists h, find_handler (handlers s) r = Some h /\ h_rx h = RxOpen /\ h_plain h = false) /\
  (main s = PFormat -> slot s <> None) /\
  (delivered (main s) = true -> 1 <= reports os + holding (handlers s)) /\
  (done s = true -> handlers s = [] /\ trigger s = true) /\
  (main s = PExit true -> reports os = 1).

Lemma find_on_same : forall r f hs h, (forall h, h_id (f h) = h_id h) ->
  find_handler hs r = Some h -> find_handler (on_handler r f hs) r = Some (f h).
Proof.
  intros r f hs h Hf. unfold find_handler, on_handler. induction hs as [|x hs IH]; [discriminate|].
  cbn. destruct (Nat.eqb (h_id x) r) eqn:E; rewrite ?Hf, ?E; auto. intro H; inversion H; subst; auto.
Qed.
Lemma find_on_other : forall r q f hs, (forall h, h_id (f h) = h_id h) -> r <> q ->
  find_handler (on_handler q f hs) r = find_handler hs r.
Proof.
  intros r q f hs Hf Hn. unfold find_handler, on_handler. induction hs as [|x hs IH]; [reflexivity|].
  cbn. destruct (Nat.eqb (h_id x) q) eqn:E; rewrite ?Hf.
  - apply Nat.eqb_eq in E. destruct (Nat.eqb (h_id x) r) eqn:E2; [apply Nat.eqb_eq in E2; congruence|auto].
  - destruct (Nat.eqb (h_id x) r); auto.
Qed.
Lemma find_app : forall a b r,
  find_handler (a ++ b) r =
  match find_handler a r with Some h => Some h | None => find_handler b r end.
Proof.
  intros a b r. unfold find_handler. induction a as [|x a IH]; [reflexivity|]. cbn.
  destruct (Nat.eqb (h_id x) r); auto.
Qed.
Lemma find_map_sent : forall hs r,
  find_handler (map with_sent hs) r = option_map with_sent (find_handler hs r).
Proof.
  intros hs r. unfold find_handler. induction hs as [|x hs IH]; [reflexivity|]. cbn.
  destruct (Nat.eqb (h_id x) r); auto.
Qed.
Lemma find_drop : forall hs r q, r <> q -> find_handler (drop_handler hs q) r = find_handler hs r.
Proof.
  intros hs r q Hn. unfold find_handler, drop_handler. induction hs as [|x hs IH]; [reflexivity|]. cbn.
  destruct (Nat.eqb (h_id x) q) eqn:E; cbn.
  - apply Nat.eqb_eq in E. destruct (Nat.eqb (h_id x) r) eqn:E2; [apply Nat.eqb_eq in E2; congruence|auto].
  - destruct (Nat.eqb (h_id x) r); auto.
Qed.
Lemma drop_absent : forall hs r, ~ In r (map h_id hs) -> drop_handler hs r = hs.
Proof.
  intros hs r; induction hs as [|h hs IH]; [reflexivity|]. cbn. intro H.
  destruct (Nat.eqb (h_id h) r) eqn:E; [apply Nat.eqb_eq in E; tauto|].
  cbn. f_equal. apply IH. tauto.
Qed.
Lemma holding_drop_other : forall r hs h, NoDup (map h_id hs) ->
  find_handler hs r = Some h -> h_rx h <> RxReport -> holding (drop_handler hs r) = holding hs.
Proof.
  intros r hs h. unfold find_handler. induction hs as [|x hs IH]; [discriminate|]. cbn.
  intros N Hf Hr. inversion N; subst.
  destruct (Nat.eqb (h_id x) r) eqn:E; cbn.
  - inversion Hf; subst. apply Nat.eqb_eq in E. fold (drop_handler hs r).
    rewrite drop_absent by congruence. unfold has_report. destruct (h_rx h); congruence || reflexivity.
  - f_equal. apply IH; auto.
Qed.
Lemma holding_dropped_open : forall r hs h, NoDup (map h_id hs) ->
  find_handler hs r = Some h -> h_rx h = RxOpen ->
  holding (on_handler r (with_rx RxDropped) hs) = holding hs.
Proof.
  intros r hs h. unfold find_handler. induction hs as [|x hs IH]; [discriminate|]. cbn.
  intros N Hf Hr. inversion N; subst.
  destruct (Nat.eqb (h_id x) r) eqn:E; cbn.
  - inversion Hf; subst. apply Nat.eqb_eq in E. fold (on_handler r (with_rx RxDropped) hs).
    rewrite on_handler_absent by congruence. unfold has_report. rewrite Hr. reflexivity.
  - unfold on_handler in IH. f_equal. apply IH; auto.
Qed.

Lemma quiet_1 : forall s s' os o,
  main s' = main s -> handlers s' = handlers s -> slot s' = slot s ->
  trigger s' = trigger s -> done s' = done s -> reports o = 0 ->
  Inv1 s os -> Inv1 s' (os ++ o).
Proof.
  intros s s' os o Hm Hh Hs Ht Hd Hr H. unfold Inv1 in *.
  rewrite Hm, Hh, Hs, Ht, Hd, reports_app, Hr, Nat.add_0_r. exact H.
Qed.

Lemma answered_1 : forall s os r a h,
  NoDup (ids s) -> is_exit (main s) = false ->
  find_handler (handlers s) r = Some h ->
  (h_rx h <> RxOpen \/ h_plain h = true) ->
  reports [OAnswer r a] = (if has_report h then 1 else 0) ->
  Inv1 s os -> Inv1 (fst (answered s r a)) (os ++ snd (answered s r a)).
Proof.
  intros s os r a h HN HX HF HR HK (A & B & C & D & E). unfold answered. cbn [fst snd].
  unfold Inv1. cbn [slot main set_trigger set_hands handlers done trigger].
  repeat split.
  - intros q Hq. destruct (A q Hq) as (hq & F1 & F2 & F3). exists hq. rewrite find_drop; auto.
    intro X; subst. rewrite HF in F1. inversion F1; subst. destruct HR; congruence.
  - exact B.
  - intro Hd. specialize (C Hd). rewrite reports_app, HK. unfold has_report in *.
    destruct (h_rx h) eqn:Eh.
    + rewrite (holding_drop_other r (handlers s) h HN HF) by congruence. lia.
    + rewrite (holding_drop_other r (handlers s) h HN HF) by congruence. lia.
    + lia.
  - destruct (D H) as [X _]. rewrite X. reflexivity.
  - intro X. rewrite X in HX. discriminate.
Qed.

Lemma step_1 : forall c s e s' o os,
  InvOnce s os -> Inv1 s os ->
  (forall r, e <> ELeave r) -> (forall r, e <> ETimeout r) -> e <> EDeadline ->
  (forall h, In h (handlers s) -> h_plain h = true -> h_rx h <> RxReport) ->
  step c s e = Some (s', o) -> Inv1 s' (os ++ o).
Proof.
  intros c s e s' o os HO HI NL NT ND HP H. pose proof (not_exit _ _ _ _ _ H) as NX.
  pose proof HO as [HN HOn].
  unfold step in H. rewrite NX in H.
  destruct e.
  - split_step H. inv_step H. destruct HI as (A & B & C & D & E). rewrite app_nil_r.
    repeat split; cbn; auto; try discriminate; apply D; auto.
  - split_step H; inv_step H; (apply (quiet_1 s); autorewrite with lst; auto).
  - destruct (waiting s) as [|m w] eqn:Ew; [discriminate|].
    destruct (full_room (buffer s)); [|discriminate].
    destruct m as [i|[| |r|]|]; inv_step H; try (apply (quiet_1 s); auto; fail).
    destruct HI as (A & B & C & D & E). unfold Inv1. rewrite reports_app.
    cbn [slot main set_hands set_chan handlers done trigger reports]. rewrite Nat.add_0_r, holding_sent.
    repeat split; auto; try (apply D; auto).
    + intros q Hq. destruct (A q Hq) as (h & F1 & F2 & F3).
      destruct (Nat.eq_dec q r) as [->|Hn].
      * exists (with_sent h). rewrite (find_on_same r with_sent (handlers s) h) by (auto; reflexivity). auto.
      * exists h. rewrite find_on_other by (auto; reflexivity). auto.
    + destruct (D H) as [X _]. rewrite X. reflexivity.
  - destruct (main s) eqn:Em; try discriminate. destruct (buffer s) as [|m b] eqn:Eb; [discriminate|].
    destruct m; inv_step H.
    + apply (quiet_1 s); auto.
    + destruct HI as (A & B & C & D & E). rewrite app_nil_r.
      repeat split; cbn; auto; try discriminate; apply D; auto.
    + destruct HI as (A & B & C & D & E). rewrite app_nil_r.
      repeat split; cbn; auto; try discriminate; apply D; auto.
  - split_step H. inv_step H. destruct HI as (A & B & C & D & E).
    repeat split; cbn; auto; try discriminate; apply D; auto.
  - split_step H. inv_step H. destruct HI as (A & B & C & D & E).
    repeat split; cbn; auto; try discriminate.
    + intros q Hq. destruct (A q Hq) as (h & F1 & F2 & F3). exists (with_sent h).
      pose proof (find_map_sent (handlers s) q) as F. rewrite F1 in F. auto.
    + destruct (D H) as [X _]. rewrite X. reflexivity.
    + apply D; auto.
  - split_step H. inv_step H. destruct HI as (A & B & C & D & E). rewrite app_nil_r.
    apply andb_prop in Heqb. destruct Heqb as [_ Htr]. apply negb_true_iff in Htr.
    unfold Inv1. autorewrite with lst.
    assert (ND' : done s = true -> False) by (intro X; destruct (D X); congruence).
    unfold begin_stop. destruct (expect s); cbn [slot set_slot set_hands handlers].
    + assert (Hh : holding (match slot s with
                            | Some p => on_handler p (with_rx RxDropped) (handlers s)
                            | None => handlers s end) = holding (handlers s)).
      { destruct (slot s) as [p|] eqn:Es; [|reflexivity]. destruct (A p eq_refl) as (h & F1 & F2 & F3).
        now apply (holding_dropped_open p (handlers s) h). }
      split; [|split; [|split; [|split]]].
      * intros q Hq. inversion Hq; subst. exists (mk_handler q false (closed s) RxOpen).
        rewrite find_app. replace (find_handler _ q) with (@None handler).
        { cbn. rewrite Nat.eqb_refl. auto. }
        symmetry. destruct (slot s) as [p|]; [|exact Heqo0].
        destruct (Nat.eq_dec q p) as [->|Hn].
        { rewrite on_handler_absent; [exact Heqo0|]. now apply find_none. }
        { rewrite find_on_other by (auto; reflexivity). exact Heqo0. }
      * discriminate.
      * intro X. rewrite holding_app, Hh. cbn. specialize (C X). lia.
      * intro X. destruct (ND' X).
      * exact E.
    + split; [|split; [|split; [|split]]].
      * intros q Hq. destruct (A q Hq) as (h & F1 & F2 & F3). exists h. rewrite find_app, F1. auto.
      * exact B.
      * intro X. rewrite holding_app. cbn. specialize (C X). lia.
      * intro X. destruct (ND' X).
      * exact E.
  - split_step H; inv_step H.
    + apply (answered_1 s os r AOk h); auto.
      unfold has_report. destruct (find_some_in _ _ _ Heqo0) as [Hi _].
      specialize (HP h Hi Heqb0). destruct (h_rx h); congruence || reflexivity.
    + apply (answered_1 s os r AReport h); auto; [left; congruence|]. unfold has_report. now rewrite Heqr0.
  - split_step H; inv_step H. apply (answered_1 s os r AFailed h); auto; [left; congruence|].
    unfold has_report. now rewrite Heqr0.
  - destruct (NT r eq_refl).
  - destruct (NL r eq_refl).
  - split_step H; inv_step H; apply (quiet_1 s); autorewrite with lst; auto.
  - split_step H; inv_step H; apply (quiet_1 s); autorewrite with lst; auto.
  - split_step H; inv_step H; apply (quiet_1 s); autorewrite with lst; auto.
  - split_step H; inv_step H; destruct HI as (A & B & C & D & E); rewrite app_nil_r;
      repeat split; cbn; auto; try discriminate; try (apply D; auto); try congruence.
  - split_step H; inv_step H; destruct HI as (A & B & C & D & E); rewrite app_nil_r.
    try rewrite Heqp in HOn; cbn in HOn.
    unfold Inv1. cbn [main set_main slot handlers trigger done]. autorewrite with lst.
    destruct (slot s) as [r|] eqn:Es; [|destruct (B Heqp eq_refl)].
    destruct (A r eq_refl) as (h & F1 & F2 & F3).
    repeat split; try discriminate; try congruence.
    + intros _. unfold deliver. rewrite Es. cbn. 
      rewrite (holding_report_one r (handlers s) h HN ltac:(lia) F1). lia.
    + unfold deliver. rewrite Es. cbn. destruct (D H) as [X _]. rewrite X. reflexivity.
    + apply D; auto.
  - split_step H; inv_step H; destruct HI as (A & B & C & D & E);
      repeat split; cbn; auto; try discriminate; apply D; auto.
  - split_step H; inv_step H; destruct HI as (A & B & C & D & E).
    try rewrite Heqp in HOn; cbn in HOn.
    repeat split; cbn; auto; try discriminate; try (apply D; auto); intros _;
      rewrite reports_app; cbn; lia.
  - split_step H; inv_step H; destruct HI as (A & B & C & D & E). rewrite app_nil_r.
    apply andb_prop in Heqb. destruct Heqb as [Htr _].
    repeat split; cbn; auto; rewrite Heql in *; auto; apply D.
  - congruence.
  - split_step H; inv_step H; destruct HI as (A & B & C & D & E).
    destruct (D Heqb) as [Hh Ht]. assert (X : 1 <= reports os + holding (handlers s)) by (apply C; now rewrite Heqp).
    rewrite Hh in X. cbn in X. try rewrite Heqp in HOn; rewrite Hh in HOn; cbn in HOn.
    repeat split; cbn; auto; try discriminate; rewrite reports_app; cbn; intros; lia.
Qed.

(* No request that expects no report is given one. *)
Lemma on_in : forall q f hs h, In h (on_handler q f hs) ->
  exists h0, In h0 hs /\ h = (if Nat.eqb (h_id h0) q then f h0 else h0).
Proof. intros q f hs h H. apply in_map_iff in H. destruct H as (h0 & E & I). exists h0; auto. Qed.

Definition InvPlain (s : st) : Prop :=
  (expect s = false -> slot s = None) /\
  (main s = PStart -> expect s = false) /\
  (forall r h, slot s = Some r -> In h (handlers s) -> h_id h = r -> h_plain h = false) /\
  (forall h, In h (handlers s) -> h_plain h = true -> h_rx h = RxOpen).

Lemma quiet_plain : forall s s',
  expect s' = expect s -> slot s' = slot s -> (main s' = PStart -> main s = PStart) ->
  (forall h, In h (handlers s') -> In h (handlers s)) ->
  InvPlain s -> InvPlain s'.
Proof.
  intros s s' He Hs Hm Hh (A & A2 & B & C). unfold InvPlain. rewrite He, Hs.
  split; [|split; [|split]]; eauto.
Qed.

Lemma sent_plain : forall s hs f,
  (forall h, In h hs -> exists h0, In h0 (handlers s) /\ (h = h0 \/ h = f h0)) ->
  (forall h, h_id (f h) = h_id h /\ h_plain (f h) = h_plain h /\ h_rx (f h) = h_rx h) ->
  forall s', expect s' = expect s -> slot s' = slot s -> (main s' = PStart -> main s = PStart) ->
  handlers s' = hs -> InvPlain s -> InvPlain s'.
Proof.
  intros s hs f Hin Hf s' He Hs Hm Hh (A & A2 & B & C). unfold InvPlain. rewrite He, Hs, Hh.
  split; [exact A|split; [auto|split]].
  - intros r h Hr Hi Hid. destruct (Hin h Hi) as (h0 & H0 & [-> | ->]); [eauto|].
    destruct (Hf h0) as (E1 & E2 & E3). rewrite E2. rewrite E1 in Hid. eauto.
  - intros h Hi Hp. destruct (Hin h Hi) as (h0 & H0 & [-> | ->]); [eauto|].
    destruct (Hf h0) as (E1 & E2 & E3). rewrite E2 in Hp. rewrite E3. eauto.
Qed.

Lemma step_plain : forall c s e s' o, InvPlain s -> step c s e = Some (s', o) -> InvPlain s'.
Proof.
  intros c s e s' o HI H. pose proof (not_exit _ _ _ _ _ H) as NX.
  unfold step in H. rewrite NX in H.
  assert (SF : forall h, h_id (with_sent h) = h_id h /\ h_plain (with_sent h) = h_plain h /\
                         h_rx (with_sent h) = h_rx h) by (intro h; auto).
  destruct e.
  - split_step H. inv_step H. destruct HI as (A & A2 & B & C). unfold InvPlain. cbn.
    split; [auto|split; [discriminate|split; auto]].
  - split_step H; inv_step H; (apply (quiet_plain s); autorewrite with lst; auto).
  - destruct (waiting s) as [|m w] eqn:Ew; [discriminate|].
    destruct (full_room (buffer s)); [|discriminate].
    destruct m as [i|[| |r|]|]; inv_step H; try (apply (quiet_plain s); auto; fail).
    apply (sent_plain s (on_handler r with_sent (handlers s)) with_sent); auto.
    intros h Hi. apply on_in in Hi. destruct Hi as (h0 & H0 & E). exists h0. split; auto.
    destruct (Nat.eqb (h_id h0) r); auto.
  - destruct (main s) eqn:Em; try discriminate. destruct (buffer s) as [|m b] eqn:Eb; [discriminate|].
    destruct m; inv_step H; apply (quiet_plain s); auto; cbn; try discriminate; auto.
  - split_step H. inv_step H. apply (quiet_plain s); auto; cbn; try discriminate; auto.
  - split_step H. inv_step H.
    apply (sent_plain s (map with_sent (handlers s)) with_sent); auto; [|cbn; discriminate].
    intros h Hi. apply in_map_iff in Hi. destruct Hi as (h0 & E & H0). exists h0; auto.
  - split_step H. inv_step H. destruct HI as (A & A2 & B & C).
    pose proof (find_none _ _ Heqo0) as NI.
    unfold InvPlain. autorewrite with lst. unfold begin_stop. destruct (expect s) eqn:E; cbn.
    + split; [congruence|split; [intro X; pose proof (A2 X); congruence|split]].
      * intros q h Hq Hi Hid. injection Hq as <-. apply in_app_or in Hi. destruct Hi as [Hi|[<-|[]]]; [|reflexivity].
        exfalso. apply NI. destruct (slot s) as [p|].
        { rewrite <- (on_handler_ids p (with_rx RxDropped) (handlers s)) by reflexivity. rewrite <- Hid. now apply in_map. }
        { rewrite <- Hid. now apply in_map. }
      * intros h Hi Hp. apply in_app_or in Hi. destruct Hi as [Hi|[<-|[]]]; [|reflexivity].
        destruct (slot s) as [p|] eqn:Es; [|auto].
        apply on_in in Hi. destruct Hi as (h0 & H0 & ->).
        destruct (Nat.eqb (h_id h0) p) eqn:Ep; [|auto].
        apply Nat.eqb_eq in Ep. pose proof (B p h0 eq_refl H0 Ep). cbn in Hp. congruence.
    + split; [auto|split; [auto|split]].
      * intros q h Hq. rewrite (A eq_refl) in Hq. discriminate.
      * intros h Hi Hp. apply in_app_or in Hi. destruct Hi as [Hi|[<-|[]]]; [auto|reflexivity].
  - split_step H; inv_step H; apply (quiet_plain s); auto; cbn; intros h0 Hi; apply filter_In in Hi; tauto.
  - split_step H; inv_step H; apply (quiet_plain s); auto; cbn; intros h0 Hi; apply filter_In in Hi; tauto.
  - split_step H; inv_step H; apply (quiet_plain s); auto; cbn; intros h0 Hi; apply filter_In in Hi; tauto.
  - split_step H; inv_step H; apply (quiet_plain s); auto; cbn; intros h0 Hi; apply filter_In in Hi; tauto.
  - split_step H; inv_step H; apply (quiet_plain s); autorewrite with lst; auto; cbn; try discriminate; auto.
  - split_step H; inv_step H; apply (quiet_plain s); autorewrite with lst; auto; cbn; try discriminate; auto.
  - split_step H; inv_step H; apply (quiet_plain s); autorewrite with lst; auto; cbn; try discriminate; auto.
  - split_step H; inv_step H; apply (quiet_plain s); auto; cbn; try discriminate; auto.
  - split_step H; inv_step H. destruct HI as (A & A2 & B & C). unfold InvPlain. cbn [slot handlers expect set_main].
    autorewrite with lst. split; [auto|split; [discriminate|split; [discriminate|]]].
    unfold deliver. destruct (slot s) as [r|] eqn:Es; cbn; [|auto].
    intros h Hi Hp. apply on_in in Hi. destruct Hi as (h0 & H0 & ->).
    destruct (Nat.eqb (h_id h0) r) eqn:Er; [|auto].
    apply Nat.eqb_eq in Er. pose proof (B r h0 eq_refl H0 Er). cbn in Hp. congruence.
  - split_step H; inv_step H; apply (quiet_plain s); auto; cbn; try discriminate; auto.
  - split_step H; inv_step H; apply (quiet_plain s); auto; cbn; try discriminate; auto.
  - split_step H; inv_step H; apply (quiet_plain s); auto; cbn; try discriminate; auto.
  - split_step H; inv_step H; apply (quiet_plain s); auto; cbn; try discriminate; auto.
  - split_step H; inv_step H; apply (quiet_plain s); auto; cbn; try discriminate; auto.
Qed.

Lemma run_plain : forall c es s os, run c es = Some (s, os) -> InvPlain s.
Proof.
  intros c. apply (run_ind c (fun _ s _ => InvPlain s)).
  - unfold InvPlain, init. cbn. split; [auto|split; [auto|split; [discriminate|intros h []]]].
  - intros. eapply step_plain; eauto.
Qed.

Lemma run_1 : forall c es s os, run c es = Some (s, os) -> patient es -> Inv1 s os.
Proof.
  intros c. apply (run_ind c (fun es s os => patient es -> Inv1 s os)).
  - intros _. unfold Inv1, init. cbn.
    split; [discriminate|split; [discriminate|split; [discriminate|split; discriminate]]].
  - intros es s os e s' o HR IH HS (P1 & P2 & P3).
    assert (HP : patient es).
    { split; [|split]; intros; intro X; [eapply P1|eapply P2|eapply P3]; apply in_or_app; left; exact X. }
    apply (step_1 c s e s' o os); auto.
    + eapply run_once; eauto.
    + intros r ->. apply (P1 r). apply in_or_app. right. now left.
    + intros r ->. apply (P2 r). apply in_or_app. right. now left.
    + intros ->. apply P3. apply in_or_app. right. now left.
    + intros h Hi Hp. destruct (run_plain _ _ _ _ HR) as (_ & _ & _ & C). rewrite (C h Hi Hp). discriminate.
Qed.

(* ---------- a request to stop fails only because of another ---------- *)

Definition asked (es : list ev) (r : nat) : Prop := exists a b, es = a ++ EStopReq r :: b.
Definition replaced (es : list ev) (r : nat) : Prop :=
  exists a b q d, es = a ++ EStopReq r :: b ++ EStopReq q :: d /\ q <> r.

Lemma asked_snoc : forall es e r, asked es r -> asked (es ++ [e]) r.
Proof. intros es e r (a & b & ->). exists a, (b ++ [e]). rewrite <- app_assoc. reflexivity. Qed.
Lemma replaced_snoc : forall es e r, replaced es r -> replaced (es ++ [e]) r.
Proof.
  intros es e r (a & b & q & d & -> & N). exists a, b, q, (d ++ [e]). split; [|exact N].
  rewrite <- !app_assoc. cbn. rewrite <- !app_assoc. reflexivity.
Qed.

Definition InvAsked (es : list ev) (s : st) (os : list obs) : Prop :=
  (forall h, In h (handlers s) -> asked es (h_id h) /\ (h_rx h = RxDropped -> replaced es (h_id h))) /\
  (forall r, In (OAnswer r AFailed) os -> replaced es r).

Lemma run_asked : forall c es s os, run c es = Some (s, os) -> InvAsked es s os.
Proof.
  intros c. apply (run_ind c InvAsked).
  - split; [intros h []|]. intros r H. unfold init_obs in H. destruct (bound c); cbn in H; intuition discriminate.
  - intros es s os e s' o HR [A B] H. pose proof (not_exit _ _ _ _ _ H) as NX.
    (* every handler of s' comes from one of s with the same end, or is new *)
    assert (Q : forall s2 o2,
      (forall h, In h (handlers s2) -> exists h0, In h0 (handlers s) /\ h_id h = h_id h0 /\
                 (h_rx h = RxDropped -> h_rx h0 = RxDropped)) ->
      (forall r, In (OAnswer r AFailed) o2 -> replaced es r) ->
      InvAsked (es ++ [e]) s2 (os ++ o2)).
    { intros s2 o2 H1 H2. split.
      - intros h Hi. destruct (H1 h Hi) as (h0 & I0 & E1 & E2). destruct (A h0 I0) as [A1 A2]. rewrite E1.
        split; [now apply asked_snoc|]. intro X. apply replaced_snoc. auto.
      - intros r Hi. apply replaced_snoc. apply in_app_or in Hi. destruct Hi; auto. }
    assert (SAME : forall s2, handlers s2 = handlers s ->
      forall h, In h (handlers s2) -> exists h0, In h0 (handlers s) /\ h_id h = h_id h0 /\
                 (h_rx h = RxDropped -> h_rx h0 = RxDropped)).
    { intros s2 E h Hi. rewrite E in Hi. exists h. auto. }
    assert (DROP : forall r h, In h (drop_handler (handlers s) r) ->
      exists h0, In h0 (handlers s) /\ h_id h = h_id h0 /\ (h_rx h = RxDropped -> h_rx h0 = RxDropped)).
    { intros r h Hi. apply filter_In in Hi. exists h. tauto. }
    unfold step in H. rewrite NX in H.
    destruct e.
    + split_step H. inv_step H. apply Q; [apply SAME; reflexivity|intros ? []].
    + split_step H; inv_step H; (apply Q; [apply SAME; autorewrite with lst; reflexivity|]);
        cbn; intuition discriminate.
    + destruct (waiting s) as [|m w] eqn:Ew; [discriminate|].
      destruct (full_room (buffer s)); [|discriminate].
      destruct m as [i|[| |r|]|]; inv_step H; (apply Q; [|cbn; intuition discriminate]);
        try (apply SAME; reflexivity).
      cbn. intros h Hi. apply on_in in Hi. destruct Hi as (h0 & H0 & ->). exists h0.
      destruct (Nat.eqb (h_id h0) r); auto.
    + destruct (main s) eqn:Em; try discriminate. destruct (buffer s) as [|m b] eqn:Eb; [discriminate|].
      destruct m; inv_step H; (apply Q; [apply SAME; reflexivity|cbn; intuition discriminate]).
    + split_step H. inv_step H. apply Q; [apply SAME; reflexivity|cbn; intuition discriminate].
    + split_step H. inv_step H. apply Q.
      * cbn. intros h Hi. apply in_map_iff in Hi. destruct Hi as (h0 & <- & H0). exists h0. auto.
      * intros r X. apply refused_in in X. destruct X; discriminate.
    + split_step H. inv_step H. split.
      * autorewrite with lst. unfold begin_stop. destruct (expect s); cbn; intros h Hi;
          apply in_app_or in Hi; destruct Hi as [Hi|[<-|[]]].
        { destruct (slot s) as [p|].
          - apply on_in in Hi. destruct Hi as (h0 & H0 & ->). destruct (A h0 H0) as [A1 A2].
            pose proof (find_none _ _ Heqo0) as NI.
            assert (NE : r <> h_id h0) by (intros ->; apply NI; now apply in_map).
            assert (RP : replaced (es ++ [EStopReq r]) (h_id h0)).
            { destruct A1 as (a & b & ->). exists a, b, r, []. split; [|exact NE].
              rewrite <- app_assoc. reflexivity. }
            destruct (Nat.eqb (h_id h0) p); cbn; split; auto; now apply asked_snoc.
          - destruct (A h Hi) as [A1 A2]. split; [now apply asked_snoc|]. intro; apply replaced_snoc; auto. }
        { cbn. split; [exists es, []; reflexivity|discriminate]. }
        { destruct (A h Hi) as [A1 A2]. split; [now apply asked_snoc|]. intro; apply replaced_snoc; auto. }
        { cbn. split; [exists es, []; reflexivity|discriminate]. }
      * rewrite app_nil_r. intros q X. apply replaced_snoc. auto.
    + split_step H; inv_step H; (apply Q; [apply DROP|cbn; intuition discriminate]).
    + split_step H; inv_step H. apply Q; [apply DROP|]. cbn. intros q [X|[]]. inversion X; subst.
      destruct (find_some_in _ _ _ Heqo0) as [Hi <-]. now apply A.
    + split_step H; inv_step H; (apply Q; [apply DROP|cbn; intuition discriminate]).
    + split_step H; inv_step H; (apply Q; [apply DROP|cbn; intuition discriminate]).
    + split_step H; inv_step H; (apply Q; [apply SAME; autorewrite with lst; reflexivity|cbn; intuition discriminate]).
    + split_step H; inv_step H; (apply Q; [apply SAME; autorewrite with lst; reflexivity|cbn; intuition discriminate]).
    + split_step H; inv_step H; (apply Q; [apply SAME; autorewrite with lst; reflexivity|cbn; intuition discriminate]).
    + split_step H; inv_step H; (apply Q; [apply SAME; reflexivity|cbn; intuition discriminate]).
    + split_step H; inv_step H. apply Q; [|cbn; intuition discriminate].
      unfold deliver. destruct (slot s) as [r|]; [|apply SAME; reflexivity].
      cbn. intros h Hi. apply on_in in Hi. destruct Hi as (h0 & H0 & ->). exists h0.
      destruct (Nat.eqb (h_id h0) r); cbn; split; auto; split; auto; discriminate.
    + split_step H; inv_step H; (apply Q; [apply SAME; reflexivity|cbn; intuition discriminate]).
    + split_step H; inv_step H; (apply Q; [apply SAME; reflexivity|cbn; intuition discriminate]).
    + split_step H; inv_step H; (apply Q; [apply SAME; cbn; auto|cbn; intuition discriminate]).
    + split_step H; inv_step H; (apply Q; [apply SAME; reflexivity|cbn; intuition discriminate]).
    + split_step H; inv_step H; (apply Q; [apply SAME; reflexivity|cbn; intuition discriminate]).
Qed.

(* ---------- waiting for ever ---------- *)

Definition hung (s : st) : Prop :=
  main s = PWait /\ handlers s = [] /\ trigger s = false /\ done s = false.

Lemma step_hung : forall c s e s' o,
  hung s -> (forall r, e <> EStopReq r) -> step c s e = Some (s', o) -> hung s'.
Proof.
  intros c s e s' o (A & B & C & D) N H. unfold step in H. rewrite A in H. cbn [is_exit] in H.
  unfold hung.
  destruct e; try (rewrite B in H; cbn in H; discriminate); try discriminate;
    try (destruct (N _ eq_refl); fail);
    try (rewrite C in H; cbn in H; discriminate); try (rewrite D in H; discriminate).
  2: { destruct (waiting s) as [|m w]; [discriminate|]. destruct (full_room (buffer s)); [|discriminate].
       destruct m as [i|[| |r|]|]; inv_step H; cbn; rewrite ?B; auto. }
  all: split_step H; inv_step H; autorewrite with lst; cbn; auto.
Qed.

Lemma steps_hung : forall c es s s' o,
  hung s -> no_stop_request es -> steps c s es = Some (s', o) -> hung s'.
Proof.
  intros c es; induction es as [|e es IH]; intros s s' o H N HS; cbn [steps] in HS.
  - injection HS as <- <-. exact H.
  - destruct (step c s e) as [[s1 o1]|] eqn:E; [|discriminate].
    destruct (steps c s1 es) as [[s2 o2]|] eqn:E2; [|discriminate]. injection HS as <- <-.
    apply (IH s1 s2 o2); auto.
    + apply (step_hung c s e s1 o1); auto. intros r ->. apply (N r). now left.
    + intros r X. apply (N r). now right.
Qed.

(* ---------- otherwise the process can end ---------- *)

Definition late_phase (p : phase) : bool :=
  match p with PClosed | PFormat | PStdout | PWait => true | _ => false end.

Definition InvProg (s : st) : Prop :=
  (slot s <> None \/ main s = PFormat \/ main s = PWait -> trigger s = true \/ handlers s <> []) /\
  (late_phase (main s) = true -> closed s = true) /\
  (closed s = true -> forall h, In h (handlers s) -> h_sent h = true).

Lemma prog_quiet : forall s s',
  slot s' = slot s -> handlers s' = handlers s -> trigger s' = trigger s -> closed s' = closed s ->
  (main s' = PFormat \/ main s' = PWait -> main s = PFormat \/ main s = PWait) ->
  (late_phase (main s') = true -> late_phase (main s) = true) ->
  InvProg s -> InvProg s'.
Proof.
  intros s s' E1 E2 E3 E4 H1 H2 (A & B & C). unfold InvProg. rewrite E1, E2, E3, E4.
  split; [|split]; auto. intros [X|X]; [apply A; now left|apply A; right; auto].
Qed.

Lemma on_nil : forall r f hs, on_handler r f hs <> [] <-> hs <> [].
Proof. intros r f [|h hs]; cbn; split; congruence. Qed.

Lemma step_prog : forall c s e s' o,
  InvProg s -> (forall r, e <> ELeave r) -> step c s e = Some (s', o) -> InvProg s'.
Proof.
  intros c s e s' o HI NL H. pose proof (not_exit _ _ _ _ _ H) as NX.
  unfold step in H. rewrite NX in H.
  assert (ANS : forall r a, InvProg (fst (answered s r a))).
  { intros r a. destruct HI as (A & B & C). unfold answered. cbn. split; [|split]; cbn.
    - auto.
    - exact B.
    - intros X h Hi. apply filter_In in Hi. apply C; tauto. }
  destruct e.
  - split_step H. inv_step H. apply (prog_quiet s); auto; cbn; intuition discriminate.
  - split_step H; inv_step H; (apply (prog_quiet s); autorewrite with lst; auto).
  - destruct (waiting s) as [|m w] eqn:Ew; [discriminate|].
    destruct (full_room (buffer s)); [|discriminate].
    destruct m as [i|[| |r|]|]; inv_step H; try (apply (prog_quiet s); auto; fail).
    destruct HI as (A & B & C). unfold InvProg. cbn. rewrite on_nil. split; [|split]; auto.
    intros X h Hi. apply on_in in Hi. destruct Hi as (h0 & H0 & ->).
    destruct (Nat.eqb (h_id h0) r); cbn; auto.
  - destruct (main s) eqn:Em; try discriminate. destruct (buffer s) as [|m b] eqn:Eb; [discriminate|].
    destruct m; inv_step H; apply (prog_quiet s); auto; cbn; rewrite ?Em; intuition discriminate.
  - split_step H. inv_step H. apply (prog_quiet s); auto; cbn; intuition discriminate.
  - split_step H. inv_step H. destruct HI as (A & B & C). unfold InvProg. cbn. split; [|split]; auto.
    + intros [X|[X|X]]; try discriminate. destruct (A (or_introl X)) as [Y|Y]; [auto|right].
      destruct (handlers s); cbn; congruence.
    + intros _ h Hi. apply in_map_iff in Hi. destruct Hi as (h0 & <- & _). reflexivity.
  - split_step H. inv_step H. destruct HI as (A & B & C). unfold InvProg. autorewrite with lst.
    split; [|split]; auto.
    + intros _. right. unfold begin_stop. destruct (expect s); cbn; intro X; symmetry in X;
        apply app_cons_not_nil in X; exact X.
    + intros X h Hi. unfold begin_stop in Hi.
      destruct (expect s); cbn in Hi; apply in_app_or in Hi; destruct Hi as [Hi|[<-|[]]]; auto.
      destruct (slot s) as [p|]; auto. apply on_in in Hi. destruct Hi as (h0 & H0 & ->).
      destruct (Nat.eqb (h_id h0) p); cbn; auto.
  - split_step H; inv_step H; [apply (ANS r AOk)|apply (ANS r AReport)].
  - split_step H; inv_step H; apply (ANS r AFailed).
  - split_step H; inv_step H; apply (ANS r ATimeout).
  - destruct (NL r eq_refl).
  - split_step H; inv_step H; apply (prog_quiet s); autorewrite with lst; auto.
  - split_step H; inv_step H; apply (prog_quiet s); autorewrite with lst; auto.
  - split_step H; inv_step H; apply (prog_quiet s); autorewrite with lst; auto.
  - split_step H; inv_step H; destruct HI as (A & B & C); unfold InvProg; cbn; (split; [|split]); auto;
      try (intros _; apply B; rewrite Heqp; reflexivity).
    + intros _. apply A. left. congruence.
    + intros [X|[X|X]]; try discriminate. apply A. now left.
    + intros [X|[X|X]]; try discriminate. apply A. now left.
  - split_step H; inv_step H; destruct HI as (A & B & C). unfold InvProg.
    cbn [slot main trigger handlers closed set_main]. autorewrite with lst. split; [|split].
    + intros _. unfold deliver. destruct (slot s) as [r|] eqn:Es; cbn.
      * rewrite on_nil. apply A. left. congruence.
      * apply A. auto.
    + intros _. apply B. rewrite Heqp. reflexivity.
    + intros X h Hi. unfold deliver in Hi. destruct (slot s) as [r|]; cbn in Hi; auto.
      apply on_in in Hi. destruct Hi as (h0 & H0 & ->). destruct (Nat.eqb (h_id h0) r); cbn; auto.
  - split_step H; inv_step H; apply (prog_quiet s); auto; cbn; intuition discriminate.
  - split_step H; inv_step H; apply (prog_quiet s); auto; cbn; intuition discriminate.
  - split_step H; inv_step H; apply (prog_quiet s); auto.
  - split_step H; inv_step H; apply (prog_quiet s); auto.
  - split_step H; inv_step H; apply (prog_quiet s); auto; cbn; intuition discriminate.
Qed.

Lemma run_prog : forall c es s os, run c es = Some (s, os) -> nobody_leaves es -> InvProg s.
Proof.
  intros c. apply (run_ind c (fun es s _ => nobody_leaves es -> InvProg s)).
  - intros _. unfold InvProg, init. cbn. split; [|split]; try discriminate. intuition (try discriminate).
  - intros es s os e s' o _ IH HS N. apply (step_prog c s e s' o); auto.
    + apply IH. intros r X. apply (N r). apply in_or_app. now left.
    + intros r ->. apply (N r). apply in_or_app. right. now left.
Qed.

Definition can_exit (c : cfg) (s : st) : Prop :=
  exists more s' o, no_stop_request more /\ steps c s more = Some (s', o) /\ In (OExit true) o.

Lemma can_cons : forall c s e s1 o1,
  step c s e = Some (s1, o1) -> (forall r, e <> EStopReq r) -> can_exit c s1 -> can_exit c s.
Proof.
  intros c s e s1 o1 H N (m & s' & o & M1 & M2 & M3). exists (e :: m), s', (o1 ++ o).
  split; [|split].
  - intros r [X|X]; [exact (N r X)|exact (M1 r X)].
  - cbn [steps]. rewrite H, M2. reflexivity.
  - apply in_or_app. now right.
Qed.
Lemma can_one : forall c s e s1 o1,
  step c s e = Some (s1, o1) -> (forall r, e <> EStopReq r) -> In (OExit true) o1 -> can_exit c s.
Proof.
  intros c s e s1 o1 H N I1. exists [e], s1, (o1 ++ []). split; [|split].
  - intros r [X|[]]. exact (N r X).
  - cbn [steps]. rewrite H. reflexivity.
  - apply in_or_app. now left.
Qed.

Lemma can_wait_triggered : forall c s, main s = PWait -> trigger s = true -> can_exit c s.
Proof.
  intros c s Hm Ht. destruct (done s) eqn:Ed.
  - apply (can_one c s EExit (set_main s (PExit true)) [OExit true]); try discriminate; [|now left].
    unfold step. rewrite Hm, Ed. reflexivity.
  - apply (can_cons c s EDeadline (set_done s) []); try discriminate.
    + unfold step. rewrite Hm, Ht, Ed. reflexivity.
    + apply (can_one c _ EExit (set_main (set_done s) (PExit true)) [OExit true]); try discriminate; [|now left].
      unfold step. cbn. rewrite Hm. reflexivity.
Qed.

Lemma can_wait : forall c s, InvProg s -> main s = PWait -> can_exit c s.
Proof.
  intros c s (A & B & C) Hm.
  destruct (trigger s) eqn:Et; [now apply can_wait_triggered|].
  destruct (A (or_intror (or_intror Hm))) as [X|X]; [discriminate|].
  assert (Hc : closed s = true) by (apply B; rewrite Hm; reflexivity).
  destruct (handlers s) as [|h hs] eqn:Eh; [congruence|].
  assert (Hs : h_sent h = true) by (apply (C Hc); now left).
  assert (HF : find_handler (handlers s) (h_id h) = Some h).
  { rewrite Eh. cbn. rewrite Nat.eqb_refl. reflexivity. }
  set (go := fun a => fst (answered s (h_id h) a)).
  assert (G : forall a, can_exit c (go a)) by (intro a; apply can_wait_triggered; [exact Hm|reflexivity]).
  destruct (h_plain h) eqn:Hp.
  - apply (can_cons c s (EReply (h_id h)) (go AOk) [OAnswer (h_id h) AOk]); try discriminate; auto.
    unfold step. rewrite Hm, HF, Hs, Hp. reflexivity.
  - destruct (h_rx h) eqn:Hr.
    + apply (can_cons c s (ETimeout (h_id h)) (go ATimeout) [OAnswer (h_id h) ATimeout]); try discriminate; auto.
      unfold step. rewrite Hm, HF, Hs, Hp, Hr. reflexivity.
    + apply (can_cons c s (EFail (h_id h)) (go AFailed) [OAnswer (h_id h) AFailed]); try discriminate; auto.
      unfold step. rewrite Hm, HF, Hs, Hp, Hr. reflexivity.
    + apply (can_cons c s (EReply (h_id h)) (go AReport) [OAnswer (h_id h) AReport]); try discriminate; auto.
      unfold step. rewrite Hm, HF, Hs, Hp, Hr. reflexivity.
Qed.

Lemma can_format : forall c s, InvProg s -> main s = PFormat -> can_exit c s.
Proof.
  intros c s HI Hm.
  assert (E : step c s EFormat = Some (set_main (deliver s) PWait, [])) by (unfold step; rewrite Hm; reflexivity).
  apply (can_cons c s EFormat _ _ E); try discriminate. apply can_wait; [|reflexivity].
  eapply step_prog; eauto; discriminate.
Qed.
Lemma can_stdout : forall c s, main s = PStdout -> can_exit c s.
Proof.
  intros c s Hm.
  apply (can_one c s EPrint (set_main s (PExit true)) [OStdout; OExit true]); try discriminate.
  - unfold step. rewrite Hm. reflexivity.
  - cbn. auto.
Qed.
Lemma can_closed : forall c s, InvProg s -> main s = PClosed -> can_exit c s.
Proof.
  intros c s HI Hm.
  assert (E : step c s EDecide = Some (set_main s (if http c then match slot s with Some _ => PFormat | None => PStdout end
                            else PStdout), [])) by (unfold step; rewrite Hm; reflexivity).
  apply (can_cons c s EDecide _ _ E); try discriminate.
  assert (HI' : InvProg (set_main s (if http c then match slot s with Some _ => PFormat | None => PStdout end
                            else PStdout))) by (eapply step_prog; eauto; discriminate).
  destruct (http c); [|now apply can_stdout].
  destruct (slot s); [now apply can_format|now apply can_stdout].
Qed.
Lemma can_end : forall c s, InvProg s -> main s = PEnd -> can_exit c s.
Proof.
  intros c s HI Hm.
  assert (E : step c s EClose = Some (close s, refused (waiting s))) by (unfold step; rewrite Hm; reflexivity).
  apply (can_cons c s EClose _ _ E); try discriminate. apply can_closed; [|reflexivity].
  eapply step_prog; eauto; discriminate.
Qed.
Lemma can_read : forall c b s, InvProg s -> main s = PRead -> buffer s = b -> all_data b = false -> can_exit c s.
Proof.
  intros c b; induction b as [|m b IH]; intros s HI Hm Hb Ha; [discriminate|].
  destruct m as [i|sg|].
  - assert (E : step c s ETake = Some (set_chan s (waiting s) b, [OChecked i]))
      by (unfold step; rewrite Hm, Hb; reflexivity).
    apply (can_cons c s ETake _ _ E); try discriminate. apply IH; auto.

  - assert (E : step c s ETake = Some (set_main (set_chan s (waiting s) b) PEnd, []))
      by (unfold step; rewrite Hm, Hb; reflexivity).
    apply (can_cons c s ETake _ _ E); try discriminate. apply can_end; [|reflexivity].
    eapply step_prog; eauto; discriminate.
  - assert (E : step c s ETake = Some (set_main (set_chan s (waiting s) b) PEnd, []))
      by (unfold step; rewrite Hm, Hb; reflexivity).
    apply (can_cons c s ETake _ _ E); try discriminate. apply can_end; [|reflexivity].
    eapply step_prog; eauto; discriminate.
Qed.

Lemma can_go : forall c s os,
  InvProg s -> InvChecked s os -> stopped os = true -> is_exit (main s) = false -> can_exit c s.
Proof.
  intros c s os HP HC HS HX. unfold InvChecked in HC. destruct (main s) eqn:Em; try discriminate HX.
  - assert (E : step c s EReady = Some (mk_st (http c) (waiting s) (buffer s) (closed s) (slot s) (handlers s)
                              (trigger s) (done s) (mon s) (sigint_used s) (sighup_used s) PRead, []))
      by (unfold step; rewrite Em; reflexivity).
    apply (can_cons c s EReady _ _ E); try discriminate.
    apply (can_read c (buffer s)); auto.
    + eapply step_prog; eauto; discriminate.
    + destruct HC as [_ X]. rewrite X in HS. apply negb_true_iff in HS. exact HS.
  - apply (can_read c (buffer s)); auto. destruct HC as [_ X]. rewrite X in HS. apply negb_true_iff in HS. exact HS.
  - now apply can_end.
  - now apply can_closed.
  - now apply can_format.
  - now apply can_stdout.
  - now apply can_wait.
Qed.

(* ---------- to whom the report goes ---------- *)

Definition rank (p : phase) : nat :=
  match p with
  | PStart => 0 | PRead => 1 | PEnd => 2 | PClosed => 3 | PFormat | PStdout => 4 | PWait => 5 | PExit _ => 6
  end.

(* What an event does to the main thread, the slot and the flag. *)
Lemma step_shape : forall c s e s' o, step c s e = Some (s', o) ->
  rank (main s) <= rank (main s') /\
  (expect s = true -> main s <> PStart -> expect s' = true) /\
  (main s <> PFormat -> slot s <> None -> slot s' <> None) /\
  (In OStdout o -> main s = PStdout /\ main s' = PExit true) /\
  (main s = PFormat \/ main s = PWait -> main s' = PFormat \/ main s' = PWait \/ is_exit (main s') = true).
Proof.
  intros c s e s' o H. pose proof (not_exit _ _ _ _ _ H) as NX.
  unfold step in H. rewrite NX in H.
  destruct e.
  3: { destruct (waiting s) as [|m w]; [discriminate|]. destruct (full_room (buffer s)); [|discriminate].
       destruct m as [i|[| |r|]|]; inv_step H; cbn;
         (split; [auto|split; [auto|split; [auto|split; [intuition discriminate|intuition]]]]). }
  5: { split_step H. inv_step H. cbn.
       split; [auto|split; [auto|split; [auto|split; [|intuition discriminate]]]].
       intro X. apply refused_in in X. destruct X; discriminate. }
  5: { split_step H. inv_step H. autorewrite with lst.
       split; [auto|split; [auto|split; [|split; [intros []|intuition]]]].
       intros _ X. unfold begin_stop. destruct (expect s); cbn; [discriminate|exact X]. }
  13: { split_step H. inv_step H. cbn [main set_main slot expect]. autorewrite with lst.
        split; [cbn; auto|split; [auto|split; [congruence|split; [intros []|auto]]]]. }
  all: split_step H; inv_step H; unfold answered; cbn; autorewrite with lst;
    try match goal with E : main ?x = _ |- _ => rewrite ?E end; cbn;
    (split; [auto|split; [try congruence; auto|split; [auto|split; [intuition discriminate|
      try (intuition discriminate); intuition auto]]]]).
  all: try lia; congruence.
Qed.

Lemma steps_rank : forall c es s s' o, steps c s es = Some (s', o) -> rank (main s) <= rank (main s').
Proof.
  intros c es; induction es as [|e es IH]; intros s s' o H; cbn [steps] in H.
  - injection H as <- <-. auto.
  - destruct (step c s e) as [[s1 o1]|] eqn:E; [|discriminate].
    destruct (steps c s1 es) as [[s2 o2]|] eqn:E2; [|discriminate]. injection H as <- <-.
    pose proof (proj1 (step_shape _ _ _ _ _ E)). specialize (IH _ _ _ E2). lia.
Qed.

Lemma steps_expect : forall c es s s' o, steps c s es = Some (s', o) ->
  expect s = true -> main s <> PStart -> expect s' = true.
Proof.
  intros c es; induction es as [|e es IH]; intros s s' o H He Hm; cbn [steps] in H.
  - injection H as <- <-. auto.
  - destruct (step c s e) as [[s1 o1]|] eqn:E; [|discriminate].
    destruct (steps c s1 es) as [[s2 o2]|] eqn:E2; [|discriminate]. injection H as <- <-.
    destruct (step_shape _ _ _ _ _ E) as (R & X & _). apply (IH _ _ _ E2); auto.
    intro Y. rewrite Y in R. destruct (main s); cbn in R; try lia. congruence.
Qed.

Lemma steps_slot : forall c es s s' o, steps c s es = Some (s', o) ->
  slot s <> None -> rank (main s') <= 3 -> slot s' <> None.
Proof.
  intros c es; induction es as [|e es IH]; intros s s' o H He Hm; cbn [steps] in H.
  - injection H as <- <-. auto.
  - destruct (step c s e) as [[s1 o1]|] eqn:E; [|discriminate].
    destruct (steps c s1 es) as [[s2 o2]|] eqn:E2; [|discriminate]. injection H as <- <-.
    destruct (step_shape _ _ _ _ _ E) as (R & _ & X & _). apply (IH _ _ _ E2); auto.
    apply X; auto. intro Y. rewrite Y in R. cbn in R. pose proof (steps_rank _ _ _ _ _ E2). lia.
Qed.

Lemma steps_silent : forall c es s s' o, steps c s es = Some (s', o) ->
  main s = PFormat \/ main s = PWait -> ~ In OStdout o.
Proof.
  intros c es; induction es as [|e es IH]; intros s s' o H Hm; cbn [steps] in H.
  - injection H as <- <-. auto.
  - destruct (step c s e) as [[s1 o1]|] eqn:E; [|discriminate].
    destruct (steps c s1 es) as [[s2 o2]|] eqn:E2; [|discriminate]. injection H as <- <-.
    destruct (step_shape _ _ _ _ _ E) as (_ & _ & _ & X & Y). intro Hi. apply in_app_or in Hi.
    destruct Hi as [Hi|Hi].
    + destruct (X Hi) as [Z _]. destruct Hm; congruence.
    + destruct (Y Hm) as [Z|[Z|Z]]; try (apply (IH _ _ _ E2); auto; fail).
      destruct es as [|e2 es]; cbn [steps] in E2; [injection E2 as <- <-; destruct Hi|].
      unfold step in E2. rewrite Z in E2. discriminate.
Qed.

Lemma run_stdout : forall c es s os, run c es = Some (s, os) -> In OStdout os -> main s = PExit true.
Proof.
  intros c. apply (run_ind c (fun _ s os => In OStdout os -> main s = PExit true)).
  - unfold init_obs. destruct (bound c); cbn; intuition discriminate.
  - intros es s os e s' o _ HI HS Hin. apply in_app_or in Hin. destruct Hin as [Hin|Hin].
    + pose proof (not_exit _ _ _ _ _ HS) as NX. rewrite (HI Hin) in NX. discriminate.
    + destruct (step_shape _ _ _ _ _ HS) as (_ & _ & _ & X & _). apply X; auto.
Qed.

Lemma reports_pos : forall os, 0 < reports os -> ~ In OStdout os -> exists q, In (OAnswer q AReport) os.
Proof.
  induction os as [|x os IH]; cbn; [lia|]. intros H N.
  destruct x as [| | | |r []| |]; try (destruct IH as [q Hq]; [exact H|tauto|exists q; tauto]).
  - exists r. now left.
  - tauto.
Qed.

(* ---------- the monitor ---------- *)

Lemma fold_last : forall acts t m,
  m <= fold_left (fun m a => if Nat.leb a t then Nat.max m a else m) acts m /\
  (forall a, In a acts -> a <= t ->
     a <= fold_left (fun m a => if Nat.leb a t then Nat.max m a else m) acts m) /\
  (m <= t -> fold_left (fun m a => if Nat.leb a t then Nat.max m a else m) acts m <= t) /\
  (forall z, m <= z -> (forall a, In a acts -> a <= z) ->
     fold_left (fun m a => if Nat.leb a t then Nat.max m a else m) acts m <= z).
Proof.
  induction acts as [|x acts IH]; intros t m; cbn [fold_left].
  - repeat split; auto. intros a [].
  - destruct (Nat.leb x t) eqn:E.
    + apply Nat.leb_le in E. destruct (IH t (Nat.max m x)) as (A & B & C & D). repeat split.
      * lia.
      * intros a [->|Hi] Ha; [lia|auto].
      * intro. apply C. lia.
      * intros z Hz Hall. apply D; [|intros; apply Hall; now right].
        pose proof (Hall x (or_introl eq_refl)). lia.
    + apply Nat.leb_gt in E. destruct (IH t m) as (A & B & C & D). repeat split; auto.
      * intros a [->|Hi] Ha; [lia|auto].
      * intros z Hz Hall. apply D; auto. intros; apply Hall; now right.
Qed.

Lemma last_ge : forall acts t a, In a acts -> a <= t -> a <= last_activity acts t.
Proof. intros acts t a. unfold last_activity. destruct (fold_last acts t 0) as (_ & B & _). apply B. Qed.
Lemma last_bound : forall acts t z, (forall a, In a acts -> a <= z) -> last_activity acts t <= z.
Proof.
  intros acts t z H. unfold last_activity. destruct (fold_last acts t 0) as (_ & _ & _ & D).
  apply D; [lia|exact H].
Qed.

Lemma monitor_quiet : forall fuel timeout late last k start t,
  monitor_loop fuel timeout late last k start = Some t -> timeout <= t - last t /\ start + timeout <= t.
Proof.
  induction fuel as [|f IH]; intros timeout late last k start t H; [discriminate|].
  cbn [monitor_loop] in H. destruct (Nat.leb timeout _) eqn:E.
  - injection H as <-. apply Nat.leb_le in E. split; [exact E|lia].
  - apply IH in H. lia.
Qed.

Lemma monitor_stops : forall z d timeout late last,
  0 < timeout -> (forall k, late k <= d) -> (forall t, last t <= z) ->
  forall fuel k start, start < z + timeout -> z + timeout < start + fuel ->
  exists t, monitor_loop fuel timeout late last k start = Some t /\ t < z + 2 * timeout + d.
Proof.
  intros z d timeout late last HT HD HL. induction fuel as [|f IH]; intros k start H1 H2; [lia|].
  cbn [monitor_loop]. pose proof (HD k). destruct (Nat.leb timeout _) eqn:E.
  - eexists. split; [reflexivity|]. lia.
  - apply Nat.leb_gt in E. pose proof (HL (start + timeout + late k)). apply IH; lia.
Qed.
