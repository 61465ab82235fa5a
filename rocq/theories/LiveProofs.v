(** Proofs for the live-check run: statistics, exit code, coverage. *)
From Coq Require Import String Ascii Bool Arith Lia ZArith NArith QArith List Permutation.
From Verif Require Import Base BaseProofs Json SemTypes LiveModel LiveSpec.
Import ListNotations.
Local Open Scope string_scope.
Local Open Scope list_scope.
Local Open Scope nat_scope.

(** * The statistics as a fold over reported entities *)

Definition record_ent (e : entity) (s : stats) : stats :=
  let s1 := maybe_add_c (e_result e) (inc_entity_count (e_type e) s) in
  let s2 := match e_attr e with Some n => cover_attribute n s1 | None => s1 end in
  let s3 := match e_metric e with Some n => cover_metric n s2 | None => s2 end in
  match e_event e with Some n => cover_event n s3 | None => s3 end.

Definition record_l (e : entity) (s : lstats) : lstats := on_cumulative (record_ent e) s.
Definition record_all (es : list entity) (s : lstats) : lstats :=
  fold_left (fun s e => record_l e s) es s.

Lemma record_all_app es1 es2 s : record_all (es1 ++ es2) s = record_all es2 (record_all es1 s).
Proof. apply fold_left_app. Qed.

Lemma record_all_cons e es s : record_all (e :: es) s = record_all es (record_l e s).
Proof. reflexivity. Qed.

(** A result whose highest level agrees with its list of findings. *)
Definition wf_lcr (l : lcr) : Prop :=
  match highest l with
  | None => all_advice l = []
  | Some h => most_severe h (all_advice l)
  end.
Definition wf_ent (e : entity) : Prop :=
  exists l, e_result e = Some l /\ wf_lcr l.

Lemma wf_new : wf_lcr lcr_new.
Proof. reflexivity. Qed.

Lemma level_max_cases a b :
  (level_max a b = a /\ level_rank b <= level_rank a) \/
  (level_max a b = b /\ level_rank a <= level_rank b).
Proof.
  unfold level_max, level_leb. destruct (Nat.leb_spec (level_rank a) (level_rank b)); [right|left];
    split; auto; lia.
Qed.

Lemma wf_add m r l f : wf_lcr l -> wf_lcr (add_advice m r l f).
Proof.
  intros H. unfold add_advice.
  destruct (match m with Some m => modifier_apply m f r | None => Some f end) as [f'|]; [|exact H].
  unfold wf_lcr in *; simpl. destruct (highest l) as [h|].
  - destruct H as [[g [Hg Hl]] Hall].
    destruct (level_max_cases h (f_level f')) as [[-> Hle]|[-> Hle]].
    + split.
      * exists g. split; [apply in_or_app; auto|exact Hl].
      * intros x Hx. apply in_app_or in Hx as [Hx|[<-|[]]]; auto.
    + split.
      * exists f'. split; [apply in_or_app; right; left; reflexivity|reflexivity].
      * intros x Hx. apply in_app_or in Hx as [Hx|[<-|[]]]; auto.
        etransitivity; [apply Hall, Hx|exact Hle].
  - rewrite H; simpl. split.
    + exists f'. split; [left; reflexivity|reflexivity].
    + intros x [<-|[]]; auto.
Qed.

Lemma wf_add_list m r fs : forall l, wf_lcr l -> wf_lcr (add_advice_list m r l fs).
Proof.
  induction fs as [|f fs IH]; intros l H; [exact H|].
  simpl. apply IH, wf_add, H.
Qed.

Lemma wf_run_advisor_list m advs r sig a g : forall acc l,
  wf_lcr acc -> run_advisor_list m advs r sig a g acc = Ok l -> wf_lcr l.
Proof.
  induction advs as [|adv advs IH]; intros acc l Hw H; simpl in H.
  - injection H as <-; exact Hw.
  - destruct (adv r sig a g) as [fs|]; [|discriminate]. simpl in H.
    eapply IH; [|exact H]. apply wf_add_list, Hw.
Qed.

Lemma covered_last own fs : covered_name own fs = opt_get (last_template fs) own.
Proof.
  unfold covered_name. revert own; induction fs as [|f fs IH]; intros own; [reflexivity|].
  simpl. rewrite IH. destruct (last_template fs); [reflexivity|]. simpl. reflexivity.
Qed.

(** What each runner establishes. *)
Definition good {T} (ents : T -> list entity) (er : T -> T) (x x' : T) (st st' : lstats) : Prop :=
  st' = record_all (ents x') st /\ Forall wf_ent (ents x') /\ er x' = er x.

Lemma run_list_good {T} (run : T -> lstats -> res (T * lstats)) ents er :
  (forall x st x' st', run x st = Ok (x', st') -> good ents er x x' st st') ->
  forall l st l' st', run_list run l st = Ok (l', st') ->
    st' = record_all (flat_map ents l') st /\ Forall wf_ent (flat_map ents l') /\
    map er l' = map er l.
Proof.
  intros Hrun. induction l as [|x l IH]; intros st l' st' H; simpl in H.
  - injection H as <- <-. repeat split; constructor.
  - destruct (run x st) as [[x' st1]|] eqn:E1; [|discriminate]. simpl in H.
    destruct (run_list run l st1) as [[l1 st2]|] eqn:E2; [|discriminate]. simpl in H.
    injection H as <- <-.
    apply Hrun in E1 as (-> & W1 & R1). apply IH in E2 as (-> & W2 & R2).
    simpl. rewrite record_all_app. repeat split.
    + apply Forall_app; auto.
    + f_equal; auto.
Qed.

Lemma run_advisors_good c t r g sig st l st' :
  run_advisors c t r g sig st = Ok (l, st') ->
  st' = record_all [plain t (Some l)] st /\ wf_ent (plain t (Some l)).
Proof.
  unfold run_advisors. destruct (run_advisor_list _ _ _ _ _ _ _) as [l0|] eqn:E; [|discriminate].
  simpl. intros H. injection H as <- <-. split.
  - simpl. unfold record_l, maybe_add, inc_entity. destruct st; reflexivity.
  - exists l0. split; [reflexivity|]. eapply wf_run_advisor_list; [apply wf_new|exact E].
Qed.

Lemma run_attr_good c g sig a st a' st' :
  run_attr c g sig a st = Ok (a', st') -> good ents_attr erase_attr a a' st st'.
Proof.
  unfold run_attr.
  set (sa := match find_attribute c (sa_name a) with Some x => Some x | None => _ end).
  match goal with |- context [run_advisor_list _ _ _ _ _ _ ?x] => set (l0 := x) end.
  assert (W0 : wf_lcr l0).
  { unfold l0. destruct sa as [x|]; [destruct (is_template _)|];
      try apply wf_add; apply wf_new. }
  destruct (run_advisor_list _ _ _ _ _ _ l0) as [l|] eqn:E; [|discriminate].
  simpl. intros H. injection H as <- <-.
  assert (W : wf_lcr l) by (eapply wf_run_advisor_list; eauto).
  unfold good; simpl. rewrite covered_last. repeat split.
  - unfold record_l, maybe_add, inc_entity. destruct st; reflexivity.
  - constructor; [|constructor]. exists l; auto.
Qed.

Lemma run_attrs_good c g sig l st l' st' :
  run_attrs c g sig l st = Ok (l', st') ->
  st' = record_all (ents_attrs l') st /\ Forall wf_ent (ents_attrs l') /\
  map erase_attr l' = map erase_attr l.
Proof. apply run_list_good. intros; eapply run_attr_good; eauto. Qed.

(** Destruct a monadic run in hypothesis [H]. *)
Ltac step H :=
  match type of H with
  | context [rbind ?e _] =>
      let E := fresh "E" in destruct e as [[? ?]|] eqn:E; [cbn [rbind] in H|discriminate H]
  end.

Lemma run_exemplar_good c g sig e st e' st' :
  run_exemplar c g sig e st = Ok (e', st') -> good ents_exemplar erase_exemplar e e' st st'.
Proof.
  unfold run_exemplar. intros H. step H. step H. injection H as <- <-.
  apply run_advisors_good in E as (-> & W). apply run_attrs_good in E0 as (-> & W2 & R).
  repeat split; [constructor; auto|]. unfold erase_exemplar; simpl. rewrite R; reflexivity.
Qed.

Lemma run_dpoint_good c mk g sig p st p' st' :
  run_dpoint c mk g sig p st = Ok (p', st') -> good ents_dpoint erase_dpoint p p' st st'.
Proof.
  unfold run_dpoint. intros H. step H. step H. step H. injection H as <- <-.
  apply run_advisors_good in E as (-> & W). apply run_attrs_good in E0 as (-> & W2 & R).
  apply (run_list_good _ ents_exemplar erase_exemplar) in E1 as (-> & W3 & R3);
    [|intros; eapply run_exemplar_good; eauto].
  unfold good, ents_dpoint; simpl. rewrite record_all_app. repeat split.
  - constructor; auto. apply Forall_app; auto.
  - unfold erase_dpoint; simpl. rewrite R, R3; reflexivity.
Qed.

Lemma run_span_event_good c g sig e st e' st' :
  run_span_event c g sig e st = Ok (e', st') -> good ents_span_event erase_span_event e e' st st'.
Proof.
  unfold run_span_event. intros H. step H. step H. injection H as <- <-.
  apply run_advisors_good in E as (-> & W). apply run_attrs_good in E0 as (-> & W2 & R).
  repeat split; [constructor; auto|]. unfold erase_span_event; simpl. rewrite R; reflexivity.
Qed.

Lemma run_span_link_good c g sig e st e' st' :
  run_span_link c g sig e st = Ok (e', st') -> good ents_span_link erase_span_link e e' st st'.
Proof.
  unfold run_span_link. intros H. step H. step H. injection H as <- <-.
  apply run_advisors_good in E as (-> & W). apply run_attrs_good in E0 as (-> & W2 & R).
  repeat split; [constructor; auto|]. unfold erase_span_link; simpl. rewrite R; reflexivity.
Qed.

Lemma run_span_good c g sig e st e' st' :
  run_span c g sig e st = Ok (e', st') ->
  st' = record_all (ents_span e') st /\ Forall wf_ent (ents_span e') /\
  erase (SmpSpan e') = erase (SmpSpan e).
Proof.
  unfold run_span. intros H. step H. step H. step H. step H. injection H as <- <-.
  apply run_advisors_good in E as (-> & W). apply run_attrs_good in E0 as (-> & W2 & R).
  apply (run_list_good _ ents_span_event erase_span_event) in E1 as (-> & W3 & R3);
    [|intros; eapply run_span_event_good; eauto].
  apply (run_list_good _ ents_span_link erase_span_link) in E2 as (-> & W4 & R4);
    [|intros; eapply run_span_link_good; eauto].
  unfold ents_span; simpl. rewrite !record_all_app. repeat split.
  - constructor; auto. rewrite !Forall_app; auto.
  - rewrite R, R3, R4; reflexivity.
Qed.

Lemma run_metric_good c sig m st m' st' :
  run_metric c sig m st = Ok (m', st') ->
  st' = record_all (ents_metric m') st /\ Forall wf_ent (ents_metric m') /\
  erase (SmpMetric m') = erase (SmpMetric m).
Proof.
  unfold run_metric. intros H.
  match type of H with context [run_advisor_list _ _ _ _ _ _ ?x] => set (l0 := x) in * end.
  assert (W0 : wf_lcr l0).
  { unfold l0. destruct (find_metric c (sm_name m)); [|apply wf_add]; apply wf_new. }
  destruct (run_advisor_list _ _ _ _ _ _ l0) as [l1|] eqn:E; [|discriminate]. cbn [rbind] in H.
  apply wf_run_advisor_list in E; [|exact W0].
  set (l2 := add_advice_list _ _ l1 _) in *.
  assert (W2 : wf_lcr l2) by (apply wf_add_list, E). clearbody l2 l0. clear E W0.
  assert (Hpts : forall pts' st1,
    match sm_points m with
    | Some (DPNumber ps) =>
        let* (ps', st1) := run_list (run_dpoint c RfNumberDP (find_metric c (sm_name m)) sig) ps st in Ok (Some (DPNumber ps'), st1)
    | Some (DPHistogram ps) =>
        let* (ps', st1) := run_list (run_dpoint c RfHistogramDP (find_metric c (sm_name m)) sig) ps st in Ok (Some (DPHistogram ps'), st1)
    | Some (DPExponential ps) =>
        let* (ps', st1) := run_list (run_dpoint c RfExponentialDP (find_metric c (sm_name m)) sig) ps st in Ok (Some (DPExponential ps'), st1)
    | None => Ok (None, st)
    end = Ok (pts', st1) ->
    st1 = record_all (ents_points pts') st /\ Forall wf_ent (ents_points pts') /\
    erase_points pts' = erase_points (sm_points m)).
  { intros pts' st1 Hp.
    destruct (sm_points m) as [[ps|ps|ps]|]; [| | |injection Hp as <- <-; repeat split; constructor];
      step Hp; injection Hp as <- <-;
      apply (run_list_good _ ents_dpoint erase_dpoint) in E as (-> & W3 & R3);
      try (intros; eapply run_dpoint_good; eauto); repeat split; auto; simpl; rewrite R3; reflexivity. }
  step H. specialize (Hpts _ _ eq_refl) as (-> & W3 & R3). injection H as <- <-.
  unfold ents_metric; simpl. rewrite record_all_app, R3. repeat split.
  - simpl. unfold record_l, maybe_add, inc_entity.
    destruct (record_all _ st); reflexivity.
  - apply Forall_app; split; auto. constructor; [|constructor]. exists l2; auto.
Qed.

Lemma run_log_good c sig m st m' st' :
  run_log c sig m st = Ok (m', st') ->
  st' = record_all (ents_log m') st /\ Forall wf_ent (ents_log m') /\
  erase (SmpLog m') = erase (SmpLog m).
Proof.
  unfold run_log. intros H.
  match type of H with context [let '(s, l0) := ?x in _] => destruct x as [s l0] eqn:E0 end.
  assert (W0 : wf_lcr l0).
  { destruct (String.eqb _ _); [injection E0 as <- <-; apply wf_new|].
    destruct (find_event c (lg_event m)); injection E0 as <- <-; [|apply wf_add]; apply wf_new. }
  destruct (run_advisor_list _ _ _ _ _ _ l0) as [l1|] eqn:E; [|discriminate]. cbn [rbind] in H.
  apply wf_run_advisor_list in E; [|exact W0].
  set (l2 := add_advice_list _ _ l1 _) in *.
  assert (W2 : wf_lcr l2) by (apply wf_add_list, E). clearbody l2. clear E E0 W0.
  step H. injection H as <- <-. apply run_attrs_good in E as (-> & W3 & R3).
  unfold ents_log; simpl. rewrite record_all_app, R3. repeat split.
  - simpl. unfold record_l, maybe_add, inc_entity.
    destruct (record_all _ st) as [s0|]; [|reflexivity]. simpl.
    unfold record_ent, cover_event; cbn [e_event e_attr e_metric e_type e_result].
    destruct (String.eqb (lg_event m) "") eqn:E1; [reflexivity|]. rewrite E1; reflexivity.
  - apply Forall_app; split; auto. constructor; [|constructor]. exists l2; auto.
Qed.

Lemma run_sample_good c s st s' st' :
  run_sample c s st = Ok (s', st') -> good entities erase s s' st st'.
Proof.
  destruct s; simpl; unfold rmap; intros H; step H; injection H as <- <-; unfold good; simpl.
  - apply run_attr_good in E as (-> & W & R). simpl in R. repeat split; auto. f_equal. exact R.
  - apply run_span_good in E as (-> & W & R). repeat split; auto.
  - apply run_span_event_good in E as (-> & W & R). repeat split; auto. rewrite R; reflexivity.
  - apply run_span_link_good in E as (-> & W & R). repeat split; auto. rewrite R; reflexivity.
  - unfold run_resource in E. step E. step E. injection E as <- <-.
    apply run_advisors_good in E0 as (-> & W). apply run_attrs_good in E1 as (-> & W2 & R). simpl.
    repeat split; [constructor; auto|]. rewrite R; reflexivity.
  - unfold run_scope in E. step E. step E. injection E as <- <-.
    apply run_advisors_good in E0 as (-> & W). apply run_attrs_good in E1 as (-> & W2 & R). simpl.
    repeat split; [constructor; auto|]. rewrite R; reflexivity.
  - apply run_metric_good in E as (-> & W & R). repeat split; auto.
  - apply run_log_good in E as (-> & W & R). repeat split; auto.
  - unfold run_profile in E. step E. step E. injection E as <- <-.
    apply run_advisors_good in E0 as (-> & W). apply run_attrs_good in E1 as (-> & W2 & R). simpl.
    repeat split; [constructor; auto|]. rewrite R; reflexivity.
Qed.

Lemma erase_attach cur s : erase (attach cur s) = erase s.
Proof. destruct s; reflexivity. Qed.

Lemma run_all_good c : forall l cur st l' st', run_all c cur l st = Ok (l', st') ->
  st' = record_all (flat_map entities l') st /\ Forall wf_ent (flat_map entities l') /\
  map erase l' = map erase l.
Proof.
  induction l as [|s l IH]; intros cur st l' st' H; simpl in H.
  - injection H as <- <-. repeat split; constructor.
  - step H. step H. injection H as <- <-.
    apply run_sample_good in E as (-> & W & R). apply IH in E0 as (-> & W2 & R2).
    simpl. rewrite record_all_app. repeat split.
    + apply Forall_app; auto.
    + rewrite R, erase_attach, R2. reflexivity.
Qed.

(** * Counting *)
Section Counting.
  Context {K : Type} (eqb : K -> K -> bool).
  Hypothesis eqb_spec : forall a b, eqb a b = true <-> a = b.

  (** A counter map described by its reading function. *)
  Definition tally (m : list (K * nat)) (c : K -> nat) : Prop :=
    NoDup (map fst m) /\ (forall k n, In (k, n) m <-> n = c k /\ 0 < n).

  Lemma tally_lookup m c k : tally m c -> opt_get (lookup eqb k m) 0 = c k.
  Proof.
    intros [Hnd H]. destruct (lookup eqb k m) as [n|] eqn:E; simpl.
    - apply (lookup_in eqb eqb_spec) in E. apply H in E as [E _]; exact E.
    - destruct (Nat.eq_dec (c k) 0) as [->|Hne]; [reflexivity|].
      exfalso. apply (lookup_none eqb eqb_spec) in E. apply E.
      apply in_map_iff. exists (k, c k). split; [reflexivity|]. apply H. split; [reflexivity|lia].
  Qed.

  Lemma tally_incr m c k :
    tally m c -> tally (incr eqb k m) (fun x => (if eqb x k then 1 else 0) + c x).
  Proof.
    intros Ht. pose proof Ht as [Hnd H]. pose proof (incr_nodup eqb eqb_spec k m Hnd) as Hnd'.
    split; [exact Hnd'|]. intros x n. split.
    - intros Hin. pose proof (in_lookup eqb eqb_spec _ _ _ Hnd' Hin) as Hl.
      pose proof (lookup_incr eqb eqb_spec x k m) as Hc. rewrite Hl in Hc; simpl in Hc.
      rewrite (tally_lookup _ c) in Hc by exact Ht. split; [exact Hc|].
      destruct (eqb x k) eqn:E; [lia|].
      simpl in Hc. subst n. unfold incr in Hl. rewrite lookup_insert_ne in Hl.
      + apply (lookup_in eqb eqb_spec) in Hl. apply H in Hl as [_ Hp]; exact Hp.
      + exact eqb_spec.
      + intros ->. rewrite (proj2 (eqb_spec k k) eq_refl) in E; discriminate.
    - intros [-> Hp].
      destruct (lookup eqb x (incr eqb k m)) as [n|] eqn:El.
      + pose proof (lookup_incr eqb eqb_spec x k m) as Hc. rewrite El in Hc; simpl in Hc.
        rewrite (tally_lookup _ c) in Hc by exact Ht. rewrite <- Hc.
        apply (lookup_in eqb eqb_spec), El.
      + pose proof (lookup_incr eqb eqb_spec x k m) as Hc. rewrite El in Hc; simpl in Hc.
        rewrite (tally_lookup _ c) in Hc by exact Ht. lia.
  Qed.

  Lemma tally_ext m c c' : (forall k, c k = c' k) -> tally m c -> tally m c'.
  Proof. intros He [Hnd H]. split; [exact Hnd|]. intros k n. rewrite <- He. apply H. Qed.

  Lemma tally_nil : tally [] (fun _ => 0).
  Proof. split; [constructor|]. intros k n; simpl; split; [tauto|lia]. Qed.

  Lemma tally_fold ks : forall m c, tally m c ->
    tally (fold_left (fun m k => incr eqb k m) ks m) (fun x => count_if (eqb x) ks + c x).
  Proof.
    induction ks as [|k ks IH]; intros m c H; simpl.
    - exact H.
    - eapply tally_ext; [|apply IH, tally_incr, H]. intros x; simpl.
      rewrite count_if_cons. lia.
  Qed.

  Lemma tally_exact m ks : tally m (fun x => count_if (eqb x) ks) <-> exact_counts eqb m ks.
  Proof. reflexivity. Qed.
End Counting.

Lemma level_eqb_spec a b : level_eqb a b = true <-> a = b.
Proof. destruct a, b; simpl; split; (reflexivity || discriminate). Qed.

Definition stat_fold (es : list entity) (s : stats) : stats :=
  fold_left (fun s e => record_ent e s) es s.

Lemma record_all_cumulative es s : record_all es (Cumulative s) = Cumulative (stat_fold es s).
Proof. revert s; induction es as [|e es IH]; intros s; simpl; auto. Qed.
Lemma record_all_disabled es : record_all es Disabled = Disabled.
Proof. induction es as [|e es IH]; simpl; auto. Qed.

(** Projections of the fold of [stat_add_advice]. *)

Lemma adv_total fs : forall s, st_total (fold_left stat_add_advice fs s) = st_total s.
Proof. induction fs as [|f fs IH]; intros s; simpl; [reflexivity|]. rewrite IH; reflexivity. Qed.
Lemma adv_type fs : forall s, st_by_type (fold_left stat_add_advice fs s) = st_by_type s.
Proof. induction fs as [|f fs IH]; intros s; simpl; [reflexivity|]. rewrite IH; reflexivity. Qed.
Lemma adv_highest fs : forall s, st_highest (fold_left stat_add_advice fs s) = st_highest s.
Proof. induction fs as [|f fs IH]; intros s; simpl; [reflexivity|]. rewrite IH; reflexivity. Qed.
Lemma adv_no fs : forall s, st_no_advice (fold_left stat_add_advice fs s) = st_no_advice s.
Proof. induction fs as [|f fs IH]; intros s; simpl; [reflexivity|]. rewrite IH; reflexivity. Qed.
Lemma adv_ra fs : forall s, st_reg_attrs (fold_left stat_add_advice fs s) = st_reg_attrs s.
Proof. induction fs as [|f fs IH]; intros s; simpl; [reflexivity|]. rewrite IH; reflexivity. Qed.
Lemma adv_na fs : forall s, st_non_attrs (fold_left stat_add_advice fs s) = st_non_attrs s.
Proof. induction fs as [|f fs IH]; intros s; simpl; [reflexivity|]. rewrite IH; reflexivity. Qed.
Lemma adv_rm fs : forall s, st_reg_metrics (fold_left stat_add_advice fs s) = st_reg_metrics s.
Proof. induction fs as [|f fs IH]; intros s; simpl; [reflexivity|]. rewrite IH; reflexivity. Qed.
Lemma adv_nm fs : forall s, st_non_metrics (fold_left stat_add_advice fs s) = st_non_metrics s.
Proof. induction fs as [|f fs IH]; intros s; simpl; [reflexivity|]. rewrite IH; reflexivity. Qed.
Lemma adv_re fs : forall s, st_reg_events (fold_left stat_add_advice fs s) = st_reg_events s.
Proof. induction fs as [|f fs IH]; intros s; simpl; [reflexivity|]. rewrite IH; reflexivity. Qed.
Lemma adv_ne fs : forall s, st_non_events (fold_left stat_add_advice fs s) = st_non_events s.
Proof. induction fs as [|f fs IH]; intros s; simpl; [reflexivity|]. rewrite IH; reflexivity. Qed.
Lemma adv_count fs : forall s, st_advisories (fold_left stat_add_advice fs s) = length fs + st_advisories s.
Proof. induction fs as [|f fs IH]; intros s; simpl; [reflexivity|]. rewrite IH; simpl; lia. Qed.
Lemma adv_levels fs : forall s, st_levels (fold_left stat_add_advice fs s) =
  fold_left (fun m k => incr level_eqb k m) (map f_level fs) (st_levels s).
Proof. induction fs as [|f fs IH]; intros s; simpl; [reflexivity|]. rewrite IH; reflexivity. Qed.
Lemma adv_ids fs : forall s, st_ids (fold_left stat_add_advice fs s) =
  fold_left (fun m k => incr String.eqb k m) (map f_id fs) (st_ids s).
Proof. induction fs as [|f fs IH]; intros s; simpl; [reflexivity|]. rewrite IH; reflexivity. Qed.
Lemma adv_msgs fs : forall s, st_messages (fold_left stat_add_advice fs s) =
  fold_left (fun m k => incr String.eqb k m) (map f_message fs) (st_messages s).
Proof. induction fs as [|f fs IH]; intros s; simpl; [reflexivity|]. rewrite IH; reflexivity. Qed.

(** The non-coverage part of [record_ent]. *)
Lemma cover_attribute_keeps n s : let s' := cover_attribute n s in
  st_total s' = st_total s /\ st_by_type s' = st_by_type s /\ st_advisories s' = st_advisories s /\
  st_levels s' = st_levels s /\ st_highest s' = st_highest s /\ st_no_advice s' = st_no_advice s /\
  st_ids s' = st_ids s /\ st_messages s' = st_messages s.
Proof. unfold cover_attribute. destruct (bump _ _ _). repeat split. Qed.
Lemma cover_metric_keeps n s : let s' := cover_metric n s in
  st_total s' = st_total s /\ st_by_type s' = st_by_type s /\ st_advisories s' = st_advisories s /\
  st_levels s' = st_levels s /\ st_highest s' = st_highest s /\ st_no_advice s' = st_no_advice s /\
  st_ids s' = st_ids s /\ st_messages s' = st_messages s.
Proof. unfold cover_metric. destruct (bump _ _ _). repeat split. Qed.
Lemma cover_event_keeps n s : let s' := cover_event n s in
  st_total s' = st_total s /\ st_by_type s' = st_by_type s /\ st_advisories s' = st_advisories s /\
  st_levels s' = st_levels s /\ st_highest s' = st_highest s /\ st_no_advice s' = st_no_advice s /\
  st_ids s' = st_ids s /\ st_messages s' = st_messages s.
Proof. unfold cover_event. destruct (String.eqb _ _); [repeat split|]. destruct (bump _ _ _). repeat split. Qed.

Lemma record_ent_keeps e s :
  let s' := record_ent e s in
  let s1 := maybe_add_c (e_result e) (inc_entity_count (e_type e) s) in
  st_total s' = st_total s1 /\ st_by_type s' = st_by_type s1 /\ st_advisories s' = st_advisories s1 /\
  st_levels s' = st_levels s1 /\ st_highest s' = st_highest s1 /\ st_no_advice s' = st_no_advice s1 /\
  st_ids s' = st_ids s1 /\ st_messages s' = st_messages s1.
Proof.
  unfold record_ent. cbv zeta.
  set (s1 := maybe_add_c _ _).
  destruct (e_attr e) as [a|]; [pose proof (cover_attribute_keeps a s1) as Ha; set (s2 := cover_attribute a s1) in *
    |set (s2 := s1)]; [|assert (Ha : s2 = s1) by reflexivity];
  (destruct (e_metric e) as [m|]; [pose proof (cover_metric_keeps m s2) as Hm; set (s3 := cover_metric m s2) in *
    |set (s3 := s2); assert (Hm : s3 = s2) by reflexivity]);
  (destruct (e_event e) as [v|]; [pose proof (cover_event_keeps v s3) as Hv; set (s4 := cover_event v s3) in *
    |set (s4 := s3); assert (Hv : s4 = s3) by reflexivity]);
  cbv zeta in *; clearbody s4 s3 s2; try subst s4; try subst s3; try subst s2;
  intuition congruence.
Qed.


Lemma worst_of_wf l : wf_lcr l -> forall k,
  worst_is k (all_advice l) = match highest l with Some h => level_eqb k h | None => false end.
Proof.
  intros Hw k. unfold wf_lcr in Hw. destruct (highest l) as [h|]; [|rewrite Hw; reflexivity].
  destruct Hw as [[g [Hg Hl]] Hall]. unfold worst_is.
  destruct (level_eqb k h) eqn:E.
  - apply level_eqb_spec in E; subst k. apply andb_true_iff; split.
    + apply existsb_exists. exists g. split; [exact Hg|]. apply level_eqb_spec; auto.
    + apply forallb_forall. intros f Hf. unfold level_leb. apply Nat.leb_le, Hall, Hf.
  - apply not_true_is_false. intros H. apply andb_true_iff in H as [H1 H2].
    apply existsb_exists in H1 as [f [Hf Hk]]. apply level_eqb_spec in Hk.
    rewrite forallb_forall in H2. specialize (H2 g Hg). unfold level_leb in H2. apply Nat.leb_le in H2.
    specialize (Hall f Hf). rewrite <- Hk in Hall. rewrite Hl in H2.
    assert (level_rank k = level_rank h) by lia.
    destruct k, h; simpl in *; discriminate.
Qed.

Lemma exact_app_fold {K} (eqb : K -> K -> bool) (Hs : forall a b, eqb a b = true <-> a = b) m ks ks' :
  exact_counts eqb m ks ->
  exact_counts eqb (fold_left (fun m k => incr eqb k m) ks' m) (ks ++ ks').
Proof.
  intros H. apply tally_exact. apply tally_exact in H.
  eapply tally_ext; [|apply tally_fold; [exact Hs|exact H]].
  intros k; simpl. rewrite count_if_app. lia.
Qed.

Lemma totals_step es s e : totals_exact es s -> wf_ent e -> totals_exact (es ++ [e]) (record_ent e s).
Proof.
  intros (Ht & Hty & Had & Hlv & Hid & Hms & Hnd & Hhi & Hno) (l & El & Hw).
  pose proof (record_ent_keeps e s) as (Kt & Kty & Kad & Klv & Khi & Kno & Kid & Kms).
  cbv zeta in *. unfold totals_exact.
  rewrite Kt, Kty, Kad, Klv, Khi, Kno, Kid, Kms. clear Kt Kty Kad Klv Khi Kno Kid Kms.
  assert (Ea : advice_of e = all_advice l) by (unfold advice_of; rewrite El; reflexivity).
  rewrite El. unfold maybe_add_c.
  set (s0 := inc_entity_count (e_type e) s).
  set (s1 := fold_left stat_add_advice (all_advice l) s0).
  set (s2 := match highest l with Some l0 => add_highest l0 s1 | None => s1 end).
  assert (P2 : st_total s2 = st_total s1 /\ st_by_type s2 = st_by_type s1 /\
    st_advisories s2 = st_advisories s1 /\ st_levels s2 = st_levels s1 /\
    st_ids s2 = st_ids s1 /\ st_messages s2 = st_messages s1 /\ st_no_advice s2 = st_no_advice s1).
  { unfold s2; destruct (highest l); repeat split. }
  destruct P2 as (P1 & P2 & P3 & P4 & P5 & P6 & P7).
  set (s3 := match all_advice l with [] => inc_no_advice s2 | _ => s2 end).
  assert (P8 : st_total s3 = st_total s2 /\ st_by_type s3 = st_by_type s2 /\
    st_advisories s3 = st_advisories s2 /\ st_levels s3 = st_levels s2 /\
    st_ids s3 = st_ids s2 /\ st_messages s3 = st_messages s2 /\ st_highest s3 = st_highest s2).
  { unfold s3; destruct (all_advice l); repeat split. }
  destruct P8 as (Q1 & Q2 & Q3 & Q4 & Q5 & Q6 & Q7).
  rewrite Q1, Q2, Q3, Q4, Q5, Q6, Q7, P1, P2, P3, P4, P5, P6.
  assert (Efl : flat_map advice_of (es ++ [e]) = flat_map advice_of es ++ all_advice l).
  { rewrite flat_map_app. simpl. rewrite app_nil_r, Ea. reflexivity. }
  rewrite Efl, !map_app, !app_length.
  assert (R : tally (st_highest s2) (fun k => count_if (fun e => worst_is k (advice_of e)) (es ++ [e]))).
  { assert (Th : tally (st_highest s1) (fun k => count_if (fun e => worst_is k (advice_of e)) es)).
    { unfold s1. rewrite adv_highest. split; [exact Hnd|exact Hhi]. }
    unfold s2. destruct (highest l) as [h|] eqn:Eh.
    - simpl. eapply tally_ext; [|apply (tally_incr level_eqb level_eqb_spec), Th].
      intros k; simpl. rewrite count_if_app, count_if_cons, Ea, (worst_of_wf _ Hw), Eh.
      unfold count_if; simpl. lia.
    - eapply tally_ext; [|exact Th].
      intros k; simpl. rewrite count_if_app, count_if_cons, Ea, (worst_of_wf _ Hw), Eh.
      unfold count_if; simpl. lia. }
  assert (N : st_no_advice s3 =
    count_if (fun e => match advice_of e with [] => true | _ => false end) (es ++ [e])).
  { rewrite count_if_app, count_if_cons, Ea, <- Hno.
    assert (N2 : st_no_advice s2 = st_no_advice s)
      by (rewrite P7; unfold s1; rewrite adv_no; reflexivity).
    unfold s3. destruct (all_advice l); simpl; rewrite N2; unfold count_if; simpl; lia. }
  clearbody s3.
  unfold s1. rewrite adv_total, adv_type, adv_count, adv_levels, adv_ids, adv_msgs.
  unfold s0; simpl.
  split; [lia|].
  split; [apply (exact_app_fold _ string_eqb_spec _ _ [e_type e]), Hty|].
  split; [lia|].
  split; [apply (exact_app_fold _ level_eqb_spec _ _ _ Hlv)|].
  split; [apply (exact_app_fold _ string_eqb_spec _ _ _ Hid)|].
  split; [apply (exact_app_fold _ string_eqb_spec _ _ _ Hms)|].
  split; [apply R|]. split; [apply R|exact N].
Qed.

Lemma exact_nil {K} (eqb : K -> K -> bool) : exact_counts eqb [] [].
Proof. split; [constructor|]. intros k n; unfold count_if; simpl. split; [tauto|lia]. Qed.

Lemma totals_fold r es : Forall wf_ent es -> totals_exact es (stat_fold es (stats_new r)).
Proof.
  induction es as [|e es IH] using rev_ind; intros H.
  - unfold totals_exact, stat_fold; simpl.
    repeat match goal with |- _ /\ _ => split end; try apply exact_nil; try reflexivity; try constructor.
    + intros [].
    + intros [H1 H2]. unfold count_if in *; simpl in *. lia.
  - apply Forall_app in H as [H1 H2]. inversion H2; subst.
    unfold stat_fold. rewrite fold_left_app. simpl. apply totals_step; auto.
Qed.

(** * Coverage *)

Lemma maybe_cov r t s : let s1 := maybe_add_c r (inc_entity_count t s) in
  st_reg_attrs s1 = st_reg_attrs s /\ st_non_attrs s1 = st_non_attrs s /\
  st_reg_metrics s1 = st_reg_metrics s /\ st_non_metrics s1 = st_non_metrics s /\
  st_reg_events s1 = st_reg_events s /\ st_non_events s1 = st_non_events s.
Proof.
  cbv zeta. unfold maybe_add_c. destruct r as [l|]; [|repeat split].
  set (s1 := fold_left _ _ _).
  assert (H : st_reg_attrs s1 = st_reg_attrs s /\ st_non_attrs s1 = st_non_attrs s /\
    st_reg_metrics s1 = st_reg_metrics s /\ st_non_metrics s1 = st_non_metrics s /\
    st_reg_events s1 = st_reg_events s /\ st_non_events s1 = st_non_events s).
  { unfold s1. rewrite adv_ra, adv_na, adv_rm, adv_nm, adv_re, adv_ne. repeat split. }
  clearbody s1. destruct (highest l), (all_advice l); exact H.
Qed.

Definition opt_bump (o : option string) (p : list (string * nat) * list (string * nat)) :=
  match o with Some n => bump n (fst p) (snd p) | None => p end.

Lemma record_cov e s : e_event e <> Some "" ->
  let s' := record_ent e s in
  (st_reg_attrs s', st_non_attrs s') = opt_bump (e_attr e) (st_reg_attrs s, st_non_attrs s) /\
  (st_reg_metrics s', st_non_metrics s') = opt_bump (e_metric e) (st_reg_metrics s, st_non_metrics s) /\
  (st_reg_events s', st_non_events s') = opt_bump (e_event e) (st_reg_events s, st_non_events s).
Proof.
  intros Hev. cbv zeta. unfold record_ent.
  pose proof (maybe_cov (e_result e) (e_type e) s) as (H1 & H2 & H3 & H4 & H5 & H6).
  set (s1 := maybe_add_c _ _) in *. clearbody s1.
  rewrite <- H1, <- H2, <- H3, <- H4, <- H5, <- H6. clear H1 H2 H3 H4 H5 H6.
  unfold opt_bump. simpl.
  assert (A : forall n s, (st_reg_attrs (cover_attribute n s), st_non_attrs (cover_attribute n s)) = bump n (st_reg_attrs s) (st_non_attrs s)
    /\ st_reg_metrics (cover_attribute n s) = st_reg_metrics s /\ st_non_metrics (cover_attribute n s) = st_non_metrics s
    /\ st_reg_events (cover_attribute n s) = st_reg_events s /\ st_non_events (cover_attribute n s) = st_non_events s).
  { intros n x. unfold cover_attribute. destruct (bump _ _ _); repeat split. }
  assert (M : forall n s, (st_reg_metrics (cover_metric n s), st_non_metrics (cover_metric n s)) = bump n (st_reg_metrics s) (st_non_metrics s)
    /\ st_reg_attrs (cover_metric n s) = st_reg_attrs s /\ st_non_attrs (cover_metric n s) = st_non_attrs s
    /\ st_reg_events (cover_metric n s) = st_reg_events s /\ st_non_events (cover_metric n s) = st_non_events s).
  { intros n x. unfold cover_metric. destruct (bump _ _ _); repeat split. }
  assert (V : forall n s, n <> "" -> (st_reg_events (cover_event n s), st_non_events (cover_event n s)) = bump n (st_reg_events s) (st_non_events s)
    /\ st_reg_attrs (cover_event n s) = st_reg_attrs s /\ st_non_attrs (cover_event n s) = st_non_attrs s
    /\ st_reg_metrics (cover_event n s) = st_reg_metrics s /\ st_non_metrics (cover_event n s) = st_non_metrics s).
  { intros n x Hn. apply String.eqb_neq in Hn. unfold cover_event. rewrite Hn. destruct (bump _ _ _); repeat split. }
  assert (K : forall o s, o <> Some "" ->
    let s' := match o with Some n => cover_event n s | None => s end in
    (st_reg_events s', st_non_events s') = match o with Some n => bump n (st_reg_events s) (st_non_events s) | None => (st_reg_events s, st_non_events s) end
    /\ st_reg_attrs s' = st_reg_attrs s /\ st_non_attrs s' = st_non_attrs s
    /\ st_reg_metrics s' = st_reg_metrics s /\ st_non_metrics s' = st_non_metrics s).
  { intros [n|] x Hn; cbv zeta; [|repeat split]. apply V. intros ->; apply Hn; reflexivity. }
  set (s2 := match e_attr e with Some n => cover_attribute n s1 | None => s1 end).
  set (s3 := match e_metric e with Some n => cover_metric n s2 | None => s2 end).
  destruct (K (e_event e) s3 Hev) as (K1 & K2 & K3 & K4 & K5). cbv zeta in *.
  rewrite K1, K2, K3, K4, K5. clear K1 K2 K3 K4 K5.
  assert (S3 : (st_reg_metrics s3, st_non_metrics s3) = match e_metric e with Some n => bump n (st_reg_metrics s2) (st_non_metrics s2) | None => (st_reg_metrics s2, st_non_metrics s2) end
    /\ st_reg_attrs s3 = st_reg_attrs s2 /\ st_non_attrs s3 = st_non_attrs s2
    /\ st_reg_events s3 = st_reg_events s2 /\ st_non_events s3 = st_non_events s2).
  { unfold s3. destruct (e_metric e); [apply M|repeat split]. }
  destruct S3 as (-> & -> & -> & -> & ->).
  unfold s2. destruct (e_attr e) as [n|].
  - destruct (A n s1) as (-> & -> & -> & -> & ->). repeat split.
  - repeat split.
Qed.

Lemma zeroed_fold ks : forall m, NoDup (map fst m) -> (forall k n, In (k, n) m -> n = 0) ->
  let m' := insert_all (map (fun k => (k, 0)) ks) m in
  NoDup (map fst m') /\ (forall k n, In (k, n) m' -> n = 0) /\
  (forall k, In k (map fst m') <-> In k ks \/ In k (map fst m)).
Proof.
  induction ks as [|k ks IH]; intros m Hnd Hz; simpl.
  - repeat split; auto. intros [[]|H]; auto.
  - unfold insert_all in *; simpl.
    destruct (IH (sinsert k 0 m)) as (H1 & H2 & H3).
    + apply (insert_nodup _ string_eqb_spec), Hnd.
    + intros k' n Hin. destruct (string_dec k' k) as [->|Hne].
      * pose proof (insert_nodup _ string_eqb_spec k 0 m Hnd) as Hnd'.
        pose proof (in_lookup _ string_eqb_spec _ _ _ Hnd' Hin) as Hl.
        rewrite (lookup_insert_eq _ string_eqb_spec) in Hl. congruence.
      * pose proof (insert_nodup _ string_eqb_spec k 0 m Hnd) as Hnd'.
        pose proof (in_lookup _ string_eqb_spec _ _ _ Hnd' Hin) as Hl.
        rewrite (lookup_insert_ne _ string_eqb_spec) in Hl by exact Hne.
        apply (lookup_in _ string_eqb_spec) in Hl. eapply Hz; eauto.
    + repeat split; auto.
      * intros Hin. apply H3 in Hin as [Hin|Hin]; [auto|].
        apply (insert_in_keys _ string_eqb_spec) in Hin as [->|Hin]; auto.
      * intros [[->|Hin]|Hin]; apply H3; auto; right; apply (insert_in_keys _ string_eqb_spec); auto.
Qed.

Lemma usage_init tracked : usage_exact tracked [] (zeroed tracked) [].
Proof.
  unfold zeroed. destruct (zeroed_fold tracked [] ltac:(constructor) ltac:(intros ? ? [])) as (H1 & H2 & H3).
  cbv zeta in *. split; [exact H1|]. split; [|apply exact_nil].
  intros k n. unfold count_if; simpl. split.
  - intros Hin. split; [|eapply H2; eauto].
    assert (Hk : In k (map fst (insert_all (map (fun k => (k, 0)) tracked) []))).
    { apply in_map_iff. exists (k, n); auto. }
    apply H3 in Hk as [Hk|[]]; exact Hk.
  - intros [Hin ->].
    assert (Hk : In k (map fst (insert_all (map (fun k => (k, 0)) tracked) []))) by (apply H3; auto).
    apply in_map_iff in Hk as [[k' n'] [Ek Hk]]. simpl in Ek; subst k'.
    rewrite (H2 _ _ Hk) in Hk; exact Hk.
Qed.

Lemma usage_bump tracked seen reg non n : usage_exact tracked seen reg non ->
  usage_exact tracked (seen ++ [n]) (fst (bump n reg non)) (snd (bump n reg non)).
Proof.
  intros (Hnd & Hreg & Hnon). unfold bump.
  destruct (slookup n reg) as [c|] eqn:E; simpl.
  - pose proof (lookup_in _ string_eqb_spec _ _ _ E) as Hin. apply Hreg in Hin as [Ht Hc].
    split; [apply (insert_nodup _ string_eqb_spec), Hnd|]. split.
    + intros k x. rewrite count_if_app. pose proof (insert_nodup _ string_eqb_spec n (S c) reg Hnd) as Hnd'.
      destruct (string_dec k n) as [->|Hne].
      * rewrite count_if_cons, String.eqb_refl. unfold count_if at 2; simpl. split.
        -- intros Hin. pose proof (in_lookup _ string_eqb_spec _ _ _ Hnd' Hin) as Hl.
           rewrite (lookup_insert_eq _ string_eqb_spec) in Hl. injection Hl as <-. split; [exact Ht|lia].
        -- intros [_ ->]. apply (lookup_in _ string_eqb_spec). unfold sinsert.
           rewrite (lookup_insert_eq _ string_eqb_spec). f_equal. lia.
      * rewrite count_if_cons. apply String.eqb_neq in Hne as Hb. rewrite Hb.
        unfold count_if at 2; simpl. rewrite Nat.add_0_r, <- Hreg. split; intros Hin.
        -- pose proof (in_lookup _ string_eqb_spec _ _ _ Hnd' Hin) as Hl.
           rewrite (lookup_insert_ne _ string_eqb_spec) in Hl by exact Hne.
           apply (lookup_in _ string_eqb_spec) in Hl; exact Hl.
        -- apply (lookup_in _ string_eqb_spec). unfold sinsert.
           rewrite (lookup_insert_ne _ string_eqb_spec) by exact Hne.
           apply (in_lookup _ string_eqb_spec); auto.
    + rewrite filter_app. simpl.
      destruct (str_mem n tracked) eqn:Em; simpl; [rewrite app_nil_r; exact Hnon|].
      apply str_mem_false in Em. contradiction.
  - apply (lookup_none _ string_eqb_spec) in E.
    assert (Ht : ~ In n tracked).
    { intros Hin. apply E, in_map_iff. exists (n, count_if (String.eqb n) seen). split; [reflexivity|].
      apply Hreg; auto. }
    split; [exact Hnd|]. split.
    + intros k x. rewrite Hreg, count_if_app, count_if_cons. unfold count_if at 3; simpl.
      destruct (String.eqb_spec k n) as [->|Hne]; [tauto|]. rewrite Nat.add_0_r. reflexivity.
    + rewrite filter_app. simpl. apply str_mem_false in Ht. rewrite Ht; simpl.
      apply (exact_app_fold _ string_eqb_spec _ _ [n]), Hnon.
Qed.

Lemma usage_opt_bump tracked seen reg non o : usage_exact tracked seen reg non ->
  usage_exact tracked (seen ++ somes [o]) (fst (opt_bump o (reg, non))) (snd (opt_bump o (reg, non))).
Proof.
  intros H. destruct o as [n|]; simpl; [apply usage_bump, H|rewrite app_nil_r; exact H].
Qed.

Lemma somes_app {A} (l1 l2 : list (option A)) : somes (l1 ++ l2) = somes l1 ++ somes l2.
Proof. induction l1 as [|[a|] l1 IH]; simpl; congruence. Qed.


Lemma usage_fold r es : Forall (fun e => e_event e <> Some "") es ->
  usage_all r es (stat_fold es (stats_new r)).
Proof.
  induction es as [|e es IH] using rev_ind; intros H.
  - split; [|split]; apply usage_init.
  - apply Forall_app in H as [H1 H2]. inversion H2 as [|? ? He _]; subst.
    specialize (IH H1) as (IA & IM & IE).
    unfold stat_fold. rewrite fold_left_app. simpl. fold (stat_fold es (stats_new r)).
    set (s := stat_fold es (stats_new r)) in *. clearbody s.
    destruct (record_cov e s He) as (A & M & V). cbv zeta in *.
    unfold usage_all, seen_attrs, seen_metrics, seen_events. rewrite !map_app, !somes_app.
    split; [|split].
    + pose proof (usage_opt_bump _ _ _ _ (e_attr e) IA) as H. rewrite <- A in H. exact H.
    + pose proof (usage_opt_bump _ _ _ _ (e_metric e) IM) as H. rewrite <- M in H. exact H.
    + pose proof (usage_opt_bump _ _ _ _ (e_event e) IE) as H. rewrite <- V in H. exact H.
Qed.

Lemma attrs_no_event l : Forall (fun e => e_event e <> Some "") (ents_attrs l).
Proof. apply Forall_forall. intros e H. apply in_flat_map in H as [a [_ [<-|[]]]]. discriminate. Qed.

Lemma flat_no_event {A} (f : A -> list entity) l :
  (forall a, Forall (fun e => e_event e <> Some "") (f a)) ->
  Forall (fun e => e_event e <> Some "") (flat_map f l).
Proof.
  intros H. apply Forall_forall. intros e He. apply in_flat_map in He as [a [_ Ha]].
  specialize (H a). rewrite Forall_forall in H. auto.
Qed.

Lemma entities_event_nonempty s : Forall (fun e => e_event e <> Some "") (entities s).
Proof.
  pose proof attrs_no_event as HA.
  assert (P : forall t r, e_event (plain t r) <> Some "") by discriminate.
  assert (HX : forall x, Forall (fun e => e_event e <> Some "") (ents_exemplar x)) by (intros x; constructor; auto).
  assert (HD : forall x, Forall (fun e => e_event e <> Some "") (ents_dpoint x)).
  { intros x; constructor; auto. apply Forall_app; split; auto. apply flat_no_event; auto. }
  destruct s; simpl; try (constructor; auto; fail).
  - constructor; auto. discriminate.
  - constructor; auto. rewrite !Forall_app. repeat split; auto; apply flat_no_event; intros x; constructor; auto.
  - apply Forall_app; split.
    + destruct (sm_points m) as [[l|l|l]|]; simpl; try constructor; apply flat_no_event; auto.
    + constructor; [discriminate|constructor].
  - apply Forall_app; split; auto. constructor; [|constructor].
    simpl. destruct (String.eqb_spec (lg_event l) "") as [|Hne]; [discriminate|congruence].
Qed.

Lemma usage_length tracked seen reg non : usage_exact tracked seen reg non ->
  length reg = length (distinct tracked) /\ nonzero reg = covered tracked seen.
Proof.
  intros (Hnd & Hreg & _).
  assert (Hp : Permutation reg (map (fun k => (k, count_if (String.eqb k) seen)) (distinct tracked))).
  { apply NoDup_Permutation.
    - apply NoDup_map_inv in Hnd; exact Hnd.
    - assert (E : map fst (map (fun k => (k, count_if (String.eqb k) seen)) (distinct tracked)) = distinct tracked)
        by (rewrite map_map, map_id; reflexivity).
      apply (NoDup_map_inv fst). rewrite E. apply NoDup_nodup.
    - intros [k n]. rewrite Hreg, in_map_iff. split.
      + intros [Hin ->]. exists k. split; [reflexivity|]. apply nodup_In, Hin.
      + intros (k' & E & Hin). injection E as <- <-. apply nodup_In in Hin. auto. }
  split.
  - rewrite (Permutation_length Hp), map_length. reflexivity.
  - unfold nonzero, covered. rewrite (count_if_perm _ _ _ Hp). clear Hp.
    induction (distinct tracked) as [|k ks IH]; [reflexivity|].
    simpl map. rewrite !count_if_cons, IH. simpl. f_equal.
    destruct (str_mem k seen) eqn:E.
    + apply str_mem_spec in E.
      assert (H : 0 < count_if (String.eqb k) seen).
      { apply count_if_pos. exists k. split; [exact E|apply String.eqb_refl]. }
      apply Nat.ltb_lt in H. rewrite H; reflexivity.
    + apply str_mem_false in E.
      destruct (Nat.ltb_spec 0 (count_if (String.eqb k) seen)) as [H|H]; [|reflexivity].
      apply count_if_pos in H as (x & Hx & Ex). apply String.eqb_eq in Ex; subst; contradiction.
Qed.

Lemma sum_counts_perm {K} (m m' : list (K * nat)) : Permutation m m' -> sum_counts m = sum_counts m'.
Proof.
  induction 1 as [|[k n] l l' _ IH|[k n] [k' n'] l|l l' l'' _ IH1 _ IH2]; simpl; try lia.
Qed.

Lemma exact_sum {K} (eqb : K -> K -> bool) (Hs : forall a b, eqb a b = true <-> a = b) m ks :
  exact_counts eqb m ks -> sum_counts m = length ks.
Proof.
  intros [Hnd H].
  pose proof (exact_app_fold eqb Hs [] [] ks (exact_nil eqb)) as [Hnd' H']. simpl in H'.
  rewrite (sum_counts_perm m (fold_left (fun m k => incr eqb k m) ks [])).
  - clear. assert (G : forall m, sum_counts (fold_left (fun m k => incr eqb k m) ks m) = length ks + sum_counts m).
    { induction ks as [|k ks IH]; intros m; simpl; [reflexivity|].
      rewrite IH, sum_counts_incr by exact Hs. lia. }
    rewrite G; simpl; lia.
  - apply NoDup_Permutation.
    + apply NoDup_map_inv in Hnd; exact Hnd.
    + apply NoDup_map_inv in Hnd'; exact Hnd'.
    + intros [k n]. rewrite H, H'. reflexivity.
Qed.

Definition highest_of (e : entity) : option level :=
  match e_result e with Some l => highest l | None => None end.

Lemma worst_highest e k : wf_ent e -> worst_is k (advice_of e) =
  match highest_of e with Some h => level_eqb k h | None => false end.
Proof.
  intros (l & El & Hw). unfold advice_of, highest_of. rewrite El. apply worst_of_wf, Hw.
Qed.

Lemma highest_none e : wf_ent e -> (highest_of e = None <-> advice_of e = []).
Proof.
  intros (l & El & Hw). unfold advice_of, highest_of. rewrite El. unfold wf_lcr in Hw.
  destruct (highest l) as [h|]; [|tauto]. destruct Hw as [[g [Hg _]] _].
  split; [discriminate|]. intros E; rewrite E in Hg; contradiction.
Qed.

Lemma highest_exact es s : Forall wf_ent es -> totals_exact es s ->
  exact_counts level_eqb (st_highest s) (somes (map highest_of es)).
Proof.
  intros Hw (_ & _ & _ & _ & _ & _ & Hnd & Hhi & _). split; [exact Hnd|].
  intros l n. rewrite Hhi.
  assert (E : count_if (fun e => worst_is l (advice_of e)) es = count_if (level_eqb l) (somes (map highest_of es))).
  { clear - Hw. induction Hw as [|e es He _ IH]; [reflexivity|].
    rewrite count_if_cons, IH, (worst_highest _ _ He). simpl.
    destruct (highest_of e); [rewrite count_if_cons|]; reflexivity. }
  rewrite E; reflexivity.
Qed.

Lemma highest_sum es s : Forall wf_ent es -> totals_exact es s ->
  st_no_advice s + sum_counts (st_highest s) = st_total s.
Proof.
  intros Hw Ht. rewrite (exact_sum _ level_eqb_spec _ _ (highest_exact _ _ Hw Ht)).
  destruct Ht as (-> & _ & _ & _ & _ & _ & _ & _ & ->).
  induction Hw as [|e es He _ IH]; [reflexivity|].
  rewrite count_if_cons. simpl. pose proof (highest_none _ He) as Hn.
  destruct (highest_of e) as [h|]; destruct (advice_of e); simpl; try lia;
    [destruct Hn as [_ Hn]; discriminate (Hn eq_refl)|destruct Hn as [Hn _]; discriminate (Hn eq_refl)].
Qed.

Lemma max_level_fold l : forall acc,
  match fold_left (fun acc (p : level * nat) => Some (match acc with None => fst p | Some m => level_max m (fst p) end)) l acc with
  | None => acc = None /\ l = []
  | Some m => (acc = Some m \/ exists n, In (m, n) l) /\
              (forall x, acc = Some x -> level_rank x <= level_rank m) /\
              (forall k n, In (k, n) l -> level_rank k <= level_rank m)
  end.
Proof.
  induction l as [|[k n] l IH]; intros acc; simpl.
  - destruct acc as [m|]; [|auto]. repeat split; auto.
    + intros x H; injection H as <-; auto.
    + intros ? ? [].
  - specialize (IH (Some (match acc with None => k | Some m => level_max m k end))).
    destruct (fold_left _ l _) as [m|]; [|destruct IH; discriminate].
    destruct IH as (H1 & H2 & H3). specialize (H2 _ eq_refl).
    destruct acc as [a|].
    + destruct (level_max_cases a k) as [[E Hle]|[E Hle]]; rewrite E in *; repeat split.
      * destruct H1 as [H1|[x H1]]; [left; exact H1|right; exists x; auto].
      * intros x Hx; injection Hx as <-; exact H2.
      * intros k' n' [Hk|Hk]; [injection Hk as <- <-; lia|eauto].
      * destruct H1 as [H1|[x H1]]; [right; injection H1 as ->; exists n; auto|right; exists x; auto].
      * intros x Hx; injection Hx as <-; lia.
      * intros k' n' [Hk|Hk]; [injection Hk as <- <-; lia|eauto].
    + repeat split.
      * destruct H1 as [H1|[x H1]]; [right; injection H1 as ->; exists n; auto|right; exists x; auto].
      * intros x Hx; discriminate.
      * intros k' n' [Hk|Hk]; [injection Hk as <- <-; lia|eauto].
Qed.

Lemma should_fail_spec es s t : totals_exact es s -> Forall wf_ent es ->
  (should_fail_c s t = true <->
   exists e f, In e es /\ In f (advice_of e) /\ level_rank t <= level_rank (f_level f)).
Proof.
  intros Ht Hw. pose proof (highest_exact _ _ Hw Ht) as [_ Hh].
  unfold should_fail_c, max_level. pose proof (max_level_fold (st_highest s) None) as HM.
  assert (Hsome : forall k, (exists n, In (k, n) (st_highest s)) <-> exists e, In e es /\ highest_of e = Some k).
  { intros k. split.
    - intros [n Hn]. apply Hh in Hn as [-> Hp]. apply count_if_pos in Hp as (x & Hx & Ex).
      apply level_eqb_spec in Ex; subst x. clear - Hx. induction es as [|e es IH]; simpl in Hx; [contradiction|].
      destruct (highest_of e) as [h|] eqn:E; simpl in Hx.
      + destruct Hx as [->|Hx]; [exists e; simpl; auto|]. destruct (IH Hx) as (e' & ? & ?). exists e'; simpl; auto.
      + destruct (IH Hx) as (e' & ? & ?). exists e'; simpl; auto.
    - intros (e & He & Ek). eexists. apply Hh. split; [reflexivity|]. apply count_if_pos.
      exists k. split; [|apply level_eqb_spec; reflexivity].
      clear - He Ek. induction es as [|e' es IH]; simpl in *; [contradiction|].
      destruct He as [->|He]; [rewrite Ek; left; reflexivity|].
      destruct (highest_of e'); simpl; auto. }
  rewrite Forall_forall in Hw.
  assert (Hfind : forall e f, In e es -> In f (advice_of e) -> exists h, highest_of e = Some h /\ level_rank (f_level f) <= level_rank h).
  { intros e f He Hf. destruct (Hw e He) as (l & El & W). unfold advice_of in Hf. unfold highest_of. rewrite El in *.
    unfold wf_lcr in W. destruct (highest l) as [h|]; [|rewrite W in Hf; contradiction].
    exists h. split; [reflexivity|]. apply W, Hf. }
  destruct (fold_left _ (st_highest s) None) as [m|].
  - destruct HM as ([H1|H1] & _ & H3); [discriminate|]. unfold level_leb. rewrite Nat.leb_le. split.
    + intros Hle. apply Hsome in H1 as (e & He & Eh). destruct (Hw e He) as (l & El & W).
      unfold highest_of in Eh. rewrite El in Eh. unfold wf_lcr in W. rewrite Eh in W.
      destruct W as [[g [Hg Hl]] _]. exists e, g. split; [exact He|]. unfold advice_of; rewrite El.
      split; [exact Hg|]. rewrite Hl; exact Hle.
    + intros (e & f & He & Hf & Hle). destruct (Hfind e f He Hf) as (h & Eh & Hh2).
      destruct (proj2 (Hsome h)) as [n Hn]; [exists e; auto|]. specialize (H3 _ _ Hn). lia.
  - destruct HM as (_ & E). split; [discriminate|]. intros (e & f & He & Hf & _).
    destruct (Hfind e f He Hf) as (h & Eh & _). destruct (proj2 (Hsome h)) as [n Hn]; [exists e; auto|].
    rewrite E in Hn; contradiction.
Qed.

(** * The whole run *)

Lemma live_check_inv c ns f input out st code :
  live_check c ns f input = Ok (out, st, code) ->
  let es := flat_map entities out in
  Forall wf_ent es /\ map erase out = map erase input /\
  st = finalize (record_all es (if ns then Disabled else Cumulative (stats_new (lc_registry c)))) /\
  code = match threshold f with Some t => if should_fail st t then 1 else 0 | None => 0 end.
Proof.
  unfold live_check. intros H. step H. injection H as <- <- <-.
  apply run_all_good in E as (-> & W & R). cbv zeta. auto.
Qed.

Lemma totals_finalize es s : totals_exact es (finalize_c s) <-> totals_exact es s.
Proof. reflexivity. Qed.

Lemma live_totals c f input out s code :
  live_check c false f input = Ok (out, Cumulative s, code) ->
  let es := flat_map entities out in
  totals_exact es s /\
  sum_counts (st_by_type s) = st_total s /\
  sum_counts (st_levels s) = st_advisories s /\
  st_no_advice s + sum_counts (st_highest s) = st_total s /\
  (forall e, In e es -> exists l, e_result e = Some l) /\
  map erase out = map erase input.
Proof.
  intros H. apply live_check_inv in H as (W & R & Es & _). cbv zeta in *.
  rewrite record_all_cumulative in Es. simpl in Es. injection Es as ->.
  set (es := flat_map entities out) in *.
  pose proof (totals_fold (lc_registry c) es W) as T.
  assert (T' : totals_exact es (finalize_c (stat_fold es (stats_new (lc_registry c))))) by exact T.
  pose proof T' as (T1 & T2 & T3 & T4 & _).
  split; [exact T'|]. split; [|split; [|split; [|split]]].
  - rewrite (exact_sum _ string_eqb_spec _ _ T2), T1, map_length. reflexivity.
  - rewrite (exact_sum _ level_eqb_spec _ _ T4), T3, map_length. reflexivity.
  - apply (highest_sum es); auto.
  - intros e He. rewrite Forall_forall in W. destruct (W e He) as (l & El & _). exists l; exact El.
  - exact R.
Qed.

Lemma live_exit c f input out st code :
  live_check c false f input = Ok (out, st, code) ->
  code <= 1 /\
  (code = 1 <-> exists t e x, threshold f = Some t /\ In e (flat_map entities out) /\
                  In x (advice_of e) /\ level_rank t <= level_rank (f_level x)).
Proof.
  intros H. apply live_check_inv in H as (W & R & Es & Ec). cbv zeta in *.
  rewrite record_all_cumulative in Es. simpl in Es.
  set (es := flat_map entities out) in *.
  pose proof (totals_fold (lc_registry c) es W) as T.
  split; [rewrite Ec; destruct (threshold f); [destruct (should_fail _ _)|]; lia|].
  rewrite Ec. destruct (threshold f) as [t|].
  - rewrite Es. simpl. change (should_fail_c (finalize_c (stat_fold es (stats_new (lc_registry c)))) t)
      with (should_fail_c (stat_fold es (stats_new (lc_registry c))) t).
    pose proof (should_fail_spec es _ t T W) as S.
    destruct (should_fail_c _ _).
    + split; [|reflexivity]. intros _. destruct (proj1 S eq_refl) as (e & x & H1 & H2 & H3).
      exists t, e, x. auto.
    + split; [discriminate|]. intros (t' & e & x & Et & H1 & H2 & H3). injection Et as <-.
      enough (false = true) by discriminate. apply S. exists e, x; auto.
  - split; [discriminate|]. intros (t & e & x & Et & _). discriminate.
Qed.

Lemma live_exit_disabled c f input out st code :
  live_check c true f input = Ok (out, st, code) -> st = Disabled /\ code = 0.
Proof.
  intros H. apply live_check_inv in H as (W & R & Es & Ec). cbv zeta in *.
  rewrite record_all_disabled in Es. simpl in Es. subst st. split; [reflexivity|].
  rewrite Ec. destruct (threshold f); reflexivity.
Qed.

Lemma live_coverage c f input out s code :
  live_check c false f input = Ok (out, Cumulative s, code) ->
  let es := flat_map entities out in
  let r := lc_registry c in
  let seen := covered (tracked_attributes r) (seen_attrs es) +
              covered (tracked_metrics r) (seen_metrics es) +
              covered (tracked_events r) (seen_events es) in
  let total := length (distinct (tracked_attributes r)) + length (distinct (tracked_metrics r)) +
               length (distinct (tracked_events r)) in
  usage_all r es s /\
  seen <= total /\
  (total = 0 -> st_coverage s = 0%Q) /\
  (0 < total -> (st_coverage s == Z.of_nat seen # Pos.of_nat total)%Q).
Proof.
  intros H. apply live_check_inv in H as (W & R & Es & _). cbv zeta in *.
  rewrite record_all_cumulative in Es. simpl in Es. injection Es as ->.
  set (es := flat_map entities out) in *.
  assert (U : usage_all (lc_registry c) es (finalize_c (stat_fold es (stats_new (lc_registry c))))).
  { apply usage_fold. unfold es. apply flat_no_event, entities_event_nonempty. }
  split; [exact U|].
  destruct U as (UA & UM & UE).
  apply usage_length in UA as [LA NA], UM as [LM NM], UE as [LE NE].
  split; [unfold covered; repeat apply Nat.add_le_mono; apply count_if_le|].
  set (s := stat_fold es (stats_new (lc_registry c))) in *.
  change (st_coverage (finalize_c s)) with (coverage_of s).
  unfold coverage_of. simpl in LA, NA, LM, NM, LE, NE. rewrite LA, NA, LM, NM, LE, NE.
  set (total := _ + _ + length (distinct (tracked_events (lc_registry c)))).
  match goal with |- context [Z.of_nat ?x] => set (seen := x) end.
  split.
  - intros ->. reflexivity.
  - intros Hp. apply Nat.ltb_lt in Hp as Hb. rewrite Hb.
    assert (E : inject_Z (Z.of_nat total) == (Z.pos (Pos.of_nat total)) # 1).
    { unfold inject_Z. rewrite <- (Nat2Pos.id total) at 1 by lia. rewrite positive_nat_Z. reflexivity. }
    rewrite E. unfold Qdiv, Qinv, Qmult, inject_Z, Qeq; simpl. lia.
Qed.
