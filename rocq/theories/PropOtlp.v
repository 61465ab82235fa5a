(** * C95: findings emitted as OTLP log records *)
From Coq Require Import String Ascii Bool Arith ZArith NArith DecimalString DecimalNat Lia List.
From Verif Require Import Base Json SemTypes LiveModel LiveSpec LiveProofs OtlpModel OtlpSpec.
Import ListNotations.
Local Open Scope string_scope.
Local Open Scope list_scope.
Local Open Scope nat_scope.

(** ** The emissions of a run against its report *)

Lemma somes_app {A} (a b : list (option A)) : somes (a ++ b) = somes a ++ somes b.
Proof. induction a as [|[x|] a IH]; simpl; [reflexivity| |]; rewrite IH; reflexivity. Qed.

Section Run.
  Variable c : checker.
  Let m := lc_modifier c.

  (* kept findings of emissions, under kind *)
  Definition kf (e : emission) : option (string * finding) :=
    option_map (pair (kind_of (em_sample e)))
      (match m with Some m => modifier_apply m (em_finding e) (em_sample e) | None => Some (em_finding e) end).
  Definition kept (es : list emission) : list (string * finding) := somes (map kf es).
  Definition of_sig (sig : sample) (es : list emission) : Prop := Forall (fun e => em_signal e = sig) es.

  Lemma kept_app a b : kept (a ++ b) = kept a ++ kept b.
  Proof. unfold kept. rewrite map_app. apply somes_app. Qed.
  Lemma of_sig_app sig a b : of_sig sig a -> of_sig sig b -> of_sig sig (a ++ b).
  Proof. intros A B. apply Forall_app; split; assumption. Qed.
  Lemma of_sig_emits sig r fs : of_sig sig (emits r sig fs).
  Proof. unfold of_sig, emits. induction fs; simpl; constructor; auto. Qed.

  Lemma add_one r l f :
    all_advice (add_advice m r l f) =
    all_advice l ++ match (match m with Some m => modifier_apply m f r | None => Some f end) with Some f' => [f'] | None => [] end.
  Proof. unfold add_advice. destruct (match m with Some _ => _ | None => _ end); simpl; [reflexivity|]. rewrite app_nil_r. reflexivity. Qed.

  Lemma add_many sig r fs : forall l,
    map (pair (kind_of r)) (all_advice (add_advice_list m r l fs)) =
    map (pair (kind_of r)) (all_advice l) ++ kept (emits r sig fs).
  Proof.
    unfold add_advice_list. induction fs as [|f fs IH]; intros l; simpl; [rewrite app_nil_r; reflexivity|].
    rewrite IH, add_one, map_app, <- app_assoc. f_equal.
    unfold kept; simpl. unfold kf at 2; simpl.
    destruct (match m with Some _ => _ | None => _ end); reflexivity.
  Qed.
  Lemma add_first sig r l f :
    map (pair (kind_of r)) (all_advice (add_advice m r l f)) =
    map (pair (kind_of r)) (all_advice l) ++ kept (emits r sig [f]).
  Proof.
    rewrite add_one, map_app. f_equal. unfold kept, emits, kf; simpl.
    destruct (match m with Some _ => _ | None => _ end); reflexivity.
  Qed.

  Lemma advisors_news sig r a g advs : forall acc l,
    run_advisor_list m advs r sig a g acc = Ok l ->
    exists es, emit_advisors advs r sig a g = Ok es /\ of_sig sig es /\
      map (pair (kind_of r)) (all_advice l) = map (pair (kind_of r)) (all_advice acc) ++ kept es.
  Proof.
    induction advs as [|adv advs IH]; intros acc l H; cbn [run_advisor_list emit_advisors] in *.
    - injection H as <-. exists []. repeat split; [constructor|]. rewrite app_nil_r. reflexivity.
    - destruct (adv r sig a g) as [fs|]; [|discriminate]. cbn [rbind] in *.
      apply IH in H as (es & -> & S1 & E). cbn [rbind].
      eexists. split; [reflexivity|]. split; [apply of_sig_app; [apply of_sig_emits|exact S1]|].
      rewrite E, (add_many sig), kept_app, app_assoc. reflexivity.
  Qed.

  Lemma own_news t r g sig st l st' :
    run_advisors c t r g sig st = Ok (l, st') ->
    exists es, emit_own c r g sig = Ok es /\ of_sig sig es /\ at_kind (kind_of r) (Some l) = kept es.
  Proof.
    unfold run_advisors, emit_own. intros H.
    destruct (run_advisor_list _ _ _ _ _ _ _) as [l0|] eqn:E; [|discriminate].
    cbn [rbind] in H. injection H as <- <-. apply advisors_news in E as (es & E1 & S1 & E2).
    exists es. auto.
  Qed.

  (* what each runner establishes *)
  Definition tells {T} (sig : sample) (news_of : T -> list (string * finding)) (emit : T -> res (list emission)) (x x' : T) : Prop :=
    exists es, emit x = Ok es /\ of_sig sig es /\ news_of x' = kept es.

  Lemma list_news {T} sig (run : T -> lstats -> res (T * lstats)) news_of emit :
    (forall x st x' st', run x st = Ok (x', st') -> tells sig news_of emit x x') ->
    forall l st l' st', run_list run l st = Ok (l', st') -> tells sig (flat_map news_of) (emit_list emit) l l'.
  Proof.
    intros Hrun. induction l as [|x l IH]; intros st l' st' H; cbn [run_list] in H.
    - injection H as <- <-. exists []. repeat split. constructor.
    - step H. step H. injection H as <- <-.
      apply Hrun in E as (es & E1 & S1 & N1). apply IH in E0 as (es2 & E2 & S2 & N2).
      exists (es ++ es2). cbn [emit_list]. rewrite E1; cbn [rbind]. rewrite E2; cbn [rbind].
      split; [reflexivity|]. split; [apply of_sig_app; assumption|].
      cbn [flat_map]. rewrite kept_app, N1, N2. reflexivity.
  Qed.

  Lemma attr_news g sig a st a' st' :
    run_attr c g sig a st = Ok (a', st') -> tells sig n_attr (emit_attr c g sig) a a'.
  Proof.
    unfold run_attr, emit_attr. cbv zeta.
    set (sa := match find_attribute c (sa_name a) with Some x => Some x | None => _ end).
    intros H. destruct (run_advisor_list _ _ _ _ _ _ _) as [l|] eqn:E; [|discriminate].
    cbn [rbind] in H. injection H as <- <-.
    apply advisors_news in E as (es & E1 & S1 & N1).
    unfold tells. cbv zeta. fold sa. rewrite E1; cbn [rbind]. eexists. split; [reflexivity|].
    split; [apply of_sig_app; [apply of_sig_emits|exact S1]|].
    unfold n_attr; cbn [sa_result at_kind]. change "attribute" with (kind_of (RfAttribute a)).
    rewrite N1, kept_app. f_equal.
    destruct sa as [x|]; [destruct (is_template (vattr_type x))|]; try reflexivity;
      rewrite (add_first sig); reflexivity.
  Qed.
  Lemma attrs_news g sig l st l' st' :
    run_attrs c g sig l st = Ok (l', st') -> tells sig n_attrs (emit_attrs c g sig) l l'.
  Proof. apply list_news. intros; eapply attr_news; eauto. Qed.

  (* put the pieces together *)
  Ltac combine :=
    repeat match goal with
    | H : _ = Ok _ |- _ => first [rewrite H; cbn [rbind]; clear H]
    end;
    eexists; split; [reflexivity|]; split; [repeat (apply of_sig_app; try assumption)|].

  Lemma exemplar_news g sig e st e' st' :
    run_exemplar c g sig e st = Ok (e', st') -> tells sig n_exemplar (emit_exemplar c g sig) e e'.
  Proof.
    unfold run_exemplar. intros H. step H. step H. injection H as <- <-.
    apply own_news in E as (es & Q1 & S1 & N1). apply attrs_news in E0 as (es2 & Q2 & S2 & N2).
    unfold tells, emit_exemplar. combine.
    unfold n_exemplar; cbn [ex_result ex_attrs]. rewrite kept_app, <- N1, <- N2. reflexivity.
  Qed.
  Lemma dpoint_news mk k g sig p st p' st' :
    (forall x, kind_of (mk x) = k) ->
    run_dpoint c mk g sig p st = Ok (p', st') -> tells sig (n_dpoint k) (emit_dpoint c mk g sig) p p'.
  Proof.
    intros K. unfold run_dpoint. intros H. step H. step H. step H. injection H as <- <-.
    apply own_news in E as (es & Q1 & S1 & N1). apply attrs_news in E0 as (es2 & Q2 & S2 & N2).
    apply (list_news sig _ n_exemplar (emit_exemplar c g sig)) in E1 as (es3 & Q3 & S3 & N3);
      [|intros; eapply exemplar_news; eauto].
    unfold tells, emit_dpoint. combine.
    unfold n_dpoint; cbn [dp_result dp_attrs dp_exemplars]. rewrite !kept_app, <- N1, <- N2, <- N3, K. reflexivity.
  Qed.
  Lemma span_event_news g sig e st e' st' :
    run_span_event c g sig e st = Ok (e', st') -> tells sig n_span_event (emit_span_event c g sig) e e'.
  Proof.
    unfold run_span_event. intros H. step H. step H. injection H as <- <-.
    apply own_news in E as (es & Q1 & S1 & N1). apply attrs_news in E0 as (es2 & Q2 & S2 & N2).
    unfold tells, emit_span_event. combine.
    unfold n_span_event; cbn [se_result se_attrs]. rewrite kept_app, <- N1, <- N2. reflexivity.
  Qed.
  Lemma span_link_news g sig e st e' st' :
    run_span_link c g sig e st = Ok (e', st') -> tells sig n_span_link (emit_span_link c g sig) e e'.
  Proof.
    unfold run_span_link. intros H. step H. step H. injection H as <- <-.
    apply own_news in E as (es & Q1 & S1 & N1). apply attrs_news in E0 as (es2 & Q2 & S2 & N2).
    unfold tells, emit_span_link. combine.
    unfold n_span_link; cbn [sl_result sl_attrs]. rewrite kept_app, <- N1, <- N2. reflexivity.
  Qed.

  Lemma metric_news sig x st x' st' :
    run_metric c sig x st = Ok (x', st') ->
    exists es, emit_metric c sig x = Ok es /\ of_sig sig es /\ sample_news (SmpMetric x') = kept es.
  Proof.
    unfold run_metric. cbv zeta. intros H.
    set (s := find_metric c (sm_name x)) in *.
    destruct (run_advisor_list _ _ _ _ _ _ _) as [l1|] eqn:EA; [|discriminate H]. cbn [rbind] in H.
    apply advisors_news in EA as (es & Q1 & S1 & N1).
    step H. injection H as <- <-.
    assert (P : exists ep,
      match sm_points x with
      | Some (DPNumber ps) => emit_list (emit_dpoint c RfNumberDP s sig) ps
      | Some (DPHistogram ps) => emit_list (emit_dpoint c RfHistogramDP s sig) ps
      | Some (DPExponential ps) => emit_list (emit_dpoint c RfExponentialDP s sig) ps
      | None => Ok []
      end = Ok ep /\ of_sig sig ep /\ n_points o = kept ep).
    { destruct (sm_points x) as [[ps|ps|ps]|].
      - step E. injection E as <- <-.
        apply (list_news sig _ (n_dpoint "number_data_point") (emit_dpoint c RfNumberDP s sig)) in E0;
          [exact E0|intros; eapply dpoint_news; eauto; reflexivity].
      - step E. injection E as <- <-.
        apply (list_news sig _ (n_dpoint "histogram_data_point") (emit_dpoint c RfHistogramDP s sig)) in E0;
          [exact E0|intros; eapply dpoint_news; eauto; reflexivity].
      - step E. injection E as <- <-.
        apply (list_news sig _ (n_dpoint "exponential_histogram_data_point") (emit_dpoint c RfExponentialDP s sig)) in E0;
          [exact E0|intros; eapply dpoint_news; eauto; reflexivity].
      - injection E as <- <-. exists []. repeat split. constructor. }
    destruct P as (ep & Q2 & S2 & N2).
    unfold emit_metric, emit_own. cbv zeta. fold s. rewrite Q1; cbn [rbind]. rewrite Q2; cbn [rbind].
    eexists; split; [reflexivity|]. split.
    { repeat (apply of_sig_app; try assumption); apply of_sig_emits. }
    cbn [sample_news sm_result sm_points at_kind]. change "metric" with (kind_of (RfMetric x)).
    rewrite (add_many sig), N1, N2, !kept_app, <- !app_assoc. f_equal.
    destruct s; [reflexivity|]. rewrite (add_first sig). reflexivity.
  Qed.

  Lemma log_news sig x st x' st' :
    run_log c sig x st = Ok (x', st') ->
    exists es, emit_log c sig x = Ok es /\ of_sig sig es /\ sample_news (SmpLog x') = kept es.
  Proof.
    unfold run_log, emit_log. cbv zeta. intros H.
    match type of H with context [let '(s, l0) := ?y in _] => destruct y as [s l0] eqn:E0 end.
    match goal with |- context [let '(s, first) := ?y in _] => destruct y as [s1 first] eqn:E1 end.
    assert (F : s1 = s /\ map (pair (kind_of (RfLog x))) (all_advice l0) = kept (emits (RfLog x) sig first)).
    { destruct (String.eqb _ _); [injection E0 as <- <-; injection E1 as <- <-; split; reflexivity|].
      destruct (find_event c (lg_event x)); injection E0 as <- <-; injection E1 as <- <-; (split; [reflexivity|]);
        [reflexivity|]. rewrite (add_first sig). reflexivity. }
    destruct F as [-> F].
    destruct (run_advisor_list _ _ _ _ _ _ _) as [l1|] eqn:EA; [|discriminate H]. cbn [rbind] in H.
    apply advisors_news in EA as (es & Q1 & S1 & N1).
    step H. injection H as <- <-. apply attrs_news in E as (es2 & Q2 & S2 & N2).
    unfold emit_own. rewrite Q1; cbn [rbind]. rewrite Q2; cbn [rbind].
    eexists; split; [reflexivity|]. split.
    { repeat (apply of_sig_app; try assumption); apply of_sig_emits. }
    cbn [sample_news lg_result lg_attrs at_kind]. change "log" with (kind_of (RfLog x)).
    rewrite (add_many sig), N1, F, N2, !kept_app, <- !app_assoc. reflexivity.
  Qed.

  Lemma sample_news_ok s st s' st' :
    run_sample c s st = Ok (s', st') ->
    exists es, emit_sample c s = Ok es /\ of_sig s es /\ sample_news s' = kept es /\
      carried_resource s' = carried_resource s.
  Proof.
    destruct s as [x|x|x|x|x|x|x|x|x]; cbn [run_sample emit_sample]; unfold rmap; intros H; step H; injection H as <- <-.
    - apply attr_news in E as (es & Q & S1 & N). exists es. auto.
    - unfold run_span in E. step E. step E. step E. step E. injection E as <- <-.
      apply own_news in E0 as (es & Q1 & S1 & N1). apply attrs_news in E1 as (es2 & Q2 & S2 & N2).
      apply (list_news (SmpSpan x) _ n_span_event (emit_span_event c None (SmpSpan x))) in E2 as (es3 & Q3 & S3 & N3);
        [|intros; eapply span_event_news; eauto].
      apply (list_news (SmpSpan x) _ n_span_link (emit_span_link c None (SmpSpan x))) in E3 as (es4 & Q4 & S4 & N4);
        [|intros; eapply span_link_news; eauto].
      unfold emit_span. combine. split; [|reflexivity].
      cbn [sample_news sp_result sp_attrs sp_events sp_links].
      rewrite !kept_app, <- N1, <- N2, <- N3, <- N4. reflexivity.
    - apply span_event_news in E as (es & Q & S1 & N). exists es. auto.
    - apply span_link_news in E as (es & Q & S1 & N). exists es. auto.
    - unfold run_resource in E. step E. step E. injection E as <- <-.
      apply own_news in E0 as (es & Q1 & S1 & N1). apply attrs_news in E1 as (es2 & Q2 & S2 & N2).
      unfold emit_resource. combine. split; [|reflexivity].
      cbn [sample_news sr_result sr_attrs]. rewrite kept_app, <- N1, <- N2. reflexivity.
    - unfold run_scope in E. step E. step E. injection E as <- <-.
      apply own_news in E0 as (es & Q1 & S1 & N1). apply attrs_news in E1 as (es2 & Q2 & S2 & N2).
      unfold emit_scope. combine. split; [|reflexivity].
      cbn [sample_news sc_result sc_attrs]. rewrite kept_app, <- N1, <- N2. reflexivity.
    - pose proof (metric_news _ _ _ _ _ E) as (es & Q & S1 & N). exists es. repeat split; try assumption.
      unfold run_metric in E. cbv zeta in E.
      destruct (run_advisor_list _ _ _ _ _ _ _); [|discriminate E]. cbn [rbind] in E. step E. injection E as <- <-. reflexivity.
    - pose proof (log_news _ _ _ _ _ E) as (es & Q & S1 & N). exists es. repeat split; try assumption.
      unfold run_log in E. cbv zeta in E.
      match type of E with context [let '(s, l0) := ?y in _] => destruct y as [s1 l0] end.
      destruct (run_advisor_list _ _ _ _ _ _ _); [|discriminate E]. cbn [rbind] in E. step E. injection E as <- <-. reflexivity.
    - unfold run_profile in E. step E. step E. injection E as <- <-.
      apply own_news in E0 as (es & Q1 & S1 & N1). apply attrs_news in E1 as (es2 & Q2 & S2 & N2).
      unfold emit_profile. combine. split; [|reflexivity].
      cbn [sample_news pf_result pf_attrs]. rewrite kept_app, <- N1, <- N2. reflexivity.
  Qed.

  Lemma after_kept sig es : of_sig sig es ->
    somes (map (after m) es) = map (fun kf => (kf, carried_resource sig)) (kept es).
  Proof.
    unfold kept, of_sig. induction 1 as [|e es E _ IH]; [reflexivity|].
    cbn [map]. unfold after at 1, kf at 1. rewrite E.
    destruct (match m with Some _ => _ | None => _ end); cbn [option_map somes map]; rewrite IH; reflexivity.
  Qed.

  Lemma run_news : forall l cur st out st', run_all c cur l st = Ok (out, st') ->
    exists es, emit_run c cur l = Ok es /\ somes (map (after m) es) = flat_map told out.
  Proof.
    induction l as [|s l IH]; intros cur st out st' H; cbn [run_all] in H.
    - injection H as <- <-. exists []. split; reflexivity.
    - cbv zeta in H. step H. step H. injection H as <- <-.
      apply sample_news_ok in E as (es & Q1 & S1 & N1 & R1). apply IH in E0 as (es2 & Q2 & N2).
      exists (es ++ es2). cbn [emit_run]. cbv zeta. rewrite Q1; cbn [rbind]. rewrite Q2; cbn [rbind].
      split; [reflexivity|]. rewrite map_app, somes_app, N2, (after_kept _ _ S1). cbn [flat_map].
      f_equal. unfold told. rewrite N1, R1. reflexivity.
  Qed.
End Run.

(** The report is what the finding modifier leaves of the emitted findings, in the same
    order, each with the kind of its sample and the resource of its signal. *)
Theorem C95_reported : forall c ns f input out st code,
  live_check c ns f input = Ok (out, st, code) ->
  exists es, emit_run c None input = Ok es /\
    flat_map told out = somes (map (after (lc_modifier c)) es).
Proof.
  intros c ns f input out st code H. unfold live_check in H. step H. injection H as <- <- <-.
  apply run_news in E as (es & Q & N). exists es. auto.
Qed.
Print Assumptions C95_reported.

(** Without a modifier, the records are exactly the findings of the report. *)
Theorem C95_emitted_partial : forall c ns f input out st code,
  lc_modifier c = None -> live_check c ns f input = Ok (out, st, code) ->
  exists es, emit_run c None input = Ok es /\ map emitted es = flat_map told out.
Proof.
  intros c ns f input out st code M H. destruct (C95_reported _ _ _ _ _ _ _ H) as (es & Q & N).
  exists es. split; [exact Q|]. rewrite N, M. clear. induction es as [|e es IH]; [reflexivity|].
  cbn [map]. unfold after at 1; cbn [option_map somes]. rewrite <- IH. reflexivity.
Qed.
Print Assumptions C95_emitted_partial.

(** The records do not depend on the modifier. *)
Theorem C95_unmodified : forall c mo input, emit_run (with_modifier c mo) None input = emit_run c None input.
Proof. intros. generalize (@None sresource). induction input; intros; reflexivity || (cbn [emit_run]; cbv zeta; rewrite IHinput; reflexivity). Qed.
Print Assumptions C95_unmodified.

(** ** Values *)
Section Content.
  Variable to_f64 : Z -> N.
  Notation conv := (json_value_to_any_value to_f64).

  Lemma members_flat l : Forall (fun j => (forall v, conv j = Some v <-> converts to_f64 j v) /\ (conv j = None <-> mute to_f64 j)) l ->
    forall vs, members to_f64 l vs <-> flat_map (fun x => match conv x with Some v => [v] | None => [] end) l = vs.
  Proof.
    induction 1 as [|x l [A B] _ IH]; intros vs; cbn [flat_map].
    - split; [intros H; inversion H; reflexivity|intros <-; constructor].
    - split.
      + intros H. inversion H as [|x0 v l0 vs0 C D|x0 l0 vs0 C D]; subst.
        * apply A in C. rewrite C. cbn [app]. f_equal. apply IH, D.
        * apply B in C. rewrite C. apply IH, D.
      + destruct (conv x) as [v|] eqn:E; cbn [app]; intros <-.
        * apply mb_keep; [apply A; reflexivity|apply IH; reflexivity].
        * apply mb_drop; [apply B; reflexivity|apply IH; reflexivity].
  Qed.
  Lemma is_i64_iff z : is_i64 z = true <-> (- 2 ^ 63 <= z < 2 ^ 63)%Z.
  Proof. unfold is_i64. rewrite andb_true_iff, Z.leb_le, Z.ltb_lt. reflexivity. Qed.
  Lemma conv_iff j : (forall v, conv j = Some v <-> converts to_f64 j v) /\ (conv j = None <-> mute to_f64 j).
  Proof.
    induction j as [|b|n|s|l IH|l IH] using json_ind2; cbn [json_value_to_any_value].
    - split; [intros v; split; [discriminate|intros H; inversion H]|split; [constructor|reflexivity]].
    - split; [intros v; split; [intros [= <-]; constructor|intros H; inversion H; reflexivity]|].
      split; [discriminate|intros H; inversion H].
    - destruct n as [z|b].
      + split; [|split; [discriminate|intros H; inversion H]]. intros v. pose proof (is_i64_iff z) as Z1.
        destruct (is_i64 z).
        * assert (Z2 : (- 2 ^ 63 <= z < 2 ^ 63)%Z) by (apply Z1; reflexivity).
          split; [intros [= <-]; apply cv_int, Z2|intros H; inversion H; subst; [reflexivity|contradiction]].
        * assert (Z2 : ~ (- 2 ^ 63 <= z < 2 ^ 63)%Z) by (intros Q; apply Z1 in Q; discriminate).
          split; [intros [= <-]; apply cv_big, Z2|intros H; inversion H; subst; [contradiction|reflexivity]].
      + split; [intros v; split; [intros [= <-]; constructor|intros H; inversion H; reflexivity]|].
        split; [discriminate|intros H; inversion H].
    - split; [intros v; split; [intros [= <-]; constructor|intros H; inversion H; reflexivity]|].
      split; [discriminate|intros H; inversion H].
    - pose proof (members_flat l IH) as M.
      destruct (flat_map _ l) as [|v0 vs] eqn:E.
      + split.
        * intros v. split; [discriminate|]. intros H; inversion H as [| | | | |l0 vs Q N]; subst.
          apply M in Q. subst vs. contradiction.
        * split; [intros _; constructor; apply M; reflexivity|reflexivity].
      + split.
        * intros v. split.
          -- intros [= <-]. apply cv_arr; [apply M; reflexivity|discriminate].
          -- intros H; inversion H as [| | | | |l0 vs1 Q N]; subst. apply M in Q. subst vs1. reflexivity.
        * split; [discriminate|]. intros H; inversion H as [| |l0 Q]; subst. apply M in Q. discriminate.
    - split; [intros v; split; [discriminate|intros H; inversion H]|split; [constructor|reflexivity]].
  Qed.

  (** ** Contexts *)
  Fixpoint leaves (j : json) : list (list string * json) :=
    match j with
    | JObj m => flat_map (fun kv => map (fun pl => (fst kv :: fst pl, snd pl)) (leaves (snd kv))) m
    | JArr l =>
      (fix go (l : list json) (i : nat) :=
         match l with
         | [] => []
         | x :: r => map (fun pl => (index_text i :: fst pl, snd pl)) (leaves x) ++ go r (S i)
         end) l 0
    | _ => [([], j)]
    end.
  Definition go_leaves := fix go (l : list json) (i : nat) :=
         match l with
         | [] => []
         | x :: r => map (fun pl => (index_text i :: fst pl, snd pl)) (leaves x) ++ go r (S i)
         end.

  Lemma go_leaves_in l : forall i p leaf, In (p, leaf) (go_leaves l i) <->
    exists n x q, nth_error l n = Some x /\ In (q, leaf) (leaves x) /\ p = index_text (i + n) :: q.
  Proof.
    induction l as [|x l IH]; intros i p leaf; cbn [go_leaves].
    - split; [intros []|]. intros ([|n] & x & q & H & _); discriminate.
    - fold go_leaves. rewrite in_app_iff, in_map_iff, IH. split.
      + intros [([q lf] & [= <- <-] & H)|(n & y & q & H1 & H2 & ->)].
        * exists 0, x, q. cbn [fst snd nth_error]. rewrite Nat.add_0_r. auto.
        * exists (S n), y, q. cbn [nth_error]. rewrite Nat.add_succ_r. auto.
      + intros ([|n] & y & q & H1 & H2 & ->); cbn [nth_error] in H1.
        * left. injection H1 as <-. exists (q, leaf). rewrite Nat.add_0_r. auto.
        * right. exists n, y, q. rewrite Nat.add_succ_r. auto.
  Qed.

  Lemma leaves_iff j : forall p leaf, In (p, leaf) (leaves j) <-> leaf_at j p leaf.
  Proof.
    induction j as [|b|n|s|l IH|l IH] using json_ind2; intros p leaf.
    1-4: cbn [leaves]; split; [intros [[= <- <-]|[]]; constructor; exact I|intros H; inversion H; left; reflexivity].
    - change (leaves (JArr l)) with (go_leaves l 0). rewrite go_leaves_in. rewrite Forall_forall in IH. split.
      + intros (n & x & q & H1 & H2 & ->). apply leaf_index with (x := x); [exact H1|].
        apply IH in H2; [exact H2|eapply nth_error_In; exact H1].
      + intros H; inversion H as [j0 F0| |l0 i x q lf A B]; subst; [destruct F0|]. exists i, x, q. repeat split; [exact A|].
        apply IH; [eapply nth_error_In; exact A|exact B].
    - cbn [leaves]. rewrite in_flat_map. rewrite Forall_forall in IH. split.
      + intros ([k x] & H1 & H2). apply in_map_iff in H2 as ([q lf] & [= <- <-] & H2). cbn [fst snd] in *.
        apply leaf_key with (x := x); [exact H1|]. apply (IH (k, x) H1), H2.
      + intros H; inversion H as [j0 F0|m0 k x q lf A B|]; subst; [destruct F0|]. exists (k, x). split; [exact A|].
        apply in_map_iff. exists (q, leaf). split; [reflexivity|]. apply (IH (k, x) A), B.
  Qed.

  Definition entry (pre : string) (pl : list string * json) : list (string * any_value) :=
    let k := fold_left extend_prefix (fst pl) pre in
    if String.eqb k "" then [] else match conv (snd pl) with Some v => [(k, v)] | None => [] end.

  Lemma flat_map_map {A B C} (f : B -> list C) (g : A -> B) l : flat_map f (map g l) = flat_map (fun x => f (g x)) l.
  Proof. induction l as [|x l IH]; simpl; [reflexivity|]. rewrite IH. reflexivity. Qed.
  Lemma flat_map_in_ext {A B} (f g : A -> list B) l : (forall x, In x l -> f x = g x) -> flat_map f l = flat_map g l.
  Proof.
    induction l as [|x l IH]; intros H; [reflexivity|]. cbn [flat_map].
    rewrite (H x (or_introl eq_refl)), IH; [reflexivity|]. intros y Hy. apply H. right; exact Hy.
  Qed.
  Lemma flat_map_flat {A B C} (f : B -> list C) (g : A -> list B) l :
    flat_map f (flat_map g l) = flat_map (fun x => flat_map f (g x)) l.
  Proof. induction l as [|x l IH]; simpl; [reflexivity|]. rewrite flat_map_app, IH. reflexivity. Qed.

  Definition go_flat pre := fix go (l : list json) (i : nat) : list (string * any_value) :=
         match l with
         | [] => []
         | x :: r => flatten_json_recursive to_f64 x (extend_prefix pre (index_text i)) ++ go r (S i)
         end.
  Lemma flatten_leaves j : forall pre, flatten_json_recursive to_f64 j pre = flat_map (entry pre) (leaves j).
  Proof.
    induction j as [|b|n|s|l IH|l IH] using json_ind2; intros pre.
    1-4: cbn [flatten_json_recursive leaves flat_map]; unfold entry; cbn [fst snd fold_left];
         destruct (String.eqb pre ""); cbn [app]; rewrite ?app_nil_r; reflexivity.
    - change (go_flat pre l 0 = flat_map (entry pre) (go_leaves l 0)).
      generalize 0. induction IH as [|x l Hx _ IHl]; intros i; [reflexivity|].
      cbn [go_flat go_leaves]. fold go_leaves. fold (go_flat pre). rewrite flat_map_app, IHl, Hx, flat_map_map. reflexivity.
    - cbn [flatten_json_recursive leaves]. rewrite flat_map_flat.
      apply flat_map_in_ext. intros [k x] Hin. rewrite Forall_forall in IH. rewrite (IH _ Hin), flat_map_map. reflexivity.
  Qed.

  Lemma append_nonempty a b : a <> "" -> (a ++ b)%string <> "".
  Proof. destruct a; [contradiction|discriminate]. Qed.
  Lemma fold_extend_nonempty p : forall pre, pre <> "" -> fold_left extend_prefix p pre = dotted (pre :: p).
  Proof.
    induction p as [|s p IH]; intros pre H; [reflexivity|]. cbn [fold_left].
    assert (E : extend_prefix pre s = (pre ++ "." ++ s)%string).
    { unfold extend_prefix. destruct (String.eqb_spec pre ""); [contradiction|reflexivity]. }
    rewrite E. rewrite IH by (apply append_nonempty; exact H).
    unfold dotted. cbn [String.concat].
    destruct p as [|t p]; [reflexivity|].
    assert (AA : forall a b d, ((a ++ b) ++ d = a ++ (b ++ d))%string).
    { clear. induction a as [|ch a IH]; intros; simpl; [reflexivity|]. rewrite IH. reflexivity. }
    rewrite !AA. reflexivity.
  Qed.
  Lemma dotted_nonempty s p : s <> "" -> dotted (s :: p) <> "".
  Proof. intros H. unfold dotted. cbn [String.concat]. destruct p; [exact H|apply append_nonempty; exact H]. Qed.
  Lemma fold_extend p : Forall nonempty p -> fold_left extend_prefix p "" = dotted p.
  Proof.
    destruct p as [|s p]; intros H; [reflexivity|]. inversion H; subst. cbn [fold_left].
    rewrite fold_extend_nonempty by assumption. reflexivity.
  Qed.

  (** *** Keys *)
  Lemma digits_no_dot d : no_dot (NilEmpty.string_of_uint d).
  Proof. induction d; cbn [NilEmpty.string_of_uint no_dot]; try exact I; (split; [discriminate|assumption]). Qed.
  Lemma index_no_dot i : no_dot (index_text i).
  Proof.
    unfold index_text, NilZero.string_of_uint. destruct (Nat.to_uint i) eqn:E; [split; [discriminate|exact I]|..];
      rewrite <- E; apply digits_no_dot.
  Qed.
  Lemma index_nonempty i : nonempty (index_text i).
  Proof. unfold nonempty, index_text, NilZero.string_of_uint. destruct (Nat.to_uint i); discriminate. Qed.
  Lemma index_inj i k : index_text i = index_text k -> i = k.
  Proof.
    unfold index_text. intros H.
    assert (NN : forall n, Nat.to_uint n <> Decimal.Nil).
    { intros n E. pose proof (DecimalNat.Unsigned.to_of (Nat.to_uint n)) as T.
      rewrite DecimalNat.Unsigned.of_to in T. rewrite E in T. discriminate. }
    pose proof (NilZero.usu (Nat.to_uint i) (NN i)) as A. pose proof (NilZero.usu (Nat.to_uint k) (NN k)) as B.
    rewrite H, B in A. injection A as A. apply DecimalNat.Unsigned.to_uint_inj. symmetry. exact A.
  Qed.

  Lemma path_meets (P : string -> Prop) : (forall i, P (index_text i)) ->
    forall j, keys_meet P j -> forall p leaf, leaf_at j p leaf -> Forall P p.
  Proof.
    intros PI j K p leaf H. revert K. induction H as [j Hj|m k x p leaf I1 H IH|l i x p leaf I1 H IH]; intros K.
    - constructor.
    - inversion K as [j0 F0| |m0 F]; subst; [destruct F0|]. rewrite Forall_forall in F. destruct (F _ I1) as [A B].
      constructor; [exact A|apply IH, B].
    - inversion K as [j0 F0|l0 F|]; subst; [destruct F0|]. rewrite Forall_forall in F.
      constructor; [apply PI|]. apply IH, F. eapply nth_error_In, I1.
  Qed.

  Lemma dot_split a : forall b x y, no_dot a -> no_dot b -> (a ++ "." ++ x = b ++ "." ++ y)%string -> a = b /\ x = y.
  Proof.
    induction a as [|ca a IH]; intros [|cb b] x y A B H; cbn in H.
    - injection H as H. auto.
    - injection H as H1 H2. subst cb. destruct B as [B _]. contradiction.
    - injection H as H1 H2. subst ca. destruct A as [A _]. contradiction.
    - injection H as H1 H2. subst cb. destruct A as [_ A], B as [_ B].
      destruct (IH b x y A B H2) as [-> ->]. auto.
  Qed.
  Lemma dot_absent a : forall b y, no_dot a -> a = (b ++ "." ++ y)%string -> False.
  Proof.
    induction a as [|ca a IH]; intros [|cb b] y A H; cbn in H; try discriminate.
    - injection H as H1 H2. subst ca. destruct A as [A _]. contradiction.
    - injection H as H1 H2. destruct A as [_ A]. exact (IH b y A H2).
  Qed.
  Lemma dotted_inj p : forall q, p <> [] -> q <> [] -> Forall no_dot p -> Forall no_dot q -> dotted p = dotted q -> p = q.
  Proof.
    unfold dotted. induction p as [|a p IH]; intros [|b q] NP NQ FP FQ H; try contradiction.
    inversion FP as [|x l A FA]; subst. inversion FQ as [|x l B FB]; subst.
    destruct p as [|a2 p], q as [|b2 q].
    - cbn [String.concat] in H. subst b. reflexivity.
    - exfalso. exact (dot_absent a b _ A H).
    - exfalso. symmetry in H. exact (dot_absent b a _ B H).
    - change (a ++ "." ++ String.concat "." (a2 :: p) = b ++ "." ++ String.concat "." (b2 :: q))%string in H.
      apply dot_split in H as [-> H]; [|assumption|assumption]. f_equal. apply IH; try assumption; discriminate.
  Qed.

  Lemma NoDup_app_intro {A} (a b : list A) : NoDup a -> NoDup b -> (forall x, In x a -> ~ In x b) -> NoDup (a ++ b).
  Proof.
    induction a as [|x a IH]; intros NA NB D; [exact NB|]. inversion NA as [|y l NI NA2]; subst.
    cbn [app]. constructor; [|apply IH; try assumption; intros z Hz; apply D; right; exact Hz].
    rewrite in_app_iff. intros [H|H]; [exact (NI H)|]. exact (D x (or_introl eq_refl) H).
  Qed.
  Lemma NoDup_map_inj {A B} (f : A -> B) l : (forall x y, In x l -> In y l -> f x = f y -> x = y) -> NoDup l -> NoDup (map f l).
  Proof.
    induction l as [|x l IH]; intros I N; [constructor|]. inversion N as [|y l2 NI N2]; subst. cbn [map]. constructor.
    - rewrite in_map_iff. intros (y & E & Hy). apply NI. rewrite <- (I y x); [exact Hy|right; exact Hy|left; reflexivity|exact E].
    - apply IH; [|exact N2]. intros a b Ha Hb. apply I; right; assumption.
  Qed.

  Lemma map_fst_cons (k : string) (l : list (list string * json)) :
    map fst (map (fun pl => (k :: fst pl, snd pl)) l) = map (cons k) (map fst l).
  Proof. rewrite !map_map. reflexivity. Qed.
  Lemma cons_inj_nodup (k : string) l : NoDup l -> NoDup (map (cons k) l).
  Proof. apply NoDup_map_inj. intros x y _ _ [= E]. exact E. Qed.

  Lemma leaves_nodup j : unique_keys j -> NoDup (map fst (leaves j)).
  Proof.
    induction j as [|b|n|s|l IH|l IH] using json_ind2; intros U.
    1-4: cbn [leaves map fst]; constructor; [intros []|constructor].
    - change (leaves (JArr l)) with (go_leaves l 0). inversion U as [j0 F0|l0 F|]; subst; [destruct F0|].
      generalize 0. clear U. revert F. induction IH as [|x l Hx _ IHl]; intros F i; [constructor|].
      inversion F as [|y l2 Fx Fl]; subst. cbn [go_leaves]. fold go_leaves. rewrite map_app, map_fst_cons.
      apply NoDup_app_intro; [apply cons_inj_nodup, Hx, Fx|apply IHl, Fl|].
      intros p Hp Hq. apply in_map_iff in Hp as (q & <- & _). apply in_map_iff in Hq as ([p2 lf] & E & Hq).
      cbn [fst] in E. subst p2. apply go_leaves_in in Hq as (n & y & q2 & _ & _ & E). injection E as E _.
      apply index_inj in E. lia.
    - cbn [leaves]. inversion U as [j0 F0| |m0 ND F]; subst; [destruct F0|]. clear U.
      revert ND F. induction IH as [|[k x] l Hx _ IHl]; intros ND F; [constructor|].
      inversion F as [|y l2 Fx Fl]; subst. cbn [map fst] in ND. inversion ND as [|y l2 NI ND2]; subst.
      cbn [flat_map]. rewrite map_app. cbn [fst snd] in *. rewrite map_fst_cons.
      apply NoDup_app_intro; [apply cons_inj_nodup, Hx, Fx|apply IHl; assumption|].
      intros p Hp Hq. apply in_map_iff in Hp as (q & <- & _). apply in_map_iff in Hq as ([p2 lf] & E & Hq).
      cbn [fst] in E. subst p2. apply in_flat_map in Hq as ([k2 x2] & H2 & Hq).
      apply in_map_iff in Hq as ([q2 lf2] & E & _). cbn [fst] in E. injection E as <- _. 
      apply NI. apply in_map_iff. exists (k2, x2). auto.
  Qed.

  Lemma entry_in pre pl k v : In (k, v) (entry pre pl) <->
    k = fold_left extend_prefix (fst pl) pre /\ k <> "" /\ converts to_f64 (snd pl) v.
  Proof.
    unfold entry. cbv zeta. destruct (String.eqb_spec (fold_left extend_prefix (fst pl) pre) "") as [E|E].
    - rewrite E. split; [intros []|]. intros (-> & H & _). contradiction.
    - pose proof (proj1 (conv_iff (snd pl)) v) as C. destruct (conv (snd pl)) as [w|].
      + split.
        * intros [[= <- <-]|[]]. repeat split; [exact E|apply C; reflexivity].
        * intros (-> & _ & H). apply C in H. injection H as ->. left; reflexivity.
      + split; [intros []|]. intros (_ & _ & H). apply C in H. discriminate.
  Qed.

  Lemma context_iff j : keys_meet nonempty j -> forall k v,
    In (k, v) (flatten_finding_context to_f64 j) <->
    exists path leaf, leaf_at j path leaf /\ path <> [] /\ k = dotted path /\ converts to_f64 leaf v.
  Proof.
    intros K k v. unfold flatten_finding_context. rewrite flatten_leaves, in_flat_map. split.
    - intros ([p leaf] & H1 & H2). apply leaves_iff in H1. apply entry_in in H2 as (-> & N & C). cbn [fst snd] in *.
      pose proof (path_meets nonempty index_nonempty j K p leaf H1) as F. rewrite (fold_extend p F) in *.
      exists p, leaf. repeat split; try assumption. intros ->. apply N. reflexivity.
    - intros (p & leaf & H1 & NP & -> & C).
      pose proof (path_meets nonempty index_nonempty j K p leaf H1) as F.
      exists (p, leaf). split; [apply leaves_iff, H1|]. apply entry_in. cbn [fst snd]. rewrite (fold_extend p F).
      repeat split; try assumption. destruct p as [|s p]; [contradiction|].
      inversion F; subst. apply dotted_nonempty. assumption.
  Qed.

  Lemma context_nodup j : unique_keys j -> keys_meet (fun k => nonempty k /\ no_dot k) j ->
    NoDup (map fst (flatten_finding_context to_f64 j)).
  Proof.
    intros U K. unfold flatten_finding_context. rewrite flatten_leaves.
    pose proof (leaves_nodup j U) as N.
    assert (F : Forall (fun pl => Forall (fun k => nonempty k /\ no_dot k) (fst pl)) (leaves j)).
    { apply Forall_forall. intros [p leaf] H. apply leaves_iff in H.
      apply (path_meets _ (fun i => conj (index_nonempty i) (index_no_dot i)) j K p leaf H). }
    induction (leaves j) as [|[p leaf] ls IH]; [constructor|].
    cbn [map fst] in N. inversion N as [|y l NI N2]; subst. inversion F as [|y l Fp Fl]; subst.
    cbn [flat_map]. rewrite map_app. apply NoDup_app_intro; [|apply IH; assumption|].
    - unfold entry. cbv zeta. destruct (String.eqb _ _); [constructor|]. destruct (conv _); [|constructor].
      cbn [map]. constructor; [intros []|constructor].
    - intros k H1 H2. apply in_map_iff in H1 as ([k1 v1] & <- & H1). apply in_map_iff in H2 as ([k2 v2] & E & H2).
      cbn [fst] in *. subst k2. apply entry_in in H1 as (-> & E1 & _). cbn [fst] in *.
      apply in_flat_map in H2 as ([q lf] & Hq & H2). apply entry_in in H2 as (E2 & _ & _). cbn [fst] in *.
      rewrite Forall_forall in Fl. pose proof (Fl _ Hq) as Fq. cbn [fst] in Fq.
      assert (Ip : Forall nonempty p) by (eapply Forall_impl; [|exact Fp]; cbn; tauto).
      assert (Iq : Forall nonempty q) by (eapply Forall_impl; [|exact Fq]; cbn; tauto).
      rewrite (fold_extend p Ip) in *. rewrite (fold_extend q Iq) in *.
      apply NI. apply in_map_iff. exists (q, lf). split; [|exact Hq]. cbn [fst]. symmetry.
      apply dotted_inj; [intros ->; apply E1; reflexivity|intros ->; apply E1; exact E2| | |exact E2];
        [eapply Forall_impl; [|exact Fp]|eapply Forall_impl; [|exact Fq]]; cbn; tauto.
  Qed.

  Lemma in_context_pre l k v : In (k, v) (map (fun kv : string * any_value => (("weaver.finding.context." ++ fst kv)%string, snd kv)) l) <->
    exists k', k = ("weaver.finding.context." ++ k')%string /\ In (k', v) l.
  Proof.
    rewrite in_map_iff. split.
    - intros ([k' v'] & [= <- <-] & H). exists k'. auto.
    - intros (k' & -> & H). exists (k', v). auto.
  Qed.

  Lemma resource_in l k v : In (k, v) (flatten_resource_attributes to_f64 l) <->
    exists a j, In a l /\ k = sa_name a /\ sa_value a = Some j /\ converts to_f64 j v.
  Proof.
    unfold flatten_resource_attributes. rewrite in_flat_map. split.
    - intros (a & Ha & H). destruct (sa_value a) as [j|] eqn:E; [|destruct H].
      pose proof (proj1 (conv_iff j) v) as C. destruct (conv j) as [w|]; [|destruct H].
      destruct H as [[= <- <-]|[]]. exists a, j. repeat split; auto. apply C. reflexivity.
    - intros (a & j & Ha & -> & E & H). exists a. split; [exact Ha|]. rewrite E.
      apply (proj1 (conv_iff j) v) in H. rewrite H. left. reflexivity.
  Qed.
End Content.

Lemma level_word_same l : level_text l = level_word l.
Proof. destruct l; reflexivity. Qed.
Lemma kind_same r : sample_type r = kind_of r.
Proof. destruct r; reflexivity. Qed.
Lemma resource_same s : sample_resource s = carried_resource s.
Proof. destruct s; reflexivity. Qed.
Lemma parse_type_iff t t' : parse_signal_type t = Some t' <-> t' = t /\ In t signal_types.
Proof.
  unfold parse_signal_type. change ["span"; "resource"; "metric"; "log"; "profile"] with signal_types.
  destruct (existsb (String.eqb t) signal_types) eqn:E.
  - apply existsb_exists in E as (x & Hx & Ex). apply String.eqb_eq in Ex. subst x.
    split; [intros [= <-]; auto|intros [-> _]; reflexivity].
  - split; [discriminate|]. intros [_ H]. exfalso.
    assert (Q : existsb (String.eqb t) signal_types = true).
    { apply existsb_exists. exists t. split; [exact H|apply String.eqb_refl]. }
    rewrite Q in E. discriminate.
Qed.

(** ** The record of a finding *)

(** Name, severity and body. *)
Theorem C95_headline : forall to_f64 e,
  let r := emit_finding to_f64 e in
  lr_event r = "weaver.live_check.finding" /\ lr_severity r = severity_of (f_level (em_finding e)) /\
  lr_body r = f_message (em_finding e).
Proof. intros. repeat split. Qed.
Print Assumptions C95_headline.

(* all attributes, with the context left open *)
Lemma record_iff to_f64 e k v :
  In (k, v) (lr_attributes (emit_finding to_f64 e)) <->
  belongs to_f64 (fun k v => exists j, f_context (em_finding e) = Some j /\ In (k, v) (flatten_finding_context to_f64 j)) e k v.
Proof.
  cbn [emit_finding lr_attributes]. rewrite !in_app_iff, in_context_pre, resource_same, kind_same, level_word_same. split.
  - intros [(k' & -> & H)|[H|[H|[H|[H|H]]]]].
    + apply bl_context. destruct (f_context (em_finding e)) as [j|]; [|destruct H]. exists j. auto.
    + destruct H as [[= <- <-]|[[= <- <-]|[]]]; constructor.
    + apply in_map_iff in H as ([k' v'] & [= <- <-] & H).
      destruct (carried_resource (em_signal e)) as [r|] eqn:E; [|destruct H].
      apply resource_in in H as (a & j & Ha & -> & Ej & C). cbn [fst]. eapply bl_resource; eassumption.
    + destruct H as [[= <- <-]|[]]. constructor.
    + destruct (f_signal_name (em_finding e)) as [n|] eqn:E; [|destruct H].
      destruct H as [[= <- <-]|[]]. constructor. exact E.
    + destruct (f_signal_type (em_finding e)) as [t|] eqn:E; [|destruct H].
      destruct (parse_signal_type t) as [t'|] eqn:P; [|destruct H]. apply parse_type_iff in P as [-> P].
      destruct H as [[= <- <-]|[]]. constructor; assumption.
  - intros H. destruct H as [k v (j & -> & H)| | |r a j v R Ha Ej C| |n N|t T P].
    + left. exists k. auto.
    + right. left. left. reflexivity.
    + right. left. right. left. reflexivity.
    + right. right. left. rewrite R. apply in_map_iff. exists (sa_name a, v). split; [reflexivity|].
      apply resource_in. exists a, j. auto.
    + right. right. right. left. left. reflexivity.
    + right. right. right. right. left. rewrite N. left. reflexivity.
    + right. right. right. right. right. rewrite T. rewrite (proj2 (parse_type_iff t t) (conj eq_refl P)). left. reflexivity.
Qed.

Lemma belongs_mono to_f64 (A B : string -> any_value -> Prop) e k v :
  (forall k v, A k v <-> B k v) -> belongs to_f64 A e k v <-> belongs to_f64 B e k v.
Proof.
  intros H. split; intros Q; destruct Q as [k v C| | |r a j v R Ha Ej C| |n N|t T P];
    try (constructor; assumption); try (eapply bl_resource; eassumption); apply bl_context, H, C.
Qed.

(** The attributes of a record are exactly the ones that belong to the finding, when no
    object of the context has an empty key. *)
Theorem C95_record_partial : forall to_f64 e,
  (forall j, f_context (em_finding e) = Some j -> keys_meet nonempty j) ->
  forall k v, In (k, v) (lr_attributes (emit_finding to_f64 e)) <->
    belongs to_f64 (context_says to_f64 (em_finding e)) e k v.
Proof.
  intros to_f64 e K k v. rewrite record_iff. apply belongs_mono. intros k' v'. unfold context_says. split.
  - intros (j & E & H). apply (context_iff to_f64 j (K j E)) in H as (p & lf & H). exists j, p, lf. tauto.
  - intros (j & p & lf & E & H). exists j. split; [exact E|]. apply (context_iff to_f64 j (K j E)). exists p, lf. exact H.
Qed.
Print Assumptions C95_record_partial.

Lemma append_inj a : forall x y : string, (a ++ x = a ++ y)%string -> x = y.
Proof. induction a as [|ch a IH]; intros x y H; [exact H|]. injection H as H. apply IH, H. Qed.

(** No attribute key comes twice, when the keys of the context are also free of dots and the
    attributes of the resource have distinct names. *)
Theorem C95_unambiguous_partial : forall to_f64 e,
  (forall j, f_context (em_finding e) = Some j -> unique_keys j /\ keys_meet (fun k => nonempty k /\ no_dot k) j) ->
  (forall r, carried_resource (em_signal e) = Some r -> NoDup (map sa_name (sr_attrs r))) ->
  NoDup (map fst (lr_attributes (emit_finding to_f64 e))).
Proof.
  intros to_f64 e K R. cbn [emit_finding lr_attributes]. rewrite resource_same, !map_app.
  assert (D : forall pre l, NoDup (map fst l) ->
    NoDup (map fst (map (fun kv : string * any_value => ((pre ++ fst kv)%string, snd kv)) l))).
  { intros pre l N. rewrite map_map. cbn [fst]. rewrite <- (map_map fst (fun k => (pre ++ k)%string)).
    apply NoDup_map_inj; [|exact N]. intros x y _ _. apply append_inj. }
  assert (P : forall pre l k, In k (map fst (map (fun kv : string * any_value => ((pre ++ fst kv)%string, snd kv)) l)) ->
    exists x, k = (pre ++ x)%string).
  { intros pre l k H. apply in_map_iff in H as (kv & <- & H). apply in_map_iff in H as ([a b] & <- & _). exists a. reflexivity. }
  apply NoDup_app_intro.
  { apply D. destruct (f_context (em_finding e)) as [j|] eqn:E; [|constructor]. destruct (K j eq_refl). apply context_nodup; assumption. }
  2:{ intros k H1 H2. apply P in H1 as (x & ->). rewrite !in_app_iff in H2.
      destruct H2 as [H|[H|[H|[H|H]]]].
      - destruct H as [H|[H|[]]]; discriminate H.
      - apply P in H as (y & H). discriminate H.
      - destruct H as [H|[]]; discriminate H.
      - destruct (f_signal_name (em_finding e)); [destruct H as [H|[]]; discriminate H|destruct H].
      - destruct (f_signal_type (em_finding e)) as [t|]; [|destruct H]. destruct (parse_signal_type t); [|destruct H].
        destruct H as [H|[]]; discriminate H. }
  apply NoDup_app_intro.
  { repeat constructor; cbn [In]; intuition discriminate. }
  2:{ intros k H1 H2. rewrite !in_app_iff in H2.
      destruct H1 as [<-|[<-|[]]]; destruct H2 as [H|[H|[H|H]]];
        try (apply P in H as (y & H); discriminate H); try (destruct H as [H|[]]; discriminate H).
      all: try (destruct (f_signal_name (em_finding e)); [destruct H as [H|[]]; discriminate H|destruct H]).
      all: destruct (f_signal_type (em_finding e)) as [t|]; [|destruct H]; destruct (parse_signal_type t); [|destruct H];
        destruct H as [H|[]]; discriminate H. }
  apply NoDup_app_intro.
  { apply D. destruct (carried_resource (em_signal e)) as [r|] eqn:E; [|constructor]. specialize (R r eq_refl).
    unfold flatten_resource_attributes. clear -R. induction (sr_attrs r) as [|a l IH]; [constructor|].
    cbn [map] in R. inversion R as [|y l2 NI N2]; subst. cbn [flat_map]. rewrite map_app. apply NoDup_app_intro.
    - destruct (sa_value a); [|constructor]. destruct (json_value_to_any_value to_f64 j); [|constructor].
      repeat constructor. intros [].
    - apply IH, N2.
    - intros k H1 H2. assert (k = sa_name a).
      { destruct (sa_value a); [|destruct H1]. destruct (json_value_to_any_value to_f64 j); [|destruct H1].
        destruct H1 as [<-|[]]. reflexivity. }
      subst k. apply NI. apply in_map_iff in H2 as ([k v] & E & H2). cbn [fst] in E. subst k.
      apply resource_in in H2 as (b & jb & Hb & E & _). rewrite E. apply in_map, Hb. }
  2:{ intros k H1 H2. apply P in H1 as (x & ->). rewrite !in_app_iff in H2.
      destruct H2 as [H|[H|H]].
      - destruct H as [H|[]]; discriminate H.
      - destruct (f_signal_name (em_finding e)); [destruct H as [H|[]]; discriminate H|destruct H].
      - destruct (f_signal_type (em_finding e)) as [t|]; [|destruct H]. destruct (parse_signal_type t); [|destruct H].
        destruct H as [H|[]]; discriminate H. }
  destruct (f_signal_name (em_finding e)), (f_signal_type (em_finding e)) as [t|];
    try destruct (parse_signal_type t); cbn [map app fst]; repeat constructor; cbn [In]; intuition discriminate.
Qed.
Print Assumptions C95_unambiguous_partial.

(** ** Refutations *)

(** Records are emitted for findings that the modifier removes from the report, and with
    the levels from before its overrides. *)
Theorem C95_emitted_refuted :
  (exists c input out st code es, live_check c false FailNone input = Ok (out, st, code) /\
     emit_run c None input = Ok es /\ flat_map told out = [] /\ es <> []) /\
  (exists c input out st code es, live_check c false FailNone input = Ok (out, st, code) /\
     emit_run c None input = Ok es /\
     map (fun n => f_level (snd (fst n))) (flat_map told out) = [Information] /\
     map (fun e => lr_severity (emit_finding (fun _ => 0%N) e)) es = [SevError]).
Proof.
  split.
  - exists (empty_checker (Some dropping)), [SmpAttribute an_attr].
    destruct (live_check (empty_checker (Some dropping)) false FailNone [SmpAttribute an_attr]) as [[[out st] code]|] eqn:E;
      [|vm_compute in E; discriminate E].
    destruct (emit_run (empty_checker (Some dropping)) None [SmpAttribute an_attr]) as [es|] eqn:E2;
      [|vm_compute in E2; discriminate E2].
    exists out, st, code, es. vm_compute in E, E2. injection E as <- _ _. injection E2 as <-.
    repeat split. discriminate.
  - exists (empty_checker (Some lowering)), [SmpAttribute an_attr].
    destruct (live_check (empty_checker (Some lowering)) false FailNone [SmpAttribute an_attr]) as [[[out st] code]|] eqn:E;
      [|vm_compute in E; discriminate E].
    destruct (emit_run (empty_checker (Some lowering)) None [SmpAttribute an_attr]) as [es|] eqn:E2;
      [|vm_compute in E2; discriminate E2].
    exists out, st, code, es. vm_compute in E, E2. injection E as <- _ _. injection E2 as <-.
    repeat split.
Qed.
Print Assumptions C95_emitted_refuted.

(** A context that is a plain string, and a string under an empty key, are not in the
    record; two different values of a context can come under one key. *)
Theorem C95_context_refuted : forall to_f64,
  (forall s k v, In (k, v) (lr_attributes (emit_finding to_f64 (about_span (Some (JStr s))))) ->
     k <> "weaver.finding.context."%string /\ (forall x, k <> ("weaver.finding.context." ++ x)%string)) /\
  (forall s k v, In (k, v) (lr_attributes (emit_finding to_f64 (about_span (Some (JObj [("", JStr s)]))))) ->
     forall x, k <> ("weaver.finding.context." ++ x)%string) /\
  map snd (filter (fun kv => String.eqb "weaver.finding.context.a.b" (fst kv))
    (lr_attributes (emit_finding to_f64 (about_span (Some (JObj [("a", JObj [("b", JBool true)]); ("a.b", JBool false)]))))))
  = [ABool true; ABool false].
Proof.
  intros to_f64. split; [|split; [|reflexivity]].
  - intros s k v H. cbn in H. split; [|intros x]; intros ->;
      repeat (destruct H as [H|H]; [discriminate H|]); destruct H.
  - intros s k v H x ->. cbn in H. repeat (destruct H as [H|H]; [discriminate H|]); destruct H.
Qed.
Print Assumptions C95_context_refuted.

(** ** Cases *)

(** A resource and a metric: the records come in the order of the report, and the metric's
    ones carry the resource. *)
Example C95_case :
  match live_check (empty_checker None) false FailNone [a_host; a_cpu_metric], emit_run (empty_checker None) None [a_host; a_cpu_metric] with
  | Ok (out, _, _), Ok es =>
      map (fun e => (f_id (em_finding e), kind_of (em_sample e))) es
        = [("missing_attribute", "attribute"); ("missing_metric", "metric"); ("missing_attribute", "attribute")] /\
      map emitted es = flat_map told out /\
      nth_error (map (fun e => lr_attributes (emit_finding (fun _ => 0%N) e)) es) 1 =
        Some [("weaver.finding.id", AString "missing_metric"); ("weaver.finding.level", AString "violation");
              ("weaver.finding.resource.attribute.host.name", AString "h");
              ("weaver.finding.sample.type", AString "metric"); ("weaver.finding.signal.name", AString "cpu");
              ("weaver.finding.signal.type", AString "metric")]
  | _, _ => False
  end.
Proof. vm_compute. repeat split. Qed.

(** A nested context. *)
Example C95_context_case :
  lr_attributes (emit_finding (fun _ => 0%N) (about_span (Some (JObj [("a", JArr [JNum (NInt 1); JNull; JObj [("b", JStr "x")]]); ("c", JBool true)]))))
  = [("weaver.finding.context.a.0", AInt 1); ("weaver.finding.context.a.2.b", AString "x"); ("weaver.finding.context.c", ABool true);
     ("weaver.finding.id", AString "x"); ("weaver.finding.level", AString "violation");
     ("weaver.finding.sample.type", AString "attribute"); ("weaver.finding.signal.type", AString "span")].
Proof. reflexivity. Qed.
Example C95_context_meets :
  keys_meet (fun k => nonempty k /\ no_dot k) (JObj [("a", JArr [JNum (NInt 1); JNull; JObj [("b", JStr "x")]]); ("c", JBool true)]) /\
  unique_keys (JObj [("a", JArr [JNum (NInt 1); JNull; JObj [("b", JStr "x")]]); ("c", JBool true)]).
Proof.
  split.
  - apply km_obj. repeat (apply Forall_cons || apply Forall_nil); cbn [fst snd].
    + split; [split; [discriminate|cbn; split; [discriminate|exact I]]|].
      apply km_arr. repeat (apply Forall_cons || apply Forall_nil); try (apply km_scalar; exact I).
      apply km_obj. repeat (apply Forall_cons || apply Forall_nil); cbn [fst snd].
      split; [split; [discriminate|cbn; split; [discriminate|exact I]]|]. apply km_scalar; exact I.
    + split; [split; [discriminate|cbn; split; [discriminate|exact I]]|]. apply km_scalar; exact I.
  - apply uk_obj.
    + repeat (apply NoDup_cons || apply NoDup_nil); cbn; intuition discriminate.
    + repeat (apply Forall_cons || apply Forall_nil); cbn [snd]; try (apply uk_scalar; exact I).
      apply uk_arr. repeat (apply Forall_cons || apply Forall_nil); try (apply uk_scalar; exact I).
      apply uk_obj.
      * repeat (apply NoDup_cons || apply NoDup_nil); cbn; intuition discriminate.
      * repeat (apply Forall_cons || apply Forall_nil); cbn [snd]; apply uk_scalar; exact I.
Qed.
