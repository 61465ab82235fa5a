(** C94: the live_check tool of the MCP server. *)
From Coq Require Import String Ascii Bool Arith Lia List.
From Verif Require Import Base Json SemTypes LiveModel LiveAdvisors LiveSpec LiveProofs LiveProofs2 PropLive McpModel McpSpec.
Import ListNotations.
Local Open Scope string_scope.
Local Open Scope list_scope.
Local Open Scope nat_scope.

Lemma extract_short r : extract_findings r = map short (findings_of r).
Proof. destruct r; reflexivity. Qed.

Lemma extract_attrs l : extract_attr_findings l =
  map (fun a => (sa_name a, map short (findings_of (sa_result a))))
    (filter (fun a => 0 <? length (findings_of (sa_result a))) l).
Proof.
  induction l as [|a l IH]; [reflexivity|]. cbn [extract_attr_findings flat_map filter].
  fold (extract_attr_findings l). rewrite IH, extract_short.
  destruct (findings_of (sa_result a)) as [|f fs] eqn:E; cbn; [reflexivity|]. rewrite E. reflexivity.
Qed.

Lemma no_attr_findings l : extract_attr_findings l = [] <-> flat_map (fun a => findings_of (sa_result a)) l = [].
Proof.
  induction l as [|a l IH]; [split; reflexivity|]. cbn [extract_attr_findings flat_map].
  fold (extract_attr_findings l). rewrite extract_short.
  destruct (findings_of (sa_result a)); cbn; [exact IH|split; discriminate].
Qed.

Lemma is_nil_true {A} (l : list A) : is_nil l = true <-> l = [].
Proof. destruct l; split; (reflexivity || discriminate). Qed.

Lemma attrs_only_objects t l : one_object_each [attributes_part t l] (attrs_only t l).
Proof.
  unfold attrs_only. destruct (is_nil (extract_attr_findings l)) eqn:E.
  - apply ooe_clean; [|constructor]. unfold part_findings. cbn. apply no_attr_findings, is_nil_true, E.
  - apply ooe_says; [| |constructor].
    + unfold part_findings. cbn. intros H. apply no_attr_findings, is_nil_true in H. congruence.
    + split; [reflexivity|]. split; [reflexivity|]. split; [reflexivity|]. cbn. rewrite extract_attrs. reflexivity.
Qed.

Lemma own_and_attrs t n r l :
  one_object_each [{| pt_type := t; pt_name := n; pt_own := Some (findings_of r); pt_attrs := Some l |}]
    (if negb (is_nil (extract_findings r)) || negb (is_nil (extract_attr_findings l))
     then [{| ce_name := n; ce_type := t; ce_findings := Some (extract_findings r);
              ce_attributes := Some (extract_attr_findings l) |}] else []).
Proof.
  destruct (is_nil (extract_findings r)) eqn:E1; [destruct (is_nil (extract_attr_findings l)) eqn:E2|]; cbn [negb orb].
  - apply ooe_clean; [|constructor]. unfold part_findings. cbn.
    rewrite extract_short in E1. apply is_nil_true, map_eq_nil in E1. rewrite E1. cbn.
    apply no_attr_findings, is_nil_true, E2.
  - apply ooe_says; [| |constructor].
    + unfold part_findings. cbn. intros H. apply app_eq_nil in H. destruct H as [_ H].
      apply no_attr_findings, is_nil_true in H. congruence.
    + split; [reflexivity|]. split; [reflexivity|]. cbn. rewrite extract_short, extract_attrs. split; reflexivity.
  - apply ooe_says; [| |constructor].
    + unfold part_findings. cbn. intros H. apply app_eq_nil in H. destruct H as [H _].
      rewrite extract_short, H in E1. discriminate E1.
    + split; [reflexivity|]. split; [reflexivity|]. cbn. rewrite extract_short, extract_attrs. split; reflexivity.
Qed.

Lemma own_only t n r :
  one_object_each [{| pt_type := t; pt_name := n; pt_own := Some (findings_of r); pt_attrs := None |}]
    (if is_nil (extract_findings r) then []
     else [{| ce_name := n; ce_type := t; ce_findings := Some (extract_findings r); ce_attributes := None |}]).
Proof.
  destruct (is_nil (extract_findings r)) eqn:E; rewrite extract_short in E.
  - apply ooe_clean; [|constructor]. unfold part_findings. cbn. rewrite app_nil_r.
    apply is_nil_true, map_eq_nil in E. exact E.
  - apply ooe_says; [| |constructor].
    + unfold part_findings. cbn. rewrite app_nil_r. intros H. rewrite H in E. discriminate E.
    + split; [reflexivity|]. split; [reflexivity|]. cbn. rewrite extract_short. split; reflexivity.
Qed.

Lemma objects_app p1 e1 p2 e2 : one_object_each p1 e1 -> one_object_each p2 e2 ->
  one_object_each (p1 ++ p2) (e1 ++ e2).
Proof.
  intros H. revert p2 e2. induction H as [|p ps es C H IH|p ps e es C Q H IH]; intros p2 e2 H2; cbn; [exact H2| |].
  - apply ooe_clean; auto.
  - apply ooe_says; auto.
Qed.

Lemma compact_objects s : one_object_each (parts s) (compact s).
Proof.
  destruct s as [a|x|e|l|r|c|m|l|p]; cbn [parts compact]; cbv zeta;
    try apply attrs_only_objects.
  - apply own_only.
  - change (?a :: map ?f ?l) with ([a] ++ map f l). apply objects_app; [apply own_and_attrs|].
    induction (sp_events x) as [|e es IH]; [constructor|]. cbn [map flat_map].
    change (?a :: ?l) with ([a] ++ l). apply objects_app; [apply attrs_only_objects|exact IH].
  - apply own_and_attrs.
  - apply own_only.
Qed.

Lemma collect_objects out : one_object_each (flat_map parts out) (collect_compact_findings out).
Proof.
  induction out as [|s out IH]; [constructor|]. cbn. apply objects_app; [apply compact_objects|exact IH].
Qed.

(* ---------- the run ---------- *)

Lemma run_list_disabled c l : forall out st, run_list (run_sample c) l Disabled = Ok (out, st) ->
  st = Disabled /\ Forall2 (fun s s' => run_sample c s Disabled = Ok (s', Disabled)) l out.
Proof.
  induction l as [|s l IH]; intros out st H; cbn in H.
  - injection H as <- <-. split; [reflexivity|constructor].
  - destruct (run_sample c s Disabled) as [[s' st1]|e] eqn:E; [|discriminate H]. cbn in H.
    pose proof (run_sample_good _ _ _ _ _ E) as (D & _). rewrite record_all_disabled in D. subst st1.
    destruct (run_list (run_sample c) l Disabled) as [[l' st2]|e] eqn:E2; [|discriminate H]. cbn in H.
    injection H as <- <-. destruct (IH _ _ eq_refl) as [-> F]. split; [reflexivity|]. constructor; [exact E|exact F].
Qed.

Lemma run_list_of c l out : Forall2 (fun s s' => run_sample c s Disabled = Ok (s', Disabled)) l out ->
  run_list (run_sample c) l Disabled = Ok (out, Disabled).
Proof.
  intros F. induction F as [|s s' l out E F IH]; [reflexivity|]. cbn. rewrite E. cbn. rewrite IH. reflexivity.
Qed.

Lemma erase_deserialized s : erase (deserialized s) = erase s.
Proof. destruct s; reflexivity. Qed.

(* C94: the full answer holds every sample sent, in order, with its telemetry unchanged and
   a result on each of its entities. *)
Theorem C94_full show sv input out :
  mcp_live_check show sv OutFull input = AllSamples out ->
  map erase out = map erase input /\
  Forall (fun e => exists l, e_result e = Some l) (flat_map entities out).
Proof.
  unfold mcp_live_check. destruct (create_live_checker show sv) as [c|]; [|discriminate].
  unfold check_samples. destruct (run_list _ _ _) as [[o st]|] eqn:E; [|discriminate].
  intros H. injection H as <-. apply run_list_disabled in E. destruct E as [_ F].
  remember (map deserialized input) as ds eqn:D. revert input D.
  induction F as [|s s' l out E F IH]; intros input D.
  - destruct input; [|discriminate D]. split; [reflexivity|constructor].
  - destruct input as [|i input]; [discriminate D|]. cbn in D. injection D as -> ->.
    destruct (IH input eq_refl) as [I1 I2].
    apply run_sample_good in E. destruct E as (_ & W & R). split.
    + cbn. rewrite R, erase_deserialized, I1. reflexivity.
    + cbn. apply Forall_app. split; [|exact I2].
      eapply Forall_impl; [|exact W]. intros e (l0 & Q & _). exists l0. exact Q.
Qed.
Print Assumptions C94_full.

(* C94: the samples of a call do not influence each other, and a call over two lists is the
   two calls. *)
Theorem C94_independent show sv l1 l2 out1 out2 :
  mcp_live_check show sv OutFull l1 = AllSamples out1 ->
  mcp_live_check show sv OutFull l2 = AllSamples out2 ->
  mcp_live_check show sv OutFull (l1 ++ l2) = AllSamples (out1 ++ out2).
Proof.
  unfold mcp_live_check. destruct (create_live_checker show sv) as [c|]; [|discriminate].
  unfold check_samples.
  destruct (run_list _ (map deserialized l1) _) as [[o1 st1]|] eqn:E1; [|discriminate].
  intros H. injection H as <-.
  destruct (run_list _ (map deserialized l2) _) as [[o2 st2]|] eqn:E2; [|discriminate].
  intros H. injection H as <-.
  apply run_list_disabled in E1. apply run_list_disabled in E2. destruct E1 as [_ F1], E2 as [_ F2].
  rewrite map_app, (run_list_of c _ (o1 ++ o2)); [reflexivity|]. apply Forall2_app; assumption.
Qed.
Print Assumptions C94_independent.

(* C94: without a resource among the samples the report is that of the live-check command on
   the same samples, with the same registry and advisors, no finding modifier and whatever
   the statistics and the failure threshold. *)
Lemma attach_deserialized s : attach None (deserialized s) = deserialized s.
Proof. destruct s; reflexivity. Qed.

Lemma run_all_list c l : (forall s, In s l -> ~ is_resource s) -> forall out,
  Forall2 (fun s s' => run_sample c s Disabled = Ok (s', Disabled)) (map deserialized l) out ->
  run_all c None (map deserialized l) Disabled = Ok (out, Disabled).
Proof.
  induction l as [|s l IH]; intros N out F; cbn in F; inversion F as [|x s' y out' E F']; subst.
  - reflexivity.
  - cbn [map run_all]. cbv zeta.
    assert (next_resource None (deserialized s) = None) as ->.
    { destruct s; try reflexivity. exfalso. apply (N (SmpResource r) (or_introl eq_refl)). eexists; reflexivity. }
    rewrite attach_deserialized, E. cbn.
    rewrite (IH (fun x I => N x (or_intror I)) _ F'). reflexivity.
Qed.

Theorem C94_as_command_partial show sv no_stats f input out :
  (forall s, In s input -> ~ is_resource s) ->
  mcp_live_check show sv OutFull input = AllSamples out ->
  exists a st code, sv_rego sv (checker_new (RegV2 (sv_registry sv)) (default_advisors show) None) = Ok a /\
    live_check (checker_new (RegV2 (sv_registry sv)) (app (default_advisors show) [a]) None)
      no_stats f (map deserialized input) = Ok (out, st, code).
Proof.
  intros N. unfold mcp_live_check. destruct (create_live_checker show sv) as [c|] eqn:Ec; [|discriminate].
  unfold check_samples. destruct (run_list _ _ _) as [[o st]|] eqn:E; [|discriminate].
  intros H. injection H as <-. apply run_list_disabled in E. destruct E as [-> F].
  apply (run_all_list c input N) in F. unfold create_live_checker in Ec.
  destruct (sv_rego sv _) as [a|] eqn:Ea; [|discriminate].
  assert (Hc : c = checker_new (RegV2 (sv_registry sv)) (app (default_advisors show) [a]) None).
  { injection Ec as <-. reflexivity. }
  clear Ec. exists a. rewrite <- Hc. unfold live_check.
  pose proof (C01_stats_do_not_change_report c (map deserialized input) None Disabled
    (if no_stats then Disabled else Cumulative (stats_new (lc_registry c)))) as K.
  rewrite F in K. cbv zeta.
  destruct (run_all c None (map deserialized input) (if no_stats then _ else _)) as [[b st2]|]; [|destruct K].
  subst b. cbn. eexists _, _. split; reflexivity.
Qed.
Print Assumptions C94_as_command_partial.

(* C94: the compact answer has one object for each looked-at part of a sample that has a
   finding, in order, naming the part and telling its findings; nothing for the others. *)
Theorem C94_compact show sv input es n k :
  mcp_live_check show sv OutFindingsOnly input = OnlyFindings es n k ->
  exists out, mcp_live_check show sv OutFull input = AllSamples out /\
    one_object_each (flat_map parts out) es /\ n = length input /\ k = length es.
Proof.
  unfold mcp_live_check. destruct (create_live_checker show sv) as [c|]; [|discriminate].
  unfold check_samples. destruct (run_list _ _ _) as [[o st]|] eqn:E; [|discriminate].
  intros H. injection H as <- <- <-. exists o. split; [reflexivity|]. split; [apply collect_objects|].
  split; [|reflexivity]. apply run_list_disabled in E. destruct E as [_ F].
  rewrite <- (map_length deserialized input). symmetry.
  induction F as [|x y xs ys _ F IH]; [reflexivity|cbn; rewrite IH; reflexivity].
Qed.
Print Assumptions C94_compact.

(* every finding of a part is mentioned *)
Lemma mentioned_app a b : mentioned (a ++ b) = mentioned a ++ mentioned b.
Proof. apply flat_map_app. Qed.

Lemma attr_mentions l : flat_map snd (map (fun a => (sa_name a, map short (findings_of (sa_result a))))
    (filter (fun a => 0 <? length (findings_of (sa_result a))) l)) =
  map short (flat_map (fun a => findings_of (sa_result a)) l).
Proof.
  induction l as [|a l IH]; [reflexivity|]. cbn [filter flat_map]. rewrite map_app, <- IH.
  destruct (findings_of (sa_result a)) as [|f fs] eqn:E; cbn; [reflexivity|]. rewrite E. reflexivity.
Qed.

Lemma objects_mention ps es : one_object_each ps es -> mentioned es = map short (flat_map part_findings ps).
Proof.
  intros H. induction H as [|p ps es C H IH|p ps e es C Q H IH]; [reflexivity| |].
  - cbn. rewrite C. exact IH.
  - cbn [flat_map]. rewrite map_app, <- IH. change (mentioned (e :: es)) with
      ((opt_get (ce_findings e) [] ++ flat_map snd (opt_get (ce_attributes e) [])) ++ mentioned es).
    f_equal. destruct Q as (_ & _ & -> & ->). unfold part_findings. rewrite map_app. f_equal.
    + destruct (pt_own p); reflexivity.
    + destruct (pt_attrs p) as [l|]; [|reflexivity]. apply attr_mentions.
Qed.

Lemma advice_attrs l : flat_map advice_of (ents_attrs l) = flat_map (fun a => findings_of (sa_result a)) l.
Proof.
  induction l as [|a l IH]; [reflexivity|]. cbn. rewrite <- IH. reflexivity.
Qed.

Lemma part_in_entities s f : In f (flat_map part_findings (parts s)) -> In f (flat_map advice_of (entities s)).
Proof.
  assert (ATT : forall l, flat_map (fun a => findings_of (sa_result a)) l = flat_map advice_of (ents_attrs l))
    by (intros; symmetry; apply advice_attrs).
  destruct s as [a|x|e|l|r|c|m|l|p]; cbn [parts entities flat_map]; unfold part_findings; cbn [pt_own pt_attrs opt_get attributes_part app];
    rewrite ?app_nil_r, ?ATT.
  - cbn. rewrite app_nil_r. exact (fun H => H).
  - intros H. apply in_app_or in H. unfold ents_span. cbn [flat_map]. rewrite !flat_map_app.
    destruct H as [H|H].
    + apply in_app_or in H. apply in_or_app. destruct H as [H|H]; [left; exact H|].
      right. apply in_or_app. left. exact H.
    + apply in_or_app. right. apply in_or_app. right. apply in_or_app. left.
      induction (sp_events x) as [|e es IH]; [destruct H|]. cbn [map flat_map] in H |- *.
      unfold ents_span_event at 1. rewrite flat_map_app. cbn [flat_map app].
      apply in_or_app. apply in_app_or in H. destruct H as [H|H]; [left|right; apply IH; exact H].
      apply in_or_app. right. cbn [pt_own pt_attrs opt_get attributes_part app] in H. rewrite ATT in H. exact H.
  - unfold ents_span_event. cbn [flat_map]. intros H. apply in_or_app. right. exact H.
  - unfold ents_span_link. cbn [flat_map]. intros H. apply in_or_app. right. exact H.
  - intros H. apply in_or_app. right. exact H.
  - exact (fun H => H).
  - unfold ents_metric. rewrite flat_map_app. intros H. apply in_or_app. right. cbn. rewrite app_nil_r. exact H.
  - unfold ents_log. rewrite flat_map_app. intros H. apply in_or_app. left. exact H.
  - intros H. apply in_or_app. right. exact H.
Qed.

Lemma entities_in_parts s f : compact_shows_all s ->
  In f (flat_map advice_of (entities s)) -> In f (flat_map part_findings (parts s)).
Proof.
  assert (ATT : forall l, flat_map (fun a => findings_of (sa_result a)) l = flat_map advice_of (ents_attrs l))
    by (intros; symmetry; apply advice_attrs).
  destruct s as [a|x|e|l|r|c|m|l|p]; cbn [parts entities flat_map compact_shows_all]; unfold part_findings;
    cbn [pt_own pt_attrs opt_get attributes_part app]; rewrite ?app_nil_r, ?ATT; intros C.
  - cbn. rewrite app_nil_r. exact (fun H => H).
  - destruct C as [CL CE]. unfold ents_span. cbn [flat_map]. rewrite !flat_map_app, CL. cbn [flat_map]. rewrite app_nil_r.
    intros H. apply in_or_app. apply in_app_or in H. destruct H as [H|H].
    { left. apply in_or_app. left. exact H. }
    apply in_app_or in H. destruct H as [H|H]; [left; apply in_or_app; right; exact H|right].
    induction (sp_events x) as [|e es IH]; [destruct H|]. cbn [map flat_map] in H |- *.
    unfold ents_span_event at 1 in H. rewrite flat_map_app in H. cbn [flat_map app] in H.
    apply in_or_app. apply in_app_or in H. destruct H as [H|H].
    + left. apply in_app_or in H. destruct H as [H|H].
      * exfalso. change (In f (findings_of (se_result e))) in H. rewrite (CE e (or_introl eq_refl)) in H. exact H.
      * cbn [pt_own pt_attrs opt_get attributes_part app]. rewrite ATT. exact H.
    + right. apply IH; [|exact H]. intros e0 I. apply CE. right. exact I.
  - unfold ents_span_event. cbn [flat_map]. intros H. apply in_app_or in H. destruct H as [H|H]; [|exact H].
    exfalso. change (In f (findings_of (se_result e))) in H. rewrite C in H. exact H.
  - unfold ents_span_link. cbn [flat_map]. intros H. apply in_app_or in H. destruct H as [H|H]; [|exact H].
    exfalso. change (In f (findings_of (sl_result l))) in H. rewrite C in H. exact H.
  - intros H. apply in_app_or in H. destruct H as [H|H]; [|exact H].
    exfalso. change (In f (findings_of (sr_result r))) in H. rewrite C in H. exact H.
  - exact (fun H => H).
  - unfold ents_metric. rewrite flat_map_app. intros H. apply in_app_or in H. destruct H as [H|H].
    + exfalso. rewrite C in H. exact H.
    + cbn in H. rewrite app_nil_r in H. exact H.
  - unfold ents_log. rewrite flat_map_app. intros H. apply in_app_or in H. destruct H as [H|H]; [exact H|].
    cbn in H. rewrite app_nil_r in H. exfalso. change (In f (findings_of (lg_result l))) in H. rewrite C in H. exact H.
  - intros H. apply in_app_or in H. destruct H as [H|H]; [|exact H].
    exfalso. change (In f (findings_of (pf_result p))) in H. rewrite C in H. exact H.
Qed.

(* C94: a compact answer only mentions findings of the full report; it mentions all of them
   when every sample is one of which it looks at everything. *)
Theorem C94_findings_partial show sv input es n k out :
  mcp_live_check show sv OutFindingsOnly input = OnlyFindings es n k ->
  mcp_live_check show sv OutFull input = AllSamples out ->
  (forall f, In f (mentioned es) -> In f (report_findings out)) /\
  (Forall compact_shows_all out -> forall f, In f (report_findings out) -> In f (mentioned es)).
Proof.
  intros H F. apply C94_compact in H. destruct H as (o & F' & O & _). rewrite F in F'. injection F' as <-.
  rewrite (objects_mention _ _ O). unfold report_findings. split.
  - intros f I. apply in_map_iff in I. destruct I as (g & <- & I). apply in_map.
    clear -I. induction out as [|s out IH]; [destruct I|]. cbn in I |- *. rewrite flat_map_app in I |- *.
    apply in_app_or in I. apply in_or_app. destruct I as [I|I]; [left; apply part_in_entities; exact I|right; auto].
  - intros A f I. apply in_map_iff in I. destruct I as (g & <- & I). apply in_map.
    clear -A I. induction A as [|s out C A IH]; [destruct I|]. cbn in I |- *. rewrite flat_map_app in I |- *.
    apply in_app_or in I. apply in_or_app. destruct I as [I|I]; [left; apply entities_in_parts; assumption|right; auto].
Qed.
Print Assumptions C94_findings_partial.

(* Claim: the compact answer tells every finding.  False: what is wrong with a log itself,
   with the data points of a metric and with the links of a span is left out. *)
Theorem C94_complete_refuted :
  let full := mcp_live_check plain_text host_service OutFull in
  let compact := mcp_live_check plain_text host_service OutFindingsOnly in
  (exists out f, full [a_log "nope"] = AllSamples out /\ In f (report_findings out) /\
     cf_id f = "missing_event" /\ cf_level f = Violation /\ compact [a_log "nope"] = OnlyFindings [] 1 0) /\
  (exists out es f, full [a_metric ["nope"]] = AllSamples out /\ In f (report_findings out) /\
     cf_id f = "missing_attribute" /\ compact [a_metric ["nope"]] = OnlyFindings es 1 1 /\ ~ In f (mentioned es)) /\
  (exists out es f, full [a_span] = AllSamples out /\ In f (report_findings out) /\
     cf_message f = "Attribute 'z' does not exist in the registry." /\ compact [a_span] = OnlyFindings es 1 2 /\
     ~ In f (mentioned es)).
Proof.
  cbv zeta. split; [|split].
  - eexists _, {| cf_id := "missing_event"; cf_level := Violation; cf_message := _ |}.
    split; [vm_compute; reflexivity|]. split; [vm_compute; left; reflexivity|].
    split; [reflexivity|]. split; [reflexivity|]. vm_compute. reflexivity.
  - eexists _, _, {| cf_id := "missing_attribute"; cf_level := Violation;
                     cf_message := "Attribute 'nope' does not exist in the registry." |}.
    split; [vm_compute; reflexivity|]. split; [vm_compute; auto|]. split; [reflexivity|].
    split; [vm_compute; reflexivity|]. vm_compute. intros H. decompose [or] H; try contradiction; discriminate.
  - eexists _, _, {| cf_id := "missing_attribute"; cf_level := Violation;
                     cf_message := "Attribute 'z' does not exist in the registry." |}.
    split; [vm_compute; reflexivity|]. split; [vm_compute; auto|]. split; [reflexivity|].
    split; [vm_compute; reflexivity|]. vm_compute. intros H. decompose [or] H; try contradiction; discriminate.
Qed.
Print Assumptions C94_complete_refuted.

(* Claim: samples_with_findings is the number of samples with findings.  False: one span
   with two such events counts as two. *)
Theorem C94_count_refuted : exists es,
  mcp_live_check plain_text host_service OutFindingsOnly [a_span] = OnlyFindings es 1 2.
Proof. eexists. vm_compute. reflexivity. Qed.
Print Assumptions C94_count_refuted.

(* Claim: the tool reports on samples as the live-check command does.  False: the command
   gives a metric the resource sample before it, the tool does not, so the host the
   resource describes is reported missing. *)
Theorem C94_as_command_refuted :
  exists c, create_live_checker plain_text host_service = Ok c /\
  exists out st code out', 
    live_check c true FailNone [a_resource; a_metric []] = Ok (out, st, code) /\
    report_findings out = [] /\
    mcp_live_check plain_text host_service OutFull [a_resource; a_metric []] = AllSamples out' /\
    exists f, report_findings out' = [f] /\ cf_id f = "entity_required_attribute_not_present" /\ cf_level f = Violation.
Proof.
  eexists. split; [reflexivity|]. eexists _, _, _, _. split; [vm_compute; reflexivity|]. split; [vm_compute; reflexivity|].
  split; [vm_compute; reflexivity|]. eexists. split; [vm_compute; reflexivity|]. split; reflexivity.
Qed.
Print Assumptions C94_as_command_refuted.

(* a scope and an attribute are shown in full; the call has findings to show *)
Example C94_case :
  exists out es, mcp_live_check plain_text host_service OutFull
      [SmpAttribute (attr_named "x"); SmpScope {| sc_name := "s"; sc_attrs := [attr_named "y"; attr_named "host.id"]; sc_result := None |}]
      = AllSamples out /\
    mcp_live_check plain_text host_service OutFindingsOnly
      [SmpAttribute (attr_named "x"); SmpScope {| sc_name := "s"; sc_attrs := [attr_named "y"; attr_named "host.id"]; sc_result := None |}]
      = OnlyFindings es 2 2 /\
    Forall compact_shows_all out /\ length (mentioned es) = 2.
Proof.
  eexists _, _. split; [vm_compute; reflexivity|]. split; [vm_compute; reflexivity|].
  split; [repeat constructor|reflexivity].
Qed.
