(** Properties C01-C07 of the live check. *)
From Coq Require Import String Ascii Bool Arith ZArith NArith QArith List.
From Verif Require Import Base Json SemTypes LiveModel LiveAdvisors LiveSpec LiveProofs LiveProofs2 LiveProofs3.
Import ListNotations.
Local Open Scope string_scope.
Local Open Scope list_scope.
Local Open Scope nat_scope.

(** * Concrete data for the non-vacuity checks *)
Definition ex_attr (n : string) (t : attr_type) (r : req_level) (d : option deprecated) : attribute :=
  {| at_name := n; at_type := t; at_brief := ""; at_examples := None; at_tag := None; at_req := r;
     at_sampling := None; at_note := ""; at_stability := Some SStable; at_deprecated := d;
     at_prefix := false; at_annotations := None; at_role := None |}.
Definition ex_entity : vgroup :=
  {| vg_id := "entity.host"; vg_type := GEntity; vg_name := Some "host"; vg_metric_name := None;
     vg_instrument := None; vg_unit := None; vg_deprecated := None; vg_stability := Some SStable;
     vg_attributes := [ex_attr "host.id" (TPrim PString) RRequired None;
                       ex_attr "host.name" (TPrim PString) RRecommended None];
     vg_associations := [] |}.
Definition ex_entity2 : vgroup :=
  {| vg_id := "entity.pod"; vg_type := GEntity; vg_name := Some "pod"; vg_metric_name := None;
     vg_instrument := None; vg_unit := None; vg_deprecated := None; vg_stability := Some SStable;
     vg_attributes := [ex_attr "pod.uid" (TPrim PString) RRequired None];
     vg_associations := [] |}.
Definition ex_metric : vgroup :=
  {| vg_id := "metric.m"; vg_type := GMetric; vg_name := None; vg_metric_name := Some "m";
     vg_instrument := Some Counter; vg_unit := Some "s"; vg_deprecated := None;
     vg_stability := Some SStable;
     vg_attributes := [ex_attr "a.req" (TPrim PString) RRequired None;
                       ex_attr "a.opt" (TPrim PInt) ROptIn None;
                       ex_attr "t" (TTemplate PString) RRecommended None;
                       ex_attr "t.long" (TTemplate PString) (RConditional "x") None];
     vg_associations := [AOneOf [ARef "host"; AAllOf [ARef "pod"; ARef "host"]]] |}.
Definition ex_reg : registry := RegV1 [ex_entity; ex_entity2; ex_metric].
Definition ex_sattr (n : string) : sattr :=
  {| sa_name := n; sa_value := Some (JStr "v"); sa_type := Some PString; sa_result := None |}.
Definition ex_sample (attrs : list string) : sample :=
  SmpMetric {| sm_name := "m"; sm_instrument := Supported Counter; sm_unit := "s";
     sm_points := Some (DPNumber [{| dp_attrs := map ex_sattr attrs; dp_exemplars := []; dp_result := None |}]);
     sm_result := None; sm_resource := None |}.
Definition ex_res (attrs : list string) : sample :=
  SmpResource {| sr_attrs := map ex_sattr attrs; sr_result := None |}.
Definition ex_checker (m : option modifier) : checker := checker_new ex_reg (default_advisors (fun _ => "?")) m.
Definition ex_input : list sample :=
  [ex_res ["host.id"]; ex_sample ["a.req"; "t.long.x"; "nope"]; ex_res ["pod.uid"]; ex_sample ["t.q"]].

Definition summary (r : res (list sample * lstats * nat)) : option (nat * nat * nat * Q * nat) :=
  match r with
  | Ok (_, Cumulative s, code) => Some (st_total s, st_advisories s, st_no_advice s, st_coverage s, code)
  | _ => None
  end.

Example ex_run : summary (live_check (ex_checker None) false FailViolation ex_input)
                 = Some (12, 9, 5, (6 # 8)%Q, 1).
Proof. vm_compute. reflexivity. Qed.

(** * C01 *)
(** After a run over any input, with any registry, any advisors and any modifier, the
    statistics equal what can be counted in the report, and the report covers exactly the
    input telemetry with one result per entity. *)
Theorem C01_totals : forall c f input out s code,
  live_check c false f input = Ok (out, Cumulative s, code) ->
  let es := flat_map entities out in
  totals_exact es s /\
  sum_counts (st_by_type s) = st_total s /\
  sum_counts (st_levels s) = st_advisories s /\
  st_no_advice s + sum_counts (st_highest s) = st_total s /\
  (forall e, In e es -> exists l, e_result e = Some l) /\
  map erase out = map erase input.
Proof. exact live_totals. Qed.
Print Assumptions C01_totals.

(** With the built-in advisors a run always completes. *)
Theorem C01_run_completes : forall r show m ns f input,
  exists out st code, live_check (checker_new r (default_advisors show) m) ns f input = Ok (out, st, code).
Proof.
  exact (fun r show m ns f input =>
    match ok_live (checker_new r (default_advisors show) m) (default_total show) ns f input with
    | ex_intro _ (out, st, code) H => ex_intro _ out (ex_intro _ st (ex_intro _ code H))
    end).
Qed.
Print Assumptions C01_run_completes.

(** The checked samples are the same whether statistics are kept or not. *)
Theorem C01_stats_do_not_change_report : forall c l cur st st',
  match run_all c cur l st, run_all c cur l st' with
  | Ok (a, _), Ok (b, _) => a = b
  | Err e, Err e' => e = e'
  | _, _ => False
  end.
Proof. exact run_all_stats_irrelevant. Qed.
Print Assumptions C01_stats_do_not_change_report.

(** * C02 *)
Theorem C02_exit_gate : forall c f input out st code,
  live_check c false f input = Ok (out, st, code) ->
  code <= 1 /\
  (code = 1 <-> exists e x, In e (flat_map entities out) /\ In x (advice_of e) /\ reaches f (f_level x)).
Proof. exact live_exit_reaches. Qed.
Print Assumptions C02_exit_gate.

(** With statistics disabled the gate cannot fire. *)
Theorem C02_no_stats_never_fails : forall c f input out st code,
  live_check c true f input = Ok (out, st, code) -> st = Disabled /\ code = 0.
Proof. exact live_exit_disabled. Qed.
Print Assumptions C02_no_stats_never_fails.

(** So the full claim is false when statistics are disabled: a violation is reported and the
    exit code is 0 although the threshold is [violation]. *)
Theorem C02_no_stats_refuted : exists c f input out st e x,
  live_check c true f input = Ok (out, st, 0) /\ reaches f Violation /\
  In e (flat_map entities out) /\ In x (advice_of e) /\ f_level x = Violation.
Proof.
  exists (ex_checker None), FailViolation, [SmpAttribute (ex_sattr "nope")].
  eexists _, _, _, _. split; [vm_compute; reflexivity|]. split; [reflexivity|].
  split; [left; reflexivity|]. split; [left; reflexivity|reflexivity].
Qed.
Print Assumptions C02_no_stats_refuted.

Example C02_both_codes :
  summary (live_check (ex_checker None) false FailNone ex_input) = Some (12, 9, 5, (6 # 8)%Q, 0) /\
  summary (live_check (ex_checker None) false FailViolation [ex_res ["host.id"]]) = Some (2, 0, 2, (1 # 8)%Q, 0).
Proof. vm_compute. split; reflexivity. Qed.

(** * C03 *)
Theorem C03_coverage : forall c f input out s code,
  live_check c false f input = Ok (out, Cumulative s, code) ->
  let es := flat_map entities out in
  let r := lc_registry c in
  let seen := covered (tracked_attributes r) (seen_attrs es) +
              covered (tracked_metrics r) (seen_metrics es) +
              covered (tracked_events r) (seen_events es) in
  let total := length (distinct (tracked_attributes r)) + length (distinct (tracked_metrics r)) +
               length (distinct (tracked_events r)) in
  usage_all r es s /\
  seen <= total /\
  (total = 0 -> st_coverage s = 0%Q) /\
  (0 < total -> (st_coverage s == Z.of_nat seen # Pos.of_nat total)%Q).
Proof. exact live_coverage. Qed.
Print Assumptions C03_coverage.

(** The tracked names are those of the non-deprecated definitions. *)
Theorem C03_tracked : forall r n,
  (In n (tracked_attributes r) <->
     exists a, In a (defined_attrs r) /\ vattr_name a = n /\ vattr_deprecated a = None) /\
  (In n (tracked_metrics r) <-> exists s, defines_metric r n s /\ vsig_deprecated s = None) /\
  (In n (tracked_events r) <-> exists s, defines_event r n s /\ vsig_deprecated s = None).
Proof. exact tracked_spec. Qed.
Print Assumptions C03_tracked.

Theorem C03_monotone : forall c f l1 l2 out s code,
  live_check c false f (l1 ++ l2) = Ok (out, Cumulative s, code) ->
  exists out1 s1 code1, live_check c false f l1 = Ok (out1, Cumulative s1, code1) /\
    (st_coverage s1 <= st_coverage s)%Q.
Proof. exact coverage_monotone. Qed.
Print Assumptions C03_monotone.

(** An attribute sample counts for the registry entry it resolves to: its own name when
    defined, otherwise the matching template. No modifier, built-in advisors (or any
    advisors that never emit the [template_attribute] id). *)
Theorem C03_counted_entry : forall r advs g sig a st a' st',
  let c := checker_new r advs None in
  Forall never_says_template advs ->
  run_attr c g sig a st = Ok (a', st') ->
  counted_name a' =
    match find_attribute c (sa_name a), find_template c (sa_name a) with
    | None, Some t => vattr_name t
    | _, _ => sa_name a
    end.
Proof. exact counted_name_spec. Qed.
Print Assumptions C03_counted_entry.

Theorem C03_counted_entry_default : forall show, Forall never_says_template (default_advisors show).
Proof. exact default_never_template. Qed.
Print Assumptions C03_counted_entry_default.

(** With a filter that drops the informational [template_attribute] finding, a seen template
    is no longer covered: coverage depends on the presentation filter. *)
Definition ex_filter : modifier :=
  {| overrides := []; filters := [{| cf_signal_type := None; cf_names := None;
       cf_exclude := Some ["template_attribute"]; cf_min_level := None; cf_exclude_samples := None |}] |}.
Theorem C03_filtered_template_refuted : exists r advs m input,
  exists out out' s s',
  live_check (checker_new r advs None) false FailNone input = Ok (out, Cumulative s, 0) /\
  live_check (checker_new r advs (Some m)) false FailNone input = Ok (out', Cumulative s', 0) /\
  (st_coverage s' < st_coverage s)%Q.
Proof.
  exists ex_reg, [], ex_filter, [SmpAttribute (ex_sattr "t.q")]. do 4 eexists.
  split; [vm_compute; reflexivity|]. split; [vm_compute; reflexivity|]. vm_compute. reflexivity.
Qed.
Print Assumptions C03_filtered_template_refuted.

(** * C04 *)
Theorem C04_modifier : forall m f r,
  exists l, overridden_level (overrides m) f r l /\
    (modifier_apply m f r = Some (with_level f l) /\
       (forall c, In c (filters m) -> ~ filter_drops c (with_level f l) r)
     \/ modifier_apply m f r = None /\
       (exists c, In c (filters m) /\ filter_drops c (with_level f l) r)).
Proof. exact modifier_spec. Qed.
Print Assumptions C04_modifier.

Theorem C04_overridden_level_unique : forall os f r l l',
  overridden_level os f r l -> overridden_level os f r l' -> l = l'.
Proof. exact overridden_level_det. Qed.
Print Assumptions C04_overridden_level_unique.

(** Configuring a modifier changes a run's report exactly by passing every finding through
    it. *)
Theorem C04_end_to_end : forall c m ns f input,
  match live_check (with_modifier c (Some m)) ns f input, live_check (with_modifier c None) ns f input with
  | Ok (out, _, _), Ok (plain_out, _, _) => out = map (map_results (modified m)) plain_out
  | Err e, Err e' => e = e'
  | _, _ => False
  end.
Proof. exact modifier_end_to_end. Qed.
Print Assumptions C04_end_to_end.

Definition ex_modifier : modifier :=
  {| overrides := [{| co_signal_type := Some "metric"; co_names := Some (String.eqb "m"); co_ids := None; co_level := Information |};
                   {| co_signal_type := None; co_names := None; co_ids := Some ["missing_attribute"]; co_level := Improvement |}];
     filters := [{| cf_signal_type := None; cf_names := None; cf_exclude := None;
                    cf_min_level := Some Improvement; cf_exclude_samples := None |}] |}.
Example C04_kept_and_dropped :
  let f id st := {| f_id := id; f_context := None; f_message := ""; f_level := Violation;
                    f_signal_type := st; f_signal_name := None |} in
  modifier_apply ex_modifier (f "missing_attribute" None) (RfAttribute (ex_sattr "x"))
    = Some (with_level (f "missing_attribute" None) Improvement) /\
  modifier_apply ex_modifier (f "unit_mismatch" (Some "metric")) (RfAttribute (ex_sattr "m")) = None.
Proof. vm_compute. split; reflexivity. Qed.

(** * C05 *)
Theorem C05_verdict : forall L (key : L -> entity_key) c attrs sig l,
  (exists f, In f (check_associations key c attrs sig l) /\ f_level f = Violation) <->
  ~ all_satisfied (fun l => key_lookup c (key l)) (map sa_name attrs) l.
Proof. exact @check_associations_spec. Qed.
Print Assumptions C05_verdict.

(** An entity reference yields exactly one finding per attribute of the definition that the
    resource lacks, in definition order (identity before description). *)
Theorem C05_reference_findings : forall e attrs sig,
  Forall2 (fun kr f => entity_missing_finding
      (match e with VE1 g => match vg_name g with Some n => n | None => "" end | VE2 e => vn_type e end)
      (fst kr) (snd kr) f)
    (filter (fun kr => negb (str_mem (fst kr) (map sa_name attrs))) (entity_rules e))
    (check_entity_resource_attributes e attrs sig).
Proof. exact entity_findings_exact. Qed.
Print Assumptions C05_reference_findings.

(** Presence here is by name alone: a required template attribute of an entity is reported as
    missing although the resource carries an attribute of that template, which the check of a
    signal's own attributes (C07) takes for present. *)
Theorem C05_template_refuted : exists g attrs sig k a,
  In a (vg_attributes g) /\ at_name a = k /\ at_type a = TTemplate PString /\ at_req a = RRequired /\ carries attrs k true /\
  exists f, In f (check_entity_resource_attributes (VE1 g) attrs sig) /\ f_level f = Violation /\ f_id f = "entity_required_attribute_not_present".
Proof.
  exists {| vg_id := "entity.pod"; vg_type := GEntity; vg_name := Some "pod"; vg_metric_name := None;
     vg_instrument := None; vg_unit := None; vg_deprecated := None; vg_stability := Some SStable;
     vg_attributes := [ex_attr "pod.label" (TTemplate PString) RRequired None]; vg_associations := [] |}.
  exists [ex_sattr "pod.label.app"], (ex_res ["pod.label.app"]), "pod.label", (ex_attr "pod.label" (TTemplate PString) RRequired None).
  split; [left; reflexivity|]. split; [reflexivity|]. split; [reflexivity|]. split; [reflexivity|].
  split; [eexists; split; [left; reflexivity|]; exists ".app"; reflexivity|].
  eexists. split; [left; reflexivity|]. split; reflexivity.
Qed.
Print Assumptions C05_template_refuted.

Theorem C05_signal : forall c s sig,
  (exists f, In f (signal_assoc_findings c (Some s) sig) /\ f_level f = Violation) <->
  ~ signal_satisfied c s (resource_attrs sig).
Proof. exact signal_assoc_spec. Qed.
Print Assumptions C05_signal.

(** These findings, and nothing else besides the advisors' findings, are reported on the metric. *)
Theorem C05_reported_metric : forall c sig m st m' st',
  lc_modifier c = None -> run_metric c sig m st = Ok (m', st') ->
  exists l pre fss, sm_result m' = Some l /\
    Forall2 (fun adv fs => adv (RfMetric m) sig None (find_metric c (sm_name m)) = Ok fs) (lc_advisors c) fss /\
    all_advice l = pre ++ concat fss ++ signal_assoc_findings c (find_metric c (sm_name m)) sig /\
    match find_metric c (sm_name m) with
    | Some _ => pre = []
    | None => exists f, pre = [f] /\ f_id f = "missing_metric" /\ f_level f = Violation
    end.
Proof. exact run_metric_report. Qed.
Print Assumptions C05_reported_metric.

Theorem C05_reported_log : forall c sig m st m' st',
  lc_modifier c = None -> run_log c sig m st = Ok (m', st') ->
  let def := if String.eqb (lg_event m) "" then None else find_event c (lg_event m) in
  exists l pre fss, lg_result m' = Some l /\
    Forall2 (fun adv fs => adv (RfLog m) sig None def = Ok fs) (lc_advisors c) fss /\
    all_advice l = pre ++ concat fss ++ signal_assoc_findings c def sig /\
    (if String.eqb (lg_event m) "" then pre = [] else
     match def with
     | Some _ => pre = []
     | None => exists f, pre = [f] /\ f_id f = "missing_event" /\ f_level f = Violation
     end).
Proof. exact run_log_report. Qed.
Print Assumptions C05_reported_log.

Example C05_both_verdicts :
  let a := [AOneOf [ARef "host"; AAllOf [ARef "pod"; ARef "host"]]; ARef "pod"] in
  let run names := map f_level (check_associations KName (ex_checker None) (map ex_sattr names) (ex_res []) a) in
  run ["pod.uid"] = [] /\ run ["host.id"] = [Improvement] /\ run ["x"] = [Violation].
Proof. vm_compute. repeat split; reflexivity. Qed.

(** * C06 *)
Theorem C06_longest_template : forall r advs m n,
  match find_template (checker_new r advs m) n with
  | Some a =>
      prefix_of (vattr_name a) n /\ is_template (vattr_type a) = true /\
      (forall b, In b (defined_attrs r) -> is_template (vattr_type b) = true ->
         prefix_of (vattr_name b) n -> String.length (vattr_name b) <= String.length (vattr_name a)) /\
      (exists pre post, defined_attrs r = pre ++ a :: post /\
         forall b, In b pre -> is_template (vattr_type b) = true -> vattr_name b <> vattr_name a)
  | None => forall b, In b (defined_attrs r) -> is_template (vattr_type b) = true ->
              ~ prefix_of (vattr_name b) n
  end.
Proof. exact find_template_spec. Qed.
Print Assumptions C06_longest_template.

Theorem C06_exact_attribute : forall r advs m n,
  match find_attribute (checker_new r advs m) n with
  | Some a => exists pre post, defined_attrs r = pre ++ a :: post /\ vattr_name a = n /\
                is_template (vattr_type a) = false /\
                (forall b, In b post -> is_template (vattr_type b) = false -> vattr_name b <> n)
  | None => forall b, In b (defined_attrs r) -> is_template (vattr_type b) = false -> vattr_name b <> n
  end.
Proof. exact find_attribute_spec. Qed.
Print Assumptions C06_exact_attribute.

(** Metrics, events and entities resolve to a definition of that name when there is one. *)
Theorem C06_signals : forall r advs m n,
  let c := checker_new r advs m in
  match find_metric c n with Some s => defines_metric r n s | None => forall s, ~ defines_metric r n s end /\
  match find_event c n with Some s => defines_event r n s | None => forall s, ~ defines_event r n s end /\
  match find_entity c n with Some s => defines_entity r n s | None => forall s, ~ defines_entity r n s end.
Proof. exact signal_lookup_spec. Qed.
Print Assumptions C06_signals.

(** What is reported: nothing for an exact match, [template_attribute] for a template match,
    [missing_attribute] otherwise, followed by the advisors' findings. *)
Theorem C06_reported : forall r advs g sig a st a' st',
  let c := checker_new r advs None in
  run_attr c g sig a st = Ok (a', st') ->
  exists l pre fss, sa_result a' = Some l /\
    Forall2 (fun adv fs => adv (RfAttribute a) sig (lookup_attr c (sa_name a)) g = Ok fs) advs fss /\
    all_advice l = pre ++ concat fss /\
    match find_attribute c (sa_name a), find_template c (sa_name a) with
    | Some _, _ => pre = []
    | None, Some t => (exists f, pre = [f] /\ f_id f = "template_attribute" /\ f_level f = Information /\
         f_context f = Some (JObj [("attribute_key", JStr (sa_name a)); ("template_name", JStr (vattr_name t))]))
    | None, None => (exists f, pre = [f] /\ f_id f = "missing_attribute" /\ f_level f = Violation /\
         f_context f = Some (JObj [("attribute_key", JStr (sa_name a))]))
    end.
Proof. exact run_attr_report. Qed.
Print Assumptions C06_reported.

Example C06_cases :
  option_map vattr_name (find_template (ex_checker None) "t.long.x") = Some "t.long" /\
  option_map vattr_name (find_template (ex_checker None) "t.lo") = Some "t" /\
  find_template (ex_checker None) "host.id" = None /\
  option_map vattr_name (find_attribute (ex_checker None) "host.id") = Some "host.id".
Proof. vm_compute. repeat split; reflexivity. Qed.

(** A template also matches names that merely start with the same letters. *)
Theorem C06_namespace_boundary_refuted : exists r n t,
  find_template (checker_new r [] None) n = Some t /\
  n <> vattr_name t /\ ~ prefix_of (vattr_name t ++ ".") n.
Proof.
  exists ex_reg, "total". eexists. split; [vm_compute; reflexivity|]. split; [discriminate|].
  intros [rest H]. discriminate H.
Qed.
Print Assumptions C06_namespace_boundary_refuted.

(** * C07 *)
(** The type advisor reports exactly one finding, with the right id, level and key, for
    each defined attribute that the sample does not carry, in definition order. *)
Theorem C07_missing_attributes_partial : forall r s sig ra attrs,
  presence_checked r s = Some attrs ->
  exists fs missing, type_advisor r sig ra (Some s) = Ok fs /\
    Forall2 (fun k f => missing_finding (fst (fst k)) (snd (fst k)) f) missing fs /\
    (exists keep, missing = filter keep (attr_rules s) /\
       forall k, keep k = true <-> ~ carries attrs (fst (fst k)) (snd k)).
Proof. exact c07_exact. Qed.
Print Assumptions C07_missing_attributes_partial.

(** Missing from the full claim: data points of exponential histograms are not checked. *)
Theorem C07_exponential_histogram_refuted : exists s p sig,
  (exists k t, In (k, RRequired, t) (attr_rules s) /\ ~ carries (dp_attrs p) k t) /\
  type_advisor (RfExponentialDP p) sig None (Some s) = Ok [].
Proof.
  exists (VSGroup ex_metric), {| dp_attrs := []; dp_exemplars := []; dp_result := None |}, (ex_res []).
  split; [|reflexivity]. do 2 eexists. split; [left; reflexivity|].
  intros (a & [] & _).
Qed.
Print Assumptions C07_exponential_histogram_refuted.

Example C07_case :
  match type_advisor (RfNumberDP {| dp_attrs := [ex_sattr "t.q"]; dp_exemplars := []; dp_result := None |})
          (ex_res []) None (Some (VSGroup ex_metric)) with
  | Ok fs => map f_id fs = ["required_attribute_not_present"; "opt_in_attribute_not_present";
                            "conditionally_required_attribute_not_present"]
  | Err _ => False
  end.
Proof. vm_compute. reflexivity. Qed.

(** * C46 *)
(** Deprecation: one violation when the item is deprecated, nothing otherwise. *)
Theorem C46_deprecated : forall r sig ra g,
  exists fs, deprecated_advisor r sig ra g = Ok fs /\
    match item_deprecated r ra g with
    | None => fs = []
    | Some _ => exists f, fs = [f] /\ f_id f = "deprecated" /\ f_level f = Violation
    end.
Proof. exact deprecated_spec. Qed.
Print Assumptions C46_deprecated.

(** Stability: one improvement when the item declares a stability other than stable. *)
Theorem C46_stability : forall r sig ra g,
  exists fs, stability_advisor r sig ra g = Ok fs /\
    ((item_stability r ra g = None \/ item_stability r ra g = Some SStable) -> fs = []) /\
    (forall s, item_stability r ra g = Some s -> s <> SStable ->
       exists f, fs = [f] /\ f_id f = "not_stable" /\ f_level f = Improvement).
Proof. exact stability_spec. Qed.
Print Assumptions C46_stability.

(** Attribute types: one violation exactly when the registry type does not accept the
    observed type. *)
Theorem C46_attribute_type : forall a sig va g t,
  sa_type a = Some t ->
  exists fs, type_advisor (RfAttribute a) sig (Some va) g = Ok fs /\
    (accepts (vattr_type va) t -> fs = []) /\
    (~ accepts (vattr_type va) t -> exists f, fs = [f] /\ f_id f = "type_mismatch" /\ f_level f = Violation).
Proof. exact attr_type_spec. Qed.
Print Assumptions C46_attribute_type.

Theorem C46_attribute_unknown : forall a sig ra g,
  ra = None \/ sa_type a = None -> type_advisor (RfAttribute a) sig ra g = Ok [].
Proof. exact attr_type_unknown. Qed.
Print Assumptions C46_attribute_unknown.

(** Instrument and unit of a metric. *)
Theorem C46_instrument_unit : forall m sig ra s,
  exists fi fu, type_advisor (RfMetric m) sig ra (Some s) = Ok (fi ++ fu) /\
    (fi = [] <-> exists i, sm_instrument m = Supported i /\ (vsig_instrument s = Some i \/ vsig_instrument s = None)) /\
    (fi = [] \/ exists f, fi = [f] /\ f_id f = "unexpected_instrument" /\ f_level f = Violation) /\
    (fu = [] <-> vsig_unit s = Some (sm_unit m) \/ vsig_unit s = None) /\
    (fu = [] \/ exists f, fu = [f] /\ f_id f = "unit_mismatch" /\ f_level f = Violation).
Proof. exact metric_type_spec. Qed.
Print Assumptions C46_instrument_unit.

(** Enum values: for an int or string value of its own type, one information finding exactly
    when the value is not that of a member (integers within i64). *)
Theorem C46_enum : forall show a sig va g ms v t,
  vattr_type va = TEnum ms -> sa_value a = Some v -> sa_type a = Some t ->
  (t = PInt /\ (exists z, v = JNum (NInt z) /\ (- 2 ^ 63 <= z < 2 ^ 63)%Z) \/ t = PString /\ exists s, v = JStr s) ->
  exists fs, enum_advisor show (RfAttribute a) sig (Some va) g = Ok fs /\
    (is_member ms v -> fs = []) /\
    (~ is_member ms v -> exists f, fs = [f] /\ f_id f = "undefined_enum_variant" /\ f_level f = Information).
Proof. exact enum_spec. Qed.
Print Assumptions C46_enum.

(** An enum without members still reports a value of a type enums cannot have, although the
    type advisor reports the type. *)
Theorem C46_empty_enum_refuted : exists show a sig va fs f,
  sa_type a = Some PDouble /\ enum_advisor show (RfAttribute a) sig (Some va) None = Ok fs /\
  In f fs /\ f_id f = "undefined_enum_variant".
Proof.
  exists (fun _ => "?"), {| sa_name := "x"; sa_value := Some (JNum (NFloat 0)); sa_type := Some PDouble; sa_result := None |},
    (ex_res []), (VA1 (ex_attr "x" (TEnum []) RRequired None)).
  do 2 eexists. split; [reflexivity|]. split; [reflexivity|]. split; [left; reflexivity|reflexivity].
Qed.
Print Assumptions C46_empty_enum_refuted.

Example C46_case :
  map (fun t => match type_advisor (RfAttribute {| sa_name := "a.opt"; sa_value := None; sa_type := Some t; sa_result := None |})
                      (ex_res []) (find_attribute (ex_checker None) "a.opt") None with
                | Ok fs => map f_id fs | Err _ => [] end) [PInt; PDouble]
  = [[]; ["type_mismatch"]].
Proof. vm_compute. reflexivity. Qed.

(** * C47 *)
Theorem C47_infer_type : forall v t, infer_type v = Some t <-> has_type v t.
Proof. exact infer_type_spec. Qed.
Print Assumptions C47_infer_type.

Example C47_cases :
  map infer_type [JArr [JNull; JNum (NInt 1); JNum (NFloat 0)]; JArr [JNull]; JArr [JBool true; JNum (NInt 1)]]
  = [Some PDoubles; None; None].
Proof. vm_compute. reflexivity. Qed.

(** * C48 *)
(** A metric, log or span is judged against the most recent resource of the input. *)
Theorem C48_resource : forall c f ns input out st code,
  live_check c ns f input = Ok (out, st, code) ->
  forall pre s post, input = pre ++ s :: post -> takes_resource s ->
  exists opre s' opost, out = opre ++ s' :: opost /\ length opre = length pre /\
    latest_resource pre (sample_resource s').
Proof. exact resource_attached. Qed.
Print Assumptions C48_resource.
