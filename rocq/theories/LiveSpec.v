(** Specification vocabulary for the live-check properties (C01-C07). It only reads a
    report (the checked samples); it does not mention how the report was computed. *)
From Coq Require Import String Ascii Bool Arith Lia ZArith NArith List Permutation.
From Verif Require Import Base Json SemTypes LiveModel.
Import ListNotations.
Local Open Scope string_scope.
Local Open Scope list_scope.
Local Open Scope nat_scope.

(** One reported entity: its kind, the result attached to it, and the attribute, metric and
    event name it contributes to coverage. *)
Record entity := {
  e_type : string;
  e_result : option lcr;
  e_attr : option string;
  e_metric : option string;
  e_event : option string
}.

Definition advice_of (e : entity) : list finding :=
  match e_result e with Some l => all_advice l | None => [] end.

(** The template name carried by a [template_attribute] finding. *)
Definition names_template (f : finding) (t : string) : Prop :=
  f_id f = "template_attribute" /\
  exists m, f_context f = Some (JObj m) /\ slookup "template_name" m = Some (JStr t).

(** The registry name an attribute sample counts for: the template named by the last
    retained [template_attribute] finding, else its own name. *)
Definition last_template (fs : list finding) : option string :=
  fold_right (fun f acc => match acc with Some t => Some t | None => template_of f end) None fs.
Definition counted_name (a : sattr) : string :=
  match sa_result a with
  | Some l => opt_get (last_template (all_advice l)) (sa_name a)
  | None => sa_name a
  end.

Definition plain (t : string) (r : option lcr) : entity :=
  {| e_type := t; e_result := r; e_attr := None; e_metric := None; e_event := None |}.

(** ** All entities of a report, each listed once *)
Definition ents_attr (a : sattr) : list entity :=
  [{| e_type := "attribute"; e_result := sa_result a; e_attr := Some (counted_name a);
      e_metric := None; e_event := None |}].
Definition ents_attrs (l : list sattr) := flat_map ents_attr l.
Definition ents_exemplar (e : exemplar) := plain "exemplar" (ex_result e) :: ents_attrs (ex_attrs e).
Definition ents_dpoint (p : dpoint) :=
  plain "data_point" (dp_result p) :: ents_attrs (dp_attrs p) ++ flat_map ents_exemplar (dp_exemplars p).
Definition ents_points (p : option data_points) :=
  match p with
  | Some (DPNumber l) | Some (DPHistogram l) | Some (DPExponential l) => flat_map ents_dpoint l
  | None => []
  end.
Definition ents_span_event (e : sspan_event) := plain "span_event" (se_result e) :: ents_attrs (se_attrs e).
Definition ents_span_link (e : sspan_link) := plain "span_link" (sl_result e) :: ents_attrs (sl_attrs e).
Definition ents_span (s : sspan) :=
  plain "span" (sp_result s) :: ents_attrs (sp_attrs s) ++ flat_map ents_span_event (sp_events s)
  ++ flat_map ents_span_link (sp_links s).
Definition ents_metric (m : smetric) :=
  ents_points (sm_points m) ++
  [{| e_type := "metric"; e_result := sm_result m; e_attr := None; e_metric := Some (sm_name m);
      e_event := None |}].
Definition ents_log (l : slog) :=
  ents_attrs (lg_attrs l) ++
  [{| e_type := "log"; e_result := lg_result l; e_attr := None; e_metric := None;
      e_event := if String.eqb (lg_event l) "" then None else Some (lg_event l) |}].

Definition entities (s : sample) : list entity :=
  match s with
  | SmpAttribute a => ents_attr a
  | SmpSpan x => ents_span x
  | SmpSpanEvent x => ents_span_event x
  | SmpSpanLink x => ents_span_link x
  | SmpResource x => plain "resource" (sr_result x) :: ents_attrs (sr_attrs x)
  | SmpScope x => plain "instrumentation_scope" (sc_result x) :: ents_attrs (sc_attrs x)
  | SmpMetric x => ents_metric x
  | SmpLog x => ents_log x
  | SmpProfile x => plain "profile" (pf_result x) :: ents_attrs (pf_attrs x)
  end.

(** The telemetry content of a sample: everything except results and the attached resource. *)
Definition erase_attr (a : sattr) : sattr :=
  {| sa_name := sa_name a; sa_value := sa_value a; sa_type := sa_type a; sa_result := None |}.
Definition erase_exemplar (e : exemplar) : exemplar :=
  {| ex_attrs := map erase_attr (ex_attrs e); ex_result := None |}.
Definition erase_dpoint (p : dpoint) : dpoint :=
  {| dp_attrs := map erase_attr (dp_attrs p); dp_exemplars := map erase_exemplar (dp_exemplars p);
     dp_result := None |}.
Definition erase_points (p : option data_points) : option data_points :=
  match p with
  | Some (DPNumber l) => Some (DPNumber (map erase_dpoint l))
  | Some (DPHistogram l) => Some (DPHistogram (map erase_dpoint l))
  | Some (DPExponential l) => Some (DPExponential (map erase_dpoint l))
  | None => None
  end.
Definition erase_span_event (e : sspan_event) : sspan_event :=
  {| se_name := se_name e; se_attrs := map erase_attr (se_attrs e); se_result := None |}.
Definition erase_span_link (e : sspan_link) : sspan_link :=
  {| sl_attrs := map erase_attr (sl_attrs e); sl_result := None |}.
Definition erase (s : sample) : sample :=
  match s with
  | SmpAttribute a => SmpAttribute (erase_attr a)
  | SmpSpan x => SmpSpan {| sp_name := sp_name x; sp_attrs := map erase_attr (sp_attrs x);
      sp_events := map erase_span_event (sp_events x); sp_links := map erase_span_link (sp_links x);
      sp_result := None; sp_resource := None |}
  | SmpSpanEvent x => SmpSpanEvent (erase_span_event x)
  | SmpSpanLink x => SmpSpanLink (erase_span_link x)
  | SmpResource x => SmpResource {| sr_attrs := map erase_attr (sr_attrs x); sr_result := None |}
  | SmpScope x => SmpScope {| sc_name := sc_name x; sc_attrs := map erase_attr (sc_attrs x); sc_result := None |}
  | SmpMetric x => SmpMetric {| sm_name := sm_name x; sm_instrument := sm_instrument x;
      sm_unit := sm_unit x; sm_points := erase_points (sm_points x); sm_result := None; sm_resource := None |}
  | SmpLog x => SmpLog {| lg_event := lg_event x; lg_attrs := map erase_attr (lg_attrs x);
      lg_result := None; lg_resource := None |}
  | SmpProfile x => SmpProfile {| pf_attrs := map erase_attr (pf_attrs x); pf_result := None;
      pf_resource := None |}
  end.

(** [l] is the most severe level in [fs]. *)
Definition most_severe (l : level) (fs : list finding) : Prop :=
  (exists f, In f fs /\ f_level f = l) /\
  (forall f, In f fs -> level_rank (f_level f) <= level_rank l).

(** Counter read with default 0 (an absent key has never been counted). *)
Definition count_of {K} (eqb : K -> K -> bool) (k : K) (m : list (K * nat)) : nat :=
  opt_get (lookup eqb k m) 0.

(** A counter map is exact for a list of occurrences: it has one entry per distinct
    occurring key, holding the number of occurrences, and no other entry. *)
Definition exact_counts {K} (eqb : K -> K -> bool) (m : list (K * nat)) (ks : list K) : Prop :=
  NoDup (map fst m) /\
  forall k n, In (k, n) m <-> n = count_if (eqb k) ks /\ 0 < n.

Fixpoint somes {A} (l : list (option A)) : list A :=
  match l with [] => [] | Some a :: r => a :: somes r | None :: r => somes r end.

(** Names that the registry tracks for coverage and names seen in the report. *)
Definition seen_attrs (es : list entity) := somes (map e_attr es).
Definition seen_metrics (es : list entity) := somes (map e_metric es).
Definition seen_events (es : list entity) := somes (map e_event es).

(** [l] is the most severe level of [fs], as a test. *)
Definition worst_is (l : level) (fs : list finding) : bool :=
  existsb (fun f => level_eqb l (f_level f)) fs &&
  forallb (fun f => level_leb (f_level f) l) fs.

(** The counters of the statistics say exactly what the report says. *)
Definition totals_exact (es : list entity) (s : stats) : Prop :=
  let advice := flat_map advice_of es in
  st_total s = length es /\
  exact_counts String.eqb (st_by_type s) (map e_type es) /\
  st_advisories s = length advice /\
  exact_counts level_eqb (st_levels s) (map f_level advice) /\
  exact_counts String.eqb (st_ids s) (map f_id advice) /\
  exact_counts String.eqb (st_messages s) (map f_message advice) /\
  NoDup (map fst (st_highest s)) /\
  (forall l n, In (l, n) (st_highest s) <->
     n = count_if (fun e => worst_is l (advice_of e)) es /\ 0 < n) /\
  st_no_advice s = count_if (fun e => match advice_of e with [] => true | _ => false end) es.

(** Usage counters for one kind of registry item: [reg] has one entry per distinct tracked
    name with the number of times it was seen, [non] counts exactly the other names. *)
Definition usage_exact (tracked seen : list string) (reg non : list (string * nat)) : Prop :=
  NoDup (map fst reg) /\
  (forall k n, In (k, n) reg <-> In k tracked /\ n = count_if (String.eqb k) seen) /\
  exact_counts String.eqb non (filter (fun k => negb (str_mem k tracked)) seen).

(** Number of distinct names in [l], and number of those that occur in [seen]. *)
Definition distinct (l : list string) : list string := nodup string_dec l.
Definition covered (tracked seen : list string) : nat :=
  count_if (fun k => str_mem k seen) (distinct tracked).

(** * Finding modifier (C04) *)

(** The scope of a rule: an optional signal type and an optional set of sample names. *)
Definition in_scope (st : option string) (names : option (string -> bool)) (f : finding) (r : sref) : Prop :=
  (forall s, st = Some s -> f_signal_type f = Some s) /\
  (forall p, names = Some p -> exists n, sample_name r = Some n /\ p n = true).

Definition override_applies (o : coverride) (f : finding) (r : sref) : Prop :=
  in_scope (co_signal_type o) (co_names o) f r /\
  (forall ids, co_ids o = Some ids -> In (f_id f) ids).

(** The level after overrides: that of the first applicable override, else unchanged. *)
Definition overridden_level (os : list coverride) (f : finding) (r : sref) (l : level) : Prop :=
  (exists pre o post, os = pre ++ o :: post /\ override_applies o f r /\
     (forall o', In o' pre -> ~ override_applies o' f r) /\ l = co_level o) \/
  ((forall o, In o os -> ~ override_applies o f r) /\ l = f_level f).

Definition filter_drops (c : cfilter) (f : finding) (r : sref) : Prop :=
  in_scope (cf_signal_type c) (cf_names c) f r /\
  ((exists ids, cf_exclude c = Some ids /\ In (f_id f) ids) \/
   (exists m, cf_min_level c = Some m /\ level_rank (f_level f) < level_rank m) \/
   (exists p n, cf_exclude_samples c = Some p /\ sample_name r = Some n /\ p n = true)).

Definition with_level (f : finding) (l : level) : finding :=
  {| f_id := f_id f; f_context := f_context f; f_message := f_message f; f_level := l;
     f_signal_type := f_signal_type f; f_signal_name := f_signal_name f |}.

(** Rewrite every result of a report, given the entity it is attached to. *)
Section MapResults.
  Variable g : sref -> lcr -> lcr.
  Definition mr (r : sref) (l : option lcr) : option lcr := option_map (g r) l.
  Definition mr_attr (a : sattr) : sattr :=
    {| sa_name := sa_name a; sa_value := sa_value a; sa_type := sa_type a;
       sa_result := mr (RfAttribute a) (sa_result a) |}.
  Definition mr_exemplar (e : exemplar) : exemplar :=
    {| ex_attrs := map mr_attr (ex_attrs e); ex_result := mr (RfExemplar e) (ex_result e) |}.
  Definition mr_dpoint (mk : dpoint -> sref) (p : dpoint) : dpoint :=
    {| dp_attrs := map mr_attr (dp_attrs p); dp_exemplars := map mr_exemplar (dp_exemplars p);
       dp_result := mr (mk p) (dp_result p) |}.
  Definition mr_points (p : option data_points) : option data_points :=
    match p with
    | Some (DPNumber l) => Some (DPNumber (map (mr_dpoint RfNumberDP) l))
    | Some (DPHistogram l) => Some (DPHistogram (map (mr_dpoint RfHistogramDP) l))
    | Some (DPExponential l) => Some (DPExponential (map (mr_dpoint RfExponentialDP) l))
    | None => None
    end.
  Definition mr_span_event (e : sspan_event) : sspan_event :=
    {| se_name := se_name e; se_attrs := map mr_attr (se_attrs e);
       se_result := mr (RfSpanEvent e) (se_result e) |}.
  Definition mr_span_link (e : sspan_link) : sspan_link :=
    {| sl_attrs := map mr_attr (sl_attrs e); sl_result := mr (RfSpanLink e) (sl_result e) |}.
  Definition mr_span (x : sspan) : sspan :=
    {| sp_name := sp_name x; sp_attrs := map mr_attr (sp_attrs x);
       sp_events := map mr_span_event (sp_events x); sp_links := map mr_span_link (sp_links x);
       sp_result := mr (RfSpan x) (sp_result x); sp_resource := sp_resource x |}.
  Definition mr_resource (x : sresource) : sresource :=
    {| sr_attrs := map mr_attr (sr_attrs x); sr_result := mr (RfResource x) (sr_result x) |}.
  Definition mr_scope (x : sscope) : sscope :=
    {| sc_name := sc_name x; sc_attrs := map mr_attr (sc_attrs x); sc_result := mr (RfScope x) (sc_result x) |}.
  Definition mr_metric (x : smetric) : smetric :=
    {| sm_name := sm_name x; sm_instrument := sm_instrument x; sm_unit := sm_unit x;
       sm_points := mr_points (sm_points x); sm_result := mr (RfMetric x) (sm_result x);
       sm_resource := sm_resource x |}.
  Definition mr_log (x : slog) : slog :=
    {| lg_event := lg_event x; lg_attrs := map mr_attr (lg_attrs x);
       lg_result := mr (RfLog x) (lg_result x); lg_resource := lg_resource x |}.
  Definition mr_profile (x : sprofile) : sprofile :=
    {| pf_attrs := map mr_attr (pf_attrs x); pf_result := mr (RfProfile x) (pf_result x);
       pf_resource := pf_resource x |}.
  Definition map_results (s : sample) : sample :=
    match s with
    | SmpAttribute a => SmpAttribute (mr_attr a)
    | SmpSpan x => SmpSpan (mr_span x)
    | SmpSpanEvent x => SmpSpanEvent (mr_span_event x)
    | SmpSpanLink x => SmpSpanLink (mr_span_link x)
    | SmpResource x => SmpResource (mr_resource x)
    | SmpScope x => SmpScope (mr_scope x)
    | SmpMetric x => SmpMetric (mr_metric x)
    | SmpLog x => SmpLog (mr_log x)
    | SmpProfile x => SmpProfile (mr_profile x)
    end.
End MapResults.

(** The most severe level of a list of findings, if any. *)
Fixpoint worst (fs : list finding) : option level :=
  match fs with
  | [] => None
  | f :: r => Some (match worst r with
                    | Some l => if level_rank l <? level_rank (f_level f) then f_level f else l
                    | None => f_level f
                    end)
  end.

(** A result after the modifier: each finding is passed through it, in order. *)
Definition modified (m : modifier) (r : sref) (l : lcr) : lcr :=
  let kept := somes (map (fun f => modifier_apply m f r) (all_advice l)) in
  {| all_advice := kept; highest := worst kept |}.

(** The same checker without / with a modifier. *)
Definition with_modifier (c : checker) (m : option modifier) : checker :=
  {| lc_registry := lc_registry c; lc_attributes := lc_attributes c; lc_templates := lc_templates c;
     lc_metrics := lc_metrics c; lc_events := lc_events c; lc_entities := lc_entities c;
     lc_advisors := lc_advisors c; lc_modifier := m |}.

(** * Entity associations (C05) *)

(** The entity definition requires attribute [k]. *)
Definition required_key (e : ventity) (k : string) : Prop :=
  match e with
  | VE1 g => exists a, In a (vg_attributes g) /\ at_name a = k /\ at_req a = RRequired
  | VE2 e => exists a, (In a (vn_identity e) \/ In a (vn_description e)) /\
               va_key (vs_base a) = k /\ vs_req a = RRequired
  end.

Section Satisfied.
  Context {L : Type} (find_def : L -> option ventity) (carried : list string).

  (** An entity reference is met when every required attribute of its definition is
      carried by the resource; a reference to an unknown entity is not checked. *)
  Definition entity_met (l : L) : Prop :=
    forall e k, find_def l = Some e -> required_key e k -> In k carried.

  Fixpoint satisfied (a : assoc L) : Prop :=
    match a with
    | ARef l => entity_met l
    | AOneOf cs => fold_right (fun c p => satisfied c \/ p) False cs
    | AAllOf cs => fold_right (fun c p => satisfied c /\ p) True cs
    end.

  (** A signal's list of associations: a single entry stands for itself, several entries
      are alternatives, no entry asks for nothing. *)
  Definition all_satisfied (l : list (assoc L)) : Prop :=
    match l with
    | [] => True
    | [x] => satisfied x
    | _ => exists x, In x l /\ satisfied x
    end.
End Satisfied.

(** * Registry lookup of attributes (C06) *)

(** [pre] is a prefix of [s]. *)
Definition prefix_of (pre s : string) : Prop := exists rest, s = String.append pre rest.

(** The attribute definitions of a registry, in definition order. *)
Definition defined_attrs (r : registry) : list vattr :=
  match r with
  | RegV1 gs => flat_map (fun g => map VA1 (vg_attributes g)) gs
  | RegV2 r => map VA2 (v2_attrs r)
  end.

(** * Missing attributes (C07) *)

(** The sample carries the attribute: some attribute has this name, or, for a template,
    some attribute name starts with it. *)
Definition carries (attrs : list sattr) (key : string) (is_tmpl : bool) : Prop :=
  exists a, In a attrs /\ (if is_tmpl then prefix_of key (sa_name a) else sa_name a = key).

(** The finding expected for a missing attribute with a given requirement level. *)
Inductive missing_finding (key : string) : req_level -> finding -> Prop :=
| MFrequired f : f_id f = "required_attribute_not_present" -> f_level f = Violation ->
    f_context f = Some (JObj [("attribute_key", JStr key)]) -> missing_finding key RRequired f
| MFrecommended r f : r = RRecommended \/ (exists t, r = RRecommendedText t) ->
    f_id f = "recommended_attribute_not_present" -> f_level f = Improvement ->
    f_context f = Some (JObj [("attribute_key", JStr key)]) -> missing_finding key r f
| MFoptin r f : r = ROptIn \/ (exists t, r = ROptInText t) ->
    f_id f = "opt_in_attribute_not_present" -> f_level f = Information ->
    f_context f = Some (JObj [("attribute_key", JStr key)]) -> missing_finding key r f
| MFconditional t f : f_id f = "conditionally_required_attribute_not_present" ->
    f_level f = Information ->
    f_context f = Some (JObj [("attribute_key", JStr key)]) -> missing_finding key (RConditional t) f.

(** * Vocabulary for coverage and reports *)
Definition usage_all (r : registry) (es : list entity) (s : stats) : Prop :=
  usage_exact (tracked_attributes r) (seen_attrs es) (st_reg_attrs s) (st_non_attrs s) /\
  usage_exact (tracked_metrics r) (seen_metrics es) (st_reg_metrics s) (st_non_metrics s) /\
  usage_exact (tracked_events r) (seen_events es) (st_reg_events s) (st_non_events s).

(** An advisor that never emits the id the attribute runner uses for templates. *)
Definition never_says_template (adv : advisor) : Prop :=
  forall r sig a g fs f, adv r sig a g = Ok fs -> In f fs -> f_id f <> "template_attribute".

(** The registry entry an attribute name resolves to. *)
Definition lookup_attr (c : checker) (n : string) : option vattr :=
  match find_attribute c n with Some x => Some x | None => find_template c n end.

(** The association expression of a signal, judged on the resource attributes. *)
Definition signal_satisfied (c : checker) (s : vsignal) (attrs : list sattr) : Prop :=
  match s with
  | VSGroup g => all_satisfied (find_entity c) (map sa_name attrs) (vg_associations g)
  | VSMetric m => all_satisfied (fun e => option_map VE2 (lookup_entity c e)) (map sa_name attrs) (vm_associations m)
  | VSEvent e => all_satisfied (fun e => option_map VE2 (lookup_entity c e)) (map sa_name attrs) (ve_associations e)
  end.

Definition resource_attrs (s : sample) : list sattr :=
  match sample_resource s with Some r => sr_attrs r | None => [] end.

(** * Exit gate (C02): the levels at which [--fail-on] makes the run fail. *)
Definition reaches (f : fail_on) (l : level) : Prop :=
  match f with
  | FailNone => False
  | FailViolation => l = Violation
  | FailImprovement => l = Improvement \/ l = Violation
  | FailInformation => True
  end.

(** * Definitions of signals and entities by name (C03, C05, C06) *)
Definition defines_metric (r : registry) (n : string) (s : vsignal) : Prop :=
  match r, s with
  | RegV1 gs, VSGroup g => In g gs /\ vg_type g = GMetric /\ vg_metric_name g = Some n
  | RegV2 r, VSMetric m => In m (v2_metrics r) /\ vm_name m = n
  | _, _ => False
  end.
Definition defines_event (r : registry) (n : string) (s : vsignal) : Prop :=
  match r, s with
  | RegV1 gs, VSGroup g => In g gs /\ vg_type g = GEvent /\ vg_name g = Some n
  | RegV2 r, VSEvent e => In e (v2_events r) /\ ve_name e = n
  | _, _ => False
  end.
Definition defines_entity (r : registry) (n : string) (s : ventity) : Prop :=
  match r, s with
  | RegV1 gs, VE1 g => In g gs /\ vg_type g = GEntity /\ vg_name g = Some n
  | RegV2 r, VE2 e => In e (v2_entities r) /\ vn_type e = n
  | _, _ => False
  end.

(** * Missing attributes (C07): the attribute rules of a signal definition. *)
Definition attr_rules (s : vsignal) : list (string * req_level * bool) :=
  match s with
  | VSGroup g => map (fun a => (at_name a, at_req a, is_template (at_type a))) (vg_attributes g)
  | VSMetric m => map (fun a => (va_key (vs_base a), vs_req a, is_template (va_type (vs_base a)))) (vm_attributes m)
  | VSEvent e => map (fun a => (va_key (vs_base a), vs_req a, is_template (va_type (vs_base a)))) (ve_attributes e)
  end.

(** The attributes of a data point or log record checked against a signal of the right kind. *)
Definition presence_checked (r : sref) (s : vsignal) : option (list sattr) :=
  match r, s with
  | RfNumberDP _, VSEvent _ | RfHistogramDP _, VSEvent _ | RfLog _, VSMetric _ => None
  | RfNumberDP p, _ | RfHistogramDP p, _ => Some (dp_attrs p)
  | RfLog l, _ => Some (lg_attrs l)
  | _, _ => None
  end.

(** The finding expected on an entity reference for an attribute the resource lacks. *)
Definition entity_missing_finding (etype key : string) (r : req_level) (f : finding) : Prop :=
  f_context f = Some (JObj [("attribute_key", JStr key); ("entity_type", JStr etype)]) /\
  match r with
  | RRequired => f_id f = "entity_required_attribute_not_present" /\ f_level f = Violation
  | RRecommended | RRecommendedText _ =>
      f_id f = "entity_recommended_attribute_not_present" /\ f_level f = Improvement
  | ROptIn | ROptInText _ => f_id f = "entity_opt_in_attribute_not_present" /\ f_level f = Information
  | RConditional _ =>
      f_id f = "entity_conditionally_required_attribute_not_present" /\ f_level f = Information
  end.
Definition entity_rules (e : ventity) : list (string * req_level) :=
  match e with
  | VE1 g => map (fun a => (at_name a, at_req a)) (vg_attributes g)
  | VE2 e => map (fun a => (va_key (vs_base a), vs_req a)) (vn_identity e) ++
             map (fun a => (va_key (vs_base a), vs_req a)) (vn_description e)
  end.

(** * Built-in advisors (C46) *)

(** The registry item an advisor looks at: the attribute definition for an attribute sample,
    the signal definition for a metric or log, nothing otherwise. *)
Definition item_deprecated (r : sref) (ra : option vattr) (g : option vsignal) : option deprecated :=
  match r, ra, g with
  | RfAttribute _, Some a, _ => vattr_deprecated a
  | RfMetric _, _, Some s | RfLog _, _, Some s => vsig_deprecated s
  | _, _, _ => None
  end.
Definition item_stability (r : sref) (ra : option vattr) (g : option vsignal) : option stability :=
  match r, ra, g with
  | RfAttribute _, Some a, _ => vattr_stability a
  | RfMetric _, _, Some s | RfLog _, _, Some s => vsig_stability s
  | _, _, _ => None
  end.

(** A registry type accepts an observed value type. *)
Inductive accepts : attr_type -> prim -> Prop :=
| AccPrim p : accepts (TPrim p) p
| AccTemplate p : accepts (TTemplate p) p
| AccAnyP p : accepts (TPrim PAny) p
| AccAnyT p : accepts (TTemplate PAny) p
| AccObsAnyP p : accepts (TPrim p) PAny
| AccObsAnyT p : accepts (TTemplate p) PAny
| AccIntDoubleP : accepts (TPrim PDouble) PInt
| AccIntDoubleT : accepts (TTemplate PDouble) PInt
| AccIntsDoublesP : accepts (TPrim PDoubles) PInts
| AccIntsDoublesT : accepts (TTemplate PDoubles) PInts
| AccEnumString ms : accepts (TEnum ms) PString
| AccEnumInt ms : accepts (TEnum ms) PInt.

(** The value is that of a member of the enum. *)
Definition is_member (ms : list enum_entry) (v : json) : Prop :=
  exists m, In m ms /\
    match v, ee_value m with
    | JNum (NInt z), VInt z' => z = z'
    | JStr s, VString s' => s = s'
    | _, _ => False
    end.

(** * Type inference (C47) *)

(** A value has a given attribute type; nulls inside arrays are ignored. *)
Definition elem_int (j : json) := exists z, j = JNum (NInt z).
Definition elem_num (j : json) := exists n, j = JNum n.
Definition elem_bool (j : json) := exists b, j = JBool b.
Definition elem_str (j : json) := exists s, j = JStr s.
Definition all_or_null (P : json -> Prop) (l : list json) : Prop :=
  (forall x, In x l -> x = JNull \/ P x) /\ (exists x, In x l /\ P x).
Inductive has_type : json -> prim -> Prop :=
| HTbool b : has_type (JBool b) PBoolean
| HTint z : has_type (JNum (NInt z)) PInt
| HTdouble d : has_type (JNum (NFloat d)) PDouble
| HTstring s : has_type (JStr s) PString
| HTbools l : all_or_null elem_bool l -> has_type (JArr l) PBooleans
| HTints l : all_or_null elem_int l -> has_type (JArr l) PInts
| HTdoubles l : all_or_null elem_num l -> (exists d, In (JNum (NFloat d)) l) -> has_type (JArr l) PDoubles
| HTstrings l : all_or_null elem_str l -> has_type (JArr l) PStrings.

(** * Resource attachment (C48) *)
(** [r] is the most recent resource of a list of samples. *)
Definition latest_resource (l : list sample) (r : option sresource) : Prop :=
  match r with
  | Some x => exists pre post, l = pre ++ SmpResource x :: post /\ forall y, ~ In (SmpResource y) post
  | None => forall y, ~ In (SmpResource y) l
  end.
Definition takes_resource (s : sample) : Prop :=
  match s with SmpMetric _ | SmpLog _ | SmpSpan _ => True | _ => False end.
