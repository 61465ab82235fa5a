(** Model of crates/weaver_live_check: samples, findings, statistics, advisors and the
    live-check run. *)
From Coq Require Import String Ascii Bool Arith Lia ZArith NArith QArith List.
From Verif Require Import Base Json SemTypes.
Import ListNotations.
Local Open Scope string_scope.
Local Open Scope list_scope.
Local Open Scope nat_scope.

(** * Findings *)

(** crates/weaver_checker/src/finding.rs 250-275 [FindingLevel];
    the derived order is Information < Improvement < Violation. *)
Inductive level := Information | Improvement | Violation.

(* used by level_eqb: crates/weaver_checker/src/finding.rs 250-275 *)
Definition level_rank (l : level) : nat :=
  match l with Information => 0 | Improvement => 1 | Violation => 2 end.
(* as above: crates/weaver_checker/src/finding.rs 250-275 *)
Definition level_eqb (a b : level) : bool := level_rank a =? level_rank b.
(* as above: crates/weaver_checker/src/finding.rs 250-275 *)
Definition level_leb (a b : level) : bool := level_rank a <=? level_rank b.
(* as above: crates/weaver_checker/src/finding.rs 250-275 *)
Definition level_ltb (a b : level) : bool := level_rank a <? level_rank b.
(* as above: crates/weaver_checker/src/finding.rs 250-275 *)
Definition level_max (a b : level) : level := if level_leb a b then b else a.

(** finding.rs 14-43 [PolicyFinding]. *)
Record finding := {
  f_id : string;
  f_context : option json;
  f_message : string;
  f_level : level;
  f_signal_type : option string;
  f_signal_name : option string
}.

(** crates/weaver_live_check/src/lib.rs 485-491 [LiveCheckResult]. *)
Record lcr := { all_advice : list finding; highest : option level }.

(** * Samples. Fields that no check reads (values of points, trace ids, severities,
      flags, scope version, status, ...) are omitted. *)

(** sample_attribute.rs 19-32. *)
Record sattr := {
  sa_name : string;
  sa_value : option json;
  sa_type : option prim;
  sa_result : option lcr
}.

(** sample_metric.rs 226-241. *)
Record exemplar := { ex_attrs : list sattr; ex_result : option lcr }.

(** sample_metric.rs 47-61, 91-121, 160-196: the three data-point structs have the same
    checked fields and the same runner. *)
Record dpoint := { dp_attrs : list sattr; dp_exemplars : list exemplar; dp_result : option lcr }.

(** sample_metric.rs 34-44. *)
Inductive data_points :=
| DPNumber (l : list dpoint) | DPHistogram (l : list dpoint) | DPExponential (l : list dpoint).

(** sample_resource.rs 16-24, sample_instrumentation_scope.rs. *)
Record sresource := { sr_attrs : list sattr; sr_result : option lcr }.
(* as above: sample_resource.rs 16-24 *)
Record sscope := { sc_name : string; sc_attrs : list sattr; sc_result : option lcr }.

(** sample_span.rs. *)
(* used by sspan: lib.rs 283-306 *)
Record sspan_event := { se_name : string; se_attrs : list sattr; se_result : option lcr }.
(* used by sspan: lib.rs 283-306 *)
Record sspan_link := { sl_attrs : list sattr; sl_result : option lcr }.
(* used by sample: lib.rs 283-306 *)
Record sspan := {
  sp_name : string;
  sp_attrs : list sattr;
  sp_events : list sspan_event;
  sp_links : list sspan_link;
  sp_result : option lcr;
  sp_resource : option sresource
}.

(** sample_metric.rs 22-31 and 280-299. *)
Inductive sinstrument := Supported (i : instrument) | Unsupported (n : string).
(* as above: sample_metric.rs 22-31, sample_metric.rs 280-299 *)
Record smetric := {
  sm_name : string;
  sm_instrument : sinstrument;
  sm_unit : string;
  sm_points : option data_points;
  sm_result : option lcr;
  sm_resource : option sresource
}.

(** sample_log.rs 21-47. *)
Record slog := {
  lg_event : string;
  lg_attrs : list sattr;
  lg_result : option lcr;
  lg_resource : option sresource
}.

(** sample_profile.rs. *)
(* used by sample: lib.rs 283-306 *)
Record sprofile := { pf_attrs : list sattr; pf_result : option lcr; pf_resource : option sresource }.

(** lib.rs 283-306 [Sample]. *)
Inductive sample :=
| SmpAttribute (a : sattr) | SmpSpan (s : sspan) | SmpSpanEvent (e : sspan_event)
| SmpSpanLink (l : sspan_link) | SmpResource (r : sresource) | SmpScope (s : sscope)
| SmpMetric (m : smetric) | SmpLog (l : slog) | SmpProfile (p : sprofile).

(** lib.rs 308-338 [SampleRef]. *)
Inductive sref :=
| RfAttribute (a : sattr) | RfSpan (s : sspan) | RfSpanEvent (e : sspan_event)
| RfSpanLink (l : sspan_link) | RfResource (r : sresource) | RfScope (s : sscope)
| RfMetric (m : smetric) | RfNumberDP (p : dpoint) | RfHistogramDP (p : dpoint)
| RfExponentialDP (p : dpoint) | RfExemplar (e : exemplar) | RfLog (l : slog)
| RfProfile (p : sprofile).

(** lib.rs 348-359 [SampleRef::sample_name]. *)
Definition sample_name (r : sref) : option string :=
  match r with
  | RfAttribute a => Some (sa_name a)
  | RfSpan s => Some (sp_name s)
  | RfSpanEvent e => Some (se_name e)
  | RfScope s => Some (sc_name s)
  | RfMetric m => Some (sm_name m)
  | RfLog l => Some (lg_event l)
  | _ => None
  end.

(** lib.rs 387-400 [Sample::signal_type]. *)
Definition signal_type (s : sample) : option string :=
  match s with
  | SmpSpan _ => Some "span"
  | SmpResource _ => Some "resource"
  | SmpMetric _ => Some "metric"
  | SmpLog _ => Some "log"
  | SmpProfile _ => Some "profile"
  | _ => None
  end%string.

(** lib.rs 403-411 [Sample::resource]. *)
Definition sample_resource (s : sample) : option sresource :=
  match s with
  | SmpSpan x => sp_resource x
  | SmpMetric x => sm_resource x
  | SmpLog x => lg_resource x
  | SmpProfile x => pf_resource x
  | _ => None
  end.

(** lib.rs 428-441 [Sample::signal_name]. *)
Definition signal_name (s : sample) : option string :=
  match s with
  | SmpSpan x => Some (sp_name x)
  | SmpMetric x => Some (sm_name x)
  | SmpLog x => Some (lg_event x)
  | _ => None
  end.

(** * Finding modifier *)

(** finding_modifier.rs + weaver_config live_check.rs: a compiled filter. Glob matching is
    an external library (globset): the compiled matchers are predicates on names.
    [None] for an empty pattern list (compile_globset 47-62). *)
Record cfilter := {
  cf_signal_type : option string;
  cf_names : option (string -> bool);
  cf_exclude : option (list string);
  cf_min_level : option level;
  cf_exclude_samples : option (string -> bool)
}.

(** finding_modifier.rs: a compiled level override. *)
(* used by modifier: finding_modifier.rs 190-217 *)
Record coverride := {
  co_signal_type : option string;
  co_names : option (string -> bool);
  co_ids : option (list string);
  co_level : level
}.

(* used by modifier_apply: finding_modifier.rs 190-217 *)
Record modifier := { overrides : list coverride; filters : list cfilter }.

(** finding_modifier.rs 67-84 [scope_matches]. *)
Definition scope_matches (st : option string) (names : option (string -> bool))
    (f : finding) (r : sref) : bool :=
  let ok := match st with
            | None => true
            | Some s => opt_eqb String.eqb (f_signal_type f) (Some s)
            end in
  if ok then
    match names with
    | None => true
    | Some m => match sample_name r with Some n => m n | None => false end
    end
  else false.

(** finding_modifier.rs 88-92 [is_matched_by]. *)
Definition is_matched_by (f : finding) (ids : option (list string)) : bool :=
  match ids with None => true | Some l => str_mem (f_id f) l end.

(** finding_modifier.rs 95-121 [is_excluded_by]. *)
Definition is_excluded_by (f : finding) (c : cfilter) (r : sref) : bool :=
  if match cf_exclude c with Some ids => str_mem (f_id f) ids | None => false end then true
  else if match cf_min_level c with Some m => level_ltb (f_level f) m | None => false end then true
  else match cf_exclude_samples c with
       | Some m => match sample_name r with Some n => m n | None => false end
       | None => false
       end.

(* used by apply_overrides: finding_modifier.rs 192-203 *)
Definition set_level (f : finding) (l : level) : finding :=
  {| f_id := f_id f; f_context := f_context f; f_message := f_message f; f_level := l;
     f_signal_type := f_signal_type f; f_signal_name := f_signal_name f |}.

(** finding_modifier.rs 192-203: the override loop with [break]. *)
Fixpoint apply_overrides (os : list coverride) (f : finding) (r : sref) : finding :=
  match os with
  | [] => f
  | o :: rest =>
      if scope_matches (co_signal_type o) (co_names o) f r && is_matched_by f (co_ids o)
      then set_level f (co_level o)
      else apply_overrides rest f r
  end.

(** finding_modifier.rs 204-216: the filter loop. *)
Fixpoint excluded (fs : list cfilter) (f : finding) (r : sref) : bool :=
  match fs with
  | [] => false
  | c :: rest =>
      if scope_matches (cf_signal_type c) (cf_names c) f r && is_excluded_by f c r
      then true
      else excluded rest f r
  end.

(** finding_modifier.rs 190-217 [FindingModifier::apply]. *)
Definition modifier_apply (m : modifier) (f : finding) (r : sref) : option finding :=
  let f' := apply_overrides (overrides m) f r in
  if excluded (filters m) f' r then None else Some f'.

(** * Results *)

(** lib.rs 496-501. *)
Definition lcr_new : lcr := {| all_advice := []; highest := None |}.

(** lib.rs 510-531 [LiveCheckResult::add_advice]. *)
Definition add_advice (m : option modifier) (r : sref) (l : lcr) (f : finding) : lcr :=
  let kept := match m with Some m => modifier_apply m f r | None => Some f end in
  match kept with
  | None => l
  | Some f' =>
      {| highest := Some (match highest l with
                          | None => f_level f'
                          | Some p => level_max p (f_level f')
                          end);
         all_advice := all_advice l ++ [f'] |}
  end.

(** lib.rs 536-545 [add_advice_list]. *)
Definition add_advice_list (m : option modifier) (r : sref) (l : lcr) (fs : list finding) : lcr :=
  fold_left (add_advice m r) fs l.

(** * Registry *)

(** The template form of a v1 group (crates/weaver_forge/src/registry.rs ResolvedGroup),
    restricted to the fields the live check reads. *)
(* used by registry: lib.rs 105-113 *)
Record vgroup := {
  vg_id : string;
  vg_type : group_type;
  vg_name : option string;
  vg_metric_name : option string;
  vg_instrument : option instrument;
  vg_unit : option string;
  vg_deprecated : option deprecated;
  vg_stability : option stability;
  vg_attributes : list attribute;
  vg_associations : list (assoc string)
}.

(** crates/weaver_forge/src/v2/attribute.rs Attribute. *)
(* used by v2sig_attr: lib.rs 105-113 *)
Record v2attr := {
  va_key : string;
  va_type : attr_type;
  va_deprecated : option deprecated;
  va_stability : stability
}.

(** v2 MetricAttribute / EventAttribute / EntityAttribute: base + requirement level. *)
(* used by v2metric: lib.rs 105-113 *)
Record v2sig_attr := { vs_base : v2attr; vs_req : req_level }.

(** crates/weaver_resolved_schema/src/v2 EntityRef: type plus the registry that defines it. *)
(* used by v2metric: lib.rs 105-113 *)
Record entity_ref := { er_type : string; er_source : option string }.

(* used by v2reg: lib.rs 105-113 *)
Record v2metric := {
  vm_name : string; vm_instrument : instrument; vm_unit : string;
  vm_deprecated : option deprecated; vm_stability : stability;
  vm_attributes : list v2sig_attr; vm_associations : list (assoc entity_ref)
}.
(* used by v2reg: lib.rs 105-113 *)
Record v2event := {
  ve_name : string;
  ve_deprecated : option deprecated; ve_stability : stability;
  ve_attributes : list v2sig_attr; ve_associations : list (assoc entity_ref)
}.
(* used by v2reg: lib.rs 105-113 *)
Record v2entity := {
  vn_type : string; vn_identity : list v2sig_attr; vn_description : list v2sig_attr
}.

(** crates/weaver_forge/src/v2/registry.rs ForgeResolvedRegistry: own definitions, the
    entity refinements (id, entity), and the dependencies (each with the same shape). *)
(* used by registry: lib.rs 105-113 *)
Inductive v2reg :=
| V2Reg (url : string) (attrs : list v2attr) (metrics : list v2metric) (events : list v2event)
        (entities : list v2entity) (refinements : list (string * v2entity)) (deps : list v2reg).

(* used by lookup_entity: registry.rs 90-111, live_checker.rs 186-191 *)
Definition v2_url r := match r with V2Reg u _ _ _ _ _ _ => u end.
(* used by reg_attribute_list: live_checker.rs 60-127 *)
Definition v2_attrs r := match r with V2Reg _ a _ _ _ _ _ => a end.
(* used by reg_metric_list: live_checker.rs 47-145 *)
Definition v2_metrics r := match r with V2Reg _ _ m _ _ _ _ => m end.
(* used by reg_event_list: live_checker.rs 47-145 *)
Definition v2_events r := match r with V2Reg _ _ _ e _ _ _ => e end.
(* used by reg_entity_list: live_checker.rs 47-145 *)
Definition v2_entities r := match r with V2Reg _ _ _ _ e _ _ => e end.
(* used by defined_entity: crates/weaver_forge/src/v2/registry.rs 117-129 *)
Definition v2_refinements r := match r with V2Reg _ _ _ _ _ f _ => f end.
(* used by lookup_entity: registry.rs 90-111, live_checker.rs 186-191 *)
Definition v2_deps r := match r with V2Reg _ _ _ _ _ _ d => d end.

(** lib.rs 105-113 [VersionedRegistry]. *)
Inductive registry := RegV1 (groups : list vgroup) | RegV2 (r : v2reg).

(** lib.rs 116-124 [VersionedAttribute], 166-177 [VersionedSignal] (the Span variant is
    never stored by LiveChecker::new), 228-233 [VersionedEntity]. *)
Inductive vattr := VA1 (a : attribute) | VA2 (a : v2attr).
(* as above: lib.rs 116-124, lib.rs 166-177, lib.rs 228-233 *)
Inductive vsignal := VSGroup (g : vgroup) | VSMetric (m : v2metric) | VSEvent (e : v2event).
(* as above: lib.rs 116-124, lib.rs 166-177, lib.rs 228-233 *)
Inductive ventity := VE1 (g : vgroup) | VE2 (e : v2entity).

(** lib.rs 127-163. *)
Definition vattr_name (a : vattr) := match a with VA1 a => at_name a | VA2 a => va_key a end.
(* as above: lib.rs 127-163 *)
Definition vattr_type (a : vattr) := match a with VA1 a => at_type a | VA2 a => va_type a end.
(* as above: lib.rs 127-163 *)
Definition vattr_deprecated (a : vattr) :=
  match a with VA1 a => at_deprecated a | VA2 a => va_deprecated a end.
(* as above: lib.rs 127-163 *)
Definition vattr_stability (a : vattr) :=
  match a with VA1 a => at_stability a | VA2 a => Some (va_stability a) end.

(** lib.rs 179-223. *)
Definition vsig_deprecated (s : vsignal) :=
  match s with VSGroup g => vg_deprecated g | VSMetric m => vm_deprecated m
             | VSEvent e => ve_deprecated e end.
(* as above: lib.rs 179-223 *)
Definition vsig_stability (s : vsignal) :=
  match s with VSGroup g => vg_stability g | VSMetric m => Some (vm_stability m)
             | VSEvent e => Some (ve_stability e) end.
(* as above: lib.rs 179-223 *)
Definition vsig_instrument (s : vsignal) :=
  match s with VSGroup g => vg_instrument g | VSMetric m => Some (vm_instrument m)
             | VSEvent _ => None end.
(* as above: lib.rs 179-223 *)
Definition vsig_unit (s : vsignal) :=
  match s with VSGroup g => vg_unit g | VSMetric m => Some (vm_unit m) | VSEvent _ => None end.

(** An advisor (advice/mod.rs 29-39). Advisors are deterministic functions here; the rego
    advisor is an arbitrary element of this type. OTLP emission is a side channel and is
    not modelled. *)
Definition advisor := sref -> sample -> option vattr -> option vsignal -> res (list finding).

(** live_checker.rs 22-42 [LiveChecker]. *)
Record checker := {
  lc_registry : registry;
  lc_attributes : list (string * vattr);
  lc_templates : list (string * vattr);   (* templates_by_length *)
  lc_metrics : list (string * vsignal);
  lc_events : list (string * vsignal);
  lc_entities : list (string * ventity);
  lc_advisors : list advisor;
  lc_modifier : option modifier
}.

(** Rust: [for x in xs { map.insert(key x, val x) }]. *)
(* used by checker_new: live_checker.rs 47-145 *)
Definition insert_all {V} (kvs : list (string * V)) (m : list (string * V)) : list (string * V) :=
  fold_left (fun m kv => sinsert (fst kv) (snd kv) m) kvs m.

(** live_checker.rs 60-127: what the constructor inserts, in order. *)
Definition reg_attribute_list (r : registry) : list (string * vattr) :=
  match r with
  | RegV1 gs => flat_map (fun g => map (fun a => (at_name a, VA1 a)) (vg_attributes g)) gs
  | RegV2 r => map (fun a => (va_key a, VA2 a)) (v2_attrs r)
  end.

(* used by reg_metric_list: live_checker.rs 47-145 *)
Definition opt_list {A} (o : option A) : list A := match o with Some a => [a] | None => [] end.

(* used by checker_new: live_checker.rs 47-145 *)
Definition reg_metric_list (r : registry) : list (string * vsignal) :=
  match r with
  | RegV1 gs => flat_map (fun g =>
      if group_type_eqb (vg_type g) GMetric
      then map (fun n => (n, VSGroup g)) (opt_list (vg_metric_name g)) else []) gs
  | RegV2 r => map (fun m => (vm_name m, VSMetric m)) (v2_metrics r)
  end.

(* used by checker_new: live_checker.rs 47-145 *)
Definition reg_event_list (r : registry) : list (string * vsignal) :=
  match r with
  | RegV1 gs => flat_map (fun g =>
      if group_type_eqb (vg_type g) GEvent
      then map (fun n => (n, VSGroup g)) (opt_list (vg_name g)) else []) gs
  | RegV2 r => map (fun e => (ve_name e, VSEvent e)) (v2_events r)
  end.

(* used by checker_new: live_checker.rs 47-145 *)
Definition reg_entity_list (r : registry) : list (string * ventity) :=
  match r with
  | RegV1 gs => flat_map (fun g =>
      if group_type_eqb (vg_type g) GEntity
      then map (fun n => (n, VE1 g)) (opt_list (vg_name g)) else []) gs
  | RegV2 r => map (fun e => (vn_type e, VE2 e)) (v2_entities r)
  end.

(** [sort_by_key(|(b,_)| Reverse(b.len()))]: stable, descending length. *)
(* used by checker_new: live_checker.rs 47-145 *)
Definition longer_first (a b : string * vattr) : bool :=
  String.length (fst b) <=? String.length (fst a).

(** live_checker.rs 47-145 [LiveChecker::new]. *)
Definition checker_new (r : registry) (advs : list advisor) (m : option modifier) : checker :=
  let attrs := reg_attribute_list r in
  {| lc_registry := r;
     lc_attributes := insert_all (filter (fun p => negb (is_template (vattr_type (snd p)))) attrs) [];
     lc_templates := stable_sort longer_first
                       (filter (fun p => is_template (vattr_type (snd p))) attrs);
     lc_metrics := insert_all (reg_metric_list r) [];
     lc_events := insert_all (reg_event_list r) [];
     lc_entities := insert_all (reg_entity_list r) [];
     lc_advisors := advs;
     lc_modifier := m |}.

(** live_checker.rs 154-180. *)
Definition find_attribute (c : checker) (n : string) := slookup n (lc_attributes c).
(* as above: live_checker.rs 154-180 *)
Definition find_metric (c : checker) (n : string) := slookup n (lc_metrics c).
(* as above: live_checker.rs 154-180 *)
Definition find_event (c : checker) (n : string) := slookup n (lc_events c).
(* as above: live_checker.rs 154-180 *)
Definition find_entity (c : checker) (n : string) := slookup n (lc_entities c).

(** live_checker.rs 195-203 [find_template]. *)
Fixpoint first_prefix (l : list (string * vattr)) (n : string) : option vattr :=
  match l with
  | [] => None
  | (t, a) :: r => if starts_with t n then Some a else first_prefix r n
  end.
(* as above: live_checker.rs 195-203 *)
Definition find_template (c : checker) (n : string) := first_prefix (lc_templates c) n.

(** crates/weaver_forge/src/v2/registry.rs 117-129 [defined_entity]. *)
Definition defined_entity (r : v2reg) (name : string) : option v2entity :=
  match find (fun e => String.eqb (vn_type e) name) (v2_entities r) with
  | Some e => Some e
  | None => option_map snd (find (fun p => String.eqb (fst p) name) (v2_refinements r))
  end.

(** registry.rs 90-111 [lookup_entity] and live_checker.rs 186-191. *)
Definition lookup_entity (c : checker) (e : entity_ref) : option v2entity :=
  match lc_registry c with
  | RegV1 _ => None
  | RegV2 r =>
      match er_source e with
      | None => defined_entity r (er_type e)
      | Some url =>
          match find (fun d => String.eqb (v2_url d) url) (v2_deps r) with
          | Some d => defined_entity d (er_type e)
          | None => None
          end
      end
  end.

(** * Statistics *)

(** stats.rs 14-47 [CumulativeStatistics]; usize counters are unbounded naturals. The
    coverage is kept as the exact fraction; the code rounds it to f32. *)
Record stats := {
  st_total : nat;
  st_by_type : list (string * nat);
  st_advisories : nat;
  st_levels : list (level * nat);
  st_highest : list (level * nat);
  st_no_advice : nat;
  st_ids : list (string * nat);
  st_messages : list (string * nat);
  st_reg_attrs : list (string * nat);
  st_non_attrs : list (string * nat);
  st_reg_metrics : list (string * nat);
  st_non_metrics : list (string * nat);
  st_reg_events : list (string * nat);
  st_non_events : list (string * nat);
  st_coverage : Q
}.

(** stats.rs 263-271 [LiveCheckStatistics]. *)
Inductive lstats := Cumulative (s : stats) | Disabled.

(* used by stats_new: stats.rs 53-74 *)
Definition zeroed (ks : list string) : list (string * nat) :=
  insert_all (map (fun k => (k, 0)) ks) [].

(** stats.rs 76-127 [extract_registry_items]: names of the non-deprecated items. *)
Definition tracked_attributes (r : registry) : list string :=
  match r with
  | RegV1 gs => flat_map (fun g => map at_name
      (filter (fun a => negb (is_some (at_deprecated a))) (vg_attributes g))) gs
  | RegV2 r => map va_key (filter (fun a => negb (is_some (va_deprecated a))) (v2_attrs r))
  end.
(* as above: stats.rs 76-127 *)
Definition tracked_metrics (r : registry) : list string :=
  match r with
  | RegV1 gs => flat_map (fun g =>
      if group_type_eqb (vg_type g) GMetric && negb (is_some (vg_deprecated g))
      then opt_list (vg_metric_name g) else []) gs
  | RegV2 r => map vm_name (filter (fun a => negb (is_some (vm_deprecated a))) (v2_metrics r))
  end.
(* as above: stats.rs 76-127 *)
Definition tracked_events (r : registry) : list string :=
  match r with
  | RegV1 gs => flat_map (fun g =>
      if group_type_eqb (vg_type g) GEvent && negb (is_some (vg_deprecated g))
      then opt_list (vg_name g) else []) gs
  | RegV2 r => map ve_name (filter (fun a => negb (is_some (ve_deprecated a))) (v2_events r))
  end.

(** stats.rs 53-74 [CumulativeStatistics::new]. *)
Definition stats_new (r : registry) : stats :=
  {| st_total := 0; st_by_type := []; st_advisories := 0; st_levels := []; st_highest := [];
     st_no_advice := 0; st_ids := []; st_messages := [];
     st_reg_attrs := zeroed (tracked_attributes r); st_non_attrs := [];
     st_reg_metrics := zeroed (tracked_metrics r); st_non_metrics := [];
     st_reg_events := zeroed (tracked_events r); st_non_events := [];
     st_coverage := 0 |}.

(** stats.rs 130-136. *)
Definition inc_entity_count (t : string) (s : stats) : stats :=
  {| st_total := S (st_total s); st_by_type := incr String.eqb t (st_by_type s);
     st_advisories := st_advisories s; st_levels := st_levels s; st_highest := st_highest s;
     st_no_advice := st_no_advice s; st_ids := st_ids s; st_messages := st_messages s;
     st_reg_attrs := st_reg_attrs s; st_non_attrs := st_non_attrs s;
     st_reg_metrics := st_reg_metrics s; st_non_metrics := st_non_metrics s;
     st_reg_events := st_reg_events s; st_non_events := st_non_events s;
     st_coverage := st_coverage s |}.

(** stats.rs 139-150. *)
Definition stat_add_advice (s : stats) (f : finding) : stats :=
  {| st_total := st_total s; st_by_type := st_by_type s;
     st_advisories := S (st_advisories s);
     st_levels := incr level_eqb (f_level f) (st_levels s); st_highest := st_highest s;
     st_no_advice := st_no_advice s;
     st_ids := incr String.eqb (f_id f) (st_ids s);
     st_messages := incr String.eqb (f_message f) (st_messages s);
     st_reg_attrs := st_reg_attrs s; st_non_attrs := st_non_attrs s;
     st_reg_metrics := st_reg_metrics s; st_non_metrics := st_non_metrics s;
     st_reg_events := st_reg_events s; st_non_events := st_non_events s;
     st_coverage := st_coverage s |}.

(** stats.rs 153-155. *)
Definition add_highest (l : level) (s : stats) : stats :=
  {| st_total := st_total s; st_by_type := st_by_type s;
     st_advisories := st_advisories s; st_levels := st_levels s;
     st_highest := incr level_eqb l (st_highest s);
     st_no_advice := st_no_advice s; st_ids := st_ids s; st_messages := st_messages s;
     st_reg_attrs := st_reg_attrs s; st_non_attrs := st_non_attrs s;
     st_reg_metrics := st_reg_metrics s; st_non_metrics := st_non_metrics s;
     st_reg_events := st_reg_events s; st_non_events := st_non_events s;
     st_coverage := st_coverage s |}.

(** stats.rs 158-160. *)
Definition inc_no_advice (s : stats) : stats :=
  {| st_total := st_total s; st_by_type := st_by_type s;
     st_advisories := st_advisories s; st_levels := st_levels s; st_highest := st_highest s;
     st_no_advice := S (st_no_advice s); st_ids := st_ids s; st_messages := st_messages s;
     st_reg_attrs := st_reg_attrs s; st_non_attrs := st_non_attrs s;
     st_reg_metrics := st_reg_metrics s; st_non_metrics := st_non_metrics s;
     st_reg_events := st_reg_events s; st_non_events := st_non_events s;
     st_coverage := st_coverage s |}.

(** The shared body of stats.rs 163-206: bump the registry counter if the name is tracked,
    otherwise the non-registry one. *)
Definition bump (n : string) (reg non : list (string * nat)) :=
  match slookup n reg with
  | Some c => (sinsert n (S c) reg, non)
  | None => (reg, incr String.eqb n non)
  end.

(** stats.rs 163-174. *)
Definition cover_attribute (n : string) (s : stats) : stats :=
  let (reg, non) := bump n (st_reg_attrs s) (st_non_attrs s) in
  {| st_total := st_total s; st_by_type := st_by_type s;
     st_advisories := st_advisories s; st_levels := st_levels s; st_highest := st_highest s;
     st_no_advice := st_no_advice s; st_ids := st_ids s; st_messages := st_messages s;
     st_reg_attrs := reg; st_non_attrs := non;
     st_reg_metrics := st_reg_metrics s; st_non_metrics := st_non_metrics s;
     st_reg_events := st_reg_events s; st_non_events := st_non_events s;
     st_coverage := st_coverage s |}.

(** stats.rs 177-188. *)
Definition cover_metric (n : string) (s : stats) : stats :=
  let (reg, non) := bump n (st_reg_metrics s) (st_non_metrics s) in
  {| st_total := st_total s; st_by_type := st_by_type s;
     st_advisories := st_advisories s; st_levels := st_levels s; st_highest := st_highest s;
     st_no_advice := st_no_advice s; st_ids := st_ids s; st_messages := st_messages s;
     st_reg_attrs := st_reg_attrs s; st_non_attrs := st_non_attrs s;
     st_reg_metrics := reg; st_non_metrics := non;
     st_reg_events := st_reg_events s; st_non_events := st_non_events s;
     st_coverage := st_coverage s |}.

(** stats.rs 191-206. *)
Definition cover_event (n : string) (s : stats) : stats :=
  if String.eqb n "" then s else
  let (reg, non) := bump n (st_reg_events s) (st_non_events s) in
  {| st_total := st_total s; st_by_type := st_by_type s;
     st_advisories := st_advisories s; st_levels := st_levels s; st_highest := st_highest s;
     st_no_advice := st_no_advice s; st_ids := st_ids s; st_messages := st_messages s;
     st_reg_attrs := st_reg_attrs s; st_non_attrs := st_non_attrs s;
     st_reg_metrics := st_reg_metrics s; st_non_metrics := st_non_metrics s;
     st_reg_events := reg; st_non_events := non;
     st_coverage := st_coverage s |}.

(** stats.rs 211-213 [max_level]. *)
Definition max_level (s : stats) : option level :=
  fold_left (fun acc p => Some (match acc with None => fst p | Some m => level_max m (fst p) end))
            (st_highest s) None.

(** stats.rs 216-218 and 331-336 [should_fail]. *)
Definition should_fail_c (s : stats) (t : level) : bool :=
  match max_level s with Some l => level_leb t l | None => false end.
(* as above: stats.rs 216-218, stats.rs 331-336 *)
Definition should_fail (s : lstats) (t : level) : bool :=
  match s with Cumulative s => should_fail_c s t | Disabled => false end.

(* used by coverage_of: stats.rs 221-255 *)
Definition nonzero (m : list (string * nat)) : nat := count_if (fun p => 0 <? snd p) m.

(** stats.rs 221-255 [finalize]. *)
Definition coverage_of (s : stats) : Q :=
  let seen := nonzero (st_reg_attrs s) + nonzero (st_reg_metrics s) + nonzero (st_reg_events s) in
  let total := length (st_reg_attrs s) + length (st_reg_metrics s) + length (st_reg_events s) in
  if 0 <? total then (inject_Z (Z.of_nat seen) / inject_Z (Z.of_nat total))%Q else 0%Q.

(* used by finalize: stats.rs 275-296 *)
Definition finalize_c (s : stats) : stats :=
  {| st_total := st_total s; st_by_type := st_by_type s;
     st_advisories := st_advisories s; st_levels := st_levels s; st_highest := st_highest s;
     st_no_advice := st_no_advice s; st_ids := st_ids s; st_messages := st_messages s;
     st_reg_attrs := st_reg_attrs s; st_non_attrs := st_non_attrs s;
     st_reg_metrics := st_reg_metrics s; st_non_metrics := st_non_metrics s;
     st_reg_events := st_reg_events s; st_non_events := st_non_events s;
     st_coverage := coverage_of s |}.

(** stats.rs 273-344: every operation of the enum acts on the Cumulative variant only. *)
Definition on_cumulative (f : stats -> stats) (s : lstats) : lstats :=
  match s with Cumulative s => Cumulative (f s) | Disabled => Disabled end.

(** stats.rs 275-296 [maybe_add_live_check_result]. *)
Definition maybe_add_c (r : option lcr) (s : stats) : stats :=
  match r with
  | Some r =>
      let s1 := fold_left stat_add_advice (all_advice r) s in
      let s2 := match highest r with Some l => add_highest l s1 | None => s1 end in
      match all_advice r with [] => inc_no_advice s2 | _ => s2 end
  | None => inc_no_advice s
  end.

(* used by run_advisors: lib.rs 600-629 *)
Definition maybe_add (r : option lcr) := on_cumulative (maybe_add_c r).
(* as above: stats.rs 275-296 *)
Definition inc_entity (t : string) := on_cumulative (inc_entity_count t).
(* stats.rs 339-343 *)
Definition finalize := on_cumulative finalize_c.

(** * The live-check run *)

(** The loop over advisors (lib.rs 610-624, sample_metric.rs 326-340, sample_log.rs 82-96,
    sample_attribute.rs 228-242); the first advisor error aborts. *)
Fixpoint run_advisor_list (m : option modifier) (advs : list advisor) (r : sref) (sig : sample)
    (a : option vattr) (g : option vsignal) (acc : lcr) : res lcr :=
  match advs with
  | [] => Ok acc
  | adv :: rest =>
      let* fs := adv r sig a g in
      run_advisor_list m rest r sig a g (add_advice_list m r acc fs)
  end.

(** lib.rs 600-629 [Advisable::run_advisors]. *)
Definition run_advisors (c : checker) (etype : string) (r : sref) (g : option vsignal)
    (sig : sample) (st : lstats) : res (lcr * lstats) :=
  let* l := run_advisor_list (lc_modifier c) (lc_advisors c) r sig None g lcr_new in
  Ok (l, maybe_add (Some l) (inc_entity etype st)).

(** lib.rs 576-590: the Vec runner. *)
Fixpoint run_list {T} (run : T -> lstats -> res (T * lstats)) (l : list T) (st : lstats)
    : res (list T * lstats) :=
  match l with
  | [] => Ok ([], st)
  | x :: r =>
      let* (x', st1) := run x st in
      let* (r', st2) := run_list run r st1 in
      Ok (x' :: r', st2)
  end.

(** advice/mod.rs 51-103 [FindingBuilder]. *)
Definition build (id : string) (ctx : option json) (msg : string) (l : level) (sig : sample) : finding :=
  {| f_id := id; f_context := ctx; f_message := msg; f_level := l;
     f_signal_type := signal_type sig; f_signal_name := signal_name sig |}.

(** sample_attribute.rs 154-167: the name that counts for coverage. *)
Definition template_of (f : finding) : option string :=
  if String.eqb (f_id f) "template_attribute" then
    match f_context f with
    | Some (JObj m) => match slookup "template_name"%string m with Some (JStr s) => Some s | _ => None end
    | _ => None
    end
  else None.
(* as above: sample_attribute.rs 154-167 *)
Definition covered_name (own : string) (fs : list finding) : string :=
  fold_left (fun n f => opt_get (template_of f) n) fs own.

(** sample_attribute.rs 172-247 (with update_stats 150-169). *)
Definition run_attr (c : checker) (g : option vsignal) (sig : sample) (a : sattr) (st : lstats)
    : res (sattr * lstats) :=
  let r := RfAttribute a in
  let sa := match find_attribute c (sa_name a) with
            | Some x => Some x
            | None => find_template c (sa_name a)
            end in
  let l0 :=
    match sa with
    | None =>
        add_advice (lc_modifier c) r lcr_new
          (build "missing_attribute" (Some (JObj [("attribute_key", JStr (sa_name a))]))
             ("Attribute '" ++ sa_name a ++ "' does not exist in the registry.") Violation sig)
    | Some x =>
        if is_template (vattr_type x) then
          add_advice (lc_modifier c) r lcr_new
            (build "template_attribute"
               (Some (JObj [("attribute_key", JStr (sa_name a)); ("template_name", JStr (vattr_name x))]))
               ("Attribute '" ++ sa_name a ++ "' is a template") Information sig)
        else lcr_new
    end%string in
  let* l := run_advisor_list (lc_modifier c) (lc_advisors c) r sig sa g l0 in
  let a' := {| sa_name := sa_name a; sa_value := sa_value a; sa_type := sa_type a;
               sa_result := Some l |} in
  Ok (a', on_cumulative (cover_attribute (covered_name (sa_name a) (all_advice l)))
            (maybe_add (Some l) (inc_entity "attribute" st))).

(* used by run_exemplar: sample_metric.rs 253-271 *)
Definition run_attrs c g sig := run_list (run_attr c g sig).

(** sample_metric.rs 253-271. *)
Definition run_exemplar (c : checker) g sig (e : exemplar) (st : lstats) : res (exemplar * lstats) :=
  let* (l, st1) := run_advisors c "exemplar" (RfExemplar e) g sig st in
  let* (as', st2) := run_attrs c g sig (ex_attrs e) st1 in
  Ok ({| ex_attrs := as'; ex_result := Some l |}, st2).

(** sample_metric.rs 73-89, 133-149, 208-224. *)
Definition run_dpoint (c : checker) (mk : dpoint -> sref) g sig (p : dpoint) (st : lstats)
    : res (dpoint * lstats) :=
  let* (l, st1) := run_advisors c "data_point" (mk p) g sig st in
  let* (as', st2) := run_attrs c g sig (dp_attrs p) st1 in
  let* (es', st3) := run_list (run_exemplar c g sig) (dp_exemplars p) st2 in
  Ok ({| dp_attrs := as'; dp_exemplars := es'; dp_result := Some l |}, st3).

(** sample_span.rs 123-147, 159-180. *)
Definition run_span_event (c : checker) g sig (e : sspan_event) (st : lstats) :=
  let* (l, st1) := run_advisors c "span_event" (RfSpanEvent e) g sig st in
  let* (as', st2) := run_attrs c g sig (se_attrs e) st1 in
  Ok ({| se_name := se_name e; se_attrs := as'; se_result := Some l |}, st2).
(* as above: sample_span.rs 123-147, sample_span.rs 159-180 *)
Definition run_span_link (c : checker) g sig (e : sspan_link) (st : lstats) :=
  let* (l, st1) := run_advisors c "span_link" (RfSpanLink e) g sig st in
  let* (as', st2) := run_attrs c g sig (sl_attrs e) st1 in
  Ok ({| sl_attrs := as'; sl_result := Some l |}, st2).

(** sample_span.rs 77-110. *)
Definition run_span (c : checker) g sig (s : sspan) (st : lstats) :=
  let* (l, st1) := run_advisors c "span" (RfSpan s) g sig st in
  let* (as', st2) := run_attrs c g sig (sp_attrs s) st1 in
  let* (es', st3) := run_list (run_span_event c g sig) (sp_events s) st2 in
  let* (ls', st4) := run_list (run_span_link c g sig) (sp_links s) st3 in
  Ok ({| sp_name := sp_name s; sp_attrs := as'; sp_events := es'; sp_links := ls';
         sp_result := Some l; sp_resource := sp_resource s |}, st4).

(** sample_resource.rs 35-51, sample_instrumentation_scope.rs 47-60, sample_profile.rs 44-58. *)
Definition run_resource (c : checker) g sig (s : sresource) (st : lstats) :=
  let* (l, st1) := run_advisors c "resource" (RfResource s) g sig st in
  let* (as', st2) := run_attrs c g sig (sr_attrs s) st1 in
  Ok ({| sr_attrs := as'; sr_result := Some l |}, st2).
(* as above: sample_resource.rs 35-51, sample_instrumentation_scope.rs 47-60, sample_profile.rs 44-58 *)
Definition run_scope (c : checker) g sig (s : sscope) (st : lstats) :=
  let* (l, st1) := run_advisors c "instrumentation_scope" (RfScope s) g sig st in
  let* (as', st2) := run_attrs c g sig (sc_attrs s) st1 in
  Ok ({| sc_name := sc_name s; sc_attrs := as'; sc_result := Some l |}, st2).
(* as above: sample_resource.rs 35-51, sample_instrumentation_scope.rs 47-60, sample_profile.rs 44-58 *)
Definition run_profile (c : checker) g sig (s : sprofile) (st : lstats) :=
  let* (l, st1) := run_advisors c "profile" (RfProfile s) g sig st in
  let* (as', st2) := run_attrs c g sig (pf_attrs s) st1 in
  Ok ({| pf_attrs := as'; pf_result := Some l; pf_resource := pf_resource s |}, st2).

(** ** Requirement levels *)

(** advice/type_advisor.rs 429-497: the level mapping shared with 106-190. *)
Definition level_of_req (r : req_level) : level :=
  match r with
  | RRequired => Violation
  | RRecommended | RRecommendedText _ => Improvement
  | ROptIn | ROptInText _ => Information
  | RConditional _ => Information
  end.

(* used by check_entity_attr: type_advisor.rs 106-190 *)
Definition id_of_req (r : req_level) : string :=
  match r with
  | RRequired => "required_attribute_not_present"
  | RRecommended | RRecommendedText _ => "recommended_attribute_not_present"
  | ROptIn | ROptInText _ => "opt_in_attribute_not_present"
  | RConditional _ => "conditionally_required_attribute_not_present"
  end%string.

(* used by check_entity_attr: type_advisor.rs 106-190 *)
Definition word_of_req (r : req_level) : string :=
  match r with
  | RRequired => "Required"
  | RRecommended | RRecommendedText _ => "Recommended"
  | ROptIn | ROptInText _ => "Opt-in"
  | RConditional _ => "Conditionally required"
  end%string.

(** type_advisor.rs 106-190 [check_entity_resource_attributes]. *)
Definition check_entity_attr (names : list string) (sig : sample) (etype key : string) (r : req_level)
    : list finding :=
  if str_mem key names then []
  else [ {| f_id := ("entity_" ++ id_of_req r)%string;
            f_context := Some (JObj [("attribute_key", JStr key); ("entity_type", JStr etype)])%string;
            f_message := (word_of_req r ++ " attribute '" ++ key ++ "' for entity '" ++ etype
                          ++ "' is not present in the resource.")%string;
            f_level := level_of_req r;
            f_signal_type := signal_type sig; f_signal_name := signal_name sig |} ].

(** The (key, requirement level) pairs of an entity definition, in check order. *)
(* used by check_entity_resource_attributes: crates/weaver_live_check/src/advice/type_advisor.rs 106-188 *)
Definition entity_type_of (e : ventity) : string :=
  match e with VE1 g => opt_get (vg_name g) "" | VE2 e => vn_type e end%string.
(* used by check_entity_resource_attributes: crates/weaver_live_check/src/advice/type_advisor.rs 106-188 *)
Definition entity_attrs (e : ventity) : list (string * req_level) :=
  match e with
  | VE1 g => map (fun a => (at_name a, at_req a)) (vg_attributes g)
  | VE2 e => map (fun a => (va_key (vs_base a), vs_req a)) (vn_identity e ++ vn_description e)
  end.

(* crates/weaver_live_check/src/advice/type_advisor.rs 106-188 *)
Definition check_entity_resource_attributes (e : ventity) (attrs : list sattr) (sig : sample)
    : list finding :=
  flat_map (fun kr => check_entity_attr (map sa_name attrs) sig (entity_type_of e) (fst kr) (snd kr))
           (entity_attrs e).

(** type_advisor.rs 210-232: leaf lookup. *)
Inductive entity_key := KName (n : string) | KRef (e : entity_ref).
(* as above: type_advisor.rs 210-232 *)
Definition key_type (k : entity_key) : string :=
  match k with KName n => n | KRef e => er_type e end.
(* as above: type_advisor.rs 210-232 *)
Definition key_lookup (c : checker) (k : entity_key) : option ventity :=
  match k with
  | KName n => find_entity c n
  | KRef e => option_map VE2 (lookup_entity c e)
  end.

(** type_advisor.rs 259-273 [referenced_entities]; the explicit stack visits leaves in order. *)
Fixpoint referenced {L} (f : L -> string) (a : assoc L) : list string :=
  match a with
  | ARef l => [f l]
  | AOneOf cs | AAllOf cs => flat_map (referenced f) cs
  end.

(** type_advisor.rs 391-416: order-preserving de-duplication with a HashSet. *)
Fixpoint dedup_seen (seen : list string) (l : list string) : list string :=
  match l with
  | [] => []
  | x :: r => if str_mem x seen then dedup_seen seen r else x :: dedup_seen (x :: seen) r
  end.

(* used by one_of_results: type_advisor.rs 285-301 *)
Definition association_not_satisfied {L} (f : L -> string) (cs : list (assoc L)) (sig : sample) : finding :=
  let es := dedup_seen [] (flat_map (referenced f) cs) in
  {| f_id := "entity_association_not_satisfied";
     f_context := Some (JObj [("entity_type", JArr (map JStr es))]);
     f_message := "None of the associated entities [" ++ join ", " es
                  ++ "] were satisfied by the resource.";
     f_level := Violation;
     f_signal_type := signal_type sig; f_signal_name := signal_name sig |}%string.

(* used by eval_assoc: type_advisor.rs 285-301 *)
Definition is_violation (f : finding) : bool := level_eqb (f_level f) Violation.

(** type_advisor.rs 304-388 [evaluate_association], [evaluate_all_of], [evaluate_one_of].
    [key] maps a leaf to what it names. *)
Section Assoc.
  Context {L : Type} (key : L -> entity_key) (c : checker) (attrs : list sattr) (sig : sample).

  (* used by eval_assoc: type_advisor.rs 285-301 *)
  Definition all_of_results (rs : list (bool * list finding)) : bool * list finding :=
    fold_left (fun acc r => (fst acc && fst r, snd acc ++ snd r)) rs (true, []).

  (* used by eval_assoc: type_advisor.rs 285-301 *)
  Definition one_of_results (cs : list (assoc L)) (rs : list (bool * list finding))
      : bool * list finding :=
    let acc := fold_left (fun acc r => if fst r : bool then (true, snd acc ++ snd r) else acc)
                         rs (false, []) in
    if fst acc then acc
    else (false, [association_not_satisfied (fun l => key_type (key l)) cs sig]).

  (* used by check_associations: type_advisor.rs 285-301 *)
  Fixpoint eval_assoc (a : assoc L) : bool * list finding :=
    match a with
    | ARef l =>
        match key_lookup c (key l) with
        | Some e =>
            let fs := check_entity_resource_attributes e attrs sig in
            (negb (existsb is_violation fs), fs)
        | None => (true, [])
        end
    | AOneOf cs => one_of_results cs (map eval_assoc cs)
    | AAllOf cs => all_of_results (map eval_assoc cs)
    end.

  (** type_advisor.rs 285-301 [check_entity_associations]. *)
  Definition check_associations (l : list (assoc L)) : list finding :=
    match l with
    | [] => []
    | [x] => snd (eval_assoc x)
    | _ => snd (one_of_results l (map eval_assoc l))
    end.
End Assoc.

(** sample_metric.rs 342-362, sample_log.rs 98-120: the signal's associations. *)
Definition signal_assoc_findings (c : checker) (s : option vsignal) (sig : sample) : list finding :=
  let attrs := match sample_resource sig with Some r => sr_attrs r | None => [] end in
  match s with
  | Some (VSGroup g) => check_associations KName c attrs sig (vg_associations g)
  | Some (VSMetric m) => check_associations KRef c attrs sig (vm_associations m)
  | Some (VSEvent e) => check_associations KRef c attrs sig (ve_associations e)
  | None => []
  end.

(** sample_metric.rs 301-413. A metric name can only resolve to a group or a v2 metric. *)
Definition run_metric (c : checker) (sig : sample) (m : smetric) (st : lstats) : res (smetric * lstats) :=
  let r := RfMetric m in
  let s := find_metric c (sm_name m) in
  let l0 := match s with
            | None => add_advice (lc_modifier c) r lcr_new
                        (build "missing_metric" None "Metric does not exist in the registry." Violation sig)
            | Some _ => lcr_new
            end in
  let* l1 := run_advisor_list (lc_modifier c) (lc_advisors c) r sig None s l0 in
  let l2 := add_advice_list (lc_modifier c) r l1 (signal_assoc_findings c s sig) in
  let* (pts', st1) :=
    match sm_points m with
    | Some (DPNumber ps) =>
        let* (ps', st1) := run_list (run_dpoint c RfNumberDP s sig) ps st in Ok (Some (DPNumber ps'), st1)
    | Some (DPHistogram ps) =>
        let* (ps', st1) := run_list (run_dpoint c RfHistogramDP s sig) ps st in Ok (Some (DPHistogram ps'), st1)
    | Some (DPExponential ps) =>
        let* (ps', st1) := run_list (run_dpoint c RfExponentialDP s sig) ps st in Ok (Some (DPExponential ps'), st1)
    | None => Ok (None, st)
    end in
  Ok ({| sm_name := sm_name m; sm_instrument := sm_instrument m; sm_unit := sm_unit m;
         sm_points := pts'; sm_result := Some l2; sm_resource := sm_resource m |},
      on_cumulative (cover_metric (sm_name m)) (maybe_add (Some l2) (inc_entity "metric" st1))).

(** sample_log.rs 49-148. *)
Definition run_log (c : checker) (sig : sample) (g : slog) (st : lstats) : res (slog * lstats) :=
  let r := RfLog g in
  let '(s, l0) :=
    if String.eqb (lg_event g) "" then (None, lcr_new)
    else match find_event c (lg_event g) with
         | None => (None, add_advice (lc_modifier c) r lcr_new
                      (build "missing_event" None
                         ("Event '" ++ lg_event g ++ "' does not exist in the registry.")%string
                         Violation sig))
         | Some e => (Some e, lcr_new)
         end in
  let* l1 := run_advisor_list (lc_modifier c) (lc_advisors c) r sig None s l0 in
  let l2 := add_advice_list (lc_modifier c) r l1 (signal_assoc_findings c s sig) in
  let* (as', st1) := run_attrs c s sig (lg_attrs g) st in
  Ok ({| lg_event := lg_event g; lg_attrs := as'; lg_result := Some l2; lg_resource := lg_resource g |},
      on_cumulative (cover_event (lg_event g)) (maybe_add (Some l2) (inc_entity "log" st1))).

(* used by run_sample: lib.rs 444-482 *)
Definition rmap {A B S} (f : A -> B) (r : res (A * S)) : res (B * S) :=
  let* (a, s) := r in Ok (f a, s).

(** lib.rs 444-482: dispatch; the parent signal is a clone of the sample itself
    (src/registry/live_check.rs 403) and there is no parent group. *)
Definition run_sample (c : checker) (s : sample) (st : lstats) : res (sample * lstats) :=
  match s with
  | SmpAttribute a => rmap SmpAttribute (run_attr c None s a st)
  | SmpSpan x => rmap SmpSpan (run_span c None s x st)
  | SmpSpanEvent x => rmap SmpSpanEvent (run_span_event c None s x st)
  | SmpSpanLink x => rmap SmpSpanLink (run_span_link c None s x st)
  | SmpResource x => rmap SmpResource (run_resource c None s x st)
  | SmpScope x => rmap SmpScope (run_scope c None s x st)
  | SmpMetric x => rmap SmpMetric (run_metric c s x st)
  | SmpLog x => rmap SmpLog (run_log c s x st)
  | SmpProfile x => rmap SmpProfile (run_profile c None s x st)
  end.

(** src/registry/live_check.rs 391-402: attach the most recent resource. *)
Definition attach (cur : option sresource) (s : sample) : sample :=
  match s with
  | SmpMetric m => SmpMetric {| sm_name := sm_name m; sm_instrument := sm_instrument m;
      sm_unit := sm_unit m; sm_points := sm_points m; sm_result := sm_result m; sm_resource := cur |}
  | SmpLog l => SmpLog {| lg_event := lg_event l; lg_attrs := lg_attrs l; lg_result := lg_result l;
      lg_resource := cur |}
  | SmpSpan s => SmpSpan {| sp_name := sp_name s; sp_attrs := sp_attrs s; sp_events := sp_events s;
      sp_links := sp_links s; sp_result := sp_result s; sp_resource := cur |}
  | _ => s
  end.
(* as above: src/registry/live_check.rs 391-402 *)
Definition next_resource (cur : option sresource) (s : sample) : option sresource :=
  match s with SmpResource r => Some r | _ => cur end.

(** src/registry/live_check.rs 390-413: the ingest loop. *)
Fixpoint run_all (c : checker) (cur : option sresource) (l : list sample) (st : lstats)
    : res (list sample * lstats) :=
  match l with
  | [] => Ok ([], st)
  | s :: r =>
      let cur' := next_resource cur s in
      let* (s', st1) := run_sample c (attach cur' s) st in
      let* (r', st2) := run_all c cur' r st1 in
      Ok (s' :: r', st2)
  end.

(** crates/weaver_config/src/live_check.rs [FailOnLevel::as_finding_threshold]. *)
(* used by threshold: src/registry/live_check.rs 384-421 *)
Inductive fail_on := FailViolation | FailImprovement | FailInformation | FailNone.
(* used by live_check: src/registry/live_check.rs 384-421 *)
Definition threshold (f : fail_on) : option level :=
  match f with
  | FailViolation => Some Violation | FailImprovement => Some Improvement
  | FailInformation => Some Information | FailNone => None
  end.

(** src/registry/live_check.rs 384-421: the whole command up to the exit code. *)
Definition live_check (c : checker) (no_stats : bool) (f : fail_on) (input : list sample)
    : res (list sample * lstats * nat) :=
  let st0 := if no_stats then Disabled else Cumulative (stats_new (lc_registry c)) in
  let* (out, st) := run_all c None input st0 in
  let st' := finalize st in
  let code := match threshold f with
              | Some t => if should_fail st' t then 1 else 0
              | None => 0
              end in
  Ok (out, st', code).
