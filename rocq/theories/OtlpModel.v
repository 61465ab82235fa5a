(** Model of crates/weaver_live_check/src/otlp_logger.rs and of the places where findings
    are emitted as OTLP log records during a live check.  The export of the records
    (batching, the connection, the resource of weaver itself) is not modelled. *)
From Coq Require Import String Ascii Bool Arith ZArith NArith DecimalString List.
From Verif Require Import Base Json SemTypes LiveModel.
Import ListNotations.
Local Open Scope string_scope.
Local Open Scope list_scope.

(* ---------- which findings are emitted ---------- *)

(* otlp_logger.rs 102-107: the arguments of emit_finding *)
Record emission := { em_finding : finding; em_sample : sref; em_signal : sample }.

(* advice/mod.rs 105-133: build_and_emit, emit_findings *)
Definition emits (r : sref) (sig : sample) (fs : list finding) : list emission :=
  map (fun f => {| em_finding := f; em_sample := r; em_signal := sig |}) fs.

(* The loop over the advisors (lib.rs 610-624 and the places run_advisor_list cites): every
   advisor emits each finding it returns (deprecated_advisor.rs 71-113, enum_advisor.rs 81,
   rego_advisor.rs 142, stability_advisor.rs 48-100, type_advisor.rs 549-727).
   Simplification: the emissions before an advisor error are dropped. *)
Fixpoint emit_advisors (advs : list advisor) (r : sref) (sig : sample) (a : option vattr) (g : option vsignal)
  : res (list emission) :=
  match advs with
  | [] => Ok []
  | adv :: rest =>
    let* fs := adv r sig a g in
    let* es := emit_advisors rest r sig a g in
    Ok (emits r sig fs ++ es)
  end.
(* as above: lib.rs 610-624, deprecated_advisor.rs 71-113, stability_advisor.rs 48-100 *)
Definition emit_own (c : checker) (r : sref) (g : option vsignal) (sig : sample) : res (list emission) :=
  emit_advisors (lc_advisors c) r sig None g.
(* as above: lib.rs 610-624, deprecated_advisor.rs 71-113, stability_advisor.rs 48-100 *)
Fixpoint emit_list {T} (emit : T -> res (list emission)) (l : list T) : res (list emission) :=
  match l with
  | [] => Ok []
  | x :: r => let* a := emit x in let* b := emit_list emit r in Ok (a ++ b)
  end.

(* sample_attribute.rs 185-242 *)
Definition emit_attr (c : checker) (g : option vsignal) (sig : sample) (a : sattr) : res (list emission) :=
  let r := RfAttribute a in
  let sa := match find_attribute c (sa_name a) with Some x => Some x | None => find_template c (sa_name a) end in
  let first :=
    match sa with
    | None => [build "missing_attribute" (Some (JObj [("attribute_key", JStr (sa_name a))]))
                 ("Attribute '" ++ sa_name a ++ "' does not exist in the registry.") Violation sig]
    | Some x =>
      if is_template (vattr_type x) then
        [build "template_attribute"
           (Some (JObj [("attribute_key", JStr (sa_name a)); ("template_name", JStr (vattr_name x))]))
           ("Attribute '" ++ sa_name a ++ "' is a template") Information sig]
      else []
    end%string in
  let* es := emit_advisors (lc_advisors c) r sig sa g in
  Ok (emits r sig first ++ es).
(* as above: sample_attribute.rs 185-242 *)
Definition emit_attrs c g sig := emit_list (emit_attr c g sig).

(* sample_metric.rs 253-271, 73-89, 133-149, 208-224 *)
Definition emit_exemplar c g sig (e : exemplar) : res (list emission) :=
  let* l := emit_own c (RfExemplar e) g sig in
  let* m := emit_attrs c g sig (ex_attrs e) in Ok (l ++ m).
(* as above: sample_metric.rs 253-271, sample_metric.rs 73-89, sample_metric.rs 133-149 *)
Definition emit_dpoint c (mk : dpoint -> sref) g sig (p : dpoint) : res (list emission) :=
  let* l := emit_own c (mk p) g sig in
  let* m := emit_attrs c g sig (dp_attrs p) in
  let* n := emit_list (emit_exemplar c g sig) (dp_exemplars p) in Ok (l ++ m ++ n).
(* sample_span.rs 77-180 *)
Definition emit_span_event c g sig (e : sspan_event) : res (list emission) :=
  let* l := emit_own c (RfSpanEvent e) g sig in
  let* m := emit_attrs c g sig (se_attrs e) in Ok (l ++ m).
(* as above: sample_span.rs 77-180 *)
Definition emit_span_link c g sig (e : sspan_link) : res (list emission) :=
  let* l := emit_own c (RfSpanLink e) g sig in
  let* m := emit_attrs c g sig (sl_attrs e) in Ok (l ++ m).
(* as above: sample_span.rs 77-180 *)
Definition emit_span c g sig (s : sspan) : res (list emission) :=
  let* l := emit_own c (RfSpan s) g sig in
  let* m := emit_attrs c g sig (sp_attrs s) in
  let* n := emit_list (emit_span_event c g sig) (sp_events s) in
  let* o := emit_list (emit_span_link c g sig) (sp_links s) in Ok (l ++ m ++ n ++ o).
(* sample_resource.rs 35-51, sample_instrumentation_scope.rs 47-60, sample_profile.rs 44-58 *)
Definition emit_resource c g sig (s : sresource) : res (list emission) :=
  let* l := emit_own c (RfResource s) g sig in
  let* m := emit_attrs c g sig (sr_attrs s) in Ok (l ++ m).
(* as above: sample_resource.rs 35-51, sample_instrumentation_scope.rs 47-60, sample_profile.rs 44-58 *)
Definition emit_scope c g sig (s : sscope) : res (list emission) :=
  let* l := emit_own c (RfScope s) g sig in
  let* m := emit_attrs c g sig (sc_attrs s) in Ok (l ++ m).
(* as above: sample_resource.rs 35-51, sample_instrumentation_scope.rs 47-60, sample_profile.rs 44-58 *)
Definition emit_profile c g sig (s : sprofile) : res (list emission) :=
  let* l := emit_own c (RfProfile s) g sig in
  let* m := emit_attrs c g sig (pf_attrs s) in Ok (l ++ m).

(* sample_metric.rs 301-413 *)
Definition emit_metric (c : checker) (sig : sample) (m : smetric) : res (list emission) :=
  let r := RfMetric m in
  let s := find_metric c (sm_name m) in
  let first := match s with
               | None => [build "missing_metric" None "Metric does not exist in the registry." Violation sig]
               | Some _ => []
               end in
  let* own := emit_own c r s sig in
  let* pts :=
    match sm_points m with
    | Some (DPNumber ps) => emit_list (emit_dpoint c RfNumberDP s sig) ps
    | Some (DPHistogram ps) => emit_list (emit_dpoint c RfHistogramDP s sig) ps
    | Some (DPExponential ps) => emit_list (emit_dpoint c RfExponentialDP s sig) ps
    | None => Ok []
    end in
  Ok (emits r sig first ++ own ++ emits r sig (signal_assoc_findings c s sig) ++ pts).
(* sample_log.rs 49-148 *)
Definition emit_log (c : checker) (sig : sample) (g : slog) : res (list emission) :=
  let r := RfLog g in
  let '(s, first) :=
    if String.eqb (lg_event g) "" then (None, [])
    else match find_event c (lg_event g) with
         | None => (None, [build "missing_event" None
                             ("Event '" ++ lg_event g ++ "' does not exist in the registry.")%string Violation sig])
         | Some e => (Some e, [])
         end in
  let* own := emit_own c r s sig in
  let* attrs := emit_attrs c s sig (lg_attrs g) in
  Ok (emits r sig first ++ own ++ emits r sig (signal_assoc_findings c s sig) ++ attrs).

(* lib.rs 444-482 *)
Definition emit_sample (c : checker) (s : sample) : res (list emission) :=
  match s with
  | SmpAttribute a => emit_attr c None s a
  | SmpSpan x => emit_span c None s x
  | SmpSpanEvent x => emit_span_event c None s x
  | SmpSpanLink x => emit_span_link c None s x
  | SmpResource x => emit_resource c None s x
  | SmpScope x => emit_scope c None s x
  | SmpMetric x => emit_metric c s x
  | SmpLog x => emit_log c s x
  | SmpProfile x => emit_profile c None s x
  end.
(* src/registry/live_check.rs 390-413 *)
Fixpoint emit_run (c : checker) (cur : option sresource) (l : list sample) : res (list emission) :=
  match l with
  | [] => Ok []
  | s :: r =>
    let cur' := next_resource cur s in
    let* a := emit_sample c (attach cur' s) in
    let* b := emit_run c cur' r in
    Ok (a ++ b)
  end.

(* ---------- what a log record says ---------- *)

(* opentelemetry::logs::AnyValue and Severity, as far as they are used *)
(* used by json_value_to_any_value: otlp_logger.rs 203-226 *)
Inductive any_value := AString (s : string) | AInt (z : Z) | ADouble (bits : N) | ABool (b : bool) | AList (l : list any_value).
(* used by finding_level_to_severity: crates/weaver_live_check/src/otlp_logger.rs 168-174 *)
Inductive severity := SevError | SevWarn | SevInfo.

Section Record_.
  (* serde_json's as_f64 of an integer *)
  Variable to_f64 : Z -> N.

  (* i64 *)
  (* used by json_value_to_any_value: otlp_logger.rs 203-226 *)
  Definition is_i64 (z : Z) : bool := ((- 2 ^ 63 <=? z) && (z <? 2 ^ 63))%Z.
  (* otlp_logger.rs 203-226: json_value_to_any_value *)
  Fixpoint json_value_to_any_value (j : json) : option any_value :=
    match j with
    | JStr s => Some (AString s)
    | JNum (NInt z) => Some (if is_i64 z then AInt z else ADouble (to_f64 z))
    | JNum (NFloat b) => Some (ADouble b)
    | JBool b => Some (ABool b)
    | JArr l =>
      match flat_map (fun x => match json_value_to_any_value x with Some v => [v] | None => [] end) l with
      | [] => None
      | vs => Some (AList vs)
      end
    | JNull | JObj _ => None
    end.

  (* otlp_logger.rs 176-190: flatten_resource_attributes *)
  Definition flatten_resource_attributes (l : list sattr) : list (string * any_value) :=
    flat_map (fun a => match sa_value a with
                       | Some j => match json_value_to_any_value j with Some v => [(sa_name a, v)] | None => [] end
                       | None => []
                       end) l.

  (* usize::to_string *)
  (* used by flatten_json_recursive: otlp_logger.rs 228-262 *)
  Definition index_text (n : nat) : string := NilZero.string_of_uint (Nat.to_uint n).
  (* 233-237, 243-247 *)
  Definition extend_prefix (prefix key : string) : string :=
    if String.eqb prefix "" then key else (prefix ++ "." ++ key)%string.
  (* otlp_logger.rs 228-262: flatten_json_recursive; the Vec it pushes to is its result *)
  Fixpoint flatten_json_recursive (j : json) (prefix : string) : list (string * any_value) :=
    match j with
    | JObj m => flat_map (fun kv => flatten_json_recursive (snd kv) (extend_prefix prefix (fst kv))) m
    | JArr l =>
      (fix go (l : list json) (i : nat) : list (string * any_value) :=
         match l with
         | [] => []
         | x :: r => flatten_json_recursive x (extend_prefix prefix (index_text i)) ++ go r (S i)
         end) l 0
    | _ =>
      if String.eqb prefix "" then []
      else match json_value_to_any_value j with Some v => [(prefix, v)] | None => [] end
    end.
  (* 192-201 *)
  Definition flatten_finding_context (j : json) : list (string * any_value) := flatten_json_recursive j "".

  (* 157-174 *)
  Definition level_text (l : level) : string :=
    match l with Violation => "violation" | Improvement => "improvement" | Information => "information" end.
  (* crates/weaver_live_check/src/otlp_logger.rs 168-174 *)
  Definition finding_level_to_severity (l : level) : severity :=
    match l with Violation => SevError | Improvement => SevWarn | Information => SevInfo end.
  (* generated/attributes.rs 236-259: SignalType parses exactly these *)
  Definition parse_signal_type (s : string) : option string :=
    if existsb (String.eqb s) ["span"; "resource"; "metric"; "log"; "profile"] then Some s else None.
  (* lib.rs 360-381 with the names of generated/attributes.rs 151-199 *)
  Definition sample_type (r : sref) : string :=
    match r with
    | RfAttribute _ => "attribute" | RfSpan _ => "span" | RfSpanEvent _ => "span_event" | RfSpanLink _ => "span_link"
    | RfResource _ => "resource" | RfScope _ => "instrumentation_scope" | RfMetric _ => "metric"
    | RfNumberDP _ => "number_data_point" | RfHistogramDP _ => "histogram_data_point"
    | RfExponentialDP _ => "exponential_histogram_data_point" | RfExemplar _ => "exemplar"
    | RfLog _ => "log" | RfProfile _ => "profile"
    end.

  (* used by emit_finding: generated/events.rs 52-105, otlp_logger.rs 102-140, generated/attributes.rs 50-118 *)
  Record log_record := {
    lr_event : string; lr_severity : severity; lr_body : string; lr_attributes : list (string * any_value)
  }.
  (* generated/events.rs 52-105 (populate_finding_log_record) as called by otlp_logger.rs
     102-140.  A finding id is turned into a FindingId and back, which gives the same text
     (generated/attributes.rs 50-118: known names and Custom). *)
  Definition emit_finding (e : emission) : log_record :=
    let f := em_finding e in
    {| lr_event := "weaver.live_check.finding";
       lr_severity := finding_level_to_severity (f_level f);
       lr_body := f_message f;
       lr_attributes :=
         map (fun kv => (("weaver.finding.context." ++ fst kv)%string, snd kv))
             (match f_context f with Some j => flatten_finding_context j | None => [] end)
         ++ [("weaver.finding.id", AString (f_id f)); ("weaver.finding.level", AString (level_text (f_level f)))]
         ++ map (fun kv => (("weaver.finding.resource.attribute." ++ fst kv)%string, snd kv))
              (match sample_resource (em_signal e) with
               | Some r => flatten_resource_attributes (sr_attrs r)
               | None => []
               end)
         ++ [("weaver.finding.sample.type", AString (sample_type (em_sample e)))]
         ++ (match f_signal_name f with Some n => [("weaver.finding.signal.name", AString n)] | None => [] end)
         ++ (match f_signal_type f with
             | Some t => match parse_signal_type t with
                         | Some t' => [("weaver.finding.signal.type", AString t')]
                         | None => []
                         end
             | None => []
             end) |}.
End Record_.
