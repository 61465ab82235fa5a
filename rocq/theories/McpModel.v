(** Model of the live_check tool of crates/weaver_mcp/src/service.rs.  The other tools of
    the service are modelled in SearchModel.v.  Answers are kept as values: the JSON text
    serde_json makes of them is not modelled. *)
From Coq Require Import String Ascii Bool Arith List.
From Verif Require Import Base Json SemTypes LiveModel LiveAdvisors.
Import ListNotations.
Local Open Scope string_scope.
Local Open Scope list_scope.

(* service.rs 115-119: the three members kept of a finding *)
Record cfinding := { cf_id : string; cf_level : level; cf_message : string }.

(* service.rs 108-122: extract_findings *)
Definition extract_findings (r : option lcr) : list cfinding :=
  match r with
  | None => []
  | Some l => map (fun f => {| cf_id := f_id f; cf_level := f_level f; cf_message := f_message f |}) (all_advice l)
  end.

(* service.rs 124-139: extract_attr_findings; "name" and "findings" of each attribute *)
Definition extract_attr_findings (attrs : list sattr) : list (string * list cfinding) :=
  flat_map (fun a => match extract_findings (sa_result a) with
                     | [] => []
                     | fs => [(sa_name a, fs)]
                     end) attrs.

(* one object of the array; a member that is absent is None *)
(* used by attrs_only: service.rs 164-167, service.rs 171-174, service.rs 177-180 *)
Record centry := {
  ce_name : option string;
  ce_type : option string;
  ce_findings : option (list cfinding);
  ce_attributes : option (list (string * list cfinding))
}.
(* used by attrs_only: service.rs 164-167, service.rs 171-174, service.rs 177-180 *)
Definition is_nil {A} (l : list A) : bool := match l with [] => true | _ => false end.

(* the object of a sample of which only the attributes are looked at (164-167, 171-174,
   177-180, 183-186, 207-210, 213-216) *)
Definition attrs_only (t : string) (attrs : list sattr) : list centry :=
  let parts := extract_attr_findings attrs in
  if is_nil parts then []
  else [{| ce_name := None; ce_type := Some t; ce_findings := None; ce_attributes := Some parts |}].

(* service.rs 141-221: collect_compact_findings, one sample *)
Definition compact (s : sample) : list centry :=
  match s with
  | SmpAttribute a =>
    let fs := extract_findings (sa_result a) in
    if is_nil fs then []
    else [{| ce_name := Some (sa_name a); ce_type := None; ce_findings := Some fs; ce_attributes := None |}]
  | SmpSpan x =>
    let fs := extract_findings (sp_result x) in
    let afs := extract_attr_findings (sp_attrs x) in
    app (if negb (is_nil fs) || negb (is_nil afs)
         then [{| ce_name := None; ce_type := Some "span"; ce_findings := Some fs; ce_attributes := Some afs |}]
         else [])
        (flat_map (fun e => attrs_only "span_event" (se_attrs e)) (sp_events x))
  | SmpSpanEvent e => attrs_only "span_event" (se_attrs e)
  | SmpSpanLink l => attrs_only "span_link" (sl_attrs l)
  | SmpResource r => attrs_only "resource" (sr_attrs r)
  | SmpScope c =>
    let fs := extract_findings (sc_result c) in
    let afs := extract_attr_findings (sc_attrs c) in
    if negb (is_nil fs) || negb (is_nil afs)
    then [{| ce_name := Some (sc_name c); ce_type := Some "instrumentation_scope"; ce_findings := Some fs;
             ce_attributes := Some afs |}]
    else []
  | SmpMetric m =>
    let fs := extract_findings (sm_result m) in
    if is_nil fs then []
    else [{| ce_name := Some (sm_name m); ce_type := Some "metric"; ce_findings := Some fs; ce_attributes := None |}]
  | SmpLog l => attrs_only "log" (lg_attrs l)
  | SmpProfile p => attrs_only "profile" (pf_attrs p)
  end.
(* crates/weaver_mcp/src/service.rs 142-221 *)
Definition collect_compact_findings (samples : list sample) : list centry := flat_map compact samples.

(* service.rs 43-53, 80-95: the registry and what RegoAdvisor::new makes of the configured
   policies, preprocessor and data; the advisor itself is a parameter *)
Record service := { sv_registry : v2reg; sv_rego : checker -> res advisor }.
(* live_checker.rs 147-150: add_advisor *)
Definition add_advisor (c : checker) (a : advisor) : checker :=
  {| lc_registry := lc_registry c; lc_attributes := lc_attributes c; lc_templates := lc_templates c;
     lc_metrics := lc_metrics c; lc_events := lc_events c; lc_entities := lc_entities c;
     lc_advisors := app (lc_advisors c) [a]; lc_modifier := lc_modifier c |}.
(* service.rs 80-106 *)
Definition create_live_checker (show : json_text) (sv : service) : res checker :=
  let c := checker_new (RegV2 (sv_registry sv)) (default_advisors show) None in
  let* a := sv_rego sv c in
  Ok (add_advisor c a).

(* What deserialisation gives: the resource of a sample is never read
   (sample_log.rs 45, sample_metric.rs 297, sample_profile.rs 30, sample_span.rs 63) *)
Definition deserialized (s : sample) : sample :=
  match s with
  | SmpProfile p => SmpProfile {| pf_attrs := pf_attrs p; pf_result := pf_result p; pf_resource := None |}
  | _ => attach None s
  end.

(* service.rs 344-365 *)
Inductive output_mode := OutFull | OutFindingsOnly.
(* as above: service.rs 344-365 *)
Inductive mcp_answer :=
| NoChecker (e : string)
| CheckFailed (e : string)
| AllSamples (samples : list sample)
| OnlyFindings (findings : list centry) (total_samples_checked samples_with_findings : nat).

(* service.rs 509-517: the loop; a fresh clone of each sample is its own parent signal,
   which run_sample does *)
Definition check_samples (c : checker) (samples : list sample) : res (list sample * lstats) :=
  run_list (run_sample c) samples Disabled.

(* service.rs 499-534: live_check *)
Definition mcp_live_check (show : json_text) (sv : service) (mode : output_mode) (input : list sample) : mcp_answer :=
  match create_live_checker show sv with
  | Err e => NoChecker e
  | Ok c =>
    match check_samples c (map deserialized input) with
    | Err e => CheckFailed e
    | Ok (samples, _) =>
      match mode with
      | OutFull => AllSamples samples
      | OutFindingsOnly =>
        let findings := collect_compact_findings samples in
        OnlyFindings findings (length samples) (length findings)
      end
    end
  end.
