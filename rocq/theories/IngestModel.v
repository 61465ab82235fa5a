(* Reading OTLP messages for a live check: src/registry/otlp/otlp_ingester.rs and
   src/registry/otlp/conversion.rs. Values of points, timestamps, ids, severities, bodies, status, flags and
   scope versions are read by no check and are left out, as in LiveModel. [any_value] and [maybe_to_json] are
   those of InferModel (conversion.rs 58-84). *)
From Coq Require Import String Ascii Bool Arith ZArith NArith List.
Import ListNotations.
From Verif Require Import Base Json SemTypes LiveModel LiveAdvisors.
From Verif Require InferModel.
Local Open Scope string_scope.
Notation key_value := InferModel.key_value.

(* ---------- messages (opentelemetry-proto; only the fields that are read) ---------- *)
(* one data point: its attributes, and those of each of its exemplars *)
(* used by odata: otlp_ingester.rs 49-252 *)
Record opoint := { op_attrs : list key_value; op_exemplars : list (list key_value) }.
(* used by ometric: otlp_ingester.rs 49-252 *)
Inductive odata :=
| OSum (monotonic : bool) (l : list opoint) | OGauge (l : list opoint) | OHistogram (l : list opoint)
| OExponential (l : list opoint) | OSummary | ONoData.
(* used by orequest: otlp_ingester.rs 49-252 *)
Record ometric := { om_name : string; om_unit : string; om_data : odata }.
(* used by orequest: otlp_ingester.rs 49-252 *)
Record ospan := {
  os_name : string; os_attrs : list key_value;
  os_events : list (string * list key_value); os_links : list (list key_value)
}.
(* used by orequest: otlp_ingester.rs 49-252 *)
Record olog := { ol_event : string; ol_attrs : list key_value }.
(* a profile names its attributes by their places in the dictionary of the message *)
(* used by orequest: otlp_ingester.rs 49-252 *)
Record oprofile := { of_indices : list Z }.
(* used by orequest: otlp_ingester.rs 49-252 *)
Record dictionary := { di_attributes : list (Z * InferModel.any_value); di_strings : list string }.
(* what one scope sent: the scope, if any, with its name and attributes, its schema URL, and the items *)
(* used by osent: otlp_ingester.rs 49-252 *)
Record oscope (A : Type) := { sc_scope : option (string * list key_value); sc_url : string; sc_items : list A }.
Arguments sc_scope {A}. Arguments sc_url {A}. Arguments sc_items {A}.
(* what one resource sent *)
(* used by orequest: otlp_ingester.rs 49-252 *)
Record osent (A : Type) := { se_resource : option (list key_value); se_scopes : list (oscope A) }.
Arguments se_resource {A}. Arguments se_scopes {A}.
(* otlp/mod.rs [OtlpRequest] *)
(* used by fill_buffer: otlp_ingester.rs 49-252 *)
Inductive orequest :=
| OLogs (l : list (osent olog)) | OMetrics (l : list (osent ometric)) | OTraces (l : list (osent ospan))
| OProfiles (d : option dictionary) (l : list (osent oprofile)) | OStop | OError.

(* ---------- conversion.rs ---------- *)
(* 87-99: sample_attribute_from_key_value *)
Definition attr_sample (kv : key_value) : sattr :=
  let value := InferModel.maybe_to_json (snd kv) in
  {| sa_name := fst kv; sa_value := value;
     sa_type := match value with Some v => infer_type v | None => None end; sa_result := None |}.
(* 28-56: otlp_instrumentation_scope_to_sample *)
Definition scope_sample (scope : option (string * list key_value)) (url : string) : option sscope :=
  match scope with
  | None => if String.eqb url "" then None else Some {| LiveModel.sc_name := ""; sc_attrs := []; sc_result := None |}
  | Some (n, l) => Some {| LiveModel.sc_name := n; sc_attrs := map attr_sample l; sc_result := None |}
  end.
(* 153-173: otlp_data_to_instrument *)
Definition data_instrument (d : odata) : sinstrument :=
  match d with
  | OSum m _ => Supported (if m then Counter else UpDownCounter)
  | OGauge _ => Supported Gauge
  | OHistogram _ => Supported Histogram
  | OExponential _ => Supported Histogram
  | OSummary => Unsupported "Summary"
  | ONoData => Unsupported "Unspecified"
  end.
(* 192-217, 250-351: a data point and its exemplars *)
Definition point_sample (p : opoint) : dpoint :=
  {| dp_attrs := map attr_sample (op_attrs p);
     dp_exemplars := map (fun l => {| ex_attrs := map attr_sample l; ex_result := None |}) (op_exemplars p);
     dp_result := None |}.
(* 176-189: otlp_data_to_data_points *)
Definition data_points_of (d : odata) : option data_points :=
  match d with
  | OSum _ l => Some (DPNumber (map point_sample l))
  | OGauge l => Some (DPNumber (map point_sample l))
  | OHistogram l => Some (DPHistogram (map point_sample l))
  | OExponential l => Some (DPExponential (map point_sample l))
  | OSummary | ONoData => None
  end.
(* 131-141 *)
Definition metric_sample (r : option sresource) (m : ometric) : sample :=
  SmpMetric {| sm_name := om_name m; sm_instrument := data_instrument (om_data m); sm_unit := om_unit m;
               sm_points := data_points_of (om_data m); sm_result := None; sm_resource := r |}.
(* 405-442 *)
Definition log_sample (r : option sresource) (l : olog) : sample :=
  SmpLog {| lg_event := ol_event l; lg_attrs := map attr_sample (ol_attrs l); lg_result := None; lg_resource := r |}.
(* otlp_ingester.rs 157-201 *)
Definition span_sample (r : option sresource) (s : ospan) : sample :=
  SmpSpan {| sp_name := os_name s; sp_attrs := map attr_sample (os_attrs s);
             sp_events := map (fun e => {| se_name := fst e; se_attrs := map attr_sample (snd e); se_result := None |}) (os_events s);
             sp_links := map (fun l => {| sl_attrs := map attr_sample l; sl_result := None |}) (os_links s);
             sp_result := None; sp_resource := r |}.
(* [slice.get(i as usize)] for an i32: a negative index is out of range *)
(* used by dictionary_attr: conversion.rs 364-383 *)
Definition get_at {A} (l : list A) (i : Z) : option A := if (i <? 0)%Z then None else nth_error l (Z.to_nat i).
(* conversion.rs 364-383: sample_attribute_from_key_value_and_unit *)
Definition dictionary_attr (d : dictionary) (kv : Z * InferModel.any_value) : sattr :=
  attr_sample (match get_at (di_strings d) (fst kv) with Some s => s | None => "" end, snd kv).
(* 377-402: otlp_profile_to_sample *)
Definition profile_sample (d : option dictionary) (r : option sresource) (p : oprofile) : sample :=
  SmpProfile {| pf_attrs := match d with
                            | None => []
                            | Some d => flat_map (fun i => match get_at (di_attributes d) i with
                                                           | Some kv => [dictionary_attr d kv]
                                                           | None => []
                                                           end) (of_indices p)
                            end;
                pf_result := None; pf_resource := r |}.

(* ---------- otlp_ingester.rs ---------- *)
(* 53-69: the resource of a message *)
Definition resource_sample (r : option (list key_value)) : option sresource :=
  option_map (fun l => {| sr_attrs := map attr_sample l; sr_result := None |}) r.
(* 50-87: one resource of a message: the resource, then each scope and its items *)
Definition scope_samples {A} (f : option sresource -> A -> sample) (r : option sresource) (s : oscope A) : list sample :=
  app (map SmpScope (opt_list (scope_sample (sc_scope s) (sc_url s)))) (map (f r) (sc_items s)).
(* as above: otlp_ingester.rs 50-87 *)
Definition sent_samples {A} (f : option sresource -> A -> sample) (s : osent A) : list sample :=
  let r := resource_sample (se_resource s) in
  app (map SmpResource (opt_list r)) (flat_map (scope_samples f r) (se_scopes s)).
(* 49-252: fill_buffer_from_request; nothing ends the reading *)
Definition fill_buffer (r : orequest) : option (list sample) :=
  match r with
  | OLogs l => Some (flat_map (sent_samples log_sample) l)
  | OMetrics l => Some (flat_map (sent_samples metric_sample) l)
  | OTraces l => Some (flat_map (sent_samples span_sample) l)
  | OProfiles d l => Some (flat_map (sent_samples (profile_sample d)) l)
  | OStop => None
  | OError => None
  end.
(* 255-270: the samples the iterator gives until it ends *)
Fixpoint ingest (l : list orequest) : list sample :=
  match l with
  | [] => []
  | r :: t => match fill_buffer r with Some s => app s (ingest t) | None => [] end
  end.
