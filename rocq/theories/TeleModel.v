(* The numbers, ids, times, texts and codes of received telemetry that no check reads but that the
   report, the templates and the policies show: src/registry/otlp/conversion.rs, and the spans of
   src/registry/otlp/otlp_ingester.rs.  Simplified: attributes are those of IngestModel and left out
   here; f64 is its bit pattern; the text of an instant (chrono) and the Debug text of a log body
   other than a string are parameters. *)
From Coq Require Import String Ascii Bool Arith ZArith NArith List.
From Verif Require Import Json.
From Verif Require InferModel.
Import ListNotations.
Open Scope list_scope.

(* the lower-case digit of a number below 16: Rust's {:x} *)
(* used by hex_digits: conversion.rs 222-243 *)
Definition hex_digit (n : N) : ascii :=
  ascii_of_N (if (n <? 10)%N then 48 + n else 87 + n)%N.
(* the digits of a number without leading zeros, before [acc]; [fuel] bounds their number *)
(* used by format_hex: conversion.rs 222-243 *)
Fixpoint hex_digits (fuel : nat) (n : N) (acc : string) : string :=
  match fuel with
  | O => acc
  | S f => let acc' := String (hex_digit (n mod 16)) acc in
           if (n / 16 =? 0)%N then acc' else hex_digits f (n / 16) acc'
  end.
(* padding with zeros on the left up to a width: the format flag 0 *)
(* used by format_hex: conversion.rs 222-243 *)
Fixpoint zeros (n : nat) (s : string) : string :=
  match n with O => s | S n' => String "0" (zeros n' s) end.
(* format!("{:0wx}", n): conversion.rs 224-227, 236-239 *)
Definition format_hex (w : nat) (n : N) : string :=
  let d := hex_digits (S (N.to_nat (N.log2 n))) n "" in
  zeros (w - String.length d) d.
(* u64::from_be_bytes and u128::from_be_bytes: conversion.rs 226, 238 *)
Fixpoint from_be_bytes (acc : N) (s : string) : N :=
  match s with
  | EmptyString => acc
  | String c r => from_be_bytes (acc * 256 + N_of_ascii c)%N r
  end.
(* conversion.rs 222-231 *)
Definition span_id_hex (id : string) : string :=
  if Nat.eqb (String.length id) 8 then format_hex 16 (from_be_bytes 0 id) else "".
(* conversion.rs 234-243 *)
Definition trace_id_hex (id : string) : string :=
  if Nat.eqb (String.length id) 16 then format_hex 32 (from_be_bytes 0 id) else "".
(* conversion.rs 213-219; the instants are u64, those that are no i64 have no text *)
Definition unix_nanos_to_utc (utc : N -> string) (t : N) : string :=
  if (t <? 2 ^ 63)%N then utc t else "".

(* number_data_point::Value and exemplar::Value: conversion.rs 201-209, 336-344 *)
Inductive onumber := ODouble (bits : N) | OInt (z : Z).
(* conversion.rs 201-209, 336-344 *)
Definition number_json (v : option onumber) : json :=
  match v with
  | Some (ODouble d) => InferModel.json_of_double d
  | Some (OInt z) => JNum (NInt z)
  | None => JNull
  end.

(* Exemplar: conversion.rs 192-217 *)
Record oexemplar := { oe_value : option onumber; oe_time : N; oe_span : string; oe_trace : string }.
(* SampleExemplar: conversion.rs 192-217 *)
Record sexemplar := { sx_value : json; sx_time : string; sx_span : string; sx_trace : string }.
(* conversion.rs 192-217 *)
Definition exemplar_sample (utc : N -> string) (e : oexemplar) : sexemplar :=
  {| sx_value := number_json (oe_value e); sx_time := unix_nanos_to_utc utc (oe_time e);
     sx_span := span_id_hex (oe_span e); sx_trace := trace_id_hex (oe_trace e) |}.

(* NumberDataPoint: conversion.rs 320-351 *)
Record onumber_point := { np_value : option onumber; np_flags : N; np_exemplars : list oexemplar }.
(* SampleNumberDataPoint: conversion.rs 320-351 *)
Record snumber_point := { ns_value : json; ns_flags : N; ns_exemplars : list sexemplar }.
(* conversion.rs 320-351: otlp_number_data_points *)
Definition number_points (utc : N -> string) (l : list onumber_point) : list snumber_point :=
  map (fun p => {| ns_value := number_json (np_value p); ns_flags := np_flags p;
                   ns_exemplars := map (exemplar_sample utc) (np_exemplars p) |}) l.

(* HistogramDataPoint: conversion.rs 290-317 *)
Record ohistogram := {
  oh_count : N; oh_sum : option N; oh_counts : list N; oh_bounds : list N; oh_min : option N; oh_max : option N;
  oh_flags : N; oh_exemplars : list oexemplar
}.
(* SampleHistogramDataPoint: conversion.rs 290-317 *)
Record shistogram := {
  sh_count : N; sh_sum : option N; sh_counts : list N; sh_bounds : list N; sh_min : option N; sh_max : option N;
  sh_flags : N; sh_exemplars : list sexemplar
}.
(* conversion.rs 290-317: otlp_histogram_data_points *)
Definition histogram_points (utc : N -> string) (l : list ohistogram) : list shistogram :=
  map (fun p => {| sh_count := oh_count p; sh_sum := oh_sum p; sh_counts := oh_counts p; sh_bounds := oh_bounds p;
                   sh_min := oh_min p; sh_max := oh_max p; sh_flags := oh_flags p;
                   sh_exemplars := map (exemplar_sample utc) (oh_exemplars p) |}) l.

(* Buckets and SampleExponentialHistogramBuckets: an offset and counts: conversion.rs 250-262 *)
Record buckets := { bu_offset : Z; bu_counts : list N }.
(* ExponentialHistogramDataPoint: conversion.rs 246-287 *)
Record oexponential := {
  oz_count : N; oz_sum : option N; oz_scale : Z; oz_zero : N; oz_positive : option buckets; oz_negative : option buckets;
  oz_flags : N; oz_min : option N; oz_max : option N; oz_threshold : N; oz_exemplars : list oexemplar
}.
(* SampleExponentialHistogramDataPoint: conversion.rs 246-287 *)
Record sexponential := {
  sz_count : N; sz_sum : option N; sz_scale : Z; sz_zero : N; sz_positive : option buckets; sz_negative : option buckets;
  sz_flags : N; sz_min : option N; sz_max : option N; sz_threshold : N; sz_exemplars : list sexemplar
}.
(* conversion.rs 246-287: otlp_exponential_histogram_data_points *)
Definition exponential_points (utc : N -> string) (l : list oexponential) : list sexponential :=
  map (fun p =>
    {| sz_count := oz_count p; sz_sum := oz_sum p; sz_scale := oz_scale p; sz_zero := oz_zero p;
       sz_positive := option_map (fun b => {| bu_offset := bu_offset b; bu_counts := bu_counts b |}) (oz_positive p);
       sz_negative := option_map (fun b => {| bu_offset := bu_offset b; bu_counts := bu_counts b |}) (oz_negative p);
       sz_flags := oz_flags p; sz_min := oz_min p; sz_max := oz_max p; sz_threshold := oz_threshold p;
       sz_exemplars := map (exemplar_sample utc) (oz_exemplars p) |}) l.

(* LogRecord: conversion.rs 405-442 *)
Record olog_record := {
  lr_severity : Z; lr_severity_text : string; lr_body : option InferModel.any_value; lr_trace : string; lr_span : string
}.
(* SampleLog: conversion.rs 405-442 *)
Record slog_record := {
  ls_severity : option Z; ls_severity_text : option string; ls_body : option string;
  ls_trace : option string; ls_span : option string
}.
(* format!("{:?}", val) of any_value::Value; [quoted] is Debug of a String, [other] of the other
   kinds: conversion.rs 410-413 *)
Definition debug_value (quoted : string -> string) (other : InferModel.any_value -> string) (v : InferModel.any_value)
  : option string :=
  match v with
  | InferModel.AnyNone => None
  | InferModel.AnyString s => Some ("StringValue(" ++ quoted s ++ ")")%string
  | v => Some (other v)
  end.
(* an id without text is no id: conversion.rs 419-434 *)
Definition some_id (s : string) : option string := if String.eqb s "" then None else Some s.
(* conversion.rs 405-442: otlp_log_record_to_sample_log *)
Definition log_record_sample (quoted : string -> string) (other : InferModel.any_value -> string) (l : olog_record)
  : slog_record :=
  {| ls_severity := Some (lr_severity l); ls_severity_text := Some (lr_severity_text l);
     ls_body := match lr_body l with Some v => debug_value quoted other v | None => None end;
     ls_trace := some_id (trace_id_hex (lr_trace l)); ls_span := some_id (span_id_hex (lr_span l)) |}.

(* StatusCode of a sample: conversion.rs 117-121 *)
Inductive status_code := StUnset | StOk | StError.
(* prost's status.code(): an unknown number is the default: conversion.rs 116 *)
Definition otlp_code (z : Z) : status_code :=
  (if z =? 1 then StOk else if z =? 2 then StError else StUnset)%Z.
(* conversion.rs 112-127: status_from_otlp_status *)
Definition status_sample (s : option (Z * string)) : option (status_code * string) :=
  option_map (fun p => (otlp_code (fst p), snd p)) s.
(* prost's span.kind(): an unknown number is the default: otlp_ingester.rs 147 *)
Definition otlp_kind (z : Z) : InferModel.otlp_kind :=
  (if z =? 1 then InferModel.OkInternal else if z =? 2 then InferModel.OkServer else if z =? 3 then InferModel.OkClient
   else if z =? 4 then InferModel.OkProducer else if z =? 5 then InferModel.OkConsumer else InferModel.OkUnspecified)%Z.
(* otlp_ingester.rs 147-151 *)
Definition kind_sample (z : Z) := InferModel.kind_of_otlp (otlp_kind z).

(* InstrumentationScope and what is kept of it beside its attributes: conversion.rs 33-56 *)
Record scope_meta := { me_name : string; me_version : string; me_url : string; me_dropped : N }.
(* conversion.rs 33-56; a scope is its name, its version and the number of dropped attributes *)
Definition scope_meta_sample (scope : option (string * string * N)) (url : string) : option scope_meta :=
  match scope with
  | None => if String.eqb url "" then None
            else Some {| me_name := ""; me_version := ""; me_url := url; me_dropped := 0 |}
  | Some (n, v, d) => Some {| me_name := n; me_version := v; me_url := url; me_dropped := d |}
  end.
