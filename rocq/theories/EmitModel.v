(* Emitting example telemetry for a registry: crates/weaver_emit/src (attributes.rs, spans.rs, metrics.rs,
   logs.rs, lib.rs). What is modelled is what is handed to the OpenTelemetry API; the SDK and the exporter that
   carry it (batches, limits, duplicate keys) are not in the repository and are described in EmitSpec. *)
From Coq Require Import String Ascii Bool Arith ZArith NArith List.
Import ListNotations.
From Verif Require Import Base Json SemTypes.
From Verif Require InferModel.
From Verif Require Import Resolved LiveModel.
Local Open Scope string_scope.
Notation key_value := InferModel.key_value.

(* opentelemetry::Value and opentelemetry::Array *)
(* used by value_of_spec: attributes.rs 43-168 *)
Inductive ovalue :=
| OvBool (b : bool) | OvI64 (z : Z) | OvF64 (d : N) | OvString (s : string)
| OvBools (l : list bool) | OvI64s (l : list Z) | OvF64s (l : list N) | OvStrings (l : list string).

(* the bits of 3.13 and 3.15 *)
Definition f3_13 : N := 4614230552216852234%N.
(* used by prim_value: attributes.rs 43-168 *)
Definition f3_15 : N := 4614275588213125939%N.
(* used by prim_value: attributes.rs 43-168 *)
Definition first_or {A} (l : list A) (d : A) : A := match l with [] => d | x :: _ => x end.

(* used by prim_value: attributes.rs 43-168 *)
Definition value_of_spec (v : value_spec) : ovalue :=
  match v with VInt z => OvI64 z | VDouble d => OvF64 d | VString s => OvString s | VBool b => OvBool b end.

(* attributes.rs 43-168: the value of an attribute of a primitive or array type *)
Definition prim_value (p : prim) (e : option examples) : ovalue :=
  match p with
  | PBoolean => OvBool true
  | PInt => match e with
            | Some (EInt z) => OvI64 z
            | Some (EInts l) => OvI64 (first_or l 42%Z)
            | _ => OvI64 42%Z
            end
  | PDouble => match e with
               | Some (EDouble d) => OvF64 d
               | Some (EDoubles l) => OvF64 (first_or l f3_13)
               | _ => OvF64 f3_13
               end
  | PString => match e with
               | Some (EString s) => OvString s
               | Some (EStrings l) => OvString (first_or l "value")
               | _ => OvString "value"
               end
  | PAny => match e with
            | Some (EBool b) => OvBool b
            | Some (EBools l) => OvBool (first_or l true)
            | Some (EListBools l) => OvBools (first_or l [true; false])
            | Some (EInt z) => OvI64 z
            | Some (EInts l) => OvI64 (first_or l 42%Z)
            | Some (EListInts l) => OvI64s (first_or l [42%Z; 43%Z])
            | Some (EDouble d) => OvF64 d
            | Some (EDoubles l) => OvF64 (first_or l f3_13)
            | Some (EListDoubles l) => OvF64s (first_or l [f3_13; f3_15])
            | Some (EString s) => OvString s
            | Some (EStrings l) => OvString (first_or l "value")
            | Some (EListStrings l) => OvStrings (first_or l ["value1"; "value2"])
            | Some (EAny v) => value_of_spec v
            | Some (EAnys l) => match l with v :: _ => value_of_spec v | [] => OvString "value" end
            | None => OvString "value"
            end
  | PBooleans => OvBools [true; false]
  | PInts => match e with
             | Some (EInts l) => OvI64s l
             | Some (EListInts l) => OvI64s (first_or l [42%Z; 43%Z])
             | _ => OvI64s [42%Z; 43%Z]
             end
  | PDoubles => match e with
                | Some (EDoubles l) => OvF64s l
                | Some (EListDoubles l) => OvF64s (first_or l [f3_13; f3_15])
                | _ => OvF64s [f3_13; f3_15]
                end
  | PStrings => match e with
                | Some (EStrings l) => OvStrings l
                | Some (EListStrings l) => OvStrings (first_or l ["value1"; "value2"])
                | _ => OvStrings ["value1"; "value2"]
                end
  end.
(* attributes.rs 180-196: the value of a template attribute *)
Definition template_value (p : prim) : ovalue :=
  match p with
  | PString => OvString "template_value"
  | PInt => OvI64 42%Z
  | PDouble => OvF64 f3_13
  | PBoolean => OvBool true
  | PAny => OvString "template_any_value"
  | PStrings => OvStrings ["template_value1"; "template_value2"]
  | PInts => OvI64s [42%Z; 43%Z]
  | PDoubles => OvF64s [f3_13; f3_15]
  | PBooleans => OvBools [true; false]
  end.
(* attributes.rs 36-200: internal_get_attribute_name_value; [members[0]] panics when there is no member *)
Definition name_value (name : string) (t : attr_type) (e : option examples) : res (string * ovalue) :=
  match t with
  | TPrim p => Ok (name, prim_value p e)
  | TEnum members => match members with m :: _ => Ok (name, value_of_spec (ee_value m)) | [] => Err "panic" end
  | TTemplate p => Ok (name ++ ".key", template_value p)
  end.
(* logs.rs 13-39: value_to_any_value; the exporter does the same for spans and data points *)
Definition any_of (v : ovalue) : InferModel.any_value :=
  match v with
  | OvBool b => InferModel.AnyBool b
  | OvI64 z => InferModel.AnyInt z
  | OvF64 d => InferModel.AnyDouble d
  | OvString s => InferModel.AnyString s
  | OvBools l => InferModel.AnyArray (map InferModel.AnyBool l)
  | OvI64s l => InferModel.AnyArray (map InferModel.AnyInt l)
  | OvF64s l => InferModel.AnyArray (map InferModel.AnyDouble l)
  | OvStrings l => InferModel.AnyArray (map InferModel.AnyString l)
  end.

(* ---------- registries ---------- *)
(* a v1 group: what a live check reads, and what else is emitted *)
(* used by eregistry: lib.rs 177-258 *)
Record egroup := { eg_group : vgroup; eg_kind : option span_kind; eg_brief : string }.
(* a use of an attribute by a v2 signal *)
(* used by emetric: lib.rs 177-258 *)
Record eattr := { ea_base : v2attr; ea_examples : option examples; ea_req : req_level }.
(* used by ereg2: lib.rs 177-258 *)
Record emetric := {
  em_name : string; em_instrument : instrument; em_unit : string; em_brief : string;
  em_deprecated : option deprecated; em_stability : stability;
  em_attrs : list eattr; em_associations : list (assoc entity_ref)
}.
(* used by ereg2: lib.rs 177-258 *)
Record eevent := {
  ee_name : string; ee_event_deprecated : option deprecated; ee_event_stability : stability;
  ee_attrs : list eattr; ee_associations : list (assoc entity_ref)
}.
(* used by ereg2: lib.rs 177-258 *)
Record espan := { es_type : string; es_kind : span_kind; es_attrs : list eattr }.
(* used by eregistry: lib.rs 177-258 *)
Record ereg2 := {
  er_url : string; er_attrs : list v2attr; er_metrics : list emetric; er_events : list eevent; er_spans : list espan;
  er_entities : list v2entity; er_refinements : list (string * v2entity); er_deps : list v2reg
}.
(* used by emit: lib.rs 177-258 *)
Inductive eregistry := EReg1 (l : list egroup) | EReg2 (r : ereg2).
(* the same registry as a live check reads it *)
(* the reading of one registry by crates/weaver_emit/src/lib.rs 177-258 and by crates/weaver_live_check/src/live_checker.rs 36-140 *)
Definition use_view (a : eattr) : v2sig_attr := {| vs_base := ea_base a; vs_req := ea_req a |}.
(* the reading of one registry by crates/weaver_emit/src/lib.rs 177-258 and by crates/weaver_live_check/src/live_checker.rs 36-140 *)
Definition metric_view (m : emetric) : v2metric :=
  {| vm_name := em_name m; vm_instrument := em_instrument m; vm_unit := em_unit m;
     vm_deprecated := em_deprecated m; vm_stability := em_stability m;
     vm_attributes := map use_view (em_attrs m); vm_associations := em_associations m |}.
(* the reading of one registry by crates/weaver_emit/src/lib.rs 177-258 and by crates/weaver_live_check/src/live_checker.rs 36-140 *)
Definition event_view (e : eevent) : v2event :=
  {| ve_name := ee_name e; ve_deprecated := ee_event_deprecated e; ve_stability := ee_event_stability e;
     ve_attributes := map use_view (ee_attrs e); ve_associations := ee_associations e |}.
(* the reading of one registry by crates/weaver_emit/src/lib.rs 177-258 and by crates/weaver_live_check/src/live_checker.rs 36-140 *)
Definition live_view (r : eregistry) : registry :=
  match r with
  | EReg1 l => RegV1 (map eg_group l)
  | EReg2 r => RegV2 (V2Reg (er_url r) (er_attrs r) (map metric_view (er_metrics r)) (map event_view (er_events r))
                        (er_entities r) (er_refinements r) (er_deps r))
  end.

(* ---------- emission ---------- *)
(* a call of the OpenTelemetry API *)
(* used by root_span: spans.rs 36-60, spans.rs 62-86 *)
Inductive emitted :=
| EmSpan (name : string) (kind : span_kind) (attrs : list key_value)
| EmMetric (i : instrument) (name unit description : string) (attrs : list key_value)
| EmLog (event : string) (attrs : list key_value).

(* used by rconcat: lib.rs 177-258 *)
Fixpoint rmap_all {A B} (f : A -> res B) (l : list A) : res (list B) :=
  match l with
  | [] => Ok []
  | x :: t => let* y := f x in let* r := rmap_all f t in Ok (y :: r)
  end.
(* used by emit: lib.rs 177-258 *)
Definition rconcat {A B} (f : A -> res (list B)) (l : list A) : res (list B) :=
  let* ls := rmap_all f l in Ok (concat ls).
(* used by group_span: spans.rs 36-60, spans.rs 62-86 *)
Definition attr1_kv (a : attribute) : res key_value :=
  let* (n, v) := name_value (at_name a) (at_type a) (at_examples a) in Ok (n, any_of v).
(* used by span2: spans.rs 36-60, spans.rs 62-86 *)
Definition attr2_kv (a : eattr) : res key_value :=
  let* (n, v) := name_value (va_key (ea_base a)) (va_type (ea_base a)) (ea_examples a) in Ok (n, any_of v).
(* spans.rs 24-32: otel_span_kind *)
Definition otel_span_kind (k : option span_kind) : span_kind :=
  match k with
  | Some SkClient => SkClient | Some SkServer => SkServer | Some SkProducer => SkProducer
  | Some SkConsumer => SkConsumer | Some SkInternal | None => SkInternal
  end.
(* spans.rs 36-60, 62-86: the span of the command itself and those of the registry *)
Definition root_span (path : string) : emitted :=
  EmSpan "otel.weaver.emit" SkInternal [("otel.weaver.registry_path", InferModel.AnyString path)].
(* as above: spans.rs 36-60, spans.rs 62-86 *)
Definition group_span (g : egroup) : res (list emitted) :=
  if group_type_eqb (vg_type (eg_group g)) GSpan
  then let* kvs := rmap_all attr1_kv (vg_attributes (eg_group g)) in
       Ok [EmSpan (vg_id (eg_group g)) (otel_span_kind (eg_kind g)) kvs]
  else Ok [].
(* as above: spans.rs 36-60, spans.rs 62-86 *)
Definition span2 (s : espan) : res (list emitted) :=
  let* kvs := rmap_all attr2_kv (es_attrs s) in Ok [EmSpan (es_type s) (otel_span_kind (Some (es_kind s))) kvs].
(* metrics.rs 60-119; emit_metric (15-57) makes the instrument asked for *)
Definition group_metric (g : egroup) : res (list emitted) :=
  if group_type_eqb (vg_type (eg_group g)) GMetric
  then match vg_instrument (eg_group g) with
       | Some i =>
         let* kvs := rmap_all attr1_kv (vg_attributes (eg_group g)) in
         Ok [EmMetric i (opt_get (vg_metric_name (eg_group g)) "") (opt_get (vg_unit (eg_group g)) "") (eg_brief g) kvs]
       | None => Ok []
       end
  else Ok [].
(* as above: metrics.rs 60-119, metrics.rs 15-57 *)
Definition metric2 (m : emetric) : res (list emitted) :=
  let* kvs := rmap_all attr2_kv (em_attrs m) in Ok [EmMetric (em_instrument m) (em_name m) (em_unit m) (em_brief m) kvs].
(* logs.rs 43-98 *)
Definition group_log (g : egroup) : res (list emitted) :=
  if group_type_eqb (vg_type (eg_group g)) GEvent
  then let* kvs := rmap_all attr1_kv (vg_attributes (eg_group g)) in
       Ok [EmLog (opt_get (vg_name (eg_group g)) (vg_id (eg_group g))) kvs]
  else Ok [].
(* as above: logs.rs 43-98 *)
Definition event2 (e : eevent) : res (list emitted) :=
  let* kvs := rmap_all attr2_kv (ee_attrs e) in Ok [EmLog (ee_name e) kvs].
(* lib.rs 177-258: spans, then metrics, then logs *)
Definition emit (r : eregistry) (path : string) : res (list emitted) :=
  match r with
  | EReg1 l =>
    let* spans := rconcat group_span l in
    let* metrics := rconcat group_metric l in
    let* logs := rconcat group_log l in
    Ok (root_span path :: app spans (app metrics logs))
  | EReg2 r =>
    let* spans := rconcat span2 (er_spans r) in
    let* metrics := rconcat metric2 (er_metrics r) in
    let* logs := rconcat event2 (er_events r) in
    Ok (root_span path :: app spans (app metrics logs))
  end.
