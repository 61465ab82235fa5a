(* Inferring a registry from telemetry: crates/weaver_infer/src/lib.rs, src/registry/infer.rs and the
   conversion of OTLP messages in src/registry/otlp/conversion.rs.
   The conversion of an integer to f64 is a parameter [to_f64], and the iteration order of each hash map
   a parameter [order], which is given a name of the map. *)
From Coq Require Import String Ascii Bool Arith ZArith NArith List.
Import ListNotations.
From Verif Require Import Base Json F64 SemTypes Resolved DefModel LiveAdvisors.
Local Open Scope string_scope.
Notation as_i64 := DefModel.as_i64.

(* ---------- samples (crates/weaver_live_check/src/sample_*.rs; only the fields that are read) ---------- *)
(* used by isample: lib.rs 97-119, lib.rs 186-200 *)
Record iattr := { ia_name : string; ia_value : option json; ia_type : option prim }.
(* used by add_sample: lib.rs 97-119, lib.rs 186-200 *)
Inductive isample :=
| IResource (attrs : list iattr)
| ISpan (name : string) (kind : span_kind) (attrs : list iattr) (events : list (string * list iattr))
| IMetric (name : string) (i : option instrument) (unit : string) (points : option (list (list iattr)))
    (* no instrument stands for an unsupported one; the three sorts of points are not told apart *)
| ILog (event_name : string) (attrs : list iattr)
| IAttribute (a : iattr)
| IOther.

(* ---------- accumulated attributes (lib.rs 340-486) ---------- *)
(* the attribute specification, without the fields that are always the same *)
(* used by from_sample: lib.rs 341-363 *)
Record iacc := { ic_id : string; ic_type : prim; ic_examples : option examples }.
(* used by push: lib.rs 414-486 *)
Definition max_examples : nat := 5.
Section Infer.
  Variable to_f64 : Z -> N.
  (* [vec.len() < MAX_EXAMPLES && !vec.contains(new)], then push *)
  (* used by add_to_existing: lib.rs 414-486 *)
  Definition push {A} (eqb : A -> A -> bool) (l : list A) (x : A) : list A :=
    if Nat.ltb (length l) max_examples && negb (existsb (fun y => eqb y x) l) then app l [x] else l.
  (* 414-486: add_to_existing_examples *)
  Definition add_to_existing (e : examples) (v : json) : examples :=
    match e, v with
    | EBool b, JBool n => if Bool.eqb b n then EBool b else EBools [b; n]
    | EBools l, JBool n => EBools (push Bool.eqb l n)
    | EInt z, JNum _ => match as_i64 v with Some n => if Z.eqb z n then EInt z else EInts [z; n] | None => EInt z end
    | EInts l, JNum _ => match as_i64 v with Some n => EInts (push Z.eqb l n) | None => EInts l end
    | EDouble d, JNum _ => match as_f64 to_f64 v with Some n => if of_eqb d n then EDouble d else EDoubles [d; n] | None => EDouble d end
    | EDoubles l, JNum _ => match as_f64 to_f64 v with Some n => EDoubles (push of_eqb l n) | None => EDoubles l end
    | EString s, JStr n => if String.eqb s n then EString s else EStrings [s; n]
    | EStrings l, JStr n => EStrings (push String.eqb l n)
    | e, _ => e
    end.
  (* 386-411: add_example *)
  Definition add_example (current : option examples) (v : json) : option examples :=
    match v with
    | JNull => current
    | _ =>
      match current with
      | None =>
        match v with
        | JBool b => Some (EBool b)
        | JNum _ => match as_i64 v with Some z => Some (EInt z) | None => option_map EDouble (as_f64 to_f64 v) end
        | JStr s => Some (EString s)
        | JArr _ | JObj _ | JNull => None
        end
      | Some e => Some (add_to_existing e v)
      end
    end.
  (* 341-363: attribute_spec_from_sample *)
  Definition from_sample (a : iattr) : iacc :=
    {| ic_id := ia_name a; ic_type := opt_get (ia_type a) PString;
       ic_examples := match ia_value a with Some v => add_example None v | None => None end |}.
  (* 366-372: update_attribute_example *)
  Definition update_example (c : iacc) (v : option json) : iacc :=
    match v with
    | Some v => {| ic_id := ic_id c; ic_type := ic_type c; ic_examples := add_example (ic_examples c) v |}
    | None => c
    end.
  (* 375-384: accumulate_attribute *)
  Definition accumulate (m : list (string * iacc)) (a : iattr) : list (string * iacc) :=
    match slookup (ia_name a) m with
    | Some c => sinsert (ia_name a) (update_example c (ia_value a)) m
    | None => sinsert (ia_name a) (from_sample a) m
    end.

  (* ---------- accumulated samples (lib.rs 30-196) ---------- *)
  Record iband := { ib_name : string; ib_attributes : list (string * iacc) }. (* AccumulatedEvent *)
  (* used by istate: lib.rs 30-196 *)
  Record ispan := { ip_name : string; ip_kind : span_kind; ip_attributes : list (string * iacc); ip_events : list (string * iband) }.
  (* as above: lib.rs 30-196 *)
  Record imetric := { im_name : string; im_instrument : instrument; im_unit : string; im_attributes : list (string * iacc) }.
  (* as above: lib.rs 30-196 *)
  Record istate := {
    st_resources : list (string * iacc); st_spans : list (string * ispan); st_metrics : list (string * imetric);
    st_events : list (string * iband)
  }.
  (* as above: lib.rs 30-196 *)
  Definition start : istate := {| st_resources := []; st_spans := []; st_metrics := []; st_events := [] |}.
  (* HashMap::entry(..).or_insert_with(..), then a change of the entry *)
  (* used by add_event: crates/weaver_infer/src/lib.rs 183-196 *)
  Definition change {A} (k : string) (new : A) (f : A -> A) (m : list (string * A)) : list (string * A) :=
    sinsert k (f (opt_get (slookup k m) new)) m.
  (* used by add_event: crates/weaver_infer/src/lib.rs 183-196 *)
  Definition event_attrs (attrs : list iattr) (e : iband) : iband :=
    {| ib_name := ib_name e; ib_attributes := fold_left accumulate attrs (ib_attributes e) |}.
  (* crates/weaver_infer/src/lib.rs 183-196 *)
  Definition add_event (name : string) (attrs : list iattr) (m : list (string * iband)) : list (string * iband) :=
    change name {| ib_name := name; ib_attributes := [] |} (event_attrs attrs) m.
  (* 121-145: add_span *)
  Definition span_attrs (attrs : list iattr) (events : list (string * list iattr)) (s : ispan) : ispan :=
    {| ip_name := ip_name s; ip_kind := ip_kind s; ip_attributes := fold_left accumulate attrs (ip_attributes s);
       ip_events := fold_left (fun m e => add_event (fst e) (snd e) m) events (ip_events s) |}.
  (* 147-184: add_metric *)
  Definition metric_attrs (points : option (list (list iattr))) (m : imetric) : imetric :=
    {| im_name := im_name m; im_instrument := im_instrument m; im_unit := im_unit m;
       im_attributes := match points with
                        | Some ps => fold_left (fun acc p => fold_left accumulate p acc) ps (im_attributes m)
                        | None => im_attributes m
                        end |}.
  (* 97-119, 186-200: add_sample *)
  Definition add_sample (st : istate) (s : isample) : istate :=
    match s with
    | IResource attrs =>
      {| st_resources := fold_left accumulate attrs (st_resources st); st_spans := st_spans st; st_metrics := st_metrics st; st_events := st_events st |}
    | ISpan name kind attrs events =>
      {| st_resources := st_resources st;
         st_spans := change name {| ip_name := name; ip_kind := kind; ip_attributes := []; ip_events := [] |} (span_attrs attrs events) (st_spans st);
         st_metrics := st_metrics st; st_events := st_events st |}
    | IMetric name (Some i) unit points =>
      {| st_resources := st_resources st; st_spans := st_spans st;
         st_metrics := change name {| im_name := name; im_instrument := i; im_unit := unit; im_attributes := [] |} (metric_attrs points) (st_metrics st);
         st_events := st_events st |}
    | IMetric _ None _ _ => st
    | ILog name attrs =>
      if String.eqb name "" then st
      else {| st_resources := st_resources st; st_spans := st_spans st; st_metrics := st_metrics st; st_events := add_event name attrs (st_events st) |}
    | IAttribute a =>
      {| st_resources := accumulate (st_resources st) a; st_spans := st_spans st; st_metrics := st_metrics st; st_events := st_events st |}
    | IOther => st
    end.
  (* as above: lib.rs 97-119, lib.rs 186-200 *)
  Definition observe (l : list isample) : istate := fold_left add_sample l start.
  (* 202-209: is_empty *)
  Definition nothing (st : istate) : bool :=
    match st_resources st, st_spans st, st_metrics st, st_events st with [], [], [], [] => true | _, _, _, _ => false end.

  (* ---------- the registry file (lib.rs 222-337, 503-578) ---------- *)
  Definition inferred_common : common :=
    {| c_brief := ""; c_note := ""; c_stability := SDevelopment; c_deprecated := None; c_annotations := [] |}.
  (* as above: lib.rs 222-337, lib.rs 503-578 *)
  Definition inferred_ref (n : string) : attr_or_group :=
    UAttr {| ar_ref := n; ar_brief := None; ar_examples := None; ar_req := None; ar_note := None; ar_stability := None;
             ar_deprecated := None; ar_annotations := [] |} None.
  (* 540-570: collect_attribute_defs *)
  Definition collect_defs (defs : list (string * attr_def2)) (l : list iacc) : list (string * attr_def2) :=
    fold_left (fun m c => match slookup (ic_id c) m with
                          | Some _ => m
                          | None => sinsert (ic_id c) {| ad_key := ic_id c; ad_type := TPrim (ic_type c); ad_examples := ic_examples c; ad_common := inferred_common |} m
                          end) l defs.
  (* Vec::dedup *)
  (* used by to_spec: infer.rs 211-250 *)
  Fixpoint dedup (l : list string) : list string :=
    match l with
    | [] => []
    | x :: r => match r with
                | [] => [x]
                | y :: _ => if String.eqb x y then dedup r else x :: dedup r
                end
    end.
  Variable order : list string -> forall A, list (string * A) -> list (string * A).
  (* used by to_spec: infer.rs 211-250 *)
  Definition values {A} (tag : list string) (m : list (string * A)) : list A := map snd (order tag A m).
  (* used by to_spec: infer.rs 211-250 *)
  Definition keys {A} (tag : list string) (m : list (string * A)) : list string := map fst (order tag A m).
  (* used by to_spec: infer.rs 211-250 *)
  Definition sort_names (l : list string) : list string := stable_sort str_leb l.
  (* used by infer: infer.rs 211-250 *)
  Definition to_spec (st : istate) : spec2 :=
    let spans := values ["spans"] (st_spans st) in
    let metrics := values ["metrics"] (st_metrics st) in
    let events := values ["events"] (st_events st) in
    let span_tag s := ["span"; ip_name s] in
    let events_of s := values ["span events"; ip_name s] (ip_events s) in
    let event_tag s e := ["span event"; ip_name s; ib_name e] in
    let defs := collect_defs [] (values ["resources"] (st_resources st)) in
    let defs := fold_left (fun d s => fold_left (fun d e => collect_defs d (values (event_tag s e) (ib_attributes e))) (events_of s)
                                        (collect_defs d (values (span_tag s) (ip_attributes s)))) spans defs in
    let defs := fold_left (fun d m => collect_defs d (values ["metric"; im_name m] (im_attributes m))) metrics defs in
    let defs := fold_left (fun d e => collect_defs d (values ["event"; ib_name e] (ib_attributes e))) events defs in
    let defs := fold_left (fun d s => fold_left (fun d e => collect_defs d (values (event_tag s e) (ib_attributes e))) (events_of s) d) spans defs in
    let merged := fold_left (fun m e => sinsert (ib_name e) (keys ["event"; ib_name e] (ib_attributes e)) m) events [] in
    let merged := fold_left (fun m s => fold_left (fun m e => change (ib_name e) [] (fun l => app l (keys (event_tag s e) (ib_attributes e))) m) (events_of s) m) spans merged in
    {| s2d_attributes := stable_sort (fun a b => str_leb (ad_key a) (ad_key b)) (values ["defs"] defs);
       s2d_entities := [];
       s2d_events := stable_sort (fun a b => str_leb (vd_name a) (vd_name b))
         (map (fun nl => {| vd_name := fst nl; vd_attributes := map inferred_ref (dedup (sort_names (snd nl))); vd_assocs := [];
                            vd_level := None; vd_common := inferred_common |}) (order ["merged"] _ merged));
       s2d_metrics := stable_sort (fun a b => str_leb (md_name a) (md_name b))
         (map (fun m => {| md_name := im_name m; md_instrument := im_instrument m; md_unit := im_unit m;
                           md_attributes := map inferred_ref (sort_names (keys ["metric"; im_name m] (im_attributes m)));
                           md_assocs := []; md_level := None; md_common := inferred_common |}) metrics);
       s2d_spans := stable_sort (fun a b => str_leb (sd_type a) (sd_type b))
         (map (fun s => {| sd_type := ip_name s; sd_kind := ip_kind s; sd_name := ip_name s;
                           sd_attributes := map inferred_ref (sort_names (keys (span_tag s) (ip_attributes s)));
                           sd_assocs := []; sd_level := None; sd_common := inferred_common |}) spans);
       s2d_groups := []; s2d_entity_refinements := []; s2d_event_refinements := []; s2d_metric_refinements := [];
       s2d_span_refinements := []; s2d_imports := None |}.
End Infer.

(* ---------- OTLP messages (otlp/conversion.rs, src/registry/infer.rs 67-166) ---------- *)
(* AnyValue; AnyOther stands for maps and bytes *)
(* used by maybe_to_json: conversion.rs 58-84 *)
Inductive any_value :=
| AnyNone | AnyString (s : string) | AnyInt (z : Z) | AnyDouble (bits : N) | AnyBool (b : bool) | AnyArray (l : list any_value) | AnyOther.
(* json!(f64): null unless finite *)
(* used by maybe_to_json: conversion.rs 58-84 *)
Definition json_of_double (d : N) : json := match decode d with FFin _ => JNum (NFloat d) | _ => JNull end.
(* conversion.rs 58-84: maybe_to_json *)
Fixpoint maybe_to_json (a : any_value) : option json :=
  match a with
  | AnyString s => Some (JStr s)
  | AnyInt z => Some (JNum (NInt z))
  | AnyDouble d => Some (json_of_double d)
  | AnyBool b => Some (JBool b)
  | AnyArray l =>
    Some (JArr ((fix go (l : list any_value) : list json :=
      match l with [] => [] | x :: r => match maybe_to_json x with Some j => j :: go r | None => go r end end) l))
  | AnyNone | AnyOther => None
  end.
(* as above: conversion.rs 58-84 *)
Definition key_value : Type := (string * any_value)%type.
(* conversion.rs 87-99: sample_attribute_from_key_value *)
Definition sample_of_key_value (kv : key_value) : iattr :=
  let value := maybe_to_json (snd kv) in
  {| ia_name := fst kv; ia_value := value; ia_type := match value with Some v => infer_type v | None => None end |}.
(* as above: conversion.rs 87-99 *)
Inductive otlp_kind := OkUnspecified | OkInternal | OkServer | OkClient | OkProducer | OkConsumer.
(* conversion.rs 102-110 *)
Definition kind_of_otlp (k : otlp_kind) : span_kind :=
  match k with OkServer => SkServer | OkClient => SkClient | OkProducer => SkProducer | OkConsumer => SkConsumer | _ => SkInternal end.
(* as above: conversion.rs 102-110 *)
Inductive otlp_data :=
| OdSum (monotonic : bool) (points : list (list key_value)) | OdGauge (points : list (list key_value))
| OdHistogram (points : list (list key_value)) | OdExponential (points : list (list key_value)) | OdSummary | OdNone.
(* conversion.rs 141-189: otlp_data_to_instrument, otlp_data_to_data_points *)
Definition instrument_of (d : otlp_data) : option instrument :=
  match d with
  | OdSum m _ => Some (if m then Counter else UpDownCounter)
  | OdGauge _ => Some Gauge
  | OdHistogram _ | OdExponential _ => Some Histogram
  | OdSummary | OdNone => None
  end.
(* as above: conversion.rs 141-189 *)
Definition points_of (d : otlp_data) : option (list (list iattr)) :=
  match d with
  | OdSum _ ps | OdGauge ps | OdHistogram ps | OdExponential ps => Some (map (map sample_of_key_value) ps)
  | OdSummary | OdNone => None
  end.
(* as above: conversion.rs 141-189 *)
Record otlp_span := { os_name : string; os_kind : otlp_kind; os_attrs : list key_value; os_events : list (string * list key_value) }.
(* as above: conversion.rs 141-189 *)
Record otlp_metric := { om_name : string; om_unit : string; om_data : otlp_data }.
(* as above: conversion.rs 141-189 *)
Record otlp_log := { ol_event : string; ol_attrs : list key_value }.
(* what is sent for one resource: its attributes, and for each scope what it holds *)
(* used by request: infer.rs 84-166 *)
Definition sent (A : Type) : Type := (option (list key_value) * list (list A))%type.
(* used by process_request: infer.rs 84-166 *)
Inductive request :=
| RqLogs (l : list (sent otlp_log)) | RqMetrics (l : list (sent otlp_metric)) | RqTraces (l : list (sent otlp_span))
| RqProfiles (l : list (sent unit)) | RqStop | RqError.
(* infer.rs 67-82: accumulate_resource *)
Definition resource_sample (r : option (list key_value)) : list isample :=
  match r with Some l => [IResource (map sample_of_key_value l)] | None => [] end.
(* as above: infer.rs 67-82 *)
Definition sent_samples {A} (f : A -> isample) (l : list (sent A)) : list isample :=
  flat_map (fun rs => app (resource_sample (fst rs)) (map f (concat (snd rs)))) l.
(* as above: infer.rs 67-82 *)
Definition log_sample (l : otlp_log) : isample := ILog (ol_event l) (map sample_of_key_value (ol_attrs l)).
(* as above: infer.rs 67-82 *)
Definition metric_sample (m : otlp_metric) : isample := IMetric (om_name m) (instrument_of (om_data m)) (om_unit m) (points_of (om_data m)).
(* as above: infer.rs 67-82 *)
Definition span_sample (s : otlp_span) : isample :=
  ISpan (os_name s) (kind_of_otlp (os_kind s)) (map sample_of_key_value (os_attrs s))
    (map (fun e => (fst e, map sample_of_key_value (snd e))) (os_events s)).
(* infer.rs 84-166: the samples that process_otlp_request adds, and whether it goes on *)
Definition process_request (r : request) : list isample * bool :=
  match r with
  | RqLogs l => (sent_samples log_sample l, true)
  | RqMetrics l => (sent_samples metric_sample l, true)
  | RqTraces l => (sent_samples span_sample l, true)
  | RqProfiles l => (sent_samples (fun _ => IOther) l, true)
  | RqStop => ([], false)
  | RqError => ([], true)
  end.
(* infer.rs 205-209: the loop of the command *)
Fixpoint samples_of (l : list request) : list isample :=
  match l with
  | [] => []
  | r :: t => let (s, go_on) := process_request r in if go_on then app s (samples_of t) else s
  end.
(* infer.rs 211-250: the file written, if any *)
Definition infer (to_f64 : Z -> N) (order : list string -> forall A, list (string * A) -> list (string * A)) (l : list request) : option spec2 :=
  let st := observe to_f64 (samples_of l) in
  if nothing st then None else Some (to_spec order st).
