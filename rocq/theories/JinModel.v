(* JSON samples: the input of `registry live-check --input-format json` and the samples of its
   report. Models crates/weaver_live_check/src/json_file_ingester.rs, json_stdin_ingester.rs, the
   Deserialize and Serialize of lib.rs [Sample], sample_attribute.rs, sample_span.rs,
   sample_metric.rs, sample_log.rs, sample_resource.rs, sample_instrumentation_scope.rs and
   sample_profile.rs, mostly derived by serde.
   A document is a [json] value, an object the list of its entries in the order of the text, where
   a key may occur twice; the text itself (serde_json's parser and printer) is not modelled, nor is
   serde's reading of a struct from an array. Errors are [None]. *)
From Coq Require Import String Ascii Bool Arith ZArith NArith List.
Import ListNotations.
From Verif Require Import Base Json SemTypes.
From Verif Require LiveModel LiveAdvisors PolicyModel ResultModel.
Local Open Scope string_scope.

Notation sattr := LiveModel.sattr.
Notation lcr := LiveModel.lcr.
Notation sinstrument := LiveModel.sinstrument.

(* ---------- samples, in full ---------- *)
(* weaver_semconv/src/group.rs 685-700 *)
Inductive span_kind := KInternal | KClient | KServer | KProducer | KConsumer.
(* sample_span.rs 18-37 *)
Inductive status_code := StUnset | StOk | StError.
(* crates/weaver_live_check/src/sample_span.rs 32-37 *)
Record status := mk_status { su_code : status_code; su_message : string }.
(* sample_span.rs 101-112, 139-147 *)
Record span_event := mk_event { e_name : string; e_attrs : list sattr; e_result : option lcr }.
(* as above: sample_span.rs 101-112, sample_span.rs 139-147 *)
Record span_link := mk_link { l_attrs : list sattr; l_result : option lcr }.
(* sample_span.rs 39-64, without the two skipped fields *)
Record span := mk_span {
  s_name : string; s_kind : span_kind; s_status : option status; s_attrs : list sattr;
  s_events : list span_event; s_links : list span_link; s_result : option lcr }.
(* sample_metric.rs 226-241 *)
Record exemplar := mk_exemplar {
  x_attrs : list sattr; x_value : json; x_timestamp : string; x_span_id : string;
  x_trace_id : string; x_result : option lcr }.
(* sample_metric.rs 46-61; flags is a u32 *)
Record number_point := mk_number {
  n_attrs : list sattr; n_value : json; n_flags : Z; n_exemplars : list exemplar; n_result : option lcr }.
(* sample_metric.rs 92-121; doubles by bit pattern, counts are u64 *)
Record histogram_point := mk_histogram {
  h_attrs : list sattr; h_count : Z; h_sum : option N; h_bucket_counts : list Z;
  h_bounds : list N; h_min : option N; h_max : option N; h_flags : Z;
  h_exemplars : list exemplar; h_result : option lcr }.
(* sample_metric.rs 151-158 *)
Record buckets := mk_buckets { b_offset : Z; b_counts : list Z }.
(* sample_metric.rs 160-196 *)
Record exponential_point := mk_exponential {
  p_attrs : list sattr; p_count : Z; p_sum : option N; p_scale : Z; p_zero_count : Z;
  p_positive : option buckets; p_negative : option buckets; p_flags : Z;
  p_min : option N; p_max : option N; p_zero_threshold : N;
  p_exemplars : list exemplar; p_result : option lcr }.
(* sample_metric.rs 34-44 *)
Inductive points :=
| Numbers (l : list number_point) | Histograms (l : list histogram_point)
| Exponentials (l : list exponential_point).
(* sample_metric.rs 280-299 *)
Record metric := mk_metric {
  m_name : string; m_instrument : sinstrument; m_unit : string; m_points : option points;
  m_result : option lcr }.
(* sample_log.rs 21-47 *)
Record log := mk_log {
  g_event : string; g_severity_number : option Z; g_severity_text : option string;
  g_body : option string; g_attrs : list sattr; g_trace_id : option string;
  g_span_id : option string; g_result : option lcr }.
(* sample_resource.rs 15-24 *)
Record resource := mk_resource { r_attrs : list sattr; r_result : option lcr }.
(* sample_instrumentation_scope.rs 15-35 *)
Record scope := mk_scope {
  o_name : string; o_version : string; o_schema_url : string; o_attrs : list sattr;
  o_dropped : Z; o_result : option lcr }.
(* sample_profile.rs 16-33 *)
Record profile := mk_profile { f_format : string; f_attrs : list sattr; f_result : option lcr }.
(* lib.rs 283-306 *)
Inductive sample :=
| Attribute (a : sattr) | Span (s : span) | SpanEvent (e : span_event) | SpanLink (l : span_link)
| Resource (r : resource) | Scope (o : scope) | Metric (m : metric) | Log (g : log)
| Profile (f : profile).

(* ---------- serde ---------- *)
(* no counterpart: `?` on a Result in the derived readers *)
Definition obind {A B} (o : option A) (f : A -> option B) : option B :=
  match o with Some a => f a | None => None end.
Notation "x <- e ;; b" := (obind e (fun x => b)) (at level 61, e at next level, right associativity).

(* a derived struct: what stands under a key; a key that occurs twice is an error
   (duplicate_field), a key that is no field is skipped *)
(* used by required: lib.rs 484-491 *)
Definition field (k : string) (m : list (string * json)) : option (option json) :=
  match filter (fun kv => String.eqb (fst kv) k) m with
  | [] => Some None
  | [(_, v)] => Some (Some v)
  | _ => None
  end.
(* a field of a plain type: missing_field *)
(* used by read_result: lib.rs 484-491 *)
Definition required {A} (rd : json -> option A) (k : string) (m : list (string * json)) : option A :=
  o <- field k m;; v <- o;; rd v.
(* a field of type Option: None if it is missing or null *)
(* used by read_result: lib.rs 484-491 *)
Definition optional {A} (rd : json -> option A) (k : string) (m : list (string * json)) : option (option A) :=
  o <- field k m;;
  match o with
  | None | Some JNull => Some None
  | Some v => option_map Some (rd v)
  end.
(* a field with #[serde(default)] *)
(* used by read_event: sample_span.rs 30-37, sample_span.rs 101-112, sample_span.rs 139-147 *)
Definition defaulted {A} (d : A) (rd : json -> option A) (k : string) (m : list (string * json)) : option A :=
  o <- field k m;; match o with None => Some d | Some v => rd v end.
(* used by read_finding: finding.rs 69-178 *)
Definition entries (v : json) : option (list (string * json)) := match v with JObj m => Some m | _ => None end.

(* used by read_vec: lib.rs 484-491 *)
Fixpoint each {A} (rd : json -> option A) (l : list json) : option (list A) :=
  match l with
  | [] => Some []
  | v :: r => x <- rd v;; xs <- each rd r;; Some (x :: xs)
  end.
(* Vec<T> *)
(* used by read_result: lib.rs 484-491 *)
Definition read_vec {A} (rd : json -> option A) (v : json) : option (list A) :=
  match v with JArr l => each rd l | _ => None end.
(* String *)
(* used by read_instrument: sample_metric.rs 24-32 *)
Definition read_string (v : json) : option string := match v with JStr s => Some s | _ => None end.
(* serde_json::Value *)
(* used by read_attr: sample_attribute.rs 34-61 *)
Definition read_value (v : json) : option json := Some v.
(* an integer of a machine type *)
(* used by read_u32: sample_metric.rs 226-241, sample_metric.rs 46-61, sample_metric.rs 92-121 *)
Definition read_int (lo hi : Z) (v : json) : option Z :=
  match v with
  | JNum (NInt z) => if (lo <=? z)%Z && (z <=? hi)%Z then Some z else None
  | _ => None
  end.
(* used by read_number: sample_metric.rs 226-241, sample_metric.rs 46-61, sample_metric.rs 92-121 *)
Definition read_u32 : json -> option Z := read_int 0 4294967295.
(* used by read_histogram: sample_metric.rs 226-241, sample_metric.rs 46-61, sample_metric.rs 92-121 *)
Definition read_u64 : json -> option Z := read_int 0 18446744073709551615.
(* used by read_buckets: sample_metric.rs 226-241, sample_metric.rs 46-61, sample_metric.rs 92-121 *)
Definition read_i32 : json -> option Z := read_int (-2147483648) 2147483647.
(* a unit variant: its name, or an object of that one name and null *)
(* used by read_instrument: sample_metric.rs 24-32 *)
Definition read_named {A} (of_name : string -> option A) (v : json) : option A :=
  match v with
  | JStr s => of_name s
  | JObj [(s, JNull)] => of_name s
  | _ => None
  end.

(* attribute.rs 266-296 *)
Definition prim_of_name (s : string) : option prim :=
  if String.eqb s "boolean" then Some PBoolean else if String.eqb s "int" then Some PInt
  else if String.eqb s "double" then Some PDouble else if String.eqb s "string" then Some PString
  else if String.eqb s "any" then Some PAny else if String.eqb s "string[]" then Some PStrings
  else if String.eqb s "int[]" then Some PInts else if String.eqb s "double[]" then Some PDoubles
  else if String.eqb s "boolean[]" then Some PBooleans else None.
(* group.rs 685-700 *)
Definition kind_of_name (s : string) : option span_kind :=
  if String.eqb s "internal" then Some KInternal else if String.eqb s "client" then Some KClient
  else if String.eqb s "server" then Some KServer else if String.eqb s "producer" then Some KProducer
  else if String.eqb s "consumer" then Some KConsumer else None.
(* sample_span.rs 18-28 *)
Definition code_of_name (s : string) : option status_code :=
  if String.eqb s "unset" then Some StUnset else if String.eqb s "ok" then Some StOk
  else if String.eqb s "error" then Some StError else None.
(* group.rs 702-716 *)
Definition instrument_of_name (s : string) : option instrument :=
  if String.eqb s "updowncounter" then Some UpDownCounter else if String.eqb s "counter" then Some Counter
  else if String.eqb s "gauge" then Some Gauge else if String.eqb s "histogram" then Some Histogram else None.
(* sample_metric.rs 24-32: untagged, the first variant that can be read *)
Definition read_instrument (v : json) : option sinstrument :=
  match read_named instrument_of_name v with
  | Some i => Some (LiveModel.Supported i)
  | None => option_map LiveModel.Unsupported (read_string v)
  end.

Section Read.
  (* a JSON integer as an f64 (`as f64`), by bit pattern *)
  Variable f64_of_int : Z -> N.

  (* used by read_histogram: sample_metric.rs 226-241, sample_metric.rs 46-61, sample_metric.rs 92-121 *)
  Definition read_f64 (v : json) : option N :=
    match v with
    | JNum (NFloat b) => Some b
    | JNum (NInt z) => Some (f64_of_int z)
    | _ => None
    end.

  (* finding.rs 69-178, hand-written: [visit_map] does not ask for the value of an unknown key.
     Read from text, serde_json then finds ':' where it expects ',' or '}' and fails; read from a
     buffered value the entry is skipped. *)
  Definition finding_keys : list string :=
    ["type"; "id"; "category"; "group"; "attr"; "advice_type"; "message"; "advice_level"; "level";
     "advice_context"; "context"; "signal_type"; "signal_name"].
  (* as above: finding.rs 69-178 *)
  Definition read_finding (text : bool) (v : json) : option LiveModel.finding :=
    m <- entries v;;
    if text && negb (forallb (fun kv => existsb (String.eqb (fst kv)) finding_keys) m) then None
    else match PolicyModel.read_finding v with ResultModel.ROk f => Some f | ResultModel.RErr _ => None end.
  (* lib.rs 484-491 *)
  Definition read_result (text : bool) (v : json) : option lcr :=
    m <- entries v;;
    a <- required (read_vec (read_finding text)) "all_advice" m;;
    h <- optional PolicyModel.read_level "highest_advice_level" m;;
    Some {| LiveModel.all_advice := a; LiveModel.highest := h |}.
  (* as above: lib.rs 484-491 *)
  Definition result_of (text : bool) := optional (read_result text) "live_check_result".

  (* sample_attribute.rs 34-61 *)
  Definition read_attr (v : json) : option sattr :=
    m <- entries v;;
    n <- required read_string "name" m;;
    x <- optional read_value "value" m;;
    t <- optional (read_named prim_of_name) "type" m;;
    Some {| LiveModel.sa_name := n; LiveModel.sa_value := x;
            LiveModel.sa_type := match t, x with
                                 | None, Some x => LiveAdvisors.infer_type x
                                 | _, _ => t
                                 end;
            LiveModel.sa_result := None |}.
  (* as above: sample_attribute.rs 34-61 *)
  Definition read_attrs := read_vec read_attr.

  (* sample_span.rs 30-37, 101-112, 139-147, 39-64 *)
  Definition read_status (v : json) : option status :=
    m <- entries v;;
    c <- required (read_named code_of_name) "code" m;;
    t <- required read_string "message" m;;
    Some (mk_status c t).
  (* as above: sample_span.rs 30-37, sample_span.rs 101-112, sample_span.rs 139-147 *)
  Definition read_event (v : json) : option span_event :=
    m <- entries v;;
    n <- required read_string "name" m;;
    a <- defaulted [] read_attrs "attributes" m;;
    r <- result_of true m;;
    Some (mk_event n a r).
  (* as above: sample_span.rs 30-37, sample_span.rs 101-112, sample_span.rs 139-147 *)
  Definition read_link (v : json) : option span_link :=
    m <- entries v;;
    a <- defaulted [] read_attrs "attributes" m;;
    r <- result_of true m;;
    Some (mk_link a r).
  (* as above: sample_span.rs 30-37, sample_span.rs 101-112, sample_span.rs 139-147 *)
  Definition read_span (v : json) : option span :=
    m <- entries v;;
    n <- required read_string "name" m;;
    k <- required (read_named kind_of_name) "kind" m;;
    u <- optional read_status "status" m;;
    a <- defaulted [] read_attrs "attributes" m;;
    e <- defaulted [] (read_vec read_event) "span_events" m;;
    l <- defaulted [] (read_vec read_link) "span_links" m;;
    r <- result_of true m;;
    Some (mk_span n k u a e l r).

  (* sample_metric.rs 226-241, 46-61, 92-121, 151-196: only read inside the untagged DataPoints,
     whose value serde buffers *)
  Definition read_exemplar (v : json) : option exemplar :=
    m <- entries v;;
    a <- required read_attrs "filtered_attributes" m;;
    x <- required read_value "value" m;;
    t <- required read_string "timestamp" m;;
    s <- required read_string "span_id" m;;
    c <- required read_string "trace_id" m;;
    r <- result_of false m;;
    Some (mk_exemplar a x t s c r).
  (* as above: sample_metric.rs 226-241, sample_metric.rs 46-61, sample_metric.rs 92-121 *)
  Definition read_exemplars := read_vec read_exemplar.
  (* as above: sample_metric.rs 226-241, sample_metric.rs 46-61, sample_metric.rs 92-121 *)
  Definition read_number (v : json) : option number_point :=
    m <- entries v;;
    a <- required read_attrs "attributes" m;;
    x <- required read_value "value" m;;
    f <- defaulted 0%Z read_u32 "flags" m;;
    e <- defaulted [] read_exemplars "exemplars" m;;
    r <- result_of false m;;
    Some (mk_number a x f e r).
  (* as above: sample_metric.rs 226-241, sample_metric.rs 46-61, sample_metric.rs 92-121 *)
  Definition read_histogram (v : json) : option histogram_point :=
    m <- entries v;;
    a <- required read_attrs "attributes" m;;
    c <- required read_u64 "count" m;;
    s <- optional read_f64 "sum" m;;
    b <- defaulted [] (read_vec read_u64) "bucket_counts" m;;
    o <- defaulted [] (read_vec read_f64) "explicit_bounds" m;;
    lo <- optional read_f64 "min" m;;
    hi <- optional read_f64 "max" m;;
    f <- defaulted 0%Z read_u32 "flags" m;;
    e <- defaulted [] read_exemplars "exemplars" m;;
    r <- result_of false m;;
    Some (mk_histogram a c s b o lo hi f e r).
  (* as above: sample_metric.rs 226-241, sample_metric.rs 46-61, sample_metric.rs 92-121 *)
  Definition read_buckets (v : json) : option buckets :=
    m <- entries v;;
    o <- required read_i32 "offset" m;;
    c <- required (read_vec read_u64) "bucket_counts" m;;
    Some (mk_buckets o c).
  (* as above: sample_metric.rs 226-241, sample_metric.rs 46-61, sample_metric.rs 92-121 *)
  Definition read_exponential (v : json) : option exponential_point :=
    m <- entries v;;
    a <- required read_attrs "attributes" m;;
    c <- required read_u64 "count" m;;
    s <- optional read_f64 "sum" m;;
    k <- defaulted 0%Z read_i32 "scale" m;;
    z <- defaulted 0%Z read_u64 "zero_count" m;;
    p <- optional read_buckets "positive" m;;
    n <- optional read_buckets "negative" m;;
    f <- defaulted 0%Z read_u32 "flags" m;;
    lo <- optional read_f64 "min" m;;
    hi <- optional read_f64 "max" m;;
    t <- defaulted 0%N read_f64 "zero_threshold" m;;
    e <- defaulted [] read_exemplars "exemplars" m;;
    r <- result_of false m;;
    Some (mk_exponential a c s k z p n f lo hi t e r).
  (* sample_metric.rs 34-44: untagged *)
  Definition read_points (v : json) : option points :=
    match read_vec read_number v with
    | Some l => Some (Numbers l)
    | None =>
        match read_vec read_histogram v with
        | Some l => Some (Histograms l)
        | None => option_map Exponentials (read_vec read_exponential v)
        end
    end.
  (* sample_metric.rs 280-299 *)
  Definition read_metric (v : json) : option metric :=
    m <- entries v;;
    n <- required read_string "name" m;;
    i <- required read_instrument "instrument" m;;
    u <- required read_string "unit" m;;
    p <- optional read_points "data_points" m;;
    r <- result_of true m;;
    Some (mk_metric n i u p r).

  (* sample_log.rs 21-47 *)
  Definition read_log (v : json) : option log :=
    m <- entries v;;
    n <- required read_string "event_name" m;;
    sn <- optional read_i32 "severity_number" m;;
    st <- optional read_string "severity_text" m;;
    b <- optional read_string "body" m;;
    a <- defaulted [] read_attrs "attributes" m;;
    t <- optional read_string "trace_id" m;;
    s <- optional read_string "span_id" m;;
    r <- result_of true m;;
    Some (mk_log n sn st b a t s r).
  (* sample_resource.rs 15-24 *)
  Definition read_resource (v : json) : option resource :=
    m <- entries v;;
    a <- defaulted [] read_attrs "attributes" m;;
    r <- result_of true m;;
    Some (mk_resource a r).
  (* sample_instrumentation_scope.rs 15-35 *)
  Definition read_scope (v : json) : option scope :=
    m <- entries v;;
    n <- defaulted "" read_string "name" m;;
    w <- defaulted "" read_string "version" m;;
    u <- defaulted "" read_string "schema_url" m;;
    a <- defaulted [] read_attrs "attributes" m;;
    d <- defaulted 0%Z read_u32 "dropped_attributes_count" m;;
    r <- result_of true m;;
    Some (mk_scope n w u a d r).
  (* sample_profile.rs 16-33 *)
  Definition read_profile (v : json) : option profile :=
    m <- entries v;;
    f <- required read_string "original_payload_format" m;;
    a <- defaulted [] read_attrs "attributes" m;;
    r <- result_of true m;;
    Some (mk_profile f a r).

  (* lib.rs 283-306: externally tagged, an object of one key *)
  Definition read_sample (v : json) : option sample :=
    match v with
    | JObj [(k, v)] =>
        if String.eqb k "attribute" then option_map Attribute (read_attr v)
        else if String.eqb k "span" then option_map Span (read_span v)
        else if String.eqb k "span_event" then option_map SpanEvent (read_event v)
        else if String.eqb k "span_link" then option_map SpanLink (read_link v)
        else if String.eqb k "resource" then option_map Resource (read_resource v)
        else if String.eqb k "instrumentation_scope" then option_map Scope (read_scope v)
        else if String.eqb k "metric" then option_map Metric (read_metric v)
        else if String.eqb k "log" then option_map Log (read_log v)
        else if String.eqb k "profile" then option_map Profile (read_profile v)
        else None
    | _ => None
    end.
  (* json_file_ingester.rs 26-44, json_stdin_ingester.rs 28-48: the document, once it is read from
     the file or from standard input *)
  Definition ingest (v : json) : option (list sample) := read_vec read_sample v.
End Read.

(* ---------- Serialize, all derived: fields in the order of the struct, None as null ---------- *)
(* skip_serializing_if on optional fields, sample_attribute.rs 34-61 and others *)
Definition write_opt {A} (w : A -> json) (o : option A) : json := match o with Some a => w a | None => JNull end.
(* Serialize, derived: lib.rs 484-491 *)
Definition write_vec {A} (w : A -> json) (l : list A) : json := JArr (map w l).
(* Serialize, derived: sample_metric.rs 226-241, sample_metric.rs 46-61, sample_metric.rs 92-121 *)
Definition write_int (z : Z) : json := JNum (NInt z).
(* an f64 that is neither infinite nor NaN: its exponent is not all ones *)
(* serde_json: a double that is not finite is written as null *)
Definition finite (b : N) : bool := negb (N.eqb (N.modulo (N.div b 4503599627370496) 2048) 2047).
(* serde_json writes null for the others *)
(* Serialize, derived: sample_metric.rs 226-241, sample_metric.rs 46-61, sample_metric.rs 92-121 *)
Definition write_f64 (b : N) : json := if finite b then JNum (NFloat b) else JNull.
(* crates/weaver_semconv/src/group.rs SpanKindSpec, rename_all *)
Definition kind_name (k : span_kind) : string :=
  match k with
  | KInternal => "internal" | KClient => "client" | KServer => "server" | KProducer => "producer"
  | KConsumer => "consumer"
  end.
(* sample_span.rs 18-37, rename_all *)
Definition code_name (c : status_code) : string :=
  match c with StUnset => "unset" | StOk => "ok" | StError => "error" end.
(* Serialize, derived: sample_metric.rs 24-32 *)
Definition write_instrument (i : sinstrument) : json :=
  match i with LiveModel.Supported i => JStr (instrument_str i) | LiveModel.Unsupported s => JStr s end.

(* Serialize, derived: lib.rs 484-491 *)
Definition write_result (r : lcr) : json :=
  JObj [("all_advice", write_vec PolicyModel.write_finding (LiveModel.all_advice r));
        ("highest_advice_level", write_opt (fun l => JStr (PolicyModel.level_name l)) (LiveModel.highest r))].
(* crates/weaver_live_check/src/lib.rs 484-491, the optional result *)
Definition write_res (r : option lcr) : string * json := ("live_check_result", write_opt write_result r).
(* Serialize, derived: sample_attribute.rs 34-61 *)
Definition write_attr (a : sattr) : json :=
  JObj [("name", JStr (LiveModel.sa_name a));
        ("value", write_opt (fun v => v) (LiveModel.sa_value a));
        ("type", write_opt (fun t => JStr (prim_str t)) (LiveModel.sa_type a));
        write_res (LiveModel.sa_result a)].
(* Serialize, derived: sample_attribute.rs 34-61 *)
Definition write_attrs := write_vec write_attr.
(* Serialize, derived: sample_span.rs 30-37, sample_span.rs 101-112, sample_span.rs 139-147 *)
Definition write_status (s : status) : json :=
  JObj [("code", JStr (code_name (su_code s))); ("message", JStr (su_message s))].
(* Serialize, derived: sample_span.rs 30-37, sample_span.rs 101-112, sample_span.rs 139-147 *)
Definition write_event (e : span_event) : json :=
  JObj [("name", JStr (e_name e)); ("attributes", write_attrs (e_attrs e)); write_res (e_result e)].
(* Serialize, derived: sample_span.rs 30-37, sample_span.rs 101-112, sample_span.rs 139-147 *)
Definition write_link (l : span_link) : json :=
  JObj [("attributes", write_attrs (l_attrs l)); write_res (l_result l)].
(* Serialize, derived: sample_span.rs 30-37, sample_span.rs 101-112, sample_span.rs 139-147 *)
Definition write_span (s : span) : json :=
  JObj [("name", JStr (s_name s)); ("kind", JStr (kind_name (s_kind s)));
        ("status", write_opt write_status (s_status s)); ("attributes", write_attrs (s_attrs s));
        ("span_events", write_vec write_event (s_events s)); ("span_links", write_vec write_link (s_links s));
        write_res (s_result s)].
(* Serialize, derived: sample_metric.rs 226-241, sample_metric.rs 46-61, sample_metric.rs 92-121 *)
Definition write_exemplar (x : exemplar) : json :=
  JObj [("filtered_attributes", write_attrs (x_attrs x)); ("value", x_value x);
        ("timestamp", JStr (x_timestamp x)); ("span_id", JStr (x_span_id x));
        ("trace_id", JStr (x_trace_id x)); write_res (x_result x)].
(* Serialize, derived: sample_metric.rs 226-241, sample_metric.rs 46-61, sample_metric.rs 92-121 *)
Definition write_number (p : number_point) : json :=
  JObj [("attributes", write_attrs (n_attrs p)); ("value", n_value p); ("flags", write_int (n_flags p));
        ("exemplars", write_vec write_exemplar (n_exemplars p)); write_res (n_result p)].
(* Serialize, derived: sample_metric.rs 226-241, sample_metric.rs 46-61, sample_metric.rs 92-121 *)
Definition write_histogram (p : histogram_point) : json :=
  JObj [("attributes", write_attrs (h_attrs p)); ("count", write_int (h_count p));
        ("sum", write_opt write_f64 (h_sum p)); ("bucket_counts", write_vec write_int (h_bucket_counts p));
        ("explicit_bounds", write_vec write_f64 (h_bounds p)); ("min", write_opt write_f64 (h_min p));
        ("max", write_opt write_f64 (h_max p)); ("flags", write_int (h_flags p));
        ("exemplars", write_vec write_exemplar (h_exemplars p)); write_res (h_result p)].
(* Serialize, derived: sample_metric.rs 226-241, sample_metric.rs 46-61, sample_metric.rs 92-121 *)
Definition write_buckets (b : buckets) : json :=
  JObj [("offset", write_int (b_offset b)); ("bucket_counts", write_vec write_int (b_counts b))].
(* Serialize, derived: sample_metric.rs 226-241, sample_metric.rs 46-61, sample_metric.rs 92-121 *)
Definition write_exponential (p : exponential_point) : json :=
  JObj [("attributes", write_attrs (p_attrs p)); ("count", write_int (p_count p));
        ("sum", write_opt write_f64 (p_sum p)); ("scale", write_int (p_scale p));
        ("zero_count", write_int (p_zero_count p)); ("positive", write_opt write_buckets (p_positive p));
        ("negative", write_opt write_buckets (p_negative p)); ("flags", write_int (p_flags p));
        ("min", write_opt write_f64 (p_min p)); ("max", write_opt write_f64 (p_max p));
        ("zero_threshold", write_f64 (p_zero_threshold p));
        ("exemplars", write_vec write_exemplar (p_exemplars p)); write_res (p_result p)].
(* Serialize, derived: sample_metric.rs 34-44 *)
Definition write_points (p : points) : json :=
  match p with
  | Numbers l => write_vec write_number l
  | Histograms l => write_vec write_histogram l
  | Exponentials l => write_vec write_exponential l
  end.
(* Serialize, derived: sample_metric.rs 280-299 *)
Definition write_metric (m : metric) : json :=
  JObj [("name", JStr (m_name m)); ("instrument", write_instrument (m_instrument m));
        ("unit", JStr (m_unit m)); ("data_points", write_opt write_points (m_points m));
        write_res (m_result m)].
(* Serialize, derived: sample_log.rs 21-47 *)
Definition write_log (g : log) : json :=
  JObj [("event_name", JStr (g_event g)); ("severity_number", write_opt write_int (g_severity_number g));
        ("severity_text", write_opt JStr (g_severity_text g)); ("body", write_opt JStr (g_body g));
        ("attributes", write_attrs (g_attrs g)); ("trace_id", write_opt JStr (g_trace_id g));
        ("span_id", write_opt JStr (g_span_id g)); write_res (g_result g)].
(* Serialize, derived: sample_resource.rs 15-24 *)
Definition write_resource (r : resource) : json :=
  JObj [("attributes", write_attrs (r_attrs r)); write_res (r_result r)].
(* Serialize, derived: sample_instrumentation_scope.rs 15-35 *)
Definition write_scope (o : scope) : json :=
  JObj [("name", JStr (o_name o)); ("version", JStr (o_version o)); ("schema_url", JStr (o_schema_url o));
        ("attributes", write_attrs (o_attrs o)); ("dropped_attributes_count", write_int (o_dropped o));
        write_res (o_result o)].
(* Serialize, derived: sample_profile.rs 16-33 *)
Definition write_profile (f : profile) : json :=
  JObj [("original_payload_format", JStr (f_format f)); ("attributes", write_attrs (f_attrs f));
        write_res (f_result f)].
(* Serialize, derived: lib.rs 283-306 *)
Definition write_sample (s : sample) : json :=
  match s with
  | Attribute a => JObj [("attribute", write_attr a)]
  | Span s => JObj [("span", write_span s)]
  | SpanEvent e => JObj [("span_event", write_event e)]
  | SpanLink l => JObj [("span_link", write_link l)]
  | Resource r => JObj [("resource", write_resource r)]
  | Scope o => JObj [("instrumentation_scope", write_scope o)]
  | Metric m => JObj [("metric", write_metric m)]
  | Log g => JObj [("log", write_log g)]
  | Profile f => JObj [("profile", write_profile f)]
  end.
(* src/registry/live_check.rs: the samples of a report *)
(* crates/weaver_live_check/src/lib.rs 283-306, a list of samples *)
Definition write_samples (l : list sample) : json := write_vec write_sample l.
