(* What a JSON document of samples is, said without the readers and writers of JinModel. *)
From Coq Require Import String Ascii Bool Arith ZArith NArith List.
Import ListNotations.
From Verif Require Import Base Json SemTypes JinModel.
From Verif Require LiveModel LiveAdvisors.
Local Open Scope string_scope.

(* ---------- the fields of an entity ---------- *)
Inductive sort :=
| Needed                    (* must be there *)
| Optional                  (* may be left out, null says the same *)
| Default (d : json).       (* may be left out, which says [d] *)
Inductive kind :=
| KAttr | KSpan | KEvent | KLink | KResource | KScope | KMetric | KLog | KProfile
| KNumber | KHistogram | KExponential | KBuckets | KExemplar | KStatus.
Definition zero : json := JNum (NInt 0).
Definition table (k : kind) : list (string * sort) :=
  match k with
  | KAttr => [("name", Needed); ("value", Optional); ("type", Optional)]
  | KSpan => [("name", Needed); ("kind", Needed); ("status", Optional); ("attributes", Default (JArr []));
              ("span_events", Default (JArr [])); ("span_links", Default (JArr []));
              ("live_check_result", Optional)]
  | KEvent => [("name", Needed); ("attributes", Default (JArr [])); ("live_check_result", Optional)]
  | KLink => [("attributes", Default (JArr [])); ("live_check_result", Optional)]
  | KResource => [("attributes", Default (JArr [])); ("live_check_result", Optional)]
  | KScope => [("name", Default (JStr "")); ("version", Default (JStr "")); ("schema_url", Default (JStr ""));
               ("attributes", Default (JArr [])); ("dropped_attributes_count", Default zero);
               ("live_check_result", Optional)]
  | KMetric => [("name", Needed); ("instrument", Needed); ("unit", Needed); ("data_points", Optional);
                ("live_check_result", Optional)]
  | KLog => [("event_name", Needed); ("severity_number", Optional); ("severity_text", Optional);
             ("body", Optional); ("attributes", Default (JArr [])); ("trace_id", Optional);
             ("span_id", Optional); ("live_check_result", Optional)]
  | KProfile => [("original_payload_format", Needed); ("attributes", Default (JArr []));
                 ("live_check_result", Optional)]
  | KNumber => [("attributes", Needed); ("value", Needed); ("flags", Default zero);
                ("exemplars", Default (JArr [])); ("live_check_result", Optional)]
  | KHistogram => [("attributes", Needed); ("count", Needed); ("sum", Optional);
                   ("bucket_counts", Default (JArr [])); ("explicit_bounds", Default (JArr []));
                   ("min", Optional); ("max", Optional); ("flags", Default zero);
                   ("exemplars", Default (JArr [])); ("live_check_result", Optional)]
  | KExponential => [("attributes", Needed); ("count", Needed); ("sum", Optional); ("scale", Default zero);
                     ("zero_count", Default zero); ("positive", Optional); ("negative", Optional);
                     ("flags", Default zero); ("min", Optional); ("max", Optional);
                     ("zero_threshold", Default (JNum (NFloat 0))); ("exemplars", Default (JArr []));
                     ("live_check_result", Optional)]
  | KBuckets => [("offset", Needed); ("bucket_counts", Needed)]
  | KExemplar => [("filtered_attributes", Needed); ("value", Needed); ("timestamp", Needed);
                  ("span_id", Needed); ("trace_id", Needed); ("live_check_result", Optional)]
  | KStatus => [("code", Needed); ("message", Needed)]
  end.

(* an entity of any kind *)
Inductive thing :=
| TSample (s : sample) | TNumber (p : number_point) | THistogram (p : histogram_point)
| TExponential (p : exponential_point) | TBuckets (b : buckets) | TExemplar (x : exemplar)
| TStatus (u : status).
(* what the object of an entity of a kind is read as *)
Definition read_as (f : Z -> N) (k : kind) (v : json) : option thing :=
  match k with
  | KAttr => option_map (fun a => TSample (Attribute a)) (read_attr v)
  | KSpan => option_map (fun a => TSample (Span a)) (read_span v)
  | KEvent => option_map (fun a => TSample (SpanEvent a)) (read_event v)
  | KLink => option_map (fun a => TSample (SpanLink a)) (read_link v)
  | KResource => option_map (fun a => TSample (Resource a)) (read_resource v)
  | KScope => option_map (fun a => TSample (Scope a)) (read_scope v)
  | KMetric => option_map (fun a => TSample (Metric a)) (read_metric f v)
  | KLog => option_map (fun a => TSample (Log a)) (read_log v)
  | KProfile => option_map (fun a => TSample (Profile a)) (read_profile v)
  | KNumber => option_map TNumber (read_number v)
  | KHistogram => option_map THistogram (read_histogram f v)
  | KExponential => option_map TExponential (read_exponential f v)
  | KBuckets => option_map TBuckets (read_buckets v)
  | KExemplar => option_map TExemplar (read_exemplar v)
  | KStatus => option_map TStatus (read_status v)
  end.
(* the key a sample is tagged with, and its kind *)
Definition tag (s : sample) : string :=
  match s with
  | Attribute _ => "attribute" | Span _ => "span" | SpanEvent _ => "span_event" | SpanLink _ => "span_link"
  | Resource _ => "resource" | Scope _ => "instrumentation_scope" | Metric _ => "metric" | Log _ => "log"
  | Profile _ => "profile"
  end.
Definition kind_of (s : sample) : kind :=
  match s with
  | Attribute _ => KAttr | Span _ => KSpan | SpanEvent _ => KEvent | SpanLink _ => KLink
  | Resource _ => KResource | Scope _ => KScope | Metric _ => KMetric | Log _ => KLog | Profile _ => KProfile
  end.

(* the entries of an object under a key *)
Definition under (key : string) (m : list (string * json)) : list json :=
  map snd (filter (fun kv => String.eqb (fst kv) key) m).

(* ---------- what a sample carries ---------- *)
Definition advice (r : option lcr) : list LiveModel.finding :=
  match r with Some r => LiveModel.all_advice r | None => [] end.
Definition exemplars_of (p : points) : list exemplar :=
  match p with
  | Numbers l => flat_map n_exemplars l
  | Histograms l => flat_map h_exemplars l
  | Exponentials l => flat_map p_exemplars l
  end.
(* the results of the entities of a sample that are not attributes *)
Definition results_of (s : sample) : list (option lcr) :=
  match s with
  | Attribute _ => []
  | Span s => s_result s :: map e_result (s_events s) ++ map l_result (s_links s)
  | SpanEvent e => [e_result e]
  | SpanLink l => [l_result l]
  | Resource r => [r_result r]
  | Scope o => [o_result o]
  | Metric m =>
      m_result m ::
      match m_points m with
      | None => []
      | Some p => (match p with
                   | Numbers l => map n_result l
                   | Histograms l => map h_result l
                   | Exponentials l => map p_result l
                   end ++ map x_result (exemplars_of p))%list
      end
  | Log g => [g_result g]
  | Profile f => [f_result f]
  end.
(* the findings that stand elsewhere than at attributes *)
Definition findings_beside (s : sample) : list LiveModel.finding := flat_map advice (results_of s).

(* ---------- samples that JSON can carry ---------- *)
Definition u32 (z : Z) : Prop := (0 <= z < 2 ^ 32)%Z.
Definition u64 (z : Z) : Prop := (0 <= z < 2 ^ 64)%Z.
Definition i32 (z : Z) : Prop := (- 2 ^ 31 <= z < 2 ^ 31)%Z.
(* a double that is neither infinite nor NaN: as a sign, an exponent below the greatest and a fraction *)
Definition number (b : N) : Prop :=
  exists sign exponent fraction : N,
    (sign < 2 /\ exponent < 2047 /\ fraction < 2 ^ 52 /\ b = sign * 2 ^ 63 + exponent * 2 ^ 52 + fraction)%N.
Definition if_some {A} (P : A -> Prop) (o : option A) : Prop := forall a, o = Some a -> P a.
(* an attribute whose value, if there is one, is not null, and whose type is known unless the value tells
   none *)
Definition attr_ok (a : sattr) : Prop :=
  LiveModel.sa_value a <> Some JNull /\
  (LiveModel.sa_type a = None ->
   forall v, LiveModel.sa_value a = Some v -> LiveAdvisors.infer_type v = None).
Definition exemplar_ok (x : exemplar) : Prop := Forall attr_ok (x_attrs x) /\ advice (x_result x) = [].
Definition number_ok (p : number_point) : Prop :=
  Forall attr_ok (n_attrs p) /\ u32 (n_flags p) /\ Forall exemplar_ok (n_exemplars p) /\
  advice (n_result p) = [].
Definition histogram_ok (p : histogram_point) : Prop :=
  Forall attr_ok (h_attrs p) /\ u64 (h_count p) /\ if_some number (h_sum p) /\
  Forall u64 (h_bucket_counts p) /\ Forall number (h_bounds p) /\ if_some number (h_min p) /\
  if_some number (h_max p) /\ u32 (h_flags p) /\ Forall exemplar_ok (h_exemplars p) /\
  advice (h_result p) = [].
Definition exponential_ok (p : exponential_point) : Prop :=
  Forall attr_ok (p_attrs p) /\ u64 (p_count p) /\ if_some number (p_sum p) /\ if_some number (p_min p) /\
  if_some number (p_max p) /\ u32 (p_flags p) /\ Forall exemplar_ok (p_exemplars p) /\
  advice (p_result p) = [].
Definition instrument_ok (i : sinstrument) : Prop :=
  match i with
  | LiveModel.Supported _ => True
  | LiveModel.Unsupported n => ~ In n ["updowncounter"; "counter"; "gauge"; "histogram"]
  end.
(* number points, or one histogram point and more *)
Definition points_ok (p : points) : Prop :=
  match p with
  | Numbers l => Forall number_ok l
  | Histograms l => l <> [] /\ Forall histogram_ok l
  | Exponentials _ => False
  end.
Definition event_ok (e : span_event) : Prop := Forall attr_ok (e_attrs e) /\ advice (e_result e) = [].
Definition link_ok (l : span_link) : Prop := Forall attr_ok (l_attrs l) /\ advice (l_result l) = [].
Definition sample_ok (s : sample) : Prop :=
  match s with
  | Attribute a => attr_ok a
  | Span s => Forall attr_ok (s_attrs s) /\ Forall event_ok (s_events s) /\ Forall link_ok (s_links s) /\
              advice (s_result s) = []
  | SpanEvent e => event_ok e
  | SpanLink l => link_ok l
  | Resource r => Forall attr_ok (r_attrs r) /\ advice (r_result r) = []
  | Scope o => Forall attr_ok (o_attrs o) /\ u32 (o_dropped o) /\ advice (o_result o) = []
  | Metric m => instrument_ok (m_instrument m) /\ if_some points_ok (m_points m) /\ advice (m_result m) = []
  | Log g => if_some i32 (g_severity_number g) /\ Forall attr_ok (g_attrs g) /\ advice (g_result g) = []
  | Profile f => Forall attr_ok (f_attrs f) /\ advice (f_result f) = []
  end.

(* the same without the results of the attributes *)
Definition bare (a : sattr) : sattr :=
  {| LiveModel.sa_name := LiveModel.sa_name a; LiveModel.sa_value := LiveModel.sa_value a;
     LiveModel.sa_type := LiveModel.sa_type a; LiveModel.sa_result := None |}.
Definition bare_exemplar (x : exemplar) : exemplar :=
  mk_exemplar (map bare (x_attrs x)) (x_value x) (x_timestamp x) (x_span_id x) (x_trace_id x) (x_result x).
Definition bare_number (p : number_point) : number_point :=
  mk_number (map bare (n_attrs p)) (n_value p) (n_flags p) (map bare_exemplar (n_exemplars p)) (n_result p).
Definition bare_histogram (p : histogram_point) : histogram_point :=
  mk_histogram (map bare (h_attrs p)) (h_count p) (h_sum p) (h_bucket_counts p) (h_bounds p) (h_min p)
    (h_max p) (h_flags p) (map bare_exemplar (h_exemplars p)) (h_result p).
Definition bare_points (p : points) : points :=
  match p with
  | Numbers l => Numbers (map bare_number l)
  | Histograms l => Histograms (map bare_histogram l)
  | Exponentials l => Exponentials l
  end.
Definition bare_event (e : span_event) : span_event := mk_event (e_name e) (map bare (e_attrs e)) (e_result e).
Definition bare_link (l : span_link) : span_link := mk_link (map bare (l_attrs l)) (l_result l).
Definition bare_sample (s : sample) : sample :=
  match s with
  | Attribute a => Attribute (bare a)
  | Span s => Span (mk_span (s_name s) (s_kind s) (s_status s) (map bare (s_attrs s))
                      (map bare_event (s_events s)) (map bare_link (s_links s)) (s_result s))
  | SpanEvent e => SpanEvent (bare_event e)
  | SpanLink l => SpanLink (bare_link l)
  | Resource r => Resource (mk_resource (map bare (r_attrs r)) (r_result r))
  | Scope o => Scope (mk_scope (o_name o) (o_version o) (o_schema_url o) (map bare (o_attrs o)) (o_dropped o)
                        (o_result o))
  | Metric m => Metric (mk_metric (m_name m) (m_instrument m) (m_unit m) (option_map bare_points (m_points m))
                          (m_result m))
  | Log g => Log (mk_log (g_event g) (g_severity_number g) (g_severity_text g) (g_body g)
                    (map bare (g_attrs g)) (g_trace_id g) (g_span_id g) (g_result g))
  | Profile f => Profile (mk_profile (f_format f) (map bare (f_attrs f)) (f_result f))
  end.
(* what is left of a point of an exponential histogram when it is taken for one of a histogram *)
Definition flattened (p : exponential_point) : histogram_point :=
  mk_histogram (map bare (p_attrs p)) (p_count p) (p_sum p) [] [] (p_min p) (p_max p) (p_flags p)
    (map bare_exemplar (p_exemplars p)) (p_result p).

(* ---------- samples used in statements ---------- *)
Definition an_attr (n v : string) : sattr :=
  {| LiveModel.sa_name := n; LiveModel.sa_value := Some (JStr v); LiveModel.sa_type := Some PString;
     LiveModel.sa_result := None |}.
Definition a_finding : LiveModel.finding :=
  {| LiveModel.f_id := "missing_metric"; LiveModel.f_context := None;
     LiveModel.f_message := "Metric does not exist in the registry."; LiveModel.f_level := LiveModel.Violation;
     LiveModel.f_signal_type := Some "metric"; LiveModel.f_signal_name := Some "m" |}.
Definition no_advice : option lcr := Some {| LiveModel.all_advice := []; LiveModel.highest := None |}.
Definition one_finding : option lcr :=
  Some {| LiveModel.all_advice := [a_finding]; LiveModel.highest := Some LiveModel.Violation |}.
Definition a_number : number_point :=
  mk_number [an_attr "k" "v"] (JNum (NInt 7)) 1
    [mk_exemplar [an_attr "x" "y"] (JNum (NInt 3)) "t" "s" "c" no_advice] no_advice.
(* 1.5 is 0x3FF8000000000000 *)
Definition a_histogram : histogram_point :=
  mk_histogram [an_attr "k" "v"] 3 (Some 4609434218613702656%N) [1; 2]%Z [4609434218613702656%N] None None 0
    [] no_advice.
Definition an_exponential : exponential_point :=
  mk_exponential [an_attr "k" "v"] 3 (Some 4609434218613702656%N) 2 1 (Some (mk_buckets 0 [1; 1]%Z)) None 0
    None None 0%N [] no_advice.
Definition a_metric (p : points) (r : option lcr) : sample :=
  Metric (mk_metric "m" (LiveModel.Supported Histogram) "s" (Some p) r).
Definition a_span : sample :=
  Span (mk_span "GET" KClient (Some (mk_status StError "no")) [an_attr "k" "v"]
          [mk_event "e" [an_attr "x" "y"] no_advice] [mk_link [] None] no_advice).
