(* Vocabulary for C45, C74: what an inferred registry may say about the telemetry it was inferred from. *)
From Coq Require Import String Ascii Bool Arith ZArith NArith Permutation Sorted List.
Import ListNotations.
From Verif Require Import Base Json F64 SemTypes Resolved DefModel InferModel.
From Verif Require LiveSpec.
Local Open Scope string_scope.

(* the iteration order of hash maps may be any *)
Definition any_order (order : list string -> forall A, list (string * A) -> list (string * A)) : Prop := forall tag A l, Permutation l (order tag A l).

(* ---------- where attributes are observed ---------- *)
Inductive source := FromResource | FromSpan (name : string) | FromSpanEvent (span event : string) | FromMetric (name : string) | FromEvent (name : string).
(* the attributes that a sample shows of a source *)
Definition shown (src : source) (s : isample) : list iattr :=
  match src, s with
  | FromResource, IResource l => l
  | FromResource, IAttribute a => [a]
  | FromSpan n, ISpan m _ l _ => if String.eqb m n then l else []
  | FromSpanEvent n e, ISpan m _ _ events => if String.eqb m n then flat_map snd (filter (fun x => String.eqb (fst x) e) events) else []
  | FromMetric n, IMetric m (Some _) _ (Some points) => if String.eqb m n then concat points else []
  | FromEvent n, ILog m l => if String.eqb m n && negb (String.eqb m "") then l else []
  | _, _ => []
  end.
Definition observed (samples : list isample) (src : source) (a : iattr) : Prop := exists s, In s samples /\ In a (shown src s).
(* the observations of one attribute, in the order they arrived *)
Definition stream (samples : list isample) (src : source) (name : string) : list iattr :=
  filter (fun a => String.eqb (ia_name a) name) (flat_map (shown src) samples).
Definition stream_values (l : list iattr) : list json := flat_map (fun a => match ia_value a with Some v => [v] | None => [] end) l.
(* a definition is taken from the resource if it has the attribute, else from a span or its events, else
   from a metric, else from an event *)
Definition rank (src : source) : nat :=
  match src with FromResource => 0 | FromSpan _ | FromSpanEvent _ _ => 1 | FromMetric _ => 2 | FromEvent _ => 3 end.

(* ---------- signals ---------- *)
Definition first_span (samples : list isample) (n : string) (k : span_kind) : Prop :=
  exists a l e b, samples = app a (ISpan n k l e :: b) /\ forall k' l' e', ~ In (ISpan n k' l' e') a.
Definition first_metric (samples : list isample) (n : string) (i : instrument) (u : string) : Prop :=
  exists a p b, samples = app a (IMetric n (Some i) u p :: b) /\ forall i' u' p', ~ In (IMetric n (Some i') u' p') a.
Definition span_seen (samples : list isample) (n : string) : Prop := exists k l e, In (ISpan n k l e) samples.
Definition metric_seen (samples : list isample) (n : string) : Prop := exists i u p, In (IMetric n (Some i) u p) samples.
Definition event_seen (samples : list isample) (n : string) : Prop :=
  (n <> "" /\ exists l, In (ILog n l) samples) \/ exists m k l events l', In (ISpan m k l events) samples /\ In (n, l') events.
Definition plain_ref (n : string) : attr_or_group :=
  UAttr {| ar_ref := n; ar_brief := None; ar_examples := None; ar_req := None; ar_note := None; ar_stability := None;
           ar_deprecated := None; ar_annotations := [] |} None.
(* nothing is known beyond what was observed *)
Definition only_observed : common := {| c_brief := ""; c_note := ""; c_stability := SDevelopment; c_deprecated := None; c_annotations := [] |}.
(* references to just these names, each once and sorted *)
Definition refers (l : list attr_or_group) (P : string -> Prop) : Prop :=
  exists names, l = map plain_ref names /\ StronglySorted (fun a b => str_cmp a b = Lt) names /\ forall n, In n names <-> P n.

(* ---------- examples ---------- *)
Definition plain (v : json) : Prop := match v with JBool _ | JNum _ | JStr _ => True | _ => False end.
(* what is kept of [l] after [before]: up to five different ones *)
Inductive kept {A} (same : A -> A -> Prop) : list A -> list A -> list A -> Prop :=
| kp_end before : kept same before [] before
| kp_skip before x l r : 5 <= length before \/ (exists y, In y before /\ same y x) -> kept same before l r -> kept same before (x :: l) r
| kp_take before x l r : length before < 5 -> (forall y, In y before -> ~ same y x) -> kept same (app before [x]) l r -> kept same before (x :: l) r.
Definition one_or_many {A} (one : A -> examples) (many : list A -> examples) (l : list A) : examples := match l with [x] => one x | _ => many l end.
Definition is_i64 (z : Z) : Prop := (- 2 ^ 63 <= z < 2 ^ 63)%Z.
Definition same_double (a b : N) : Prop := (decode a = FNaN /\ decode b = FNaN) \/ (decode a = decode b /\ decode a <> FNaN).
Definition bools (l : list json) : list bool := flat_map (fun v => match v with JBool b => [b] | _ => [] end) l.
Definition texts (l : list json) : list string := flat_map (fun v => match v with JStr s => [s] | _ => [] end) l.
Definition ints (l : list json) : list Z :=
  flat_map (fun v => match v with JNum (NInt z) => if (Z.leb (- 2 ^ 63) z && Z.ltb z (2 ^ 63))%Z then [z] else [] | _ => [] end) l.
Definition doubles (to_f64 : Z -> N) (l : list json) : list N :=
  flat_map (fun v => match v with JNum (NInt z) => [to_f64 z] | JNum (NFloat d) => [d] | _ => [] end) l.
(* the examples for the values observed: the first plain value decides their sort *)
Inductive illustrated (to_f64 : Z -> N) (vs : list json) : option examples -> Prop :=
| il_none : (forall v, In v vs -> ~ plain v) -> illustrated to_f64 vs None
| il_bool a x r l : vs = app a (JBool x :: r) -> (forall v, In v a -> ~ plain v) -> kept eq [x] (bools r) l ->
    illustrated to_f64 vs (Some (one_or_many EBool EBools l))
| il_int a x r l : vs = app a (JNum (NInt x) :: r) -> is_i64 x -> (forall v, In v a -> ~ plain v) -> kept eq [x] (ints r) l ->
    illustrated to_f64 vs (Some (one_or_many EInt EInts l))
| il_large a x r l : vs = app a (JNum (NInt x) :: r) -> ~ is_i64 x -> (forall v, In v a -> ~ plain v) ->
    kept same_double [to_f64 x] (doubles to_f64 r) l -> illustrated to_f64 vs (Some (one_or_many EDouble EDoubles l))
| il_double a x r l : vs = app a (JNum (NFloat x) :: r) -> (forall v, In v a -> ~ plain v) ->
    kept same_double [x] (doubles to_f64 r) l -> illustrated to_f64 vs (Some (one_or_many EDouble EDoubles l))
| il_text a x r l : vs = app a (JStr x :: r) -> (forall v, In v a -> ~ plain v) -> kept eq [x] (texts r) l ->
    illustrated to_f64 vs (Some (one_or_many EString EStrings l)).
(* the single examples, and how an observed value reads as one *)
Inductive example := XBool (b : bool) | XInt (z : Z) | XDouble (d : N) | XText (s : string).
Definition listed (e : examples) : list example :=
  match e with
  | EBool b => [XBool b] | EInt z => [XInt z] | EDouble d => [XDouble d] | EString s => [XText s]
  | EBools l => map XBool l | EInts l => map XInt l | EDoubles l => map XDouble l | EStrings l => map XText l
  | _ => []
  end.
Definition read_as (to_f64 : Z -> N) (v : json) (x : example) : Prop :=
  match v, x with
  | JBool b, XBool b' => b' = b
  | JNum (NInt z), XInt z' => z' = z /\ is_i64 z
  | JNum (NInt z), XDouble d => d = to_f64 z
  | JNum (NFloat d), XDouble d' => d' = d
  | JStr s, XText s' => s' = s
  | _, _ => False
  end.
Definition same_sort (x y : example) : Prop :=
  match x, y with XBool _, XBool _ | XInt _, XInt _ | XDouble _, XDouble _ | XText _, XText _ => True | _, _ => False end.
Definition same_example (x y : example) : Prop := x = y \/ exists a b, x = XDouble a /\ y = XDouble b /\ same_double a b.
(* up to five different examples of one sort, all of them observed; if fewer than five, then all that were observed *)
Definition good_examples (to_f64 : Z -> N) (vs : list json) (l : list example) : Prop :=
  1 <= length l <= 5 /\ (forall i j x y, nth_error l i = Some x -> nth_error l j = Some y -> i < j -> ~ same_example x y) /\
  (forall x, In x l -> exists v, In v vs /\ read_as to_f64 v x) /\ (forall x y, In x l -> In y l -> same_sort x y) /\
  (length l < 5 -> forall v x, In v vs -> read_as to_f64 v x -> (exists y, In y l /\ same_sort y x) -> exists y, In y l /\ same_example y x).

(* ---------- messages ---------- *)
(* the value that a message carries, as far as it can be shown *)
Inductive carries : any_value -> json -> Prop :=
| ca_text s : carries (AnyString s) (JStr s)
| ca_int z : carries (AnyInt z) (JNum (NInt z))
| ca_bool b : carries (AnyBool b) (JBool b)
| ca_double d z : decode d = FFin z -> carries (AnyDouble d) (JNum (NFloat d))
| ca_no_number d : (forall z, decode d <> FFin z) -> carries (AnyDouble d) JNull
| ca_array l js : carries_all l js -> carries (AnyArray l) (JArr js)
with carries_all : list any_value -> list json -> Prop :=
| ca_nil : carries_all [] []
| ca_cons x j l js : carries x j -> carries_all l js -> carries_all (x :: l) (j :: js)
| ca_skip x l js : (x = AnyNone \/ x = AnyOther) -> carries_all l js -> carries_all (x :: l) js.
(* the attribute that a key and a value of a message stand for *)
Definition of_message (kv : key_value) (a : iattr) : Prop :=
  ia_name a = fst kv /\
  ((exists j, carries (snd kv) j /\ ia_value a = Some j /\ forall t, ia_type a = Some t <-> LiveSpec.has_type j t) \/
   ((snd kv = AnyNone \/ snd kv = AnyOther) /\ ia_value a = None /\ ia_type a = None)).
(* the requests that are handled: up to the first stop *)
Definition handled (l before : list request) : Prop := ~ In RqStop before /\ (l = before \/ exists rest, l = app before (RqStop :: rest)).
(* the attributes that a request holds of a source *)
Inductive held : request -> source -> key_value -> Prop :=
| he_logs l rs kv attrs : In rs l -> fst rs = Some attrs -> In kv attrs -> held (RqLogs l) FromResource kv
| he_metrics l rs kv attrs : In rs l -> fst rs = Some attrs -> In kv attrs -> held (RqMetrics l) FromResource kv
| he_traces l rs kv attrs : In rs l -> fst rs = Some attrs -> In kv attrs -> held (RqTraces l) FromResource kv
| he_profiles l rs kv attrs : In rs l -> fst rs = Some attrs -> In kv attrs -> held (RqProfiles l) FromResource kv
| he_log l rs scope r kv : In rs l -> In scope (snd rs) -> In r scope -> ol_event r <> "" -> In kv (ol_attrs r) -> held (RqLogs l) (FromEvent (ol_event r)) kv
| he_metric l rs scope m ps p kv : In rs l -> In scope (snd rs) -> In m scope ->
    (exists mono, om_data m = OdSum mono ps) \/ om_data m = OdGauge ps \/ om_data m = OdHistogram ps \/ om_data m = OdExponential ps ->
    In p ps -> In kv p -> held (RqMetrics l) (FromMetric (om_name m)) kv
| he_span l rs scope s kv : In rs l -> In scope (snd rs) -> In s scope -> In kv (os_attrs s) -> held (RqTraces l) (FromSpan (os_name s)) kv
| he_span_event l rs scope s e kv : In rs l -> In scope (snd rs) -> In s scope -> In e (os_events s) -> In kv (snd e) ->
    held (RqTraces l) (FromSpanEvent (os_name s) (fst e)) kv.

(* a request that leaves something in the registry file *)
Inductive says_something : request -> Prop :=
| ss_resource r kv : held r FromResource kv -> says_something r
| ss_log l rs scope r : In rs l -> In scope (snd rs) -> In r scope -> ol_event r <> "" -> says_something (RqLogs l)
| ss_metric l rs scope m : In rs l -> In scope (snd rs) -> In m scope -> om_data m <> OdSummary -> om_data m <> OdNone -> says_something (RqMetrics l)
| ss_span l rs scope s : In rs l -> In scope (snd rs) -> In s scope -> says_something (RqTraces l).
(* what is sent, in order, and the samples it becomes *)
Definition content {A} (l : list (sent A)) : list A := flat_map (fun rs => concat (snd rs)) l.
Definition spans_in (r : request) : list otlp_span := match r with RqTraces l => content l | _ => [] end.
Definition metrics_in (r : request) : list otlp_metric := match r with RqMetrics l => content l | _ => [] end.
Definition logs_in (r : request) : list otlp_log := match r with RqLogs l => content l | _ => [] end.
Definition resources_of {A} (l : list (sent A)) : list (list key_value) := flat_map (fun rs => match fst rs with Some attrs => [attrs] | None => [] end) l.
Definition resources_in (r : request) : list (list key_value) :=
  match r with RqLogs l => resources_of l | RqMetrics l => resources_of l | RqTraces l => resources_of l | RqProfiles l => resources_of l | RqStop | RqError => [] end.
Definition is_span (s : isample) : bool := match s with ISpan _ _ _ _ => true | _ => false end.
Definition is_metric (s : isample) : bool := match s with IMetric _ _ _ _ => true | _ => false end.
Definition is_log (s : isample) : bool := match s with ILog _ _ => true | _ => false end.
Definition is_resource (s : isample) : bool := match s with IResource _ => true | _ => false end.
Definition span_shown (s : otlp_span) (x : isample) : Prop :=
  exists k attrs events, x = ISpan (os_name s) k attrs events /\
    In (os_kind s, k) [(OkUnspecified, SkInternal); (OkInternal, SkInternal); (OkServer, SkServer); (OkClient, SkClient); (OkProducer, SkProducer); (OkConsumer, SkConsumer)] /\
    Forall2 of_message (os_attrs s) attrs /\ Forall2 (fun e y => fst y = fst e /\ Forall2 of_message (snd e) (snd y)) (os_events s) events.
Definition metric_shown (m : otlp_metric) (x : isample) : Prop :=
  exists i p, x = IMetric (om_name m) i (om_unit m) p /\
    match om_data m with
    | OdSum monotonic ps => i = Some (if monotonic then Counter else UpDownCounter) /\ exists q, p = Some q /\ Forall2 (Forall2 of_message) ps q
    | OdGauge ps => i = Some Gauge /\ exists q, p = Some q /\ Forall2 (Forall2 of_message) ps q
    | OdHistogram ps | OdExponential ps => i = Some Histogram /\ exists q, p = Some q /\ Forall2 (Forall2 of_message) ps q
    | OdSummary | OdNone => i = None
    end.
Definition log_shown (l : otlp_log) (x : isample) : Prop := exists attrs, x = ILog (ol_event l) attrs /\ Forall2 of_message (ol_attrs l) attrs.
Definition resource_shown (l : list key_value) (x : isample) : Prop := exists attrs, x = IResource attrs /\ Forall2 of_message l attrs.

(* ---------- for the examples ---------- *)
Definition no_order : list string -> forall A, list (string * A) -> list (string * A) := fun _ _ l => l.
Definition reversed : list string -> forall A, list (string * A) -> list (string * A) := fun _ _ l => rev l.
Definition sample_value (n : string) (v : json) (t : prim) : iattr := {| ia_name := n; ia_value := Some v; ia_type := Some t |}.
Definition one_resource (a : iattr) : isample := IResource [a].
Definition int_then : iattr := sample_value "size" (JNum (NInt 1)) PInt.
Definition double_then : iattr := sample_value "size" (JNum (NFloat 4611686018427387904)) PDouble.
Definition many_values : list iattr := map (fun z => sample_value "n" (JNum (NInt z)) PInt) [1; 2; 2; 3; 4; 1; 5; 6; 7]%Z.
Definition two_metrics : list isample :=
  [IMetric "a" (Some Counter) "1" (Some [[int_then]]); IMetric "b" (Some Counter) "1" (Some [[double_then]])].
Definition untyped_first : list request :=
  [RqLogs [(Some [("app.id", AnyOther)], [])]; RqLogs [(Some [("app.id", AnyInt 7)], [])]].
Definition infer_sample : list request :=
  [RqTraces [(Some [("service.name", AnyString "shop")],
     [[{| os_name := "GET"; os_kind := OkServer; os_attrs := [("http.route", AnyString "/cart")]; os_events := [("exception", [("exception.type", AnyString "E")])] |}]])];
   RqMetrics [(None, [[{| om_name := "requests"; om_unit := "1"; om_data := OdSum true [[("http.route", AnyString "/cart")]; [("http.route", AnyString "/pay")]] |};
                       {| om_name := "old"; om_unit := "1"; om_data := OdSummary |}]])];
   RqLogs [(None, [[{| ol_event := "login"; ol_attrs := [("user.id", AnyInt 4)] |}; {| ol_event := ""; ol_attrs := [("ignored", AnyInt 4)] |}]])];
   RqStop;
   RqTraces [(None, [[{| os_name := "late"; os_kind := OkServer; os_attrs := []; os_events := [] |}]])]].
