(* The file of a published registry: `weaver registry package` writes the resolved schema (version 2)
   with serde (src/registry/package.rs 145), a registry that depends on it reads it
   (crates/weaver_resolver/src/loader.rs 391-418).  Models the Serialize and Deserialize, mostly derived,
   of crates/weaver_resolved_schema/src/v2 and of the types of crates/weaver_semconv used there.
   A document is a [json] value, an object the list of its entries in the order of the text; the text
   itself (serde_yaml) is not modelled, nor is serde's reading of a struct from a sequence.  Errors are
   [None].  An annotation value (YamlValue) is a [json] value and is read as it is. *)
From Coq Require Import String Ascii Bool Arith ZArith NArith List.
Import ListNotations.
From Verif Require Import Base Json SemTypes Resolved.
From Verif Require SchemaDiffModel DefModel UrlModel JinModel.
Import JinModel.
Local Open Scope string_scope.

(* ---------- writing ---------- *)
(* `skip_serializing_if`: the field is left out; no counterpart of its own, see each use *)
Definition unless {A} (skip : A -> bool) (k : string) (w : A -> json) (a : A) : list (string * json) :=
  if skip a then [] else [(k, w a)].
(* Vec::is_empty and BTreeMap::is_empty (library) *)
Definition is_nil {A} (l : list A) : bool := match l with [] => true | _ => false end.
(* Option::is_none with the field written as its value *)
Definition if_some {A} (k : string) (w : A -> json) (o : option A) : list (string * json) :=
  match o with Some a => [(k, w a)] | None => [] end.
(* u32 (AttributeRef, v2/attribute.rs 44-50; DependencyRef, v2/provenance.rs 36-43) *)
Definition write_ref (n : nat) : json := JNum (NInt (Z.of_nat n)).
(* crates/weaver_semconv/src/attribute.rs 482-492 *)
Definition write_value_spec (v : value_spec) : json :=
  match v with
  | VInt z => JNum (NInt z) | VDouble d => JNum (NFloat d) | VString s => JStr s | VBool b => JBool b
  end.
(* crates/weaver_semconv/src/attribute.rs 546-578 *)
Definition write_examples (e : examples) : json :=
  let int z := JNum (NInt z) in
  let dbl d := JNum (NFloat d) in
  match e with
  | EBool b => JBool b | EInt z => int z | EDouble d => dbl d | EString s => JStr s
  | EAny v => write_value_spec v
  | EInts l => write_vec int l | EDoubles l => write_vec dbl l | EBools l => write_vec JBool l
  | EStrings l => write_vec JStr l | EAnys l => write_vec write_value_spec l
  | EListInts l => write_vec (write_vec int) l | EListDoubles l => write_vec (write_vec dbl) l
  | EListBools l => write_vec (write_vec JBool) l | EListStrings l => write_vec (write_vec JStr) l
  end.
(* BTreeMap<String, YamlValue> *)
Definition write_annotations (m : list (string * json)) : json := JObj m.
(* crates/weaver_semconv/src/stability.rs 15-30 *)
Definition write_stability (s : stability) : json := JStr (stability_str s).
(* crates/weaver_semconv/src/attribute.rs 387-419 *)
Definition write_member (e : enum_entry) : json :=
  JObj ([("id", JStr (ee_id e)); ("value", write_value_spec (ee_value e))]
        ++ if_some "brief" JStr (ee_brief e)
        ++ if_some "note" JStr (ee_note e)
        ++ if_some "stability" write_stability (ee_stability e)
        ++ if_some "deprecated" SchemaDiffModel.dep_to_json (ee_deprecated e)
        ++ if_some "annotations" write_annotations (ee_annotations e))%list.
(* crates/weaver_semconv/src/attribute.rs 216-226, 272-296, 339-367 *)
Definition write_type (t : attr_type) : json :=
  match t with
  | TPrim p => JStr (prim_str p)
  | TTemplate p => JStr ("template[" ++ prim_str p ++ "]")
  | TEnum ms => JObj [("members", write_vec write_member ms)]
  end.
(* crates/weaver_semconv/src/attribute.rs 737-758, 788-795 *)
Definition write_level (r : req_level) : json :=
  match r with
  | RRequired => JStr "required" | RRecommended => JStr "recommended" | ROptIn => JStr "opt_in"
  | RConditional t => JObj [("conditionally_required", JStr t)]
  | RRecommendedText t => JObj [("recommended", JStr t)]
  | ROptInText t => JObj [("opt_in", JStr t)]
  end.
(* crates/weaver_semconv/src/signal_requirement_level.rs 16-23 *)
Definition write_signal_level (l : signal_level) : json :=
  JStr (match l with SlRecommended => "recommended" | SlOptIn => "opt_in" end).
(* crates/weaver_semconv/src/group.rs 689-700 *)
Definition write_kind (k : Resolved.span_kind) : json :=
  JStr (match k with
        | SkInternal => "internal" | SkClient => "client" | SkServer => "server"
        | SkProducer => "producer" | SkConsumer => "consumer"
        end).
(* crates/weaver_semconv/src/group.rs 706-716 *)
Definition write_instrument (i : instrument) : json :=
  JStr (match i with
        | UpDownCounter => "updowncounter" | Counter => "counter" | Gauge => "gauge"
        | Histogram => "histogram"
        end).
(* crates/weaver_semconv/src/v2/mod.rs 38-55, flattened *)
Definition write_common (c : common) : list (string * json) :=
  ([("brief", JStr (c_brief c))]
   ++ unless (String.eqb "") "note" JStr (c_note c)
   ++ [("stability", write_stability (c_stability c))]
   ++ if_some "deprecated" SchemaDiffModel.dep_to_json (c_deprecated c)
   ++ unless is_nil "annotations" write_annotations (c_annotations c))%list.
(* crates/weaver_resolved_schema/src/v2/provenance.rs 10-34: the path is never written, and nothing is
   when there is no source *)
Definition write_provenance (p : provenance2) : list (string * json) :=
  match p2_source p with
  | Some n => [("provenance", JObj [("source", write_ref n)])]
  | None => []
  end.
(* v2/attribute.rs 19-40 *)
Definition write_attribute (a : attribute2) : json :=
  JObj ([("key", JStr (a2_key a)); ("type", write_type (a2_type a))]
        ++ if_some "examples" write_examples (a2_examples a)
        ++ write_common (a2_common a) ++ write_provenance (a2_provenance a))%list.
(* v2/attribute_group.rs 43-52, event.rs 53-63, metric.rs 62-72, entity.rs 147-157, span.rs 59-73;
   only spans have sampling_relevant *)
Definition write_use (u : attr_use) : json :=
  JObj ([("base", write_ref (u_base u)); ("requirement_level", write_level (u_req u))]
        ++ if_some "sampling_relevant" JBool (u_sampling u))%list.
(* v2/entity.rs 50-58 *)
Definition write_entity_ref (r : entity_ref) : json :=
  JObj ([("type", JStr (er_type r))] ++ write_provenance (er_provenance r))%list.
(* v2/entity.rs 76-94 *)
Fixpoint write_assoc (a : assoc entity_ref) : json :=
  match a with
  | ARef r => write_entity_ref r
  | AOneOf cs => JObj [("one_of", JArr (map write_assoc cs))]
  | AAllOf cs => JObj [("all_of", JArr (map write_assoc cs))]
  end.
(* v2/attribute_group.rs 24-39 *)
Definition write_group (g : attribute_group2) : json :=
  JObj ([("id", JStr (ag2_id g)); ("attributes", write_vec write_use (ag2_attributes g))]
        ++ write_common (ag2_common g) ++ write_provenance (ag2_provenance g))%list.
(* v2/span.rs 20-55: the fields of a span *)
Definition span_fields (s : span2) : list (string * json) :=
  ([("type", JStr (sp2_type s)); ("kind", write_kind (sp2_kind s));
    ("name", JObj [("note", JStr (sp2_name s))])]
   ++ unless is_nil "attributes" (write_vec write_use) (sp2_attributes s)
   ++ unless is_nil "entity_associations" (write_vec write_assoc) (sp2_assocs s)
   ++ if_some "requirement_level" write_signal_level (sp2_level s)
   ++ write_common (sp2_common s) ++ write_provenance (sp2_provenance s))%list.
(* v2/metric.rs 19-56 *)
Definition metric_fields (m : metric2) : list (string * json) :=
  ([("name", JStr (me2_name m)); ("instrument", write_instrument (me2_instrument m));
    ("unit", JStr (me2_unit m))]
   ++ unless is_nil "attributes" (write_vec write_use) (me2_attributes m)
   ++ unless is_nil "entity_associations" (write_vec write_assoc) (me2_assocs m)
   ++ if_some "requirement_level" write_signal_level (me2_level m)
   ++ write_common (me2_common m) ++ write_provenance (me2_provenance m))%list.
(* v2/event.rs 19-49 *)
Definition event_fields (e : event2) : list (string * json) :=
  ([("name", JStr (ev2_name e))]
   ++ unless is_nil "attributes" (write_vec write_use) (ev2_attributes e)
   ++ unless is_nil "entity_associations" (write_vec write_assoc) (ev2_assocs e)
   ++ if_some "requirement_level" write_signal_level (ev2_level e)
   ++ write_common (ev2_common e) ++ write_provenance (ev2_provenance e))%list.
(* v2/entity.rs 17-40 *)
Definition entity_fields (e : entity2) : list (string * json) :=
  ([("type", JStr (en2_type e)); ("identity", write_vec write_use (en2_identity e))]
   ++ unless is_nil "description" (write_vec write_use) (en2_description e)
   ++ if_some "requirement_level" write_signal_level (en2_level e)
   ++ write_common (en2_common e) ++ write_provenance (en2_provenance e))%list.
(* v2/span.rs 77-90, metric.rs 76-90, event.rs 67-79, entity.rs 161-171: the refined signal is flattened *)
Definition write_refinement {A} (fields : A -> list (string * json)) (x : string * A) : json :=
  JObj (("id", JStr (fst x)) :: fields (snd x)).
(* v2/registry.rs 32-50 *)
Definition write_registry (r : registry2) : json :=
  JObj [("attributes", write_vec write_ref (r2_attributes r));
        ("attribute_groups", write_vec write_group (r2_attribute_groups r));
        ("spans", write_vec (fun s => JObj (span_fields s)) (r2_spans r));
        ("metrics", write_vec (fun m => JObj (metric_fields m)) (r2_metrics r));
        ("events", write_vec (fun e => JObj (event_fields e)) (r2_events r));
        ("entities", write_vec (fun e => JObj (entity_fields e)) (r2_entities r))].
(* v2/refinements.rs 26-39 *)
Definition write_refinements (r : refinements2) : json :=
  JObj [("spans", write_vec (write_refinement span_fields) (f2_spans r));
        ("metrics", write_vec (write_refinement metric_fields) (f2_metrics r));
        ("events", write_vec (write_refinement event_fields) (f2_events r));
        ("entities", write_vec (write_refinement entity_fields) (f2_entities r))].
(* v2/mod.rs 51-67, 134-155: the format is the constant of lib.rs 44; a schema URL is its text
   (schema_url.rs 170-177) *)
Definition write_schema (s : schema2) : json :=
  JObj ([("file_format", JStr "resolved/2.0"); ("schema_url", JStr (s2_url s));
         ("attribute_catalog", write_vec write_attribute (s2_catalog s));
         ("registry", write_registry (s2_registry s));
         ("refinements", write_refinements (s2_refinements s))]
        ++ unless is_nil "dependencies" (write_vec JStr) (s2_dependencies s))%list.

(* ---------- reading ---------- *)
(* `deny_unknown_fields`: every key is a field; no counterpart of its own, see each use *)
Definition known (ks : list string) (m : list (string * json)) : option unit :=
  if forallb (fun kv => existsb (String.eqb (fst kv)) ks) m then Some tt else None.
(* u32 *)
Definition read_ref (v : json) : option nat := option_map Z.to_nat (read_u32 v).
(* bool *)
Definition read_bool (v : json) : option bool := match v with JBool b => Some b | _ => None end.
(* BTreeMap::insert (library): by key, a later value replaces an earlier one *)
Fixpoint put {V} (k : string) (v : V) (m : list (string * V)) : list (string * V) :=
  match m with
  | [] => [(k, v)]
  | (k', v') :: r =>
    match str_cmp k k' with
    | Lt => (k, v) :: m
    | Eq => (k, v) :: r
    | Gt => (k', v') :: put k v r
    end
  end.
(* BTreeMap<String, YamlValue> *)
Definition read_annotations (v : json) : option (list (string * json)) :=
  match v with JObj m => Some (fold_left (fun a kv => put (fst kv) (snd kv) a) m []) | _ => None end.
(* stability.rs 15-30; `experimental` is another name of development *)
Definition stability_of_name (s : string) : option stability :=
  if String.eqb s "deprecated" then Some SDeprecated else if String.eqb s "stable" then Some SStable
  else if String.eqb s "development" then Some SDevelopment
  else if String.eqb s "experimental" then Some SDevelopment
  else if String.eqb s "alpha" then Some SAlpha else if String.eqb s "beta" then Some SBeta
  else if String.eqb s "release_candidate" then Some SRc else None.
(* crates/weaver_semconv/src/attribute.rs 339-367 *)
Definition template_of_name (s : string) : option prim :=
  if String.eqb s "template[boolean]" then Some PBoolean
  else if String.eqb s "template[int]" then Some PInt
  else if String.eqb s "template[double]" then Some PDouble
  else if String.eqb s "template[string]" then Some PString
  else if String.eqb s "template[any]" then Some PAny
  else if String.eqb s "template[string[]]" then Some PStrings
  else if String.eqb s "template[int[]]" then Some PInts
  else if String.eqb s "template[double[]]" then Some PDoubles
  else if String.eqb s "template[boolean[]]" then Some PBooleans else None.
(* crates/weaver_semconv/src/attribute.rs 788-795 *)
Definition basic_of_name (s : string) : option req_level :=
  if String.eqb s "required" then Some RRequired else if String.eqb s "recommended" then Some RRecommended
  else if String.eqb s "opt_in" then Some ROptIn else None.
(* crates/weaver_semconv/src/attribute.rs 737-758: untagged, the first variant that can be read *)
Definition read_level (v : json) : option req_level :=
  DefModel.try (read_named basic_of_name v) (fun r => r)
  (DefModel.try (m <- entries v;; required read_string "conditionally_required" m) RConditional
  (DefModel.try (m <- entries v;; required read_string "recommended" m) RRecommendedText
  (DefModel.try (m <- entries v;; required read_string "opt_in" m) ROptInText None))).
(* signal_requirement_level.rs 16-23 *)
Definition signal_level_of_name (s : string) : option signal_level :=
  if String.eqb s "recommended" then Some SlRecommended
  else if String.eqb s "opt_in" then Some SlOptIn else None.
(* group.rs 689-700 *)
Definition span_kind_of_name (s : string) : option Resolved.span_kind :=
  if String.eqb s "internal" then Some SkInternal else if String.eqb s "client" then Some SkClient
  else if String.eqb s "server" then Some SkServer else if String.eqb s "producer" then Some SkProducer
  else if String.eqb s "consumer" then Some SkConsumer else None.
(* v2/provenance.rs 10-34: unknown keys are ignored, the path is empty *)
Definition read_provenance (v : json) : option provenance2 :=
  m <- entries v;;
  s <- optional read_ref "source" m;;
  Some {| p2_source := s; p2_path := "" |}.
(* the field `provenance` with #[serde(default)] of v2/attribute.rs 38-40 and the others *)
Definition provenance_of (m : list (string * json)) : option provenance2 :=
  defaulted {| p2_source := None; p2_path := "" |} read_provenance "provenance" m.
(* v2/mod.rs 38-55 of weaver_semconv, flattened: only its own keys are looked at *)
Definition read_common (m : list (string * json)) : option common :=
  b <- required read_string "brief" m;;
  n <- defaulted "" read_string "note" m;;
  s <- required (read_named stability_of_name) "stability" m;;
  d <- optional SchemaDiffModel.dep_of_json "deprecated" m;;
  a <- defaulted [] read_annotations "annotations" m;;
  Some {| c_brief := b; c_note := n; c_stability := s; c_deprecated := d; c_annotations := a |}.
(* the keys of v2/mod.rs 38-55 *)
Definition common_keys : list string := ["brief"; "note"; "stability"; "deprecated"; "annotations"].
(* v2/attribute_group.rs 43-52, event.rs 53-63, metric.rs 62-72, entity.rs 147-157 *)
Definition read_use (v : json) : option attr_use :=
  m <- entries v;;
  _ <- known ["base"; "requirement_level"] m;;
  b <- required read_ref "base" m;;
  l <- required read_level "requirement_level" m;;
  Some {| u_base := b; u_req := l; u_sampling := None |}.
(* v2/span.rs 59-73 *)
Definition read_span_use (v : json) : option attr_use :=
  m <- entries v;;
  _ <- known ["base"; "requirement_level"; "sampling_relevant"] m;;
  b <- required read_ref "base" m;;
  l <- required read_level "requirement_level" m;;
  s <- optional read_bool "sampling_relevant" m;;
  Some {| u_base := b; u_req := l; u_sampling := s |}.
(* v2/entity.rs 50-58 *)
Definition read_entity_ref (v : json) : option entity_ref :=
  m <- entries v;;
  _ <- known ["type"; "provenance"] m;;
  t <- required read_string "type" m;;
  p <- provenance_of m;;
  Some {| er_type := t; er_provenance := p |}.
(* v2/entity.rs 76-94: untagged; a struct variant needs its one field, other keys are ignored *)
Fixpoint read_assoc (v : json) : option (assoc entity_ref) :=
  match read_entity_ref v with
  | Some r => Some (ARef r)
  | None =>
    match v with
    | JObj m =>
      let kids := fix kids (k : string) (m : list (string * json)) : list (option (list (assoc entity_ref))) :=
        match m with
        | [] => []
        | (k', w) :: r =>
          let rest := kids k r in
          if String.eqb k k'
          then match w with
               | JArr l => (fix all (l : list json) : option (list (assoc entity_ref)) :=
                              match l with
                              | [] => Some []
                              | x :: r => match read_assoc x, all r with
                                          | Some a, Some b => Some (a :: b) | _, _ => None end
                              end) l
               | _ => None
               end :: rest
          else rest
        end in
      match kids "one_of" m with
      | [Some l] => Some (AOneOf l)
      | _ => match kids "all_of" m with [Some l] => Some (AAllOf l) | _ => None end
      end
    | _ => None
    end
  end.
(* v2/attribute_group.rs 24-39 *)
Definition read_group (v : json) : option attribute_group2 :=
  m <- entries v;;
  _ <- known (["id"; "attributes"; "provenance"] ++ common_keys) m;;
  i <- required read_string "id" m;;
  a <- required (read_vec read_use) "attributes" m;;
  c <- read_common m;;
  p <- provenance_of m;;
  Some {| ag2_id := i; ag2_attributes := a; ag2_common := c; ag2_provenance := p |}.
(* weaver_semconv v2/span.rs 218-226 *)
Definition read_span_name (v : json) : option string :=
  m <- entries v;; _ <- known ["note"] m;; required read_string "note" m.
(* v2/span.rs 20-55 *)
Definition read_span_fields (m : list (string * json)) : option span2 :=
  _ <- known (["type"; "kind"; "name"; "attributes"; "entity_associations"; "requirement_level"; "provenance"]
              ++ common_keys) m;;
  t <- required read_string "type" m;;
  k <- required (read_named span_kind_of_name) "kind" m;;
  n <- required read_span_name "name" m;;
  a <- defaulted [] (read_vec read_span_use) "attributes" m;;
  e <- defaulted [] (read_vec read_assoc) "entity_associations" m;;
  l <- optional (read_named signal_level_of_name) "requirement_level" m;;
  c <- read_common m;;
  p <- provenance_of m;;
  Some {| sp2_type := t; sp2_kind := k; sp2_name := n; sp2_attributes := a; sp2_assocs := e;
          sp2_level := l; sp2_common := c; sp2_provenance := p |}.
(* v2/metric.rs 19-56 *)
Definition read_metric_fields (m : list (string * json)) : option metric2 :=
  _ <- known (["name"; "instrument"; "unit"; "attributes"; "entity_associations"; "requirement_level"; "provenance"]
              ++ common_keys) m;;
  n <- required read_string "name" m;;
  i <- required (read_named instrument_of_name) "instrument" m;;
  u <- required read_string "unit" m;;
  a <- defaulted [] (read_vec read_use) "attributes" m;;
  e <- defaulted [] (read_vec read_assoc) "entity_associations" m;;
  l <- optional (read_named signal_level_of_name) "requirement_level" m;;
  c <- read_common m;;
  p <- provenance_of m;;
  Some {| me2_name := n; me2_instrument := i; me2_unit := u; me2_attributes := a; me2_assocs := e;
          me2_level := l; me2_common := c; me2_provenance := p |}.
(* v2/event.rs 19-49 *)
Definition read_event_fields (m : list (string * json)) : option event2 :=
  _ <- known (["name"; "attributes"; "entity_associations"; "requirement_level"; "provenance"] ++ common_keys) m;;
  n <- required read_string "name" m;;
  a <- defaulted [] (read_vec read_use) "attributes" m;;
  e <- defaulted [] (read_vec read_assoc) "entity_associations" m;;
  l <- optional (read_named signal_level_of_name) "requirement_level" m;;
  c <- read_common m;;
  p <- provenance_of m;;
  Some {| ev2_name := n; ev2_attributes := a; ev2_assocs := e; ev2_level := l; ev2_common := c;
          ev2_provenance := p |}.
(* v2/entity.rs 17-40 *)
Definition read_entity_fields (m : list (string * json)) : option entity2 :=
  _ <- known (["type"; "identity"; "description"; "requirement_level"; "provenance"] ++ common_keys) m;;
  t <- required read_string "type" m;;
  i <- required (read_vec read_use) "identity" m;;
  d <- defaulted [] (read_vec read_use) "description" m;;
  l <- optional (read_named signal_level_of_name) "requirement_level" m;;
  c <- read_common m;;
  p <- provenance_of m;;
  Some {| en2_type := t; en2_identity := i; en2_description := d; en2_level := l; en2_common := c;
          en2_provenance := p |}.
(* v2/registry.rs 32-50: an element of a Vec of signals is an object *)
Definition read_signal {A} (rd : list (string * json) -> option A) (v : json) : option A :=
  m <- entries v;; rd m.
(* v2/span.rs 77-90 and the others: the keys other than `id` are handed to the flattened signal *)
Definition read_refinement {A} (rd : list (string * json) -> option A) (v : json) : option (string * A) :=
  m <- entries v;;
  i <- required read_string "id" m;;
  x <- rd (filter (fun kv => negb (String.eqb (fst kv) "id")) m);;
  Some (i, x).
(* v2/registry.rs 32-50 *)
Definition read_registry (v : json) : option registry2 :=
  m <- entries v;;
  _ <- known ["attributes"; "attribute_groups"; "spans"; "metrics"; "events"; "entities"] m;;
  a <- required (read_vec read_ref) "attributes" m;;
  g <- required (read_vec read_group) "attribute_groups" m;;
  s <- required (read_vec (read_signal read_span_fields)) "spans" m;;
  t <- required (read_vec (read_signal read_metric_fields)) "metrics" m;;
  e <- required (read_vec (read_signal read_event_fields)) "events" m;;
  n <- required (read_vec (read_signal read_entity_fields)) "entities" m;;
  Some {| r2_attributes := a; r2_attribute_groups := g; r2_spans := s; r2_metrics := t; r2_events := e;
          r2_entities := n |}.
(* v2/refinements.rs 26-39 *)
Definition read_refinements (v : json) : option refinements2 :=
  m <- entries v;;
  _ <- known ["spans"; "metrics"; "events"; "entities"] m;;
  s <- required (read_vec (read_refinement read_span_fields)) "spans" m;;
  t <- required (read_vec (read_refinement read_metric_fields)) "metrics" m;;
  e <- required (read_vec (read_refinement read_event_fields)) "events" m;;
  n <- defaulted [] (read_vec (read_refinement read_entity_fields)) "entities" m;;
  Some {| f2_spans := s; f2_metrics := t; f2_events := e; f2_entities := n |}.
(* BTreeSet<SchemaUrl>: ordered by text (schema_url.rs 133-148) *)
Definition as_set (l : list string) : list string :=
  map fst (fold_left (fun a k => put k tt a) l []).

Section Read.
  (* a number without fraction as an f64 (`as f64`), by bit pattern *)
  Variable to_f64 : Z -> N.
  (* Url::parse, see UrlModel *)
  Variable url_parse : string -> option UrlModel.parsed_url.

  (* attribute.rs 421-466: EnumEntriesSpecDeserialize and From; the deprecation is read by
     deserialize_option_deprecated (deprecated.rs 135-178) *)
  Definition read_member (v : json) : option enum_entry :=
    m <- entries v;;
    _ <- known ["id"; "value"; "brief"; "note"; "stability"; "deprecated"; "annotations"] m;;
    i <- required read_string "id" m;;
    x <- optional (DefModel.as_value to_f64) "value" m;;
    b <- optional read_string "brief" m;;
    n <- optional read_string "note" m;;
    s <- optional (read_named stability_of_name) "stability" m;;
    d <- optional SchemaDiffModel.dep_of_definition "deprecated" m;;
    a <- optional read_annotations "annotations" m;;
    Some {| ee_id := i; ee_value := match x with Some x => x | None => VString i end; ee_brief := b;
            ee_note := n; ee_stability := s; ee_deprecated := d; ee_annotations := a |}.
  (* attribute.rs 216-226: untagged *)
  Definition read_type (v : json) : option attr_type :=
    DefModel.try (read_named prim_of_name v) TPrim
    (DefModel.try (read_named template_of_name v) TTemplate
    (DefModel.try (m <- entries v;; required (read_vec read_member) "members" m) TEnum None)).
  (* v2/attribute.rs 19-40 *)
  Definition read_attribute (v : json) : option attribute2 :=
    m <- entries v;;
    _ <- known (["key"; "type"; "examples"; "provenance"] ++ common_keys) m;;
    k <- required read_string "key" m;;
    t <- required read_type "type" m;;
    e <- optional (DefModel.parse_examples to_f64) "examples" m;;
    c <- read_common m;;
    p <- provenance_of m;;
    Some {| a2_key := k; a2_type := t; a2_examples := e; a2_common := c; a2_provenance := p |}.
  (* schema_url.rs 159-168 *)
  Definition read_url (v : json) : option string :=
    s <- read_string v;;
    match UrlModel.schema_url_new url_parse s with Ok u => Some (UrlModel.su_url u) | Err _ => None end.
  (* v2/mod.rs 51-67: the format is read and not looked at *)
  Definition read_schema (v : json) : option schema2 :=
    m <- entries v;;
    _ <- known ["file_format"; "schema_url"; "attribute_catalog"; "registry"; "refinements"; "dependencies"] m;;
    _ <- required read_string "file_format" m;;
    u <- required read_url "schema_url" m;;
    c <- required (read_vec read_attribute) "attribute_catalog" m;;
    r <- required read_registry "registry" m;;
    f <- required read_refinements "refinements" m;;
    d <- defaulted [] (fun v => option_map as_set (read_vec read_url v)) "dependencies" m;;
    Some {| s2_url := u; s2_catalog := c; s2_registry := r; s2_refinements := f; s2_dependencies := d |}.
End Read.
