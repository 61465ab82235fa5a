(* What emitting example telemetry should give, said without the functions that do it. *)
From Coq Require Import String Ascii Bool Arith ZArith NArith List.
Import ListNotations.
From Verif Require Import Base Json SemTypes Resolved LiveModel LiveAdvisors LiveSpec IngestModel EmitModel.
From Verif Require InferModel.
Local Open Scope string_scope.

(* ---------- values ---------- *)
(* a value of a primitive or array type *)
Inductive value_has : prim -> ovalue -> Prop :=
| VhBool b : value_has PBoolean (OvBool b) | VhInt z : value_has PInt (OvI64 z)
| VhDouble d : value_has PDouble (OvF64 d) | VhString s : value_has PString (OvString s)
| VhBools l : value_has PBooleans (OvBools l) | VhInts l : value_has PInts (OvI64s l)
| VhDoubles l : value_has PDoubles (OvF64s l) | VhStrings l : value_has PStrings (OvStrings l)
| VhAny v : value_has PAny v.
Definition stands_for (s : value_spec) (v : ovalue) : Prop :=
  match s with VInt z => v = OvI64 z | VDouble d => v = OvF64 d | VString t => v = OvString t | VBool b => v = OvBool b end.
Inductive value_conforms : attr_type -> ovalue -> Prop :=
| CPrim p v : value_has p v -> value_conforms (TPrim p) v
| CTemplate p v : value_has p v -> value_conforms (TTemplate p) v
| CEnum m l v : stands_for (ee_value m) v -> value_conforms (TEnum (m :: l)) v.
(* the first example, where the examples are values of the type *)
Inductive first_example : prim -> examples -> ovalue -> Prop :=
| FBool b : first_example PBoolean (EBool b) (OvBool b)
| FBools b l : first_example PBoolean (EBools (b :: l)) (OvBool b)
| FInt z : first_example PInt (EInt z) (OvI64 z)
| FInts z l : first_example PInt (EInts (z :: l)) (OvI64 z)
| FDouble d : first_example PDouble (EDouble d) (OvF64 d)
| FDoubles d l : first_example PDouble (EDoubles (d :: l)) (OvF64 d)
| FString s : first_example PString (EString s) (OvString s)
| FStrings s l : first_example PString (EStrings (s :: l)) (OvString s)
| FBoolsOne l : first_example PBooleans (EBools l) (OvBools l)
| FBoolsList l r : first_example PBooleans (EListBools (l :: r)) (OvBools l)
| FIntsOne l : first_example PInts (EInts l) (OvI64s l)
| FIntsList l r : first_example PInts (EListInts (l :: r)) (OvI64s l)
| FDoublesOne l : first_example PDoubles (EDoubles l) (OvF64s l)
| FDoublesList l r : first_example PDoubles (EListDoubles (l :: r)) (OvF64s l)
| FStringsOne l : first_example PStrings (EStrings l) (OvStrings l)
| FStringsList l r : first_example PStrings (EListStrings (l :: r)) (OvStrings l)
| FAnyBool b : first_example PAny (EBool b) (OvBool b)
| FAnyBools b l : first_example PAny (EBools (b :: l)) (OvBool b)
| FAnyBoolsList l r : first_example PAny (EListBools (l :: r)) (OvBools l)
| FAnyInt z : first_example PAny (EInt z) (OvI64 z)
| FAnyInts z l : first_example PAny (EInts (z :: l)) (OvI64 z)
| FAnyIntsList l r : first_example PAny (EListInts (l :: r)) (OvI64s l)
| FAnyDouble d : first_example PAny (EDouble d) (OvF64 d)
| FAnyDoubles d l : first_example PAny (EDoubles (d :: l)) (OvF64 d)
| FAnyDoublesList l r : first_example PAny (EListDoubles (l :: r)) (OvF64s l)
| FAnyString s : first_example PAny (EString s) (OvString s)
| FAnyStrings s l : first_example PAny (EStrings (s :: l)) (OvString s)
| FAnyStringsList l r : first_example PAny (EListStrings (l :: r)) (OvStrings l)
| FAnyOne s v : stands_for s v -> first_example PAny (EAny s) v
| FAnyMany s l v : stands_for s v -> first_example PAny (EAnys (s :: l)) v.
(* the sent form of a value *)
Definition sent_value (v : ovalue) (a : InferModel.any_value) : Prop :=
  match v with
  | OvBool b => a = InferModel.AnyBool b
  | OvI64 z => a = InferModel.AnyInt z
  | OvF64 d => a = InferModel.AnyDouble d
  | OvString s => a = InferModel.AnyString s
  | OvBools l => exists as', a = InferModel.AnyArray as' /\ Forall2 (fun x y => y = InferModel.AnyBool x) l as'
  | OvI64s l => exists as', a = InferModel.AnyArray as' /\ Forall2 (fun x y => y = InferModel.AnyInt x) l as'
  | OvF64s l => exists as', a = InferModel.AnyArray as' /\ Forall2 (fun x y => y = InferModel.AnyDouble x) l as'
  | OvStrings l => exists as', a = InferModel.AnyArray as' /\ Forall2 (fun x y => y = InferModel.AnyString x) l as'
  end.
(* the pair sent for an attribute: under its name, or a key in its namespace for a template *)
Definition attr_emitted (name : string) (t : attr_type) (kv : key_value) : Prop :=
  fst kv = (if is_template t then name ++ ".key" else name) /\
  exists v, value_conforms t v /\ sent_value v (snd kv).

(* ---------- signals ---------- *)
Definition attrs1 (l : list attribute) : list (string * attr_type) := map (fun a => (at_name a, at_type a)) l.
Definition attrs2 (l : list eattr) : list (string * attr_type) := map (fun a => (va_key (ea_base a), va_type (ea_base a))) l.
Definition attrs_emitted (l : list (string * attr_type)) (kvs : list key_value) : Prop :=
  Forall2 (fun nt kv => attr_emitted (fst nt) (snd nt) kv) l kvs.
(* the signals of a registry, with what is emitted for each: a span under the id of its group in version 1 *)
Definition span_emitted (r : eregistry) (name : string) (kind : span_kind) (attrs : list (string * attr_type)) : Prop :=
  match r with
  | EReg1 l => exists g, In g l /\ vg_type (eg_group g) = GSpan /\ name = vg_id (eg_group g) /\
                 (eg_kind g = Some kind \/ eg_kind g = None /\ kind = SkInternal) /\ attrs = attrs1 (vg_attributes (eg_group g))
  | EReg2 r => exists s, In s (er_spans r) /\ name = es_type s /\ kind = es_kind s /\ attrs = attrs2 (es_attrs s)
  end.
Definition or_empty (o : option string) (s : string) : Prop := o = Some s \/ o = None /\ s = "".
Definition metric_emitted (r : eregistry) (s : vsignal) (i : instrument) (name unit brief : string) (attrs : list (string * attr_type)) : Prop :=
  match r with
  | EReg1 l => exists g, In g l /\ vg_type (eg_group g) = GMetric /\ vg_instrument (eg_group g) = Some i /\
                 or_empty (vg_metric_name (eg_group g)) name /\ or_empty (vg_unit (eg_group g)) unit /\ brief = eg_brief g /\
                 attrs = attrs1 (vg_attributes (eg_group g)) /\ s = VSGroup (eg_group g)
  | EReg2 r => exists m, In m (er_metrics r) /\ i = em_instrument m /\ name = em_name m /\ unit = em_unit m /\ brief = em_brief m /\
                 attrs = attrs2 (em_attrs m) /\ s = VSMetric (metric_view m)
  end.
Definition event_emitted (r : eregistry) (s : vsignal) (name : string) (attrs : list (string * attr_type)) : Prop :=
  match r with
  | EReg1 l => exists g, In g l /\ vg_type (eg_group g) = GEvent /\
                 (vg_name (eg_group g) = Some name \/ vg_name (eg_group g) = None /\ name = vg_id (eg_group g)) /\
                 attrs = attrs1 (vg_attributes (eg_group g)) /\ s = VSGroup (eg_group g)
  | EReg2 r => exists e, In e (er_events r) /\ name = ee_name e /\ attrs = attrs2 (ee_attrs e) /\ s = VSEvent (event_view e)
  end.
(* a signal uses the attribute [n] of type [t] *)
Definition used (r : eregistry) (n : string) (t : attr_type) : Prop :=
  exists l, In (n, t) l /\
    ((exists name k, span_emitted r name k l) \/ (exists s i name u b, metric_emitted r s i name u b l) \/
     (exists s name, event_emitted r s name l)).

(* ---------- how the SDK may carry what it is given ---------- *)
(* some of the attributes, under the same keys: duplicate keys may be merged, the order may change *)
Definition carried (given sent : list key_value) : Prop :=
  incl sent given /\ forall k, In k (map fst given) -> In k (map fst sent).
(* the instrument decides the kind of the data *)
Definition data_of (i : instrument) (points : list opoint) (d : odata) : Prop :=
  match i with
  | Counter => d = OSum true points
  | UpDownCounter => d = OSum false points
  | Gauge => d = OGauge points
  | Histogram => d = OHistogram points
  end.
Definition span_carried (e : emitted) (s : ospan) : Prop :=
  exists n k kvs, e = EmSpan n k kvs /\ os_name s = n /\ incl (os_attrs s) kvs /\ os_events s = [] /\ os_links s = [].
Definition metric_carried (e : emitted) (m : ometric) : Prop :=
  exists i n u d kvs points, e = EmMetric i n u d kvs /\ om_name m = n /\ om_unit m = u /\ data_of i points (om_data m) /\
    forall p, In p points -> carried kvs (op_attrs p) /\ op_exemplars p = [].
Definition log_carried (e : emitted) (l : olog) : Prop :=
  exists n kvs, e = EmLog n kvs /\ ol_event l = n /\ carried kvs (ol_attrs l).
Definition items_of {A} (bs : list (osent A)) : list A := flat_map (fun b => flat_map sc_items (se_scopes b)) bs.
(* messages that hold nothing but what was emitted, in any batches and any order, from any resource *)
Definition only_emitted (l : list emitted) (msgs : list orequest) : Prop :=
  forall m, In m msgs ->
    match m with
    | OTraces bs => forall s, In s (items_of bs) -> exists e, In e l /\ span_carried e s
    | OMetrics bs => forall s, In s (items_of bs) -> exists e, In e l /\ metric_carried e s
    | OLogs bs => forall s, In s (items_of bs) -> exists e, In e l /\ log_carried e s
    | OProfiles _ _ | OStop | OError => True
    end.
(* every metric and log that was emitted is in some message, none of which ends the reading *)
Definition all_sent (l : list emitted) (msgs : list orequest) : Prop :=
  ~ In OStop msgs /\ ~ In OError msgs /\
  (forall i n u d kvs, In (EmMetric i n u d kvs) l -> exists bs m, In (OMetrics bs) msgs /\ In m (items_of bs) /\ metric_carried (EmMetric i n u d kvs) m) /\
  (forall n kvs, In (EmLog n kvs) l -> exists bs m, In (OLogs bs) msgs /\ In m (items_of bs) /\ log_carried (EmLog n kvs) m).

(* ---------- registries whose example telemetry they accept ---------- *)
Record coherent (r : eregistry) : Prop := {
  (* the attributes that signals use are defined, all with the type they are used with *)
  co_defined : forall n t, used r n t -> exists d, In d (defined_attrs (live_view r)) /\ vattr_name d = n /\ vattr_type d = t;
  co_agree : forall n t d, used r n t -> In d (defined_attrs (live_view r)) -> vattr_name d = n -> vattr_type d = t;
  (* nothing of another type takes the key that is emitted for a template *)
  co_free : forall n p d, used r n (TTemplate p) -> In d (defined_attrs (live_view r)) ->
    (is_template (vattr_type d) = false -> vattr_name d <> n ++ ".key") /\
    (is_template (vattr_type d) = true -> prefix_of (vattr_name d) (n ++ ".key") ->
       String.length n <= String.length (vattr_name d) -> vattr_type d = TTemplate p);
  (* the first value of an enum is a string or an integer *)
  co_enum : forall n ms, used r n (TEnum ms) -> exists m rest, ms = m :: rest /\
    ((exists s, ee_value m = VString s) \/ exists z, ee_value m = VInt z /\ (- 2 ^ 63 <= z < 2 ^ 63)%Z);
  (* metrics and events have names of their own *)
  co_metric : forall s s' i i' n u u' b b' l l', metric_emitted r s i n u b l -> metric_emitted r s' i' n u' b' l' -> s = s';
  co_event : forall s s' n l l', event_emitted r s n l -> event_emitted r s' n l' -> s = s';
  co_named : match r with
             | EReg1 gs => forall g, In g gs ->
                 (vg_type (eg_group g) = GMetric -> vg_metric_name (eg_group g) <> None /\ vg_instrument (eg_group g) <> None) /\
                 (vg_type (eg_group g) = GEvent -> vg_name (eg_group g) <> None)
             | EReg2 _ => True
             end
}.
(* the findings that tell of the definition itself or of the resource, not of the telemetry of the signal *)
Definition expected_ids : list string :=
  ["deprecated"; "not_stable"; "template_attribute"; "entity_association_not_satisfied";
   "entity_required_attribute_not_present"; "entity_recommended_attribute_not_present";
   "entity_opt_in_attribute_not_present"; "entity_conditionally_required_attribute_not_present"].
(* a span, metric or log of the registry, and not the span of the command itself *)
Definition of_registry (s : sample) : Prop :=
  match s with
  | SmpSpan x => sp_name x <> "otel.weaver.emit"
  | SmpMetric _ | SmpLog _ => True
  | _ => False
  end.

(* ---------- samples ---------- *)
Definition attr1 (n : string) (t : attr_type) (e : option examples) : attribute :=
  {| at_name := n; at_type := t; at_brief := ""; at_examples := e; at_tag := None; at_req := RRequired;
     at_sampling := None; at_note := ""; at_stability := Some SStable; at_deprecated := None; at_prefix := false;
     at_annotations := None; at_role := None |}.
Definition group1 (id : string) (t : group_type) (name : option string) (l : list attribute) : egroup :=
  {| eg_group := {| vg_id := id; vg_type := t; vg_name := if group_type_eqb t GMetric then None else name;
       vg_metric_name := if group_type_eqb t GMetric then name else None;
       vg_instrument := if group_type_eqb t GMetric then Some Histogram else None;
       vg_unit := if group_type_eqb t GMetric then Some "s" else None;
       vg_deprecated := None; vg_stability := Some SStable; vg_attributes := l; vg_associations := [] |};
     eg_kind := if group_type_eqb t GSpan then Some SkClient else None; eg_brief := "b" |}.
Definition member (v : value_spec) : enum_entry :=
  {| ee_id := "m"; ee_value := v; ee_brief := None; ee_note := None; ee_stability := Some SStable;
     ee_deprecated := None; ee_annotations := None |}.
(* a registry with a span, a metric and an event *)
Definition reg_ok : eregistry :=
  EReg1 [group1 "span.s" GSpan None [attr1 "a.i" (TPrim PInt) (Some (EInts [7%Z; 8%Z])); attr1 "h" (TTemplate PStrings) None];
         group1 "metric.m" GMetric (Some "m") [attr1 "a.d" (TPrim PDouble) None; attr1 "a.e" (TEnum [member (VString "x"); member (VInt 2)]) None];
         group1 "event.e" GEvent (Some "e") [attr1 "a.i" (TPrim PInt) None; attr1 "h" (TTemplate PStrings) None]].
(* a template whose example key is an attribute of another type *)
Definition reg_template : eregistry :=
  EReg1 [group1 "event.e" GEvent (Some "e") [attr1 "h" (TTemplate PString) None]; group1 "g" GAttributeGroup None [attr1 "h.key" (TPrim PInt) None]].
Definition reg_enum : eregistry :=
  EReg1 [group1 "event.e" GEvent (Some "e") [attr1 "x" (TEnum [member (VBool true)]) None]].
Definition reg_unnamed : eregistry := EReg1 [group1 "event.e" GEvent None []].
(* a version 2 registry whose event uses an attribute that a dependency defines *)
Definition use2 (k : string) (t : attr_type) : eattr :=
  {| ea_base := {| va_key := k; va_type := t; va_deprecated := None; va_stability := SStable |}; ea_examples := None; ea_req := RRequired |}.
Definition reg_dependency : eregistry :=
  EReg2 {| er_url := "https://x/r/1.0.0"; er_attrs := []; er_metrics := [];
           er_events := [{| ee_name := "e"; ee_event_deprecated := None; ee_event_stability := SStable;
                            ee_attrs := [use2 "dep.a" (TPrim PInt)]; ee_associations := [] |}];
           er_spans := []; er_entities := []; er_refinements := [];
           er_deps := [V2Reg "https://x/d/1.0.0" [{| va_key := "dep.a"; va_type := TPrim PInt; va_deprecated := None; va_stability := SStable |}] [] [] [] [] []] |}.
(* the plainest way of sending *)
Definition plain_messages (l : list emitted) : list orequest :=
  let block {A} (items : list A) := [{| se_resource := Some [("service.name", InferModel.AnyString "weaver")];
                                        se_scopes := [{| sc_scope := Some ("weaver", []); sc_url := ""; sc_items := items |}] |}] in
  [OTraces (block (flat_map (fun e => match e with
     | EmSpan n _ kvs => [{| os_name := n; os_attrs := kvs; os_events := []; os_links := [] |}] | _ => [] end) l));
   OMetrics (block (flat_map (fun e => match e with
     | EmMetric i n u _ kvs => let p := [{| op_attrs := kvs; op_exemplars := [] |}] in
         [{| om_name := n; om_unit := u;
             om_data := match i with Counter => OSum true p | UpDownCounter => OSum false p | Gauge => OGauge p | Histogram => OHistogram p end |}]
     | _ => [] end) l));
   OLogs (block (flat_map (fun e => match e with EmLog n kvs => [{| ol_event := n; ol_attrs := kvs |}] | _ => [] end) l))].
(* the ids of the findings of a live check of what is emitted for a registry, on its signals *)
Definition ids_of_check (r : eregistry) : option (list string) :=
  match emit r "p" with
  | Ok l => match live_check (checker_new (live_view r) (default_advisors (fun _ => "")) None) false FailNone
                    (ingest (plain_messages l)) with
            | Ok (out, _, _) => Some (flat_map (fun s => match s with
                | SmpSpan x => if String.eqb (sp_name x) "otel.weaver.emit" then [] else flat_map (fun e => map f_id (advice_of e)) (entities s)
                | SmpMetric _ | SmpLog _ => flat_map (fun e => map f_id (advice_of e)) (entities s)
                | _ => [] end) out)
            | Err _ => None
            end
  | Err _ => None
  end.
(* how many signals a registry has *)
Definition signal_count (r : eregistry) : nat :=
  match r with
  | EReg1 l => length (filter (fun g => match vg_type (eg_group g) with
                                        | GSpan | GEvent => true
                                        | GMetric => match vg_instrument (eg_group g) with Some _ => true | None => false end
                                        | _ => false end) l)
  | EReg2 r => length (er_spans r) + length (er_metrics r) + length (er_events r)
  end.
