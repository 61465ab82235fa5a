(* What a version 2 schema says about the version 1 registry it was made from. *)
From Coq Require Import String Ascii Bool Arith ZArith NArith List.
Import ListNotations.
From Verif Require Import Base Json SemTypes Resolved ConvertModel.
Local Open Scope string_scope.

(* [m] holds, in order, exactly one image under [R] of each element of [l] that satisfies [P] *)
Inductive one_each {A B} (P : A -> Prop) (R : A -> B -> Prop) : list A -> list B -> Prop :=
| oe_nil : one_each P R [] []
| oe_skip a l m : ~ P a -> one_each P R l m -> one_each P R (a :: l) m
| oe_take a b l m : P a -> R a b -> one_each P R l m -> one_each P R (a :: l) (b :: m).

(* [x] is [id] without the prefix, which is removed once if it is there *)
Definition without (prefix id x : string) : Prop :=
  id = append prefix x \/ (x = id /\ forall y, id <> append prefix y).

(* the default of an absent value *)
Definition default {A} (d : A) (o : option A) (x : A) : Prop :=
  o = Some x \/ (o = None /\ x = d).

(* the group refines a group of its own type; otherwise it is a definition *)
Definition refines (g : group) : Prop :=
  exists l, g_lineage g = Some l /\ gl_extends_type l = Some (g_type g).
Definition extends (g : group) (base : string) : Prop :=
  exists l, g_lineage g = Some l /\ gl_extends l = Some base.

(* the attribute with this number in the version 1 catalog *)
Definition attr_at (s : source1) (i : nat) (a : attribute) : Prop := nth_error (so_catalog s) i = Some a.
(* both say the same about the same key *)
Definition same_attribute (a : attribute) (b : attribute2) : Prop :=
  a2_key b = at_name a /\ a2_type b = at_type a /\ a2_examples b = at_examples a /\
  c_brief (a2_common b) = at_brief a /\ c_note (a2_common b) = at_note a /\
  default SDevelopment (at_stability a) (c_stability (a2_common b)) /\
  c_deprecated (a2_common b) = at_deprecated a /\
  default [] (at_annotations a) (c_annotations (a2_common b)).
(* the number [i] of the version 2 catalog stands for the version 1 attribute [a] *)
Definition stands_for (out : schema2) (a : attribute) (i : nat) : Prop :=
  exists b, nth_error (s2_catalog out) i = Some b /\ same_attribute a b.
(* one use of an attribute *)
Definition used (s : source1) (out : schema2) (sampled : bool) (i : nat) (u : attr_use) : Prop :=
  exists a, attr_at s i a /\ stands_for out a (u_base u) /\ u_req u = at_req a /\
            u_sampling u = (if sampled then at_sampling a else None).
Definition uses (s : source1) (out : schema2) (sampled : bool) : list nat -> list attr_use -> Prop :=
  one_each (fun i => exists a, attr_at s i a) (used s out sampled).

(* a position in the list of dependencies; none when the url is not in it *)
Definition dep_number (s : source1) (P : string -> Prop) (n : option nat) : Prop :=
  match n with
  | Some i => exists u, nth_error (so_deps s) i = Some u /\ P u /\ forall j v, j < i -> nth_error (so_deps s) j = Some v -> ~ P v
  | None => forall u, In u (so_deps s) -> ~ P u
  end.
(* where a group was declared: nowhere else (no number) when it is the registry's own *)
Definition declared (s : source1) (g : group) (p : provenance2) : Prop :=
  match g_lineage g with
  | None => p2_source p = None /\ p2_path p = ""
  | Some l => p2_path p = pv_path (gl_provenance l) /\
      ((pv_url (gl_provenance l) = so_registry_url s /\ p2_source p = None) \/
       (pv_url (gl_provenance l) <> so_registry_url s /\
        dep_number s (fun u => u = pv_url (gl_provenance l)) (p2_source p)))
  end.
(* the first element that satisfies [P] *)
Definition first {A} (P : A -> Prop) (l : list A) (x : A) : Prop :=
  exists l1 l2, l = app l1 (x :: l2) /\ P x /\ forall y, In y l1 -> ~ P y.
Definition none {A} (P : A -> Prop) (l : list A) : Prop := forall y, In y l -> ~ P y.

(* the lineage of the group says that the attribute of this name comes from the group itself *)
Definition own (name : string) (g : group) : Prop :=
  exists l al, g_lineage g = Some l /\ slookup name (gl_attributes l) = Some al /\ al_source al = g_id g.
(* where an attribute was declared *)
Definition attr_declared (name_of : string -> string) (s : source1) (name : string) (p : provenance2) : Prop :=
  (exists g, first (own name) (so_groups s) g /\ declared s g p) \/
  (none (own name) (so_groups s) /\
   ((exists src g, slookup name (so_roots s) = Some src /\ first (fun g => g_id g = src) (so_groups s) g /\ declared s g p) \/
    (exists dep, slookup name (so_roots s) = Some (append "v2_dependency." dep) /\
       none (fun g => g_id g = append "v2_dependency." dep) (so_groups s) /\
       p2_path p = "" /\ dep_number s (fun u => name_of u = dep) (p2_source p)) \/
    ((forall src, slookup name (so_roots s) = Some src ->
        none (fun g => g_id g = src) (so_groups s) /\ forall dep, src <> append "v2_dependency." dep) /\
     p2_source p = None /\ p2_path p = ""))).

Definition same_common (g : group) (c : common) : Prop :=
  c_brief c = g_brief g /\ c_note c = g_note g /\ default SDevelopment (g_stability g) (c_stability c) /\
  c_deprecated c = g_deprecated g /\ default [] (g_annotations g) (c_annotations c).

(* the two expressions have the same shape and related leaves *)
Inductive same_shape {A B} (R : A -> B -> Prop) : assoc A -> assoc B -> Prop :=
| ss_ref a b : R a b -> same_shape R (ARef a) (ARef b)
| ss_one l m : Forall2 (same_shape R) l m -> same_shape R (AOneOf l) (AOneOf m)
| ss_all l m : Forall2 (same_shape R) l m -> same_shape R (AAllOf l) (AAllOf m).
(* the name is one of the leaves *)
Inductive leaf {A} (x : A) : assoc A -> Prop :=
| lf_ref : leaf x (ARef x)
| lf_one c l : In c l -> leaf x c -> leaf x (AOneOf l)
| lf_all c l : In c l -> leaf x c -> leaf x (AAllOf l).

(* the recorded origin of a name that a group uses *)
Definition origin (s : source1) (gid name u : string) : Prop :=
  exists m, slookup gid (so_origins s) = Some m /\ slookup name m = Some u.
(* the schema holds an entity of that name, declared there (the last one, should there be more) *)
Definition holds (out : schema2) (name : string) (src : option nat) : Prop :=
  exists l1 e l2, f2_entities (s2_refinements out) = app l1 ((name, e) :: l2) /\
    ~ In name (map fst l2) /\ p2_source (en2_provenance e) = src.
Definition local_ref (name : string) (r : entity_ref) : Prop :=
  er_type r = name /\ p2_source (er_provenance r) = None /\ p2_path (er_provenance r) = "".
(* the reference a name becomes *)
Definition refers (s : source1) (out : schema2) (gid name : string) (r : entity_ref) : Prop :=
  ((forall u, ~ origin s gid name u) /\ local_ref name r /\ exists src, holds out name src) \/
  (exists u src, origin s gid name u /\ dep_number s (eq u) src /\
     ((holds out name src /\ local_ref name r) \/
      (~ holds out name src /\ er_type r = name /\ p2_source (er_provenance r) = src /\ p2_path (er_provenance r) = ""))).
Definition associated (s : source1) (out : schema2) (g : group) : list (assoc string) -> list (assoc entity_ref) -> Prop :=
  Forall2 (same_shape (refers s out (g_id g))).

(* the type an entity group declares, and the type of an entity in the result *)
Definition entity_name (g : group) (t : string) : Prop :=
  g_name g = Some t \/ (g_name g = None /\ without "entity." (g_id g) t).
Definition entity_typed (s : source1) (g : group) (t : string) : Prop :=
  (~ refines g /\ entity_name g t) \/
  (refines g /\ exists base, extends g base /\
     ((exists b, first (fun b => g_id b = base) (so_groups s) b /\ entity_name b t) \/
      (none (fun b => g_id b = base) (so_groups s) /\ without "entity." base t))).

Definition is_entity (s : source1) (out : schema2) (g : group) (e : entity2) : Prop :=
  entity_typed s g (en2_type e) /\
  (forall i, In i (g_attributes g) -> exists a, attr_at s i a) /\
  one_each (fun i => exists a, attr_at s i a /\ at_role a = Some Identifying) (used s out false) (g_attributes g) (en2_identity e) /\
  one_each (fun i => exists a, attr_at s i a /\ at_role a <> Some Identifying) (used s out false) (g_attributes g) (en2_description e) /\
  en2_level e = g_level g /\ same_common g (en2_common e) /\ declared s g (en2_provenance e).
Definition is_span (s : source1) (out : schema2) (g : group) (x : span2) : Prop :=
  ((~ refines g /\ without "span." (g_id g) (sp2_type x)) \/
   (refines g /\ exists base, extends g base /\ without "span." base (sp2_type x))) /\
  default SkInternal (g_span_kind g) (sp2_kind x) /\
  (g_span_name g = Some (sp2_name x) \/ (g_span_name g = None /\ default "" (g_name g) (sp2_name x))) /\
  uses s out true (g_attributes g) (sp2_attributes x) /\
  associated s out g (g_assocs g) (sp2_assocs x) /\
  sp2_level x = g_level g /\ same_common g (sp2_common x) /\ declared s g (sp2_provenance x).
Definition is_event (s : source1) (out : schema2) (g : group) (x : event2) : Prop :=
  g_name g = Some (ev2_name x) /\
  uses s out false (g_attributes g) (ev2_attributes x) /\
  associated s out g (g_assocs g) (ev2_assocs x) /\
  ev2_level x = g_level g /\ same_common g (ev2_common x) /\ declared s g (ev2_provenance x).
Definition is_metric (s : source1) (out : schema2) (g : group) (x : metric2) : Prop :=
  g_metric_name g = Some (me2_name x) /\ g_instrument g = Some (me2_instrument x) /\ g_unit g = Some (me2_unit x) /\
  uses s out false (g_attributes g) (me2_attributes x) /\
  associated s out g (g_assocs g) (me2_assocs x) /\
  me2_level x = g_level g /\ same_common g (me2_common x) /\ declared s g (me2_provenance x).
Definition is_group (s : source1) (out : schema2) (g : group) (x : attribute_group2) : Prop :=
  without "attribute_group." (g_id g) (ag2_id x) /\
  uses s out false (g_attributes g) (ag2_attributes x) /\
  same_common g (ag2_common x) /\ declared s g (ag2_provenance x).

(* a signal of a type, and one that is a definition *)
Definition typed (t : group_type) (g : group) : Prop := g_type g = t.
Definition definition (t : group_type) (g : group) : Prop := g_type g = t /\ ~ refines g.
(* the id under which a signal is listed among the refinements: a definition under its own
   name, a refinement under its id *)
Definition listed {X} (prefix : string) (name : X -> string) (is : group -> X -> Prop) (g : group) (p : string * X) : Prop :=
  is g (snd p) /\
  ((~ refines g /\ fst p = name (snd p)) \/ (refines g /\ without prefix (g_id g) (fst p))).

(* the group uses the attribute and records no lineage for it: it defines it *)
Definition defined_in (s : source1) (g : group) (a : attribute) : Prop :=
  (exists i, In i (g_attributes g) /\ attr_at s i a) /\
  forall l, g_lineage g = Some l -> slookup (at_name a) (gl_attributes l) = None.
Definition defined (s : source1) (a : attribute) : Prop := exists g, In g (so_groups s) /\ defined_in s g a.

(* what the conversion needs *)
Definition entity_id (g : group) (x : string) : Prop :=
  (refines g /\ without "entity." (g_id g) x) \/ (~ refines g /\ entity_name g x).
Definition resolvable (s : source1) (g : group) : Prop :=
  forall c name, In c (g_assocs g) -> leaf name c ->
    (exists u, origin s (g_id g) name u) \/
    (exists h, In h (so_groups s) /\ g_type h = GEntity /\ entity_id h name).
Definition has_base (g : group) : Prop := refines g -> exists b, extends g b.
Definition measured (g : group) : Prop :=
  (exists n, g_metric_name g = Some n) /\ (exists i, g_instrument g = Some i) /\ (exists u, g_unit g = Some u).
Definition convertible (s : source1) (g : group) : Prop :=
  match g_type g with
  | GEntity => has_base g /\ forall i, In i (g_attributes g) -> exists a, attr_at s i a
  | GSpan => has_base g /\ resolvable s g
  | GEvent => (exists n, g_name g = Some n) /\ resolvable s g
  | GMetric => measured g /\ resolvable s g
  | _ => True
  end.
(* the error names this group and says what is wrong with it *)
Definition offends (s : source1) (g : group) (e : cerr) : Prop :=
  (exists i, e = CAttributeNotFound (g_id g) i /\ g_type g = GEntity /\ In i (g_attributes g) /\ forall a, ~ attr_at s i a) \/
  (e = CBaseNotFound (g_id g) /\ (g_type g = GEntity \/ g_type g = GSpan) /\ refines g /\ forall b, ~ extends g b) \/
  (e = CEventName (g_id g) /\ g_type g = GEvent /\ g_name g = None) \/
  (exists c name, e = CAssociation (g_id g) name /\ (g_type g = GSpan \/ g_type g = GEvent \/ g_type g = GMetric) /\
     In c (g_assocs g) /\ leaf name c /\ (forall u, ~ origin s (g_id g) name u) /\
     forall h, In h (so_groups s) -> g_type h = GEntity -> ~ entity_id h name).

(* the entity a reference denotes is declared in the registry with this url *)
Definition in_registry (s : source1) (src : option nat) (u : string) : Prop :=
  match src with Some i => nth_error (so_deps s) i = Some u | None => False end.
Definition denotes (s : source1) (out : schema2) (r : entity_ref) (u : string) : Prop :=
  match p2_source (er_provenance r) with
  | Some i => nth_error (so_deps s) i = Some u
  | None => exists src, holds out (er_type r) src /\ in_registry s src u
  end.
Definition points (s : source1) (out : schema2) (gid name : string) (r : entity_ref) : Prop :=
  er_type r = name /\
  (forall u, origin s gid name u -> In u (so_deps s) -> denotes s out r u) /\
  ((forall u, ~ origin s gid name u) -> p2_source (er_provenance r) = None /\ exists src, holds out name src).

(* ---------- samples used by the concrete cases ---------- *)
Definition sample_attr (n brief : string) (role : option attr_role) : attribute :=
  {| at_name := n; at_type := TPrim PString; at_brief := brief; at_examples := Some (EStrings ["a"]); at_tag := None; at_req := RRequired;
     at_sampling := Some true; at_note := ""; at_stability := None; at_deprecated := None; at_prefix := false;
     at_annotations := None; at_role := role |}.
Definition sample_lineage (url : string) (ext : option (string * group_type)) (attrs : list (string * string)) : group_lineage :=
  {| gl_provenance := {| pv_url := url; pv_path := "m.yaml" |}; gl_extends := option_map fst ext; gl_extends_type := option_map snd ext;
     gl_attributes := map (fun p => (fst p, {| al_source := snd p; al_inherited := []; al_overridden := [] |})) attrs; gl_includes := [] |}.
Definition sample_signal (id : string) (t : group_type) (name : option string) (l : option group_lineage) (attrs : list nat)
    (assocs : list (assoc string)) (metric : option (string * instrument * string)) : group :=
  {| g_id := id; g_type := t; g_brief := "b"; g_note := ""; g_prefix := ""; g_extends := None; g_stability := None;
     g_deprecated := None; g_attributes := attrs; g_span_kind := Some SkServer; g_events := [];
     g_metric_name := option_map (fun m => fst (fst m)) metric; g_instrument := option_map (fun m => snd (fst m)) metric;
     g_unit := option_map snd metric; g_name := name; g_lineage := l; g_display_name := None; g_body := None;
     g_annotations := None; g_assocs := assocs; g_visibility := Some Public; g_is_v2 := true; g_span_name := None; g_level := None |}.
(* its own entity and an imported one, a refinement of the first, a span and a refinement of it,
   a metric, an event and an attribute group *)
Definition sample_source : source1 :=
  {| so_url := "https://acme.test/schemas/1.0"; so_registry_url := "https://acme.test/schemas/1.0";
     so_groups :=
       [ sample_signal "span.http.client" GSpan None (Some (sample_lineage "https://acme.test/schemas/1.0" None [("url", "attrs")])) [1; 2]
           [AOneOf [ARef "host"; ARef "k8s.pod"]; ARef "process"] None;
         sample_signal "span.http.client.acme" GSpan None (Some (sample_lineage "https://acme.test/schemas/1.0" (Some ("span.http.client", GSpan)) [])) [1] [] None;
         sample_signal "entity.host" GEntity (Some "host") (Some (sample_lineage "https://acme.test/schemas/1.0" None [])) [0; 1] [] None;
         sample_signal "entity.host.acme" GEntity None (Some (sample_lineage "https://acme.test/schemas/1.0" (Some ("entity.host", GEntity)) [])) [0] [] None;
         sample_signal "entity.process" GEntity (Some "process") (Some (sample_lineage "https://otel.test/schemas/1.0" None [])) [] [] None;
         sample_signal "metric.hits" GMetric None (Some (sample_lineage "https://acme.test/schemas/1.0" None [])) [2] [] (Some ("hits", Counter, "1"));
         sample_signal "event.boot" GEvent (Some "boot") (Some (sample_lineage "https://acme.test/schemas/1.0" None [])) [] [ARef "host.acme"] None;
         sample_signal "attribute_group.attrs" GAttributeGroup None (Some (sample_lineage "https://acme.test/schemas/1.0" None [])) [1] [] None ];
     so_origins := [("span.http.client", [("k8s.pod", "https://k8s.test/schemas/2.0"); ("process", "https://otel.test/schemas/1.0")])];
     so_catalog := [sample_attr "host.id" "the host" (Some Identifying); sample_attr "url" "the url" None; sample_attr "url" "the url" (Some Descriptive)];
     so_roots := [("host.id", "v2_dependency.otel.test")];
     so_deps := ["https://k8s.test/schemas/2.0"; "https://otel.test/schemas/1.0"] |}.
(* two groups define the same key differently; a span uses an attribute the catalog does not have *)
Definition sample_twice : source1 :=
  {| so_url := "https://acme.test/schemas/1.0"; so_registry_url := "https://acme.test/schemas/1.0";
     so_groups := [sample_signal "span.a" GSpan None None [0; 7] [] None; sample_signal "span.b" GSpan None None [1] [ARef "disk"] None];
     so_origins := [("span.b", [("disk", "https://gone.test/schemas/1.0")])];
     so_catalog := [sample_attr "x" "one" None; sample_attr "x" "two" None];
     so_roots := []; so_deps := [] |}.
