(** Data types of a resolved telemetry schema, version 1 (the resolver's intermediate
    representation as well) and version 2. *)
From Coq Require Import String Ascii Bool Arith Lia ZArith NArith List.
From Verif Require Import Base Json SemTypes.
Import ListNotations.

(** crates/weaver_semconv/src/provenance.rs 16-22 [Provenance]. A schema url is
    represented by its text. *)
Record provenance := { pv_url : string; pv_path : string }.

(** crates/weaver_resolved_schema/src/lineage.rs [AttributeLineage]; the two sets
    (BTreeSet) are duplicate-free lists. *)
(* crates/weaver_resolved_schema/src/lineage.rs 20-33 *)
Record attr_lineage := {
  al_source : string;
  al_inherited : list string;
  al_overridden : list string
}.

(** lineage.rs [GroupLineage]; the map (BTreeMap) is a key-sorted association list. *)
(* crates/weaver_resolved_schema/src/lineage.rs 38-71 *)
Record group_lineage := {
  gl_provenance : provenance;
  gl_extends : option string;
  gl_extends_type : option group_type;
  gl_attributes : list (string * attr_lineage);
  gl_includes : list string
}.

(** crates/weaver_semconv/src/group.rs [SpanKindSpec]. *)
(* crates/weaver_semconv/src/group.rs 689-700 *)
Inductive span_kind := SkInternal | SkClient | SkServer | SkProducer | SkConsumer.

(** crates/weaver_semconv/src/signal_requirement_level.rs [SignalRequirementLevel]. *)
(* crates/weaver_semconv/src/signal_requirement_level.rs 16-23 *)
Inductive signal_level := SlRecommended | SlOptIn.

(** crates/weaver_semconv/src/v2/attribute_group.rs 136-142. *)
Inductive visibility := Internal | Public.

(** crates/weaver_semconv/src/any_value.rs 21-150 [AnyValueCommonSpec] and [AnyValueSpec]:
    the eight scalar/array cases are represented by [prim]. *)
Record any_common := {
  ac_id : string; ac_brief : string; ac_note : string; ac_stability : option stability;
  ac_examples : option examples; ac_req : req_level
}.
(* crates/weaver_semconv/src/any_value.rs 19-122 *)
Inductive any_value :=
| AvPrim (p : prim) (c : any_common)
| AvMap (c : any_common) (fields : list any_value)
| AvMaps (c : any_common) (fields : list any_value)
| AvBytes (c : any_common)
| AvUndefined (c : any_common)
| AvEnum (c : any_common) (members : list enum_entry).

(** crates/weaver_resolved_schema/src/registry.rs 65-205 [Group]; [events], [span_name] and
    [annotations] are carried, no field is dropped. An attribute reference
    (attribute.rs [AttributeRef], a u32) is a natural number. *)
Record group := {
  g_id : string;
  g_type : group_type;
  g_brief : string;
  g_note : string;
  g_prefix : string;
  g_extends : option string;
  g_stability : option stability;
  g_deprecated : option deprecated;
  g_attributes : list nat;
  g_span_kind : option span_kind;
  g_events : list string;
  g_metric_name : option string;
  g_instrument : option instrument;
  g_unit : option string;
  g_name : option string;
  g_lineage : option group_lineage;
  g_display_name : option string;
  g_body : option any_value;
  g_annotations : option (list (string * json));
  g_assocs : list (assoc string);
  g_visibility : option visibility;
  g_is_v2 : bool;
  g_span_name : option string;
  g_level : option signal_level
}.

(** registry.rs 209-223 [Group::signal_name]. *)
Definition signal_name (g : group) : option string :=
  match g_type g with
  | GAttributeGroup => Some (g_id g)
  | GSpan => g_name g
  | GEvent => g_name g
  | GMetric => g_metric_name g
  | GMetricGroup => None
  | GEntity => g_name g
  | GScope => None
  | GUndefined => None
  end.

(** registry.rs 227-229 and 232-239. *)
Definition is_v2_refinement (g : group) : bool :=
  g_is_v2 g && match g_lineage g with Some l => is_some (gl_extends l) | None => false end.

(** lineage.rs 527-529 [GroupLineage::attribute]. *)
Definition lineage_attribute (l : group_lineage) (name : string) : option attr_lineage :=
  slookup name (gl_attributes l).

(** crates/weaver_resolved_schema/src/lib.rs 49-79 [ResolvedTelemetrySchema], reduced to the
    parts that carry definitions: schema url, groups, catalog of attributes, dependencies,
    version of the manifest. The catalog's map of root attributes belongs to the resolver
    and is modelled there. *)
Record schema1 := {
  s1_url : string;
  s1_groups : list group;
  s1_catalog : list attribute;
  s1_dependencies : list string;
  s1_manifest_version : option string;
  s1_origins : list (string * list (string * string))
}.

(** * Version 2 *)

(** crates/weaver_resolved_schema/src/v2/provenance.rs. *)
(* crates/weaver_resolved_schema/src/v2/provenance.rs 11-26 *)
Record provenance2 := { p2_source : option nat; p2_path : string }.

(** crates/weaver_semconv/src/v2/mod.rs [CommonFields]. *)
(* crates/weaver_semconv/src/v2/mod.rs 38-55 *)
Record common := {
  c_brief : string; c_note : string; c_stability : stability;
  c_deprecated : option deprecated; c_annotations : list (string * json)
}.

(** v2/attribute.rs [Attribute]. *)
(* crates/weaver_resolved_schema/src/v2/attribute.rs 19-40 *)
Record attribute2 := {
  a2_key : string; a2_type : attr_type; a2_examples : option examples;
  a2_common : common; a2_provenance : provenance2
}.

(** v2/entity.rs [EntityRef]. *)
(* crates/weaver_resolved_schema/src/v2/entity.rs 50-58 *)
Record entity_ref := { er_type : string; er_provenance : provenance2 }.

(** [AttributeGroupAttributeRef], [EventAttributeRef], [MetricAttributeRef],
    [EntityAttributeRef] and [SpanAttributeRef]: base, requirement level and, for spans
    only, sampling relevance. *)
(* crates/weaver_resolved_schema/src/v2/metric.rs 62-75 *)
Record attr_use := { u_base : nat; u_req : req_level; u_sampling : option bool }.

(** v2/attribute_group.rs. *)
(* crates/weaver_resolved_schema/src/v2/attribute_group.rs 24-39 *)
Record attribute_group2 := {
  ag2_id : string; ag2_attributes : list attr_use; ag2_common : common;
  ag2_provenance : provenance2
}.
(** v2/entity.rs. *)
(* crates/weaver_resolved_schema/src/v2/entity.rs 17-40 *)
Record entity2 := {
  en2_type : string; en2_identity : list attr_use; en2_description : list attr_use;
  en2_level : option signal_level; en2_common : common; en2_provenance : provenance2
}.
(** v2/event.rs. *)
(* crates/weaver_resolved_schema/src/v2/event.rs 19-49 *)
Record event2 := {
  ev2_name : string; ev2_attributes : list attr_use; ev2_assocs : list (assoc entity_ref);
  ev2_level : option signal_level; ev2_common : common; ev2_provenance : provenance2
}.
(** v2/metric.rs. *)
(* crates/weaver_resolved_schema/src/v2/metric.rs 19-56 *)
Record metric2 := {
  me2_name : string; me2_instrument : instrument; me2_unit : string;
  me2_attributes : list attr_use; me2_assocs : list (assoc entity_ref);
  me2_level : option signal_level; me2_common : common; me2_provenance : provenance2
}.
(** v2/span.rs. *)
(* crates/weaver_resolved_schema/src/v2/span.rs 20-55 *)
Record span2 := {
  sp2_type : string; sp2_kind : span_kind; sp2_name : string;
  sp2_attributes : list attr_use; sp2_assocs : list (assoc entity_ref);
  sp2_level : option signal_level; sp2_common : common; sp2_provenance : provenance2
}.
(** v2/registry.rs [Registry]. *)
(* crates/weaver_resolved_schema/src/v2/registry.rs 32-50 *)
Record registry2 := {
  r2_attributes : list nat;
  r2_attribute_groups : list attribute_group2;
  r2_spans : list span2;
  r2_metrics : list metric2;
  r2_events : list event2;
  r2_entities : list entity2
}.
(** v2/refinements.rs [Refinements]: each refinement is its id and the refined signal. *)
(* crates/weaver_resolved_schema/src/v2/refinements.rs 26-39 *)
Record refinements2 := {
  f2_spans : list (string * span2);
  f2_metrics : list (string * metric2);
  f2_events : list (string * event2);
  f2_entities : list (string * entity2)
}.
(** v2/mod.rs [ResolvedTelemetrySchema]. *)
(* crates/weaver_resolved_schema/src/v2/mod.rs 51-67 *)
Record schema2 := {
  s2_url : string;
  s2_catalog : list attribute2;
  s2_registry : registry2;
  s2_refinements : refinements2;
  s2_dependencies : list string
}.
