(* Vocabulary for C36: what it is for an identifier to be used twice. *)
From Coq Require Import String Ascii Bool Arith NArith List Permutation.
Import ListNotations.
From Verif Require Import Base Json SemTypes Resolved Semver DefModel DefSpec ResolveModel ResolveSpec ImportModel ImportSpec.
Local Open Scope string_scope.

(* two elements of the list, at different places *)
Definition twice {A} (P : A -> Prop) (l : list A) : Prop :=
  exists l1 a l2 b l3, l = app l1 (a :: app l2 (b :: l3)) /\ P a /\ P b.
(* the group knows where it was declared *)
Definition located (g : group) : Prop := g_lineage g <> None.
(* a definition of the v2 syntax that extends another shares its name by design *)
Definition v2_refinement (g : group) : Prop :=
  g_is_v2 g = true /\ exists l p, g_lineage g = Some l /\ gl_extends l = Some p.
(* orders of hash maps are orders of their entries *)
Definition real_orders (o : orders) : Prop :=
  (forall l, Permutation (or_refs o l) l) /\ (forall l, Permutation (or_keys o l) l) /\
  (forall l, Permutation (or_attrs o l) l) /\ (forall l, Permutation (or_signals o l) l).
(* a definition of the files that is not for the use of its registry alone *)
Definition shown (s : group_spec) : Prop := gs_visibility s <> Some Internal.
Definition all_specs (specs : list (list group_spec * provenance)) : list group_spec := flat_map fst specs.

(* the names of the attributes a group defines itself, one for each place *)
Definition own_roots (names : list string) (g : group) : list string :=
  match g_type g, g_lineage g with
  | GAttributeGroup, Some l =>
    filter (fun n => negb (existsb (String.eqb n) (map fst (gl_attributes l))))
      (flat_map (fun r => match nth_error names r with Some n => [n] | None => [] end) (g_attributes g))
  | _, _ => []
  end.

(* the name a group takes in a v2 document, where each kind has a namespace of its own *)
Definition without (p id n : string) : Prop := id = p ++ n \/ ((forall r, id <> p ++ r) /\ n = id).
Definition refines (g : group) : Prop := exists l, g_lineage g = Some l /\ gl_extends_type l = Some (g_type g).
Inductive signal_name (g : group) : string -> Prop :=
| sn_span n : g_type g = GSpan -> without "span." (g_id g) n -> signal_name g n
| sn_group n : g_type g = GAttributeGroup -> without "attribute_group." (g_id g) n -> signal_name g n
| sn_entity_named n : g_type g = GEntity -> ~ refines g -> g_name g = Some n -> signal_name g n
| sn_entity n : g_type g = GEntity -> refines g \/ g_name g = None -> without "entity." (g_id g) n -> signal_name g n
| sn_event_named n : g_type g = GEvent -> ~ refines g -> g_name g = Some n -> signal_name g n
| sn_event n : g_type g = GEvent -> refines g -> without "event." (g_id g) n -> signal_name g n
| sn_metric_named n : g_type g = GMetric -> ~ refines g -> g_metric_name g = Some n -> signal_name g n
| sn_metric n : g_type g = GMetric -> refines g -> without "metric." (g_id g) n -> signal_name g n.

(* ---------- samples used by the concrete cases ---------- *)
Definition sample_orders : orders :=
  {| or_leb := fun a b => str_leb (at_name a) (at_name b); or_refs := fun l => l; or_keys := fun l => l; or_attrs := fun l => l;
     or_signals := fun l => l |}.
Definition sample_named (id : string) (t : group_type) (name metric : option string) (v : option visibility) : group_spec :=
  {| gs_id := id; gs_type := t; gs_brief := ""; gs_note := ""; gs_prefix := ""; gs_extends := None;
     gs_stability := None; gs_deprecated := None; gs_attributes := []; gs_span_kind := None;
     gs_events := []; gs_metric_name := metric; gs_instrument := None; gs_unit := None; gs_name := name;
     gs_display_name := None; gs_body := None; gs_annotations := None; gs_assocs := [];
     gs_include := []; gs_visibility := v; gs_is_v2 := false; gs_span_name := None; gs_level := None |}.
Definition sample_attribute_group2 (id : string) : attribute_group2 :=
  {| ag2_id := id; ag2_attributes := []; ag2_common := sample_common; ag2_provenance := {| p2_source := None; p2_path := "" |} |}.
Definition sample_published_groups (url : string) (gs : list attribute_group2) : schema2 :=
  {| s2_url := url; s2_catalog := []; s2_dependencies := [];
     s2_registry := {| r2_attributes := []; r2_attribute_groups := gs; r2_spans := []; r2_metrics := []; r2_events := []; r2_entities := [] |};
     s2_refinements := {| f2_spans := []; f2_metrics := []; f2_events := []; f2_entities := [] |} |}.
Definition sample_file : provenance := {| pv_url := "https://acme.io/schemas/1.0.0"; pv_path := "acme.yaml" |}.
Definition sample_defining (id : string) (l : list attr_spec) : group_spec :=
  {| gs_id := id; gs_type := GAttributeGroup; gs_brief := ""; gs_note := ""; gs_prefix := ""; gs_extends := None;
     gs_stability := None; gs_deprecated := None; gs_attributes := l; gs_span_kind := None;
     gs_events := []; gs_metric_name := None; gs_instrument := None; gs_unit := None; gs_name := None;
     gs_display_name := None; gs_body := None; gs_annotations := None; gs_assocs := [];
     gs_include := []; gs_visibility := None; gs_is_v2 := false; gs_span_name := None; gs_level := None |}.
