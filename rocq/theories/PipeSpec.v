(* Vocabulary for what becomes of a registry from its files to its consumers (C97).
   The steps are those of DefModel (reading), ImportModel (resolution), ViewModel (the view of
   templates), StatsModel (statistics) and ConvertModel (conversion to version 2). *)
From Coq Require Import String Ascii Bool Arith NArith List.
Import ListNotations.
From Verif Require Import Base Json SemTypes Resolved ResultModel ResultSpec DefModel DefSpec ResolveModel ResolveSpec ImportModel ImportSpec StatsSpec.
From Verif Require ConvertModel ConvertSpec.
Local Open Scope string_scope.

(* the groups that a file of either version gives; checking the file reports no error, though it
   may report warnings.  The fields is_v2 and visibility are not written in version 1 files. *)
Definition clean_file (l : list group_spec) : Prop :=
  exists v name, l = sp1_groups (versioned_into_v1 v name) /\
    only_warnings (errors_of (validate_versioned v)) /\
    match v with
    | V1 s => forall g, In g (sp1_groups s) -> gs_is_v2 g = false /\ gs_visibility g = None
    | V2 _ => True
    end.
Definition clean_files (specs : list (list group_spec * provenance)) : Prop :=
  forall sp, In sp specs -> clean_file (fst sp).
Definition declares (specs : list (list group_spec * provenance)) (g : group_spec) : Prop :=
  exists sp, In sp specs /\ In g (fst sp).

(* the metrics that refine something refine a metric *)
Definition refines_metrics (e : env) (specs : list (list group_spec * provenance)) : Prop :=
  forall g p, declares specs g -> gs_is_v2 g = true -> gs_type g = GMetric -> gs_extends g = Some p ->
    (forall h, declares specs h -> gs_id h = p -> gs_type h = GMetric) /\
    (forall d s, In d (ev_deps e) -> dep_summary e p d = Some s -> sm_type s = GMetric).
(* every event of a version 1 file has a name *)
Definition names_events (specs : list (list group_spec * provenance)) : Prop :=
  forall g, declares specs g -> gs_is_v2 g = false -> gs_type g = GEvent -> gs_name g <> None.

(* the groups of the resolved registries a registry depends on, directly or as a newer version *)
Definition known_group (e : env) (g : group) : Prop :=
  exists s roots, (In (D1 s roots) (ev_deps e) \/ exists u, ev_cached e u = Some (D1 s roots)) /\ In g (s1_groups s).
Definition counted (g : group) : Prop := g_type g = GMetric -> complete_metric g.
Definition has_name (g : group) : Prop := g_type g = GEvent -> g_name g <> None.
(* a group that refines something says what *)
Definition says_base (g : group) : Prop :=
  forall l, g_lineage g = Some l -> gl_extends_type l <> None -> gl_extends l <> None.

(* a resolved registry as the input of the statistics and of the conversion *)
Definition schema_of (url : string) (r : resolved) (deps : list string) : schema1 :=
  {| s1_url := url; s1_groups := rs_groups r; s1_catalog := rs_catalog r; s1_dependencies := deps;
     s1_manifest_version := None; s1_origins := rs_origins r |}.
Definition source_of (url name : string) (r : resolved) (roots : list (string * string)) (deps : list string) : ConvertModel.source1 :=
  {| ConvertModel.so_url := url; ConvertModel.so_registry_url := name; ConvertModel.so_groups := rs_groups r;
     ConvertModel.so_origins := rs_origins r; ConvertModel.so_catalog := rs_catalog r;
     ConvertModel.so_roots := roots; ConvertModel.so_deps := deps |}.

(* ---------- samples ---------- *)
Definition pipe_common : common :=
  {| c_brief := "a brief"; c_note := ""; c_stability := SStable; c_deprecated := None; c_annotations := [] |}.
Definition pipe_use (k : string) : attr_ref2 :=
  {| ar_ref := k; ar_brief := None; ar_examples := None; ar_req := None; ar_note := None; ar_stability := None;
     ar_deprecated := None; ar_annotations := [] |}.
Definition pipe_refines (id base : string) : signal_refinement :=
  {| sr_base := {| rf_id := id; DefModel.rf_ref := base; rf_brief := None; rf_note := None; rf_stability := None;
                   rf_deprecated := None; rf_annotations := [] |};
     sr_attributes := [UAttr (pipe_use "host.id") None]; sr_assocs := [ARef "host"]; sr_span_name := None |}.
Definition pipe_file (entities : list string) (metrics : list string) (events : list string) (refined : list (string * string)) : spec2 :=
  {| s2d_attributes := [{| ad_key := "host.id"; ad_type := TPrim PString; ad_examples := None; ad_common := pipe_common |}];
     s2d_entities := map (fun t => {| ed_type := t; ed_identity := [pipe_use "host.id"]; ed_description := []; ed_level := None; ed_common := pipe_common |}) entities;
     s2d_events := map (fun n => {| vd_name := n; vd_attributes := [UAttr (pipe_use "host.id") None]; vd_assocs := []; vd_level := None; vd_common := pipe_common |}) events;
     s2d_metrics := map (fun n => {| md_name := n; md_instrument := Counter; md_unit := "1"; md_attributes := []; md_assocs := [AOneOf [ARef "host"]];
                                     md_level := None; md_common := pipe_common |}) metrics;
     s2d_spans := []; s2d_groups := [AgInternal "inside" []]; s2d_entity_refinements := []; s2d_event_refinements := [];
     s2d_metric_refinements := map (fun p => pipe_refines (fst p) (snd p)) refined; s2d_span_refinements := []; s2d_imports := None |}.
Definition pipe_place (f : string) : provenance := {| pv_url := "https://acme.io/schemas/1.0.0"; pv_path := f |}.
Definition pipe_v2 (entities metrics events : list string) (refined : list (string * string)) : list group_spec * provenance :=
  (sp1_groups (versioned_into_v1 (V2 (pipe_file entities metrics events refined)) "a"), pipe_place "a.yaml").
Definition pipe_v1 (gs : list group_spec) : list group_spec * provenance :=
  (sp1_groups (versioned_into_v1 (V1 {| sp1_groups := gs; sp1_imports := None |}) "b"), pipe_place "b.yaml").
Definition pipe_group (id : string) (t : group_type) (prefix : string) (l : list attr_spec) : group_spec :=
  {| gs_id := id; gs_type := t; gs_brief := "a brief"; gs_note := ""; gs_prefix := prefix; gs_extends := None;
     gs_stability := Some SStable; gs_deprecated := None; gs_attributes := l; gs_span_kind := None;
     gs_events := []; gs_metric_name := None; gs_instrument := None; gs_unit := None; gs_name := None;
     gs_display_name := None; gs_body := None; gs_annotations := None; gs_assocs := [];
     gs_include := []; gs_visibility := None; gs_is_v2 := false; gs_span_name := None; gs_level := None |}.
(* a registry that depends on another one *)
Definition pipe_whole : list (list group_spec * provenance) :=
  [pipe_v2 ["host"] ["hits"] ["boot"] [("hits.web", "hits")]; pipe_v1 [pipe_group "more" GAttributeGroup "" [sample_id "k" "a key"]]].
(* a metric that refines an attribute group *)
Definition pipe_mistyped : list (list group_spec * provenance) :=
  [pipe_v2 ["host"] [] [] [("hits.web", "hits")]; pipe_v1 [pipe_group "metric.hits" GAttributeGroup "" [sample_id "k" "a key"]]].
(* an event of version 1 that has a prefix and no name *)
Definition pipe_unnamed : list (list group_spec * provenance) :=
  [pipe_v1 [pipe_group "boot" GEvent "boot" []]].
(* dependencies of either kind *)
Definition pipe_env : env :=
  sample_env [D2 (sample_published "https://a.io/schemas/1.0.0" [] [sample_metric2 "cpu"] [sample_entity2 "node" None] []);
              D1 (sample_schema1 "https://b.io/schemas/1.0.0" [sample_resolved "entity.disk" GEntity (Some "disk") None "https://b.io/schemas/1.0.0" []] []) []].
