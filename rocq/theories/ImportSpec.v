(* Vocabulary for imports and entity associations, independent of how they are computed. *)
From Coq Require Import String Ascii Bool Arith NArith List Permutation.
Import ListNotations.
From Verif Require Import Base Json SemTypes Resolved Semver DefModel DefSpec ResolveModel ResolveSpec ImportModel.
Local Open Scope string_scope.

(* ---------- C40: what an imports block asks for ---------- *)
(* pattern [p] stands under the heading [f] of a block *)
Inductive listed : field -> imports -> string -> Prop :=
| li_metrics i l p : im_metrics i = Some l -> In p l -> listed FMetrics i p
| li_events i l p : im_events i = Some l -> In p l -> listed FEvents i p
| li_spans i l p : im_spans i = Some l -> In p l -> listed FSpans i p
| li_entities i l p : im_entities i = Some l -> In p l -> listed FEntities i p
| li_groups i l p : im_attribute_groups i = Some l -> In p l -> listed FAttributeGroups i p.
(* the block was written by an author, not added by --include-unreferenced *)
Definition authored (b : block) : Prop := bk_path b <> "--include-unreferenced".
Definition asks (glob : string -> string -> bool) (bs : list block) (f : field) (k : string) : Prop :=
  exists b p, In b bs /\ listed f (bk_imports b) p /\ glob p k = true.
Definition asks_by_name (glob : string -> string -> bool) (bs : list block) (f : field) (k : string) : Prop :=
  exists b p, In b bs /\ authored b /\ listed f (bk_imports b) p /\ glob p k = true.
(* the heading a group of a type is imported under, and how the heading is written *)
Inductive heading : group_type -> field -> Prop :=
| hd_metric : heading GMetric FMetrics
| hd_metric_group : heading GMetricGroup FMetrics
| hd_event : heading GEvent FEvents
| hd_span : heading GSpan FSpans
| hd_entity : heading GEntity FEntities
| hd_group : heading GAttributeGroup FAttributeGroups.
Inductive written : field -> string -> Prop :=
| wr_metrics : written FMetrics "metrics"
| wr_events : written FEvents "events"
| wr_spans : written FSpans "spans"
| wr_entities : written FEntities "entities"
| wr_groups : written FAttributeGroups "attribute_groups".
(* the names a group goes by *)
Inductive answers (g : group) : string -> Prop :=
| an_id f : g_is_v2 g = true -> heading (g_type g) f -> answers g (g_id g)
| an_name n : g_is_v2 g = true -> In (g_type g) [GSpan; GEvent; GEntity] -> g_name g = Some n -> answers g n
| an_metric n : g_is_v2 g = true -> In (g_type g) [GMetric; GMetricGroup] -> g_metric_name g = Some n -> answers g n
| an_bare p n : g_is_v2 g = true -> In (g_type g, p) [(GAttributeGroup, "attribute_group."); (GSpan, "span.");
      (GEvent, "event."); (GMetric, "metric."); (GMetricGroup, "metric."); (GEntity, "entity.")] ->
    g_id g = p ++ n -> answers g n
| an_registry n : g_is_v2 g = true -> g_type g = GAttributeGroup -> g_id g = "registry." ++ n -> answers g n
| an_v1_id : g_is_v2 g = false -> In (g_type g) [GAttributeGroup; GSpan; GEntity] -> answers g (g_id g)
| an_v1_bare n : g_is_v2 g = false -> g_type g = GEntity -> g_id g = "entity." ++ n -> answers g n
| an_v1_name n : g_is_v2 g = false -> In (g_type g) [GEvent; GEntity] -> g_name g = Some n -> answers g n
| an_v1_metric n : g_is_v2 g = false -> g_type g = GMetric -> g_metric_name g = Some n -> answers g n.

(* ---------- C40: what a dependency holds ---------- *)
(* a group of a resolved registry, or a signal of a published one *)
Inductive definition :=
| DGroup (g : group) | DMetric (m : metric2) | DEvent (v : event2) | DEntity (n : entity2) | DSpan (p : span2)
| DAttrGroup (a : attribute_group2).
Definition holds (d : dependency) (x : definition) : Prop :=
  match d, x with
  | D1 s _, DGroup g => In g (s1_groups s)
  | D2 s, DMetric m => In m (r2_metrics (s2_registry s))
  | D2 s, DEvent v => In v (r2_events (s2_registry s))
  | D2 s, DEntity n => In n (r2_entities (s2_registry s))
  | D2 s, DSpan p => In p (r2_spans (s2_registry s))
  | D2 s, DAttrGroup a => In a (r2_attribute_groups (s2_registry s))
  | _, _ => False
  end.
Definition kind_of (x : definition) : group_type :=
  match x with
  | DGroup g => g_type g | DMetric _ => GMetric | DEvent _ => GEvent | DEntity _ => GEntity | DSpan _ => GSpan
  | DAttrGroup _ => GAttributeGroup
  end.
Definition id_of (x : definition) : string :=
  match x with
  | DGroup g => g_id g | DMetric m => me2_name m | DEvent v => ev2_name v | DEntity n => en2_type n
  | DSpan p => sp2_type p | DAttrGroup a => ag2_id a
  end.
(* a signal of a published registry goes by its id alone *)
Definition called (x : definition) (k : string) : Prop :=
  match x with DGroup g => answers g k | _ => k = id_of x end.
Definition annotations_on (x : definition) : list (string * json) :=
  match x with
  | DGroup g => match g_annotations g with Some a => a | None => [] end
  | DMetric m => c_annotations (me2_common m) | DEvent v => c_annotations (ev2_common v)
  | DEntity n => c_annotations (en2_common n) | DSpan p => c_annotations (sp2_common p)
  | DAttrGroup a => c_annotations (ag2_common a)
  end.
(* annotations: {dependency_resolution: {exclude: true}} *)
Definition hides (ann : list (string * json)) : Prop :=
  exists m, slookup "dependency_resolution" ann = Some (JObj m) /\ slookup "exclude" m = Some (JBool true).
Definition private (x : definition) : Prop := hides (annotations_on x).
Definition wanted (glob : string -> string -> bool) (bs : list block) (x : definition) : Prop :=
  exists f k, heading (kind_of x) f /\ called x k /\ asks glob bs f k.
Definition wanted_by_name (glob : string -> string -> bool) (bs : list block) (x : definition) : Prop :=
  exists f k, heading (kind_of x) f /\ called x k /\ asks_by_name glob bs f k.
(* the error for asking by name for a private definition *)
Definition refused (x : definition) : rerr := XExcluded (id_of x) (group_type_text (kind_of x)) "imports".

(* ---------- C40: what is imported ---------- *)
(* the same expression, with names for references *)
Inductive names_for : assoc entity_ref -> assoc string -> Prop :=
| nf_ref r : names_for (ARef r) (ARef (er_type r))
| nf_one cs cs' : Forall2 names_for cs cs' -> names_for (AOneOf cs) (AOneOf cs')
| nf_all cs cs' : Forall2 names_for cs cs' -> names_for (AAllOf cs) (AAllOf cs').
(* the registry a signal of a published schema was declared in *)
Definition declared_in (s : schema2) (p : provenance2) (url : string) : Prop :=
  match p2_source p with
  | None => url = s2_url s
  | Some i => nth_error (s2_dependencies s) i = Some url \/ (nth_error (s2_dependencies s) i = None /\ url = s2_url s)
  end.
Definition from_common (c : common) (g : group) : Prop :=
  g_brief g = c_brief c /\ g_note g = c_note c /\ g_stability g = Some (c_stability c) /\
  g_deprecated g = c_deprecated c /\ g_annotations g = Some (c_annotations c) /\ g_is_v2 g = true /\
  g_extends g = None.
Definition comes_from (s : schema2) (p : provenance2) (g : group) : Prop :=
  exists l, g_lineage g = Some l /\ declared_in s p (pv_url (gl_provenance l)) /\ pv_path (gl_provenance l) = p2_path p /\
            gl_extends l = None /\ gl_extends_type l = None /\ gl_attributes l = [].
(* [g] is the group that carries [x], leaving its attributes aside *)
Definition carries (d : dependency) (x : definition) (g : group) : Prop :=
  match d, x with
  | D1 _ _, DGroup h => same_data g h
  | D2 s, DMetric m =>
    g_id g = me2_name m /\ g_type g = GMetric /\ from_common (me2_common m) g /\ comes_from s (me2_provenance m) g /\
    g_metric_name g = Some (me2_name m) /\ g_instrument g = Some (me2_instrument m) /\ g_unit g = Some (me2_unit m) /\
    g_name g = None /\ Forall2 names_for (me2_assocs m) (g_assocs g)
  | D2 s, DEvent v =>
    g_id g = ev2_name v /\ g_type g = GEvent /\ from_common (ev2_common v) g /\ comes_from s (ev2_provenance v) g /\
    g_metric_name g = None /\ g_name g = Some (ev2_name v) /\ Forall2 names_for (ev2_assocs v) (g_assocs g)
  | D2 s, DEntity n =>
    g_id g = en2_type n /\ g_type g = GEntity /\ from_common (en2_common n) g /\ comes_from s (en2_provenance n) g /\
    g_metric_name g = None /\ g_name g = Some (en2_type n) /\ g_assocs g = []
  | D2 s, DSpan p =>
    g_id g = sp2_type p /\ g_type g = GSpan /\ from_common (sp2_common p) g /\ comes_from s (sp2_provenance p) g /\
    g_metric_name g = None /\ g_name g = Some (sp2_type p) /\ g_span_kind g = Some (sp2_kind p) /\
    g_span_name g = Some (sp2_name p) /\ Forall2 names_for (sp2_assocs p) (g_assocs g)
  | D2 _, DAttrGroup a =>
    g_id g = ag2_id a /\ g_type g = GAttributeGroup /\ from_common (ag2_common a) g /\ g_lineage g = None /\
    g_metric_name g = None /\ g_name g = None /\ g_assocs g = []
  | _, _ => False
  end.

(* one signal under two ids: the same type and the same name, or, without a name, the same id
   once a leading type is dropped *)
Definition type_prefixes : list string := ["metric."; "event."; "entity."; "span."; "attribute_group."; "registry."].
Definition bare (id b : string) : Prop :=
  (exists p, In p type_prefixes /\ id = p ++ b) \/ ((forall p r, In p type_prefixes -> id <> p ++ r) /\ b = id).
Definition same_signal (g h : group) : Prop :=
  g_type g = g_type h /\
  ((g_metric_name g = g_metric_name h /\ g_metric_name g <> None) \/
   (g_metric_name g = None /\ g_metric_name h = None /\ g_name g = g_name h /\ g_name g <> None) \/
   (g_metric_name g = None /\ g_metric_name h = None /\ g_name g = None /\ g_name h = None /\
    exists b, bare (g_id g) b /\ bare (g_id h) b)).
(* where a group was declared: its lineage says, or it is the registry itself *)
Definition declared_at (g : group) (registry url : string) : Prop :=
  match g_lineage g with Some l => url = pv_url (gl_provenance l) | None => url = registry end.
(* a newer version of the registry that declared the group was chosen, and holds the group *)
Definition superseded (e : env) (g : group) (registry : string) (h : group) : Prop :=
  exists origin chosen s roots,
    declared_at g registry origin /\ ev_chosen e (ev_name e origin) = Some chosen /\ chosen <> origin /\
    latest_major (ev_name e) (ev_semver e) origin chosen = Got chosen /\
    ev_cached e chosen = Some (D1 s roots) /\ In h (s1_groups s) /\ same_signal g h.
(* [g] is the copy of [x] that dependency [d] contributes: [x] itself or its newer version *)
Definition registry_of (e : env) (d : dependency) (url : string) : Prop :=
  match d with D1 s _ => ev_parse e (s1_url s) = Some url | D2 s => url = s2_url s end.
Definition copy_of (e : env) (d : dependency) (x : definition) (g : group) : Prop :=
  exists url g0, registry_of e d url /\ carries d x g0 /\
    (same_data g g0 \/ exists h, superseded e g0 url h /\ same_data g h).
(* two imported groups that are one definition *)
Definition twins (a b : imported) : Prop :=
  (exists u, declared_at (im_group a) (im_url a) u /\ declared_at (im_group b) (im_url b) u) /\
  same_signal (im_group a) (im_group b).

(* no two versions of a registry are in play *)
Definition one_version (e : env) : Prop := forall u c, ev_chosen e (ev_name e u) = Some c -> c = u.
(* the attributes of a definition, in order *)
Definition v1_form (a : attribute2) (r : req_level) (sampling : option bool) (role : option attr_role) (b : attribute) : Prop :=
  at_name b = a2_key a /\ at_type b = a2_type a /\ at_brief b = c_brief (a2_common a) /\
  at_examples b = a2_examples a /\ at_tag b = None /\ at_req b = r /\ at_sampling b = sampling /\
  at_note b = c_note (a2_common a) /\ at_stability b = Some (c_stability (a2_common a)) /\
  at_deprecated b = c_deprecated (a2_common a) /\ at_prefix b = false /\
  at_annotations b = Some (c_annotations (a2_common a)) /\ at_role b = role.
Definition used_as (s : schema2) (sampled : bool) (role : option attr_role) (u : attr_use) (b : attribute) : Prop :=
  exists a, nth_error (s2_catalog s) (u_base u) = Some a /\
            v1_form a (u_req u) (if sampled then u_sampling u else None) role b.
Definition attributes_on (d : dependency) (x : definition) (l : list attribute) : Prop :=
  match d, x with
  | D1 s _, DGroup g => Forall2 (fun r a => nth_error (s1_catalog s) r = Some a) (g_attributes g) l
  | D2 s, DMetric m => Forall2 (used_as s false None) (me2_attributes m) l
  | D2 s, DEvent v => Forall2 (used_as s false None) (ev2_attributes v) l
  | D2 s, DEntity n =>
    exists l1 l2, l = app l1 l2 /\ Forall2 (used_as s false (Some Identifying)) (en2_identity n) l1 /\
                  Forall2 (used_as s false (Some Descriptive)) (en2_description n) l2
  | D2 s, DSpan p => Forall2 (used_as s true None) (sp2_attributes p) l
  | D2 s, DAttrGroup a => Forall2 (used_as s false None) (ag2_attributes a) l
  | _, _ => False
  end.
(* the references of the groups of a v1 dependency lie inside its catalog (C32) *)
Definition closed_dependency (d : dependency) : Prop :=
  match d with
  | D1 s _ => forall g r, In g (s1_groups s) -> In r (g_attributes g) -> r < length (s1_catalog s)
  | D2 _ => True
  end.

(* ---------- C71: entity associations ---------- *)
(* the name an entity of the registry goes by in an association *)
Definition entity_name (g : group) (n : string) : Prop :=
  g_type g = GEntity /\
  ((exists l, g_lineage g = Some l /\ gl_extends_type l = Some GEntity /\
              (g_id g = "entity." ++ n \/ ((forall r, g_id g <> "entity." ++ r) /\ n = g_id g))) \/
   ((forall l, g_lineage g = Some l -> gl_extends_type l <> Some GEntity) /\
    (g_name g = Some n \/
     (g_name g = None /\ (g_id g = "entity." ++ n \/ ((forall r, g_id g <> "entity." ++ r) /\ n = g_id g)))))).
(* out of reach of dependents *)
Definition kept_back (u : ugroup) : Prop :=
  (exists a, g_annotations (ug_group u) = Some a /\ hides a) \/
  (g_type (ug_group u) = GAttributeGroup /\ ug_visibility u <> Some Public).
(* [w] is the entity of the registry that goes by the name [n] (the last one, if several do) *)
Definition own_entity (gs : list ugroup) (n : string) (w : ugroup) : Prop :=
  exists before after, gs = app before (w :: after) /\ entity_name (ug_group w) n /\
    forall w', In w' after -> ~ entity_name (ug_group w') n.
(* dependency [d] holds an entity [n], declared in [url] *)
Definition first_in {A} (P : A -> Prop) (l : list A) (x : A) : Prop :=
  exists before after, l = app before (x :: after) /\ P x /\ forall y, In y before -> ~ P y.
Definition has_entity (e : env) (d : dependency) (n url : string) (priv : bool) : Prop :=
  match d with
  | D1 s _ =>
    exists my g, ev_parse e (s1_url s) = Some my /\
      first_in (fun g => g_type g = GEntity /\ answers g n) (s1_groups s) g /\
      declared_at g my url /\ (priv = true <-> exists a, g_annotations g = Some a /\ hides a)
  | D2 s =>
    exists en, (first_in (fun x => en2_type x = n) (r2_entities (s2_registry s)) en \/
                ((forall x, In x (r2_entities (s2_registry s)) -> en2_type x <> n) /\
                 first_in (fun x => fst x = n) (f2_entities (s2_refinements s)) (n, en))) /\
      declared_in s (en2_provenance en) url /\ (priv = true <-> hides (c_annotations (en2_common en)))
  end.
Definition offers_entity (e : env) (n url : string) : Prop :=
  exists d, In d (ev_deps e) /\ has_entity e d n url false.
Definition hides_entity (e : env) (n : string) : Prop :=
  exists d url, In d (ev_deps e) /\ has_entity e d n url true.
Definition names_entity (u : ugroup) (n : string) : Prop := exists a, In a (g_assocs (ug_group u)) /\ mentions a n.
Definition brought (recorded : list (string * list (string * string))) (u : ugroup) (n : string) : Prop :=
  exists m url, slookup (uid u) recorded = Some m /\ slookup n m = Some url.
(* the name means an entity of the registry that the group may use / it means one in exactly one
   other registry *)
Definition meant_here (gs : list ugroup) (u : ugroup) (n : string) : Prop :=
  exists w, own_entity gs n w /\ (~ kept_back w \/ kept_back u).
Definition no_own_entity (gs : list ugroup) (n : string) : Prop :=
  forall w, In w gs -> ~ entity_name (ug_group w) n.
Definition meant_there (e : env) (gs : list ugroup) (n url : string) : Prop :=
  no_own_entity gs n /\ offers_entity e n url /\ forall url', offers_entity e n url' -> url' = url.
(* what is wrong with a name *)
Inductive wrong_name (e : env) (gs : list ugroup) (u : ugroup) (n : string) : rerr -> Prop :=
| wn_private w : own_entity gs n w -> kept_back w -> ~ kept_back u -> wrong_name e gs u n (XExcluded n "entity" (uid u))
| wn_hidden : no_own_entity gs n -> (forall url, ~ offers_entity e n url) -> hides_entity e n ->
    wrong_name e gs u n (XExcluded n "entity" (uid u))
| wn_ambiguous urls : no_own_entity gs n -> NoDup urls -> 1 < length urls ->
    (forall url, In url urls <-> offers_entity e n url) -> wrong_name e gs u n (XAmbiguousEntity (uid u) n urls)
| wn_unknown : no_own_entity gs n -> (forall url, ~ offers_entity e n url) -> ~ hides_entity e n ->
    wrong_name e gs u n (XUnresolvedEntity (uid u) n).
(* the map says that [n] on the group [id] is the entity of [url] *)
Definition recorded_as (m : list (string * list (string * string))) (id n url : string) : Prop :=
  exists om, slookup id m = Some om /\ slookup n om = Some url.
Definition with_dependencies (e : env) (ds : list dependency) : env :=
  {| ev_name := ev_name e; ev_semver := ev_semver e; ev_parse := ev_parse e; ev_chosen := ev_chosen e;
     ev_cached := ev_cached e; ev_deps := ds |}.

(* ---------- C72: origins of the entities of imported signals ---------- *)
Inductive refers : assoc entity_ref -> entity_ref -> Prop :=
| rf_ref r : refers (ARef r) r
| rf_one cs c r : In c cs -> refers c r -> refers (AOneOf cs) r
| rf_all cs c r : In c cs -> refers c r -> refers (AAllOf cs) r.
Definition associations_of (x : definition) : list (assoc entity_ref) :=
  match x with DMetric m => me2_assocs m | DEvent v => ev2_assocs v | DSpan p => sp2_assocs p | _ => [] end.
(* the registry a published reference points at: the recorded one, or the one of the public entity
   of that name in the same document *)
Definition ref_origin (e : env) (s : schema2) (r : entity_ref) (url : string) : Prop :=
  match p2_source (er_provenance r) with
  | Some i => nth_error (s2_dependencies s) i = Some url
  | None => has_entity e (D2 s) (er_type r) url false
  end.
(* no two signals of the registry share an id, whatever their kinds *)
Definition distinct_ids (s : schema2) : Prop :=
  NoDup (app (map me2_name (r2_metrics (s2_registry s))) (app (map ev2_name (r2_events (s2_registry s)))
        (app (map en2_type (r2_entities (s2_registry s))) (app (map sp2_type (r2_spans (s2_registry s)))
             (map ag2_id (r2_attribute_groups (s2_registry s))))))).
(* the origins [m] are those of the references of [x] *)
Definition origins_of (e : env) (s : schema2) (x : definition) (m : list (string * string)) : Prop :=
  (forall n url, slookup n m = Some url ->
     exists a r, In a (associations_of x) /\ refers a r /\ er_type r = n /\ ref_origin e s r url) /\
  (forall a r url, In a (associations_of x) -> refers a r -> ref_origin e s r url ->
     exists url', slookup (er_type r) m = Some url').

(* ---------- samples used by the concrete cases ---------- *)
Definition sample_glob (p k : string) : bool := String.eqb p "*" || String.eqb p k.
Definition sample_common : common :=
  {| c_brief := ""; c_note := ""; c_stability := SStable; c_deprecated := None; c_annotations := [] |}.
Definition sample_hidden : list (string * json) := [("dependency_resolution", JObj [("exclude", JBool true)])].
Definition sample_entity2 (n : string) (src : option nat) : entity2 :=
  {| en2_type := n; en2_identity := []; en2_description := []; en2_level := None; en2_common := sample_common;
     en2_provenance := {| p2_source := src; p2_path := "o.yaml" |} |}.
Definition sample_metric2 (n : string) : metric2 :=
  {| me2_name := n; me2_instrument := Counter; me2_unit := "1"; me2_attributes := []; me2_assocs := []; me2_level := None;
     me2_common := sample_common; me2_provenance := {| p2_source := None; p2_path := "" |} |}.
Definition sample_published (url : string) (deps : list string) (ms : list metric2) (es : list entity2)
  (rs : list (string * metric2)) : schema2 :=
  {| s2_url := url; s2_catalog := []; s2_dependencies := deps;
     s2_registry := {| r2_attributes := []; r2_attribute_groups := []; r2_spans := []; r2_metrics := ms; r2_events := []; r2_entities := es |};
     s2_refinements := {| f2_spans := []; f2_metrics := rs; f2_events := []; f2_entities := [] |} |}.
Definition sample_resolved (id : string) (t : group_type) (name : option string) (ann : option (list (string * json)))
  (url : string) (attrs : list nat) : group :=
  {| g_id := id; g_type := t; g_brief := ""; g_note := ""; g_prefix := ""; g_extends := None; g_stability := Some SStable;
     g_deprecated := None; g_attributes := attrs; g_span_kind := None; g_events := []; g_metric_name := None; g_instrument := None;
     g_unit := None; g_name := name;
     g_lineage := Some {| gl_provenance := {| pv_url := url; pv_path := "o.yaml" |}; gl_extends := None; gl_extends_type := None;
                          gl_attributes := []; gl_includes := [] |};
     g_display_name := None; g_body := None; g_annotations := ann; g_assocs := []; g_visibility := None; g_is_v2 := true;
     g_span_name := None; g_level := None |}.
Definition sample_attribute (n : string) : attribute :=
  {| at_name := n; at_type := TPrim PString; at_brief := ""; at_examples := None; at_tag := None; at_req := RRecommended;
     at_sampling := None; at_note := ""; at_stability := None; at_deprecated := None; at_prefix := false; at_annotations := None; at_role := None |}.
Definition sample_schema1 (url : string) (gs : list group) (c : list attribute) : schema1 :=
  {| s1_url := url; s1_groups := gs; s1_catalog := c; s1_dependencies := []; s1_manifest_version := None; s1_origins := [] |}.
Definition sample_block (ms es : list string) : block :=
  {| bk_imports := {| im_metrics := Some ms; im_events := None; im_entities := Some es; im_spans := None; im_attribute_groups := None |};
     bk_path := "acme.yaml" |}.
Definition sample_env (ds : list dependency) : env :=
  {| ev_name := fun u => u; ev_semver := fun _ => Some {| v_major := 1%N; v_minor := 0%N; v_patch := 0%N; v_pre := [] ; v_build := [] |};
     ev_parse := fun u => Some u; ev_chosen := fun _ => None; ev_cached := fun _ => None; ev_deps := ds |}.
Definition sample_using (id n : string) : ugroup :=
  let u := sample_group id GSpan None None [] [] in
  {| ug_group := {| g_id := id; g_type := GSpan; g_brief := ""; g_note := ""; g_prefix := ""; g_extends := None; g_stability := None;
       g_deprecated := None; g_attributes := []; g_span_kind := None; g_events := []; g_metric_name := None; g_instrument := None;
       g_unit := None; g_name := None; g_lineage := None; g_display_name := None; g_body := None; g_annotations := None;
       g_assocs := [AOneOf [ARef n; AAllOf [ARef n; ARef "own"]]]; g_visibility := None; g_is_v2 := true; g_span_name := None; g_level := None |};
     ug_attrs := []; ug_include := []; ug_visibility := None; ug_is_v2 := true; ug_provenance := None |}.
Definition sample_ref2 (n : string) (src : option nat) : entity_ref := {| er_type := n; er_provenance := {| p2_source := src; p2_path := "" |} |}.
Definition sample_assoc_metric (n ent : string) : metric2 :=
  {| me2_name := n; me2_instrument := Counter; me2_unit := "1"; me2_attributes := []; me2_assocs := [ARef (sample_ref2 ent (Some 0))]; me2_level := None;
     me2_common := sample_common; me2_provenance := {| p2_source := None; p2_path := "" |} |}.
Definition sample_assoc_event (n ent : string) : event2 :=
  {| ev2_name := n; ev2_attributes := []; ev2_assocs := [ARef (sample_ref2 ent (Some 0))]; ev2_level := None;
     ev2_common := sample_common; ev2_provenance := {| p2_source := None; p2_path := "" |} |}.
Definition sample_signals (url dep : string) (ms : list metric2) (vs : list event2) : schema2 :=
  {| s2_url := url; s2_catalog := []; s2_dependencies := [dep];
     s2_registry := {| r2_attributes := []; r2_attribute_groups := []; r2_spans := []; r2_metrics := ms; r2_events := vs; r2_entities := [] |};
     s2_refinements := {| f2_spans := []; f2_metrics := []; f2_events := []; f2_entities := [] |} |}.
