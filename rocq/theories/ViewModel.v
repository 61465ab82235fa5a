(* The registry as templates and policies see it: every reference replaced by what it denotes.
   Models crates/weaver_forge/src/registry.rs and crates/weaver_forge/src/v2/{registry,entity,provenance}.rs.
   Simplified throughout: a schema url is its text; the resolver that gives a dependency is a
   function of the url (the code's resolver caches, so asking again gives the same bundle);
   its errors are texts; the records an attribute of a span, metric, event, entity and group
   becomes are one record whose sampling relevance is absent except for a span. *)
From Coq Require Import String Ascii Bool Arith ZArith NArith List.
Import ListNotations.
From Verif Require Import Base Json SemTypes Resolved ConvertModel.
Local Open Scope string_scope.

(* crates/weaver_forge/src/error.rs: AttributeNotFound, its group and its reference *)
(* used by look_all: registry.rs 213-264 *)
Definition missing := (string * nat)%type.
(* Iterator::filter_map with a closure that pushes an error where it finds nothing *)
(* used by view_group: registry.rs 213-264 *)
Fixpoint look_all {B C} (f : B -> option C) (err : B -> missing) (l : list B) : list C * list missing :=
  match l with
  | [] => ([], [])
  | b :: r => let rest := look_all f err r in
              match f b with
              | Some c => (c :: fst rest, snd rest)
              | None => (fst rest, err b :: snd rest)
              end
  end.

(* ---------- version 1 ---------- *)
(* crates/weaver_forge/src/registry.rs 38-136: ResolvedGroup, ResolvedRegistry *)
Record vgroup := {
  vg_id : string; vg_type : group_type; vg_brief : string; vg_note : string; vg_prefix : string;
  vg_extends : option string; vg_stability : option stability; vg_deprecated : option deprecated;
  vg_attributes : list attribute; vg_span_kind : option span_kind; vg_events : list string;
  vg_metric_name : option string; vg_instrument : option instrument; vg_unit : option string;
  vg_level : option signal_level; vg_name : option string; vg_lineage : option group_lineage;
  vg_display_name : option string; vg_body : option any_value; vg_assocs : list (assoc string);
  vg_annotations : option (list (string * json))
}.
(* as above: crates/weaver_forge/src/registry.rs 38-136 *)
Record vregistry := { vr_url : string; vr_groups : list vgroup }.

(* registry.rs 213-264: one group, and the errors it pushes *)
Definition view_group (cat : list attribute) (g : group) : vgroup * list missing :=
  let a := look_all (nth_error cat) (fun r => (g_id g, r)) (g_attributes g) in
  ({| vg_id := g_id g; vg_type := g_type g; vg_brief := g_brief g; vg_note := g_note g; vg_prefix := g_prefix g;
      vg_extends := g_extends g; vg_stability := g_stability g; vg_deprecated := g_deprecated g;
      vg_attributes := fst a; vg_span_kind := g_span_kind g; vg_events := g_events g;
      vg_metric_name := g_metric_name g; vg_instrument := g_instrument g; vg_unit := g_unit g;
      vg_level := g_level g; vg_name := g_name g; vg_lineage := g_lineage g;
      vg_display_name := g_display_name g; vg_body := g_body g; vg_assocs := g_assocs g;
      vg_annotations := g_annotations g |}, snd a).
(* a comparison of two elements by a text they carry *)
(* used by view_registry: registry.rs 201-276 *)
Definition key_leb {X} (key : X -> string) (a b : X) : bool := str_leb (key a) (key b).
(* registry.rs 201-276: ResolvedRegistry::try_from_resolved_registry *)
Definition view_registry (url : string) (groups : list group) (cat : list attribute) : vregistry + list missing :=
  let l := map (view_group cat) (filter (fun g => negb (is_v2_refinement g)) groups) in
  match flat_map snd l with
  | [] => inl {| vr_url := url; vr_groups := stable_sort (key_leb vg_id) (map fst l) |}
  | errors => inr errors
  end.

(* ---------- version 2 ---------- *)
(* v2/provenance.rs 10-27 *)
Record provenance_f := { pf_source : option string; pf_path : option string }.
(* v2/provenance.rs 40-52: from_resolved *)
Definition view_provenance (deps : list string) (p : provenance2) : provenance_f :=
  {| pf_source := match p2_source p with Some i => nth_error deps i | None => None end;
     pf_path := if String.eqb (p2_path p) "" then None else Some (p2_path p) |}.
(* v2/attribute.rs and v2/{span,metric,event,entity,attribute_group}.rs *)
(* used by use_f: v2/registry.rs 33-82 *)
Record attribute_f := {
  af_key : string; af_type : attr_type; af_examples : option examples; af_common : common;
  af_provenance : provenance_f
}.
(* used by entity_f: v2/registry.rs 33-82 *)
Record use_f := { uf_base : attribute_f; uf_req : req_level; uf_sampling : option bool }.
(* used by span_f: v2/registry.rs 33-82 *)
Record entity_ref_f := { ef_type : string; ef_provenance : provenance_f }.
(* used by registry_f: v2/registry.rs 33-82 *)
Record entity_f := {
  enf_type : string; enf_identity : list use_f; enf_description : list use_f;
  enf_level : option signal_level; enf_common : common; enf_provenance : provenance_f
}.
(* used by registry_f: v2/registry.rs 33-82 *)
Record span_f := {
  spf_type : string; spf_kind : span_kind; spf_name : string; spf_attributes : list use_f;
  spf_assocs : list (assoc entity_ref_f); spf_level : option signal_level; spf_common : common;
  spf_provenance : provenance_f
}.
(* used by registry_f: v2/registry.rs 33-82 *)
Record event_f := {
  evf_name : string; evf_attributes : list use_f; evf_assocs : list (assoc entity_ref_f);
  evf_level : option signal_level; evf_common : common; evf_provenance : provenance_f
}.
(* used by registry_f: v2/registry.rs 33-82 *)
Record metric_f := {
  mef_name : string; mef_instrument : instrument; mef_unit : string; mef_attributes : list use_f;
  mef_assocs : list (assoc entity_ref_f); mef_level : option signal_level; mef_common : common;
  mef_provenance : provenance_f
}.
(* used by registry_f: v2/registry.rs 33-82 *)
Record group_f := {
  agf_id : string; agf_attributes : list use_f; agf_common : common; agf_provenance : provenance_f
}.
(* v2/registry.rs 33-82: ForgeResolvedRegistry, with its Registry and its Refinements *)
Record registry_f := {
  rf_attributes : list attribute_f; rf_groups : list group_f; rf_metrics : list metric_f;
  rf_spans : list span_f; rf_events : list event_f; rf_entities : list entity_f
}.
(* as above: v2/registry.rs 33-82 *)
Record refinements_f := {
  ff_metrics : list (string * metric_f); ff_spans : list (string * span_f);
  ff_events : list (string * event_f); ff_entities : list (string * entity_f)
}.
(* as above: v2/registry.rs 33-82 *)
Inductive view := View {
  vw_url : string; vw_registry : registry_f; vw_refinements : refinements_f; vw_deps : list view
}.

(* v2/entity.rs 120-146: from_resolved_associations *)
Definition view_ref (deps : list string) (r : entity_ref) : entity_ref_f :=
  {| ef_type := er_type r; ef_provenance := view_provenance deps (er_provenance r) |}.
(* as above: v2/entity.rs 120-146 *)
Fixpoint view_assoc (deps : list string) (a : assoc entity_ref) : assoc entity_ref_f :=
  match a with
  | ARef r => ARef (view_ref deps r)
  | AOneOf l => AOneOf (map (view_assoc deps) l)
  | AAllOf l => AAllOf (map (view_assoc deps) l)
  end.

(* v2/registry.rs 157-170 and its copies: an attribute *)
Definition view_attribute (deps : list string) (a : attribute2) : attribute_f :=
  {| af_key := a2_key a; af_type := a2_type a; af_examples := a2_examples a; af_common := a2_common a;
     af_provenance := view_provenance deps (a2_provenance a) |}.
(* v2/registry.rs 174-196 and its copies: the uses of attributes of a signal *)
Definition view_use (cat : list attribute2) (deps : list string) (sampled : bool) (u : attr_use) : option use_f :=
  match nth_error cat (u_base u) with
  | Some a => Some {| uf_base := view_attribute deps a; uf_req := u_req u;
                      uf_sampling := if sampled then u_sampling u else None |}
  | None => None
  end.
(* as above: v2/registry.rs 174-196 *)
Definition view_uses (cat : list attribute2) (deps : list string) (sampled : bool) (label : string) (l : list attr_use)
    : list use_f * list missing :=
  look_all (view_use cat deps sampled) (fun u => (label, u_base u)) l.

(* v2/registry.rs 172-207: a metric; a metric that is refined reports its errors under the name
   of the metric too (209-252) *)
Definition view_metric (cat : list attribute2) (deps : list string) (m : metric2) : metric_f * list missing :=
  let u := view_uses cat deps false (append "metric." (me2_name m)) (me2_attributes m) in
  ({| mef_name := me2_name m; mef_instrument := me2_instrument m; mef_unit := me2_unit m; mef_attributes := fst u;
      mef_assocs := map (view_assoc deps) (me2_assocs m); mef_level := me2_level m; mef_common := me2_common m;
      mef_provenance := view_provenance deps (me2_provenance m) |}, snd u).
(* as above: v2/registry.rs 172-207, v2/registry.rs 209-252 *)
Definition view_metric_ref (cat : list attribute2) (deps : list string) (p : string * metric2) : (string * metric_f) * list missing :=
  let r := view_metric cat deps (snd p) in ((fst p, fst r), snd r).
(* v2/registry.rs 254-327: a span and a refinement of a span, which report under their ids *)
Definition view_span_as (cat : list attribute2) (deps : list string) (id : string) (x : span2) : span_f * list missing :=
  let u := view_uses cat deps true (append "span." id) (sp2_attributes x) in
  ({| spf_type := sp2_type x; spf_kind := sp2_kind x; spf_name := sp2_name x; spf_attributes := fst u;
      spf_assocs := map (view_assoc deps) (sp2_assocs x); spf_level := sp2_level x; spf_common := sp2_common x;
      spf_provenance := view_provenance deps (sp2_provenance x) |}, snd u).
(* as above: v2/registry.rs 254-327 *)
Definition view_span (cat : list attribute2) (deps : list string) (x : span2) := view_span_as cat deps (sp2_type x) x.
(* as above: v2/registry.rs 254-327 *)
Definition view_span_ref (cat : list attribute2) (deps : list string) (p : string * span2) : (string * span_f) * list missing :=
  let r := view_span_as cat deps (fst p) (snd p) in ((fst p, fst r), snd r).
(* v2/registry.rs 329-404: an event and a refinement of an event *)
Definition view_event_as (cat : list attribute2) (deps : list string) (id : string) (x : event2) : event_f * list missing :=
  let u := view_uses cat deps false (append "event." id) (ev2_attributes x) in
  ({| evf_name := ev2_name x; evf_attributes := fst u; evf_assocs := map (view_assoc deps) (ev2_assocs x);
      evf_level := ev2_level x; evf_common := ev2_common x; evf_provenance := view_provenance deps (ev2_provenance x) |}, snd u).
(* as above: v2/registry.rs 329-404 *)
Definition view_event (cat : list attribute2) (deps : list string) (x : event2) := view_event_as cat deps (ev2_name x) x.
(* as above: v2/registry.rs 329-404 *)
Definition view_event_ref (cat : list attribute2) (deps : list string) (p : string * event2) : (string * event_f) * list missing :=
  let r := view_event_as cat deps (fst p) (snd p) in ((fst p, fst r), snd r).
(* v2/registry.rs 406-465: an entity and a refinement of an entity *)
Definition view_entity_as (cat : list attribute2) (deps : list string) (id : string) (x : entity2) : entity_f * list missing :=
  let i := view_uses cat deps false (append "entity." id) (en2_identity x) in
  let d := view_uses cat deps false (append "entity." id) (en2_description x) in
  ({| enf_type := en2_type x; enf_identity := fst i; enf_description := fst d; enf_level := en2_level x;
      enf_common := en2_common x; enf_provenance := view_provenance deps (en2_provenance x) |}, app (snd i) (snd d)).
(* as above: v2/registry.rs 406-465 *)
Definition view_entity (cat : list attribute2) (deps : list string) (x : entity2) := view_entity_as cat deps (en2_type x) x.
(* as above: v2/registry.rs 406-465 *)
Definition view_entity_ref (cat : list attribute2) (deps : list string) (p : string * entity2) : (string * entity_f) * list missing :=
  let r := view_entity_as cat deps (fst p) (snd p) in ((fst p, fst r), snd r).
(* v2/registry.rs 467-497: an attribute group; the groups keep their order *)
Definition view_attribute_group (cat : list attribute2) (deps : list string) (x : attribute_group2) : group_f * list missing :=
  let u := view_uses cat deps false (append "attribute_group." (ag2_id x)) (ag2_attributes x) in
  ({| agf_id := ag2_id x; agf_attributes := fst u; agf_common := ag2_common x;
      agf_provenance := view_provenance deps (ag2_provenance x) |}, snd u).

(* the first halves, sorted, and the errors of a list of elements *)
(* used by view_local: v2/registry.rs 157-500 *)
Definition views {X Y} (f : X -> Y * list missing) (key : Y -> string) (l : list X) : list Y :=
  stable_sort (key_leb key) (map (fun x => fst (f x)) l).
(* used by view_errors: v2/registry.rs 157-500 *)
Definition errs {X Y} (f : X -> Y * list missing) (l : list X) : list missing := flat_map (fun x => snd (f x)) l.
(* v2/registry.rs 157-170, 500: the attributes of the registry; a reference to nothing is skipped *)
Definition view_attributes (s : schema2) : list attribute_f :=
  stable_sort (key_leb af_key)
    (map (view_attribute (s2_dependencies s))
       (flat_map (fun i => match nth_error (s2_catalog s) i with Some a => [a] | None => [] end)
                 (r2_attributes (s2_registry s)))).
(* v2/registry.rs 157-500: everything but the dependencies *)
Definition view_local (s : schema2) (deps : list view) : view :=
  let cat := s2_catalog s in let d := s2_dependencies s in
  let r := s2_registry s in let f := s2_refinements s in
  View (s2_url s)
    {| rf_attributes := view_attributes s;
       rf_groups := map (fun x => fst (view_attribute_group cat d x)) (r2_attribute_groups r);
       rf_metrics := views (view_metric cat d) mef_name (r2_metrics r);
       rf_spans := views (view_span cat d) spf_type (r2_spans r);
       rf_events := views (view_event cat d) evf_name (r2_events r);
       rf_entities := views (view_entity cat d) enf_type (r2_entities r) |}
    {| ff_metrics := views (view_metric_ref cat d) fst (f2_metrics f);
       ff_spans := views (view_span_ref cat d) fst (f2_spans f);
       ff_events := views (view_event_ref cat d) fst (f2_events f);
       ff_entities := views (view_entity_ref cat d) fst (f2_entities f) |}
    deps.
(* as above: v2/registry.rs 157-500 *)
Definition view_errors (s : schema2) : list missing :=
  let cat := s2_catalog s in let d := s2_dependencies s in
  let r := s2_registry s in let f := s2_refinements s in
  app (errs (view_metric cat d) (r2_metrics r)) (app (errs (view_metric_ref cat d) (f2_metrics f))
  (app (errs (view_span cat d) (r2_spans r)) (app (errs (view_span_ref cat d) (f2_spans f))
  (app (errs (view_event cat d) (r2_events r)) (app (errs (view_event_ref cat d) (f2_events f))
  (app (errs (view_entity cat d) (r2_entities r)) (app (errs (view_entity_ref cat d) (f2_entities f))
       (errs (view_attribute_group cat d) (r2_attribute_groups r))))))))).

(* crates/weaver_resolver/src/lib.rs: WeaverResolvedSchema, and what resolving a url gives *)
(* used by resolution: v2/registry.rs 508-545 *)
Inductive bundle := Bundle1 (s : source1) | Bundle2 (s : schema2).
(* used by forge_deps: v2/registry.rs 508-545 *)
Inductive resolution := Resolves (b : bundle) (nfes : list string) | Unresolved (e : string).
(* crates/weaver_forge/src/error.rs *)
(* used by forged: v2/registry.rs 508-545 *)
Inductive ferr := FMissing (l : list missing) | FResolver (e : string) | FConversion (e : cerr).
(* crates/weaver_common/src/result.rs: WResult; the conversion of a version 1 bundle may panic *)
(* used by forge_deps: v2/registry.rs 508-545 *)
Inductive forged := Forged (v : view) (nfes : list string) | Refused (e : ferr) | Crashed.

(* v2/registry.rs 508-545: the loop over the dependencies *)
Fixpoint forge_deps (build : schema2 -> option forged) (conv1 : source1 -> conv schema2) (resolve : string -> resolution)
    (urls : list string) : option (list view * list string + forged) :=
  match urls with
  | [] => Some (inl ([], []))
  | u :: rest =>
      match resolve u with
      | Unresolved e => Some (inr (Refused (FResolver e)))
      | Resolves b nfes =>
          match (match b with Bundle2 s => Converted s | Bundle1 s => conv1 s end) with
          | Failed e => Some (inr (Refused (FConversion e)))
          | Panicked => Some (inr Crashed)
          | Converted s =>
              match build s with
              | None => None
              | Some (Forged v more) =>
                  match forge_deps build conv1 resolve rest with
                  | Some (inl (vs, others)) => Some (inl (v :: vs, app nfes (app more others)))
                  | other => other
                  end
              | Some other => Some (inr other)
              end
          end
      end
  end.
(* v2/registry.rs 131-571: try_from_resolved_schema. The recursion has no bound in the code; here
   it stops after [fuel] levels, and then there is no result. *)
Fixpoint forge (fuel : nat) (conv1 : source1 -> conv schema2) (resolve : string -> resolution) (s : schema2) : option forged :=
  match fuel with
  | 0 => None
  | S n =>
      match view_errors s with
      | [] =>
          match forge_deps (forge n conv1 resolve) conv1 resolve (s2_dependencies s) with
          | None => None
          | Some (inr other) => Some other
          | Some (inl (deps, nfes)) => Some (Forged (view_local s deps) nfes)
          end
      | errors => Some (Refused (FMissing errors))
      end
  end.

(* v2/registry.rs 113-128: defined_entity *)
Definition defined_entity (v : view) (name : string) : option entity_f :=
  match find (fun e => String.eqb (enf_type e) name) (rf_entities (vw_registry v)) with
  | Some e => Some e
  | None => option_map snd (find (fun p => String.eqb (fst p) name) (ff_entities (vw_refinements v)))
  end.
(* v2/registry.rs 85-111: lookup_entity; the error names the entity and the registry *)
Definition lookup_entity (v : view) (r : entity_ref_f) : entity_f + (string * option string) :=
  let from := match pf_source (ef_provenance r) with
              | None => Some v
              | Some u => find (fun d => String.eqb (vw_url d) u) (vw_deps v)
              end in
  match from with
  | None => inr (ef_type r, pf_source (ef_provenance r))
  | Some w => match defined_entity w (ef_type r) with
              | Some e => inl e
              | None => inr (ef_type r, pf_source (ef_provenance r))
              end
  end.
