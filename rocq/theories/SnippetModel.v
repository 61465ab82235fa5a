(* The context a markdown snippet is rendered from.
   Models crates/weaver_semconv_gen/src/v1.rs 88-150 (SnippetGenerator) and
   crates/weaver_semconv_gen/src/v2.rs 50-360 (lookup_id and the functions it calls).  The templates that
   turn the context into text are not modelled. *)
From Coq Require Import String Ascii Bool Arith List.
Import ListNotations.
From Verif Require Import Base Json SemTypes Resolved ConvertModel ViewModel MdModel.
Local Open Scope string_scope.

(* ---------- version 1 ---------- *)
(* v1.rs 152-158: SnippetType *)
Inductive table := AttributeTable | MetricTable.
(* v1.rs 141-149: MarkdownSnippetContext *)
Record context1 := {
  x1_group : vgroup; x1_table : table; x1_tags : list string; x1_base : option string
}.
(* lib.rs: the errors; crates/weaver_forge/src/registry.rs 136-195 gives the missing attributes *)
Inductive result1 := Context1 (c : context1) | GroupNotFound (id : string) | AttributesMissing (l : list missing).
(* v1.rs 91-93: find_group *)
Definition find_group (s : schema1) (id : string) : option group :=
  find (fun g => String.eqb (g_id g) id) (s1_groups s).
(* v1.rs 95-130: generate_markdown_snippet up to the template *)
Definition snippet1 (s : schema1) (a : semargs) (base : option string) : result1 :=
  match find_group s (sa_id a) with
  | None => GroupNotFound (sa_id a)
  | Some g =>
    let v := view_group (s1_catalog s) g in
    match snd v with
    | [] => Context1 {| x1_group := fst v; x1_table := if is_metric_table a then MetricTable else AttributeTable;
                        x1_tags := tag_filters a; x1_base := base |}
    | errors => AttributesMissing errors
    end
  end.

(* ---------- version 2 ---------- *)
(* Provenance::default() *)
(* used by bare_attribute: v2.rs 104-117 *)
Definition no_provenance : provenance_f := {| pf_source := None; pf_path := None |}.
(* v2.rs 104-117 and its copies *)
Definition bare_attribute (a : attribute2) : attribute_f :=
  {| af_key := a2_key a; af_type := a2_type a; af_examples := a2_examples a; af_common := a2_common a;
     af_provenance := no_provenance |}.
(* v2.rs 101-121 and its copies: None is the panic on a reference the catalog does not have *)
Fixpoint bare_uses (cat : list attribute2) (sampled : bool) (l : list attr_use) : option (list use_f) :=
  match l with
  | [] => Some []
  | u :: r =>
    match nth_error cat (u_base u) with
    | None => None
    | Some a =>
      match bare_uses cat sampled r with
      | None => None
      | Some fs => Some ({| uf_base := bare_attribute a; uf_req := u_req u;
                            uf_sampling := if sampled then u_sampling u else None |} :: fs)
      end
    end
  end.

(* v2.rs 362-372: ResolvedId *)
Inductive shown_id :=
| IAttribute (a : attribute_f) | IGroup (g : group_f) | ISpan (x : span_f) | IMetric (m : metric_f)
| IEvent (e : event_f) | IEntity (e : entity_f).

(* v2.rs 95-135 *)
Definition resolved_metric (cat : list attribute2) (deps : list string) (m : metric2) : option shown_id :=
  match bare_uses cat false (me2_attributes m) with
  | None => None
  | Some l => Some (IMetric {| mef_name := me2_name m; mef_instrument := me2_instrument m; mef_unit := me2_unit m;
      mef_attributes := l; mef_assocs := map (view_assoc deps) (me2_assocs m); mef_level := me2_level m;
      mef_common := me2_common m; mef_provenance := no_provenance |})
  end.
(* v2.rs 137-170 *)
Definition resolved_span (cat : list attribute2) (deps : list string) (x : span2) : option shown_id :=
  match bare_uses cat true (sp2_attributes x) with
  | None => None
  | Some l => Some (ISpan {| spf_type := sp2_type x; spf_kind := sp2_kind x; spf_name := sp2_name x;
      spf_attributes := l; spf_assocs := map (view_assoc deps) (sp2_assocs x); spf_level := sp2_level x;
      spf_common := sp2_common x; spf_provenance := no_provenance |})
  end.
(* v2.rs 172-202 *)
Definition resolved_event (cat : list attribute2) (deps : list string) (x : event2) : option shown_id :=
  match bare_uses cat false (ev2_attributes x) with
  | None => None
  | Some l => Some (IEvent {| evf_name := ev2_name x; evf_attributes := l;
      evf_assocs := map (view_assoc deps) (ev2_assocs x); evf_level := ev2_level x;
      evf_common := ev2_common x; evf_provenance := no_provenance |})
  end.
(* v2.rs 204-252 *)
Definition resolved_entity (cat : list attribute2) (x : entity2) : option shown_id :=
  match bare_uses cat false (en2_identity x) with
  | None => None
  | Some i =>
    match bare_uses cat false (en2_description x) with
    | None => None
    | Some d => Some (IEntity {| enf_type := en2_type x; enf_identity := i; enf_description := d;
        enf_level := en2_level x; enf_common := en2_common x; enf_provenance := no_provenance |})
    end
  end.
(* v2.rs 254-283 *)
Definition resolved_group (cat : list attribute2) (x : attribute_group2) : option shown_id :=
  match bare_uses cat false (ag2_attributes x) with
  | None => None
  | Some l => Some (IGroup {| agf_id := ag2_id x; agf_attributes := l; agf_common := ag2_common x;
      agf_provenance := no_provenance |})
  end.

(* what looking up an id gives: a context, nothing, an id that is refused, or a panic *)
(* used by render_found: v2.rs 298-360 *)
Inductive looked := Looked (c : shown_id) | LookedNothing | LookedBadId | LookedPanic.
(* used by lookup_id: v2.rs 298-360 *)
Definition render_found {X} (f : X -> option shown_id) (o : option X) : looked :=
  match o with
  | None => LookedNothing
  | Some x => match f x with Some c => Looked c | None => LookedPanic end
  end.
(* v2.rs 298-360: lookup_id *)
Definition lookup_id (s : schema2) (id : string) : looked :=
  let cat := s2_catalog s in let deps := s2_dependencies s in
  let r := s2_registry s in let f := s2_refinements s in
  match parse_id_lookup_v2 id with
  | None => LookedBadId
  | Some (LRegistry LAttribute k) =>
    render_found (fun a => Some (IAttribute (bare_attribute a)))
      (find (fun a => String.eqb (a2_key a) k)
         (flat_map (fun i => match nth_error cat i with Some a => [a] | None => [] end) (r2_attributes r)))
  | Some (LRegistry LAttributeGroup k) =>
    render_found (resolved_group cat) (find (fun x => String.eqb (ag2_id x) k) (r2_attribute_groups r))
  | Some (LRegistry LSpan k) =>
    render_found (resolved_span cat deps) (find (fun x => String.eqb (sp2_type x) k) (r2_spans r))
  | Some (LRegistry LMetric k) =>
    render_found (resolved_metric cat deps) (find (fun x => String.eqb (me2_name x) k) (r2_metrics r))
  | Some (LRegistry LEvent k) =>
    render_found (resolved_event cat deps) (find (fun x => String.eqb (ev2_name x) k) (r2_events r))
  | Some (LRegistry LEntity k) =>
    render_found (resolved_entity cat) (find (fun x => String.eqb (en2_type x) k) (r2_entities r))
  | Some (LRefinement LSpan k) =>
    render_found (fun p => resolved_span cat deps (snd p)) (find (fun p => String.eqb (fst p) k) (f2_spans f))
  | Some (LRefinement LMetric k) =>
    render_found (fun p => resolved_metric cat deps (snd p)) (find (fun p => String.eqb (fst p) k) (f2_metrics f))
  | Some (LRefinement LEvent k) =>
    render_found (fun p => resolved_event cat deps (snd p)) (find (fun p => String.eqb (fst p) k) (f2_events f))
  | Some (LRefinement LEntity k) =>
    render_found (fun p => resolved_entity cat (snd p)) (find (fun p => String.eqb (fst p) k) (f2_entities f))
  | Some (LRefinement _ _) => LookedBadId (* parse_id_lookup_v2 never gives this *)
  end.

(* v2.rs 408-415: MarkdownSnippetContext *)
Record context2 := { x2_shown : shown_id; x2_tags : list string; x2_base : option string }.
(* as above: v2.rs 408-415 *)
Inductive result2 := Context2 (c : context2) | NotFound2 (id : string) | InvalidId2 (id : string) | Panic2.
(* v2.rs 50-78: generate_markdown_snippet up to the template *)
Definition snippet2 (s : schema2) (a : semargs) (base : option string) : result2 :=
  match lookup_id s (sa_id a) with
  | Looked c => Context2 {| x2_shown := c; x2_tags := tag_filters a; x2_base := base |}
  | LookedNothing => NotFound2 (sa_id a)
  | LookedBadId => InvalidId2 (sa_id a)
  | LookedPanic => Panic2
  end.
