(* What a snippet of a registry should show. *)
From Coq Require Import String Ascii Bool Arith List.
Import ListNotations.
From Verif Require Import Base Json SemTypes Resolved ConvertModel ConvertSpec ViewModel ViewSpec MdModel MdSpec SnippetModel.
Local Open Scope string_scope.

(* something a snippet can be about *)
Inductive thing :=
| TgAttribute (a : attribute2) | TgGroup (x : attribute_group2) | TgSpan (x : span2)
| TgMetric (m : metric2) | TgEvent (e : event2) | TgEntity (e : entity2).

(* the attributes a registry lists and has *)
Definition listed (s : schema2) (l : list attribute2) : Prop :=
  one_each (fun i => i < length (s2_catalog s)) (fun i a => nth_error (s2_catalog s) i = Some a)
    (r2_attributes (s2_registry s)) l.

(* the thing an id names: the first of its kind with that name *)
Inductive named (s : schema2) : idlookup -> thing -> Prop :=
| nm_attribute id l a : listed s l -> first (fun a => a2_key a = id) l a ->
    named s (LRegistry LAttribute id) (TgAttribute a)
| nm_group id x : first (fun x => ag2_id x = id) (r2_attribute_groups (s2_registry s)) x ->
    named s (LRegistry LAttributeGroup id) (TgGroup x)
| nm_span id x : first (fun x => sp2_type x = id) (r2_spans (s2_registry s)) x ->
    named s (LRegistry LSpan id) (TgSpan x)
| nm_metric id x : first (fun x => me2_name x = id) (r2_metrics (s2_registry s)) x ->
    named s (LRegistry LMetric id) (TgMetric x)
| nm_event id x : first (fun x => ev2_name x = id) (r2_events (s2_registry s)) x ->
    named s (LRegistry LEvent id) (TgEvent x)
| nm_entity id x : first (fun x => en2_type x = id) (r2_entities (s2_registry s)) x ->
    named s (LRegistry LEntity id) (TgEntity x)
| nm_span_ref id p : first (fun p => fst p = id) (f2_spans (s2_refinements s)) p ->
    named s (LRefinement LSpan id) (TgSpan (snd p))
| nm_metric_ref id p : first (fun p => fst p = id) (f2_metrics (s2_refinements s)) p ->
    named s (LRefinement LMetric id) (TgMetric (snd p))
| nm_event_ref id p : first (fun p => fst p = id) (f2_events (s2_refinements s)) p ->
    named s (LRefinement LEvent id) (TgEvent (snd p))
| nm_entity_ref id p : first (fun p => fst p = id) (f2_entities (s2_refinements s)) p ->
    named s (LRefinement LEntity id) (TgEntity (snd p)).

(* nothing is said about where an object comes from *)
Definition silent (p : provenance_f) : Prop := pf_source p = None /\ pf_path p = None.
Definition tells_attribute (a : attribute2) (f : attribute_f) : Prop :=
  af_key f = a2_key a /\ af_type f = a2_type a /\ af_examples f = a2_examples a /\ af_common f = a2_common a /\
  silent (af_provenance f).
Definition tells_use (s : schema2) (sampled : bool) (u : attr_use) (f : use_f) : Prop :=
  (exists a, nth_error (s2_catalog s) (u_base u) = Some a /\ tells_attribute a (uf_base f)) /\
  uf_req f = u_req u /\ uf_sampling f = (if sampled then u_sampling u else None).
(* the context tells everything about the thing, except where it comes from *)
Definition tells (s : schema2) (t : thing) (c : shown_id) : Prop :=
  match t, c with
  | TgAttribute a, IAttribute f => tells_attribute a f
  | TgGroup x, IGroup f =>
    agf_id f = ag2_id x /\ Forall2 (tells_use s false) (ag2_attributes x) (agf_attributes f) /\
    agf_common f = ag2_common x /\ silent (agf_provenance f)
  | TgSpan x, ISpan f =>
    spf_type f = sp2_type x /\ spf_kind f = sp2_kind x /\ spf_name f = sp2_name x /\
    Forall2 (tells_use s true) (sp2_attributes x) (spf_attributes f) /\ shows_assocs s (sp2_assocs x) (spf_assocs f) /\
    spf_level f = sp2_level x /\ spf_common f = sp2_common x /\ silent (spf_provenance f)
  | TgMetric m, IMetric f =>
    mef_name f = me2_name m /\ mef_instrument f = me2_instrument m /\ mef_unit f = me2_unit m /\
    Forall2 (tells_use s false) (me2_attributes m) (mef_attributes f) /\ shows_assocs s (me2_assocs m) (mef_assocs f) /\
    mef_level f = me2_level m /\ mef_common f = me2_common m /\ silent (mef_provenance f)
  | TgEvent x, IEvent f =>
    evf_name f = ev2_name x /\
    Forall2 (tells_use s false) (ev2_attributes x) (evf_attributes f) /\ shows_assocs s (ev2_assocs x) (evf_assocs f) /\
    evf_level f = ev2_level x /\ evf_common f = ev2_common x /\ silent (evf_provenance f)
  | TgEntity x, IEntity f =>
    enf_type f = en2_type x /\
    Forall2 (tells_use s false) (en2_identity x) (enf_identity f) /\
    Forall2 (tells_use s false) (en2_description x) (enf_description f) /\
    enf_level f = en2_level x /\ enf_common f = en2_common x /\ silent (enf_provenance f)
  | _, _ => False
  end.

(* the attributes a thing uses *)
Definition uses_of (t : thing) : list attr_use :=
  match t with
  | TgAttribute _ => []
  | TgGroup x => ag2_attributes x
  | TgSpan x => sp2_attributes x
  | TgMetric x => me2_attributes x
  | TgEvent x => ev2_attributes x
  | TgEntity x => app (en2_identity x) (en2_description x)
  end.
(* the thing uses an attribute the catalog does not have *)
Definition broken (s : schema2) (t : thing) : Prop := exists r, dangling_in s (uses_of t) r.

(* the same metric, with nothing said about where it and its attributes come from *)
Definition silence_attribute (a : attribute_f) : attribute_f :=
  {| af_key := af_key a; af_type := af_type a; af_examples := af_examples a; af_common := af_common a;
     af_provenance := {| pf_source := None; pf_path := None |} |}.
Definition silence_use (u : use_f) : use_f :=
  {| uf_base := silence_attribute (uf_base u); uf_req := uf_req u; uf_sampling := uf_sampling u |}.
Definition silence_metric (m : metric_f) : metric_f :=
  {| mef_name := mef_name m; mef_instrument := mef_instrument m; mef_unit := mef_unit m;
     mef_attributes := map silence_use (mef_attributes m); mef_assocs := mef_assocs m; mef_level := mef_level m;
     mef_common := mef_common m; mef_provenance := {| pf_source := None; pf_path := None |} |}.

(* the tag a directive asks for: the first one among its parameters, if there is one *)
Definition asks_for (ps : list mdparam) (tags : list string) : Prop :=
  (tags = [] /\ forall t, ~ In (PTag t) ps) \/
  (exists pre t post, ps = app pre (PTag t :: post) /\ (forall u, ~ In (PTag u) pre) /\ tags = [t]).
