(* The published file of a resolved schema, stated without the writer and the reader. *)
From Coq Require Import String Ascii Bool Arith ZArith NArith Sorted List.
Import ListNotations.
From Verif Require Import Base Json SemTypes Resolved.
From Verif Require UrlModel.
From Verif Require Import PubModel.
Local Open Scope string_scope.

(* ---------- what is kept: everything, but ---------- *)
(* ... a rename without a note gets one *)
Definition kept_deprecation (d : deprecated) : deprecated :=
  match d with
  | DRenamed to None => DRenamed to (Some ("Replaced by `" ++ to ++ "`."))
  | _ => d
  end.
(* ... the file something was defined in is forgotten *)
Definition kept_provenance (p : provenance2) : provenance2 := {| p2_source := p2_source p; p2_path := "" |}.

Definition kept_common (c : common) : common :=
  {| c_brief := c_brief c; c_note := c_note c; c_stability := c_stability c;
     c_deprecated := option_map kept_deprecation (c_deprecated c); c_annotations := c_annotations c |}.
Definition kept_member (e : enum_entry) : enum_entry :=
  {| ee_id := ee_id e; ee_value := ee_value e; ee_brief := ee_brief e; ee_note := ee_note e;
     ee_stability := ee_stability e; ee_deprecated := option_map kept_deprecation (ee_deprecated e);
     ee_annotations := ee_annotations e |}.
Definition kept_type (t : attr_type) : attr_type :=
  match t with TEnum ms => TEnum (map kept_member ms) | _ => t end.
Definition kept_attribute (a : attribute2) : attribute2 :=
  {| a2_key := a2_key a; a2_type := kept_type (a2_type a); a2_examples := a2_examples a;
     a2_common := kept_common (a2_common a); a2_provenance := kept_provenance (a2_provenance a) |}.
Definition kept_ref (r : entity_ref) : entity_ref :=
  {| er_type := er_type r; er_provenance := kept_provenance (er_provenance r) |}.
Fixpoint kept_assoc (a : assoc entity_ref) : assoc entity_ref :=
  match a with
  | ARef r => ARef (kept_ref r)
  | AOneOf l => AOneOf (map kept_assoc l)
  | AAllOf l => AAllOf (map kept_assoc l)
  end.
Definition kept_group (g : attribute_group2) : attribute_group2 :=
  {| ag2_id := ag2_id g; ag2_attributes := ag2_attributes g; ag2_common := kept_common (ag2_common g);
     ag2_provenance := kept_provenance (ag2_provenance g) |}.
Definition kept_span (s : span2) : span2 :=
  {| sp2_type := sp2_type s; sp2_kind := sp2_kind s; sp2_name := sp2_name s;
     sp2_attributes := sp2_attributes s; sp2_assocs := map kept_assoc (sp2_assocs s);
     sp2_level := sp2_level s; sp2_common := kept_common (sp2_common s);
     sp2_provenance := kept_provenance (sp2_provenance s) |}.
Definition kept_metric (m : metric2) : metric2 :=
  {| me2_name := me2_name m; me2_instrument := me2_instrument m; me2_unit := me2_unit m;
     me2_attributes := me2_attributes m; me2_assocs := map kept_assoc (me2_assocs m);
     me2_level := me2_level m; me2_common := kept_common (me2_common m);
     me2_provenance := kept_provenance (me2_provenance m) |}.
Definition kept_event (e : event2) : event2 :=
  {| ev2_name := ev2_name e; ev2_attributes := ev2_attributes e; ev2_assocs := map kept_assoc (ev2_assocs e);
     ev2_level := ev2_level e; ev2_common := kept_common (ev2_common e);
     ev2_provenance := kept_provenance (ev2_provenance e) |}.
Definition kept_entity (e : entity2) : entity2 :=
  {| en2_type := en2_type e; en2_identity := en2_identity e; en2_description := en2_description e;
     en2_level := en2_level e; en2_common := kept_common (en2_common e);
     en2_provenance := kept_provenance (en2_provenance e) |}.
Definition kept_registry (r : registry2) : registry2 :=
  {| r2_attributes := r2_attributes r; r2_attribute_groups := map kept_group (r2_attribute_groups r);
     r2_spans := map kept_span (r2_spans r); r2_metrics := map kept_metric (r2_metrics r);
     r2_events := map kept_event (r2_events r); r2_entities := map kept_entity (r2_entities r) |}.
Definition second {A B} (f : A -> B) (x : string * A) : string * B := (fst x, f (snd x)).
Definition kept_refinements (r : refinements2) : refinements2 :=
  {| f2_spans := map (second kept_span) (f2_spans r); f2_metrics := map (second kept_metric) (f2_metrics r);
     f2_events := map (second kept_event) (f2_events r);
     f2_entities := map (second kept_entity) (f2_entities r) |}.
Definition kept (s : schema2) : schema2 :=
  {| s2_url := s2_url s; s2_catalog := map kept_attribute (s2_catalog s);
     s2_registry := kept_registry (s2_registry s); s2_refinements := kept_refinements (s2_refinements s);
     s2_dependencies := s2_dependencies s |}.

(* ---------- the schemas of which this is said ---------- *)
(* numbers are 32 bits wide *)
Definition small (n : nat) : Prop := (Z.of_nat n < 2 ^ 32)%Z.
(* maps and sets are in the order of their keys, each once *)
Definition in_order (l : list string) : Prop := StronglySorted (fun a b => str_cmp a b = Lt) l.
(* an integer has 64 bits *)
Definition value_ok (v : value_spec) : Prop :=
  match v with VInt z => (- 2 ^ 63 <= z < 2 ^ 63)%Z | _ => True end.
(* the examples are given by a document *)
Definition some_document_says (to_f64 : Z -> N) (e : examples) : Prop :=
  exists j, DefModel.parse_examples to_f64 j = Some e.

Definition provenance_ok (p : provenance2) : Prop := forall n, p2_source p = Some n -> small n.
Definition common_ok (c : common) : Prop := in_order (map fst (c_annotations c)).
Definition member_ok (e : enum_entry) : Prop :=
  value_ok (ee_value e) /\ (forall m, ee_annotations e = Some m -> in_order (map fst m)).
Definition type_ok (t : attr_type) : Prop := forall ms, t = TEnum ms -> Forall member_ok ms.
Fixpoint leaves {L} (a : assoc L) : list L :=
  match a with ARef l => [l] | AOneOf cs => flat_map leaves cs | AAllOf cs => flat_map leaves cs end.
Definition assoc_ok (a : assoc entity_ref) : Prop :=
  forall r, In r (leaves a) -> provenance_ok (er_provenance r).
(* only the attributes of spans have a sampling relevance *)
Definition span_use_ok (u : attr_use) : Prop := small (u_base u).
Definition use_ok (u : attr_use) : Prop := small (u_base u) /\ u_sampling u = None.

Definition attribute_ok (to_f64 : Z -> N) (a : attribute2) : Prop :=
  type_ok (a2_type a) /\ (forall e, a2_examples a = Some e -> some_document_says to_f64 e) /\
  common_ok (a2_common a) /\ provenance_ok (a2_provenance a).
Definition group_ok (g : attribute_group2) : Prop :=
  Forall use_ok (ag2_attributes g) /\ common_ok (ag2_common g) /\ provenance_ok (ag2_provenance g).
Definition span_ok (s : span2) : Prop :=
  Forall span_use_ok (sp2_attributes s) /\ Forall assoc_ok (sp2_assocs s) /\ common_ok (sp2_common s) /\
  provenance_ok (sp2_provenance s).
Definition metric_ok (m : metric2) : Prop :=
  Forall use_ok (me2_attributes m) /\ Forall assoc_ok (me2_assocs m) /\ common_ok (me2_common m) /\
  provenance_ok (me2_provenance m).
Definition event_ok (e : event2) : Prop :=
  Forall use_ok (ev2_attributes e) /\ Forall assoc_ok (ev2_assocs e) /\ common_ok (ev2_common e) /\
  provenance_ok (ev2_provenance e).
Definition entity_ok (e : entity2) : Prop :=
  Forall use_ok (en2_identity e) /\ Forall use_ok (en2_description e) /\ common_ok (en2_common e) /\
  provenance_ok (en2_provenance e).
(* the text is that of a schema URL that was accepted *)
Definition url_ok (url_parse : string -> option UrlModel.parsed_url) (u : string) : Prop :=
  exists text su, UrlModel.schema_url_new url_parse text = Ok su /\ UrlModel.su_url su = u.

Record well_formed (to_f64 : Z -> N) (url_parse : string -> option UrlModel.parsed_url) (s : schema2) : Prop := {
  wf_url : url_ok url_parse (s2_url s);
  wf_catalog : Forall (attribute_ok to_f64) (s2_catalog s);
  wf_attributes : Forall small (r2_attributes (s2_registry s));
  wf_groups : Forall group_ok (r2_attribute_groups (s2_registry s));
  wf_spans : Forall span_ok (r2_spans (s2_registry s));
  wf_metrics : Forall metric_ok (r2_metrics (s2_registry s));
  wf_events : Forall event_ok (r2_events (s2_registry s));
  wf_entities : Forall entity_ok (r2_entities (s2_registry s));
  wf_span_refinements : Forall (fun x => span_ok (snd x)) (f2_spans (s2_refinements s));
  wf_metric_refinements : Forall (fun x => metric_ok (snd x)) (f2_metrics (s2_refinements s));
  wf_event_refinements : Forall (fun x => event_ok (snd x)) (f2_events (s2_refinements s));
  wf_entity_refinements : Forall (fun x => entity_ok (snd x)) (f2_entities (s2_refinements s));
  wf_dependencies : Forall (url_ok url_parse) (s2_dependencies s) /\ in_order (s2_dependencies s)
}.

(* a member of an enumeration was deprecated with a mere text, the old form *)
Definition member_deprecated_by_text (s : schema2) : Prop :=
  exists a ms e text, In a (s2_catalog s) /\ a2_type a = TEnum ms /\ In e ms /\
    ee_deprecated e = Some (DUnspecified text).
