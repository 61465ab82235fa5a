(* Vocabulary for signals that are imported from a published registry and published again
   (C107).  The steps are those of ImportModel (resolution with imports) and ConvertModel
   (the published form). *)
From Coq Require Import String Ascii Bool Arith NArith Permutation List.
Import ListNotations.
From Verif Require Import Base Json SemTypes Resolved DefModel ResolveModel ResolveSpec ImportModel ImportSpec UniqueSpec PipeSpec.
From Verif Require ConvertModel ConvertSpec.
Local Open Scope string_scope.

(* every dependency is a published registry *)
Definition published_only (e : env) : Prop := forall d, In d (ev_deps e) -> exists s, d = D2 s.

(* one use of an attribute in [s] and in [out]: the same attribute, required as much *)
Definition same_use (s out : schema2) (sampled : bool) (u u' : attr_use) : Prop :=
  exists a a', nth_error (s2_catalog s) (u_base u) = Some a /\ nth_error (s2_catalog out) (u_base u') = Some a' /\
    a2_key a' = a2_key a /\ a2_type a' = a2_type a /\ a2_examples a' = a2_examples a /\ a2_common a' = a2_common a /\
    u_req u' = u_req u /\ u_sampling u' = (if sampled then u_sampling u else None).
(* the same uses, in some order *)
Definition same_uses (s out : schema2) (sampled : bool) (l l' : list attr_use) : Prop :=
  exists l0, Permutation l l0 /\ Forall2 (same_use s out sampled) l0 l'.
(* the same associations, by name *)
Definition same_names : list (assoc entity_ref) -> list (assoc entity_ref) -> Prop :=
  Forall2 (ConvertSpec.same_shape (fun r r' => er_type r' = er_type r)).
(* the number of a registry in a list of dependencies *)
Definition numbered (l : list string) (u : string) (n : option nat) : Prop :=
  match n with
  | Some i => nth_error l i = Some u /\ forall j, j < i -> nth_error l j <> Some u
  | None => ~ In u l
  end.
(* the same file of the same registry; [here] is the registry that publishes *)
Definition same_place (s out : schema2) (here : string) (p p' : provenance2) : Prop :=
  p2_path p' = p2_path p /\
  exists u, declared_in s p u /\
    ((u = here /\ p2_source p' = None) \/ (u <> here /\ numbered (s2_dependencies out) u (p2_source p'))).

(* the signal as published by [s], and as published by [out] *)
Definition metric_kept (s out : schema2) (here : string) (m m' : metric2) : Prop :=
  me2_name m' = me2_name m /\ me2_instrument m' = me2_instrument m /\ me2_unit m' = me2_unit m /\
  me2_common m' = me2_common m /\ same_uses s out false (me2_attributes m) (me2_attributes m') /\
  same_names (me2_assocs m) (me2_assocs m') /\ same_place s out here (me2_provenance m) (me2_provenance m').
Definition event_kept (s out : schema2) (here : string) (v v' : event2) : Prop :=
  ev2_name v' = ev2_name v /\ ev2_common v' = ev2_common v /\ same_uses s out false (ev2_attributes v) (ev2_attributes v') /\
  same_names (ev2_assocs v) (ev2_assocs v') /\ same_place s out here (ev2_provenance v) (ev2_provenance v').
Definition entity_kept (s out : schema2) (here : string) (n n' : entity2) : Prop :=
  en2_type n' = en2_type n /\ en2_common n' = en2_common n /\
  same_uses s out false (en2_identity n) (en2_identity n') /\ same_uses s out false (en2_description n) (en2_description n') /\
  same_place s out here (en2_provenance n) (en2_provenance n').
Definition span_kept (s out : schema2) (here : string) (p p' : span2) : Prop :=
  sp2_kind p' = sp2_kind p /\ sp2_name p' = sp2_name p /\ sp2_common p' = sp2_common p /\
  same_uses s out true (sp2_attributes p) (sp2_attributes p') /\
  same_names (sp2_assocs p) (sp2_assocs p') /\ same_place s out here (sp2_provenance p) (sp2_provenance p') /\
  ConvertSpec.without "span." (sp2_type p) (sp2_type p').

(* [out] is what a registry publishes: its files, with the imports it asks for in [blocks], are
   resolved in [e] and the result is converted; [here] is the url of the registry *)
Definition publishes (glob : string -> string -> bool) (e : env) (blocks : list block) (here : string) (out : schema2) : Prop :=
  exists o specs bs inc r hash order name_of url_ok url roots deps,
    (forall l, Permutation (or_refs o l) l) /\ (forall l, Permutation l (order l)) /\
    blocks = (if inc : bool then app bs [everything] else bs) /\
    resolve_registry glob o e specs bs inc = Done r /\
    ConvertModel.convert hash order name_of url_ok (source_of url here r roots deps) = ConvertModel.Converted out.
(* two published signals were declared in the same registry *)
Definition declared_together (s : schema2) (p : provenance2) (s' : schema2) (p' : provenance2) : Prop :=
  exists u, declared_in s p u /\ declared_in s' p' u.

(* ---------- samples ---------- *)
Definition published_use (i : nat) : attr_use := {| u_base := i; u_req := RRequired; u_sampling := Some true |}.
Definition published_from (f : string) : provenance2 := {| p2_source := Some 0; p2_path := f |}.
(* a registry published by acme: a metric it took from o.io, an entity and an event of its own, a span,
   and a public group of attributes *)
Definition published_acme : schema2 :=
  {| s2_url := "https://acme.io/schemas/1.0.0";
     s2_catalog := [{| a2_key := "a.b"; a2_type := TPrim PString; a2_examples := None; a2_common := sample_common; a2_provenance := published_from "o.yaml" |};
                    {| a2_key := "host.id"; a2_type := TPrim PInt; a2_examples := Some (EStrings ["x"]); a2_common := pipe_common; a2_provenance := published_from "o.yaml" |}];
     s2_registry :=
       {| r2_attributes := [0; 1];
          r2_attribute_groups := [{| ag2_id := "shared"; ag2_attributes := [published_use 0]; ag2_common := pipe_common; ag2_provenance := published_from "o.yaml" |}];
          r2_spans := [{| sp2_type := "span.call"; sp2_kind := SkClient; sp2_name := "{a.b}"; sp2_attributes := [published_use 1; published_use 0]; sp2_assocs := [];
                          sp2_level := None; sp2_common := pipe_common; sp2_provenance := published_from "s.yaml" |}];
          r2_metrics := [{| me2_name := "hits"; me2_instrument := Gauge; me2_unit := "By"; me2_attributes := [published_use 1; published_use 0];
                            me2_assocs := [AOneOf [ARef (sample_ref2 "host" None)]]; me2_level := Some SlOptIn; me2_common := pipe_common;
                            me2_provenance := published_from "o.yaml" |}];
          r2_events := [{| ev2_name := "boot"; ev2_attributes := []; ev2_assocs := [ARef (sample_ref2 "host" None)]; ev2_level := None; ev2_common := pipe_common;
                           ev2_provenance := {| p2_source := None; p2_path := "e.yaml" |} |}];
          r2_entities := [{| en2_type := "host"; en2_identity := [published_use 1]; en2_description := [published_use 0]; en2_level := None;
                             en2_common := sample_common; en2_provenance := {| p2_source := None; p2_path := "e.yaml" |} |}] |};
     s2_refinements := {| f2_spans := []; f2_metrics := []; f2_events := []; f2_entities := [] |};
     s2_dependencies := ["https://o.io/schemas/1.0.0"] |}.
Definition published_env : env := sample_env [D2 published_acme].
Definition published_here : string := "https://b.io/schemas/1.0.0".
Definition published_with (glob : string -> string -> bool) (o : orders) (e : env) (specs : list (list group_spec * provenance)) (inc : bool)
  (here : string) (deps : list string) : option schema2 :=
  match resolve_registry glob o e specs [] inc with
  | Done r =>
    match ConvertModel.convert (fun _ => 0%N) (fun l => l) (fun u => u) (fun _ => true) (source_of here here r [] deps) with
    | ConvertModel.Converted out => Some out
    | _ => None
    end
  | _ => None
  end.
(* a registry with a group of its own that imports everything from acme *)
Definition published_files : list (list group_spec * provenance) := [pipe_v1 [pipe_group "more" GAttributeGroup "" [sample_id "k" "a key"]]].
Definition published_deps : list string := ["https://acme.io/schemas/1.0.0"; "https://o.io/schemas/1.0.0"].
