(* Vocabulary for C35: registries whose resolution does not depend on the order of the definitions. *)
From Coq Require Import String Ascii Bool Arith List Permutation.
Import ListNotations.
From Verif Require Import Base Json SemTypes Resolved Semver DefModel DefSpec ResolveModel ResolveSpec ImportModel ImportSpec UniqueSpec ConflictSpec.
Local Open Scope string_scope.

(* the definitions of the files, in the order they are read *)
Definition read_order (specs : list (list group_spec * provenance)) : list (group_spec * provenance) :=
  flat_map (fun f => map (fun s => (s, snd f)) (fst f)) specs.
(* every attribute id has one definition *)
Definition one_definition (e : env) (gs : list ugroup) : Prop :=
  forall x d d', defines e gs x d -> defines e gs x d' -> d = d'.
(* no attribute of the files is kept from other registries *)
Definition nothing_hidden (specs : list (list group_spec * provenance)) : Prop :=
  forall s p a ann, In (s, p) (read_order specs) -> In a (gs_attributes s) -> annotations_of a = Some ann -> is_excluded ann = false.
(* no dependency offers a group with the id of one of the registry *)
Definition ids_apart (e : env) (gs : list ugroup) : Prop :=
  forall u, In u gs -> ~ exists l, offered_by e (g_id (ug_group u)) l.
(* ...of a definition of the files *)
Definition files_apart (e : env) (specs : list (list group_spec * provenance)) : Prop :=
  forall s p, In (s, p) (read_order specs) -> ~ exists l, offered_by e (gs_id s) l.
(* the attributes the references of two groups stand for are the same *)
Definition same_attributes (c c' : catalog) (u u' : ugroup) : Prop :=
  exists ds ds', attrs_in c u ds /\ attrs_in c' u' ds' /\ Permutation ds ds'.
(* a total order that tells different attributes apart *)
Definition strict_order (leb : attribute -> attribute -> bool) (cat : list attribute) : Prop :=
  (forall a b, leb a b = true \/ leb b a = true) /\
  (forall a b c, leb a b = true -> leb b c = true -> leb a c = true) /\
  (forall a b, In a cat -> In b cat -> leb a b = true -> leb b a = true -> a = b).
(* published groups that differ, if at all, in where the parts of their attributes come from *)
Definition same_ancestry (l l' : option group_lineage) : Prop :=
  match l, l' with
  | None, None => True
  | Some a, Some b => gl_provenance a = gl_provenance b /\ gl_extends a = gl_extends b /\
                      gl_extends_type a = gl_extends_type b /\ gl_includes a = gl_includes b
  | _, _ => False
  end.
Definition same_but_lineage (g g' : group) : Prop :=
  same_fields g g' /\ g_attributes g = g_attributes g' /\ same_ancestry (g_lineage g) (g_lineage g').
(* no entity is kept from the registries that depend on this one *)
Definition entities_open (gs : list ugroup) : Prop :=
  forall u, In u gs -> g_type (ug_group u) = GEntity -> ~ kept_back u.
(* the groups of the files, each with what its prefix means, and what they are once every one has
   inherited *)
Definition inherits_to (e : env) (specs : list (list group_spec * provenance)) (gs : list ugroup) : Prop :=
  resolve_extends e (map (fun sp => resolve_prefix (group_from_spec (fst sp) (snd sp))) (read_order specs)) = Done gs.

(* ---------- registries with dependencies ---------- *)
(* a schema the registry is resolved with, and what it is known as *)
Definition known_as (e : env) (d : dependency) (my : string) : Prop :=
  match d with
  | D1 s _ => (In d (ev_deps e) /\ ev_parse e (s1_url s) = Some my) \/ ev_cached e my = Some d
  | D2 s => In d (ev_deps e) /\ my = s2_url s
  end.
(* attribute [x] is on offer from the registry at [url]: a definition has inherited it from there, a
   reference to it leads there, a published schema lists it as coming from there, or another version of
   the registry that offers it is the one in use *)
Inductive on_offer (e : env) (gs : list ugroup) : string -> string -> Prop :=
| oo_inherited u a url : In u gs -> In a (ug_attrs u) -> ua_origin a = Some url -> on_offer e gs (spec_id (ua_spec a)) url
| oo_found x s url : deps_lookup_attr e x = Got (Some s) -> ws_source s = SDep url -> on_offer e gs x url
| oo_listed1 s roots my a : known_as e (D1 s roots) my -> In a (s1_catalog s) -> on_offer e gs (at_name a) (attr_source1 e s roots (at_name a) my)
| oo_listed2 s my a : known_as e (D2 s) my -> In a (s2_catalog s) -> on_offer e gs (a2_key a) (source_url2 s (p2_source (a2_provenance a)))
| oo_chosen x url chosen : on_offer e gs x url -> ev_chosen e (ev_name e url) = Some chosen -> on_offer e gs x chosen.
(* registries that offer the same attribute are versions of one registry, with the same major number *)
Definition offers_agree (e : env) (gs : list ugroup) : Prop :=
  forall x a b, on_offer e gs x a -> on_offer e gs x b ->
    ev_name e a = ev_name e b /\ exists va vb, ev_semver e a = Some va /\ ev_semver e b = Some vb /\ v_major va = v_major vb.
(* no attribute of the registry is kept from others, its own or inherited *)
Definition none_hidden (gs : list ugroup) : Prop :=
  forall u a ann, In u gs -> In a (ug_attrs u) -> annotations_of (ua_spec a) = Some ann -> is_excluded ann = false.
(* the dependencies have an answer for every reference, which is not kept from others *)
Definition answers (e : env) (x : string) : Prop :=
  match deps_lookup_attr e x with
  | Bad _ => False
  | Got None => True
  | Got (Some s) => exists s', upgrade_attr e s = Got s' /\ forall ann, at_annotations (ws_attr s') = Some ann -> is_excluded ann = false
  end.
Definition references_answered (e : env) (gs : list ugroup) : Prop :=
  forall u a r, In u gs -> In a (ug_attrs u) -> ua_spec a = SRef r -> answers e (rs_ref r).

(* ---------- for the examples ---------- *)
(* where the attributes of each definition of a registry are said to come from *)
Definition sample_sources (r : resolved) : list (string * list (string * string)) :=
  map (fun g => (g_id g, match g_lineage g with Some l => map (fun kv => (fst kv, al_source (snd kv))) (gl_attributes l) | None => [] end)) (rs_groups r).
