(* Vocabulary for what the lineage of an attribute says (C93), independent of how it is computed. *)
From Coq Require Import String Ascii Bool Arith NArith List.
Import ListNotations.
From Verif Require Import Base Json SemTypes Resolved Semver DefModel ResolveModel ResolveSpec.
Local Open Scope string_scope.

(* the fields lineage speaks of, and the names it gives them *)
Inductive field :=
| FBrief | FExamples | FTag | FRequirement | FSampling | FNote | FStability | FDeprecated | FAnnotations | FRole.
Definition field_name (f : field) : string :=
  match f with
  | FBrief => "brief" | FExamples => "examples" | FTag => "tag" | FRequirement => "requirement_level"
  | FSampling => "sampling_relevant" | FNote => "note" | FStability => "stability"
  | FDeprecated => "deprecated" | FAnnotations => "annotations" | FRole => "role"
  end.
Inductive field_value :=
| VText (s : string) | VExamples (x : examples) | VRequirement (r : req_level) | VFlag (b : bool)
| VStability (s : stability) | VDeprecated (d : deprecated) | VAnnotations (m : list (string * json))
| VRole (r : attr_role).
(* what an attribute written in a group says of a field: None is "nothing" *)
Definition written (a : attr_spec) (f : field) : option field_value :=
  match f with
  | FBrief => option_map VText (brief_of a)
  | FExamples => option_map VExamples (examples_of a)
  | FTag => option_map VText (tag_of a)
  | FRequirement => option_map VRequirement (req_of a)
  | FSampling => option_map VFlag (sampling_of a)
  | FNote => option_map VText (note_of a)
  | FStability => option_map VStability (stability_of a)
  | FDeprecated => option_map VDeprecated (deprecated_of a)
  | FAnnotations => option_map VAnnotations (annotations_of a)
  | FRole => option_map VRole (arole_of a)
  end.
(* the value a resolved attribute has for a field *)
Definition value (a : attribute) (f : field) : option field_value :=
  match f with
  | FBrief => Some (VText (at_brief a))
  | FExamples => option_map VExamples (at_examples a)
  | FTag => option_map VText (at_tag a)
  | FRequirement => Some (VRequirement (at_req a))
  | FSampling => option_map VFlag (at_sampling a)
  | FNote => Some (VText (at_note a))
  | FStability => option_map VStability (at_stability a)
  | FDeprecated => option_map VDeprecated (at_deprecated a)
  | FAnnotations => option_map VAnnotations (at_annotations a)
  | FRole => option_map VRole (at_role a)
  end.

(* the lineage [al] of an attribute written as [own] over a source that has the values [base]:
   overridden are the fields written, inherited those not written that the source has *)
Definition tells (own : attr_spec) (base : field -> option field_value) (al : attr_lineage) : Prop :=
  (forall f, In (field_name f) (al_overridden al) <-> written own f <> None) /\
  (forall f, In (field_name f) (al_inherited al) <-> written own f = None /\ base f <> None) /\
  (forall n, In n (al_overridden al) \/ In n (al_inherited al) -> n = "prefix" \/ exists f, n = field_name f).

(* [d] defines attribute [x], in the place called [src]: a group of the registry, a dependency,
   or a group whose reference puts its prefix before another attribute *)
Inductive defined_in (e : env) (gs : list ugroup) : string -> string -> attribute -> Prop :=
| di_local u a i d : In u gs -> In a (ug_attrs u) -> ua_spec a = SId i -> ua_origin a = None ->
    from_definition i d -> defined_in e gs (g_id (ug_group u)) (is_id i) d
| di_dep x s s' url : deps_lookup_attr e x = Got (Some s) -> upgrade_attr e s = Got s' -> ws_source s' = SDep url ->
    defined_in e gs ("v2_dependency." ++ ev_name e url) x (ws_attr s')
| di_prefix u a r src d d' : In u gs -> In a (ug_attrs u) -> ua_spec a = SRef r -> rs_prefix r = true ->
    defined_in e gs src (rs_ref r) d -> from_reference r (full_name u r) d d' ->
    defined_in e gs (g_id (ug_group u)) (full_name u r) d'.

(* the names the references of a group stand for are different *)
Definition ref_name (u : ugroup) (a : uattr) : list string :=
  match ua_spec a with SRef r => [full_name u r] | SId _ => [] end.
Definition distinct_refs (u : ugroup) : Prop := NoDup (flat_map (ref_name u) (ug_attrs u)).
Definition is_ref_name (u : ugroup) (k : string) : Prop :=
  exists a r, In a (ug_attrs u) /\ ua_spec a = SRef r /\ k = full_name u r.
(* the lineage of a group apart from its attributes *)
Definition same_links (l l' : group_lineage) : Prop :=
  gl_provenance l' = gl_provenance l /\ gl_extends l' = gl_extends l /\
  gl_extends_type l' = gl_extends_type l /\ gl_includes l' = gl_includes l.
(* what a lineage says of attribute [x]; an entry that would say nothing is left out *)
Definition says (l : group_lineage) (x : string) (al : attr_lineage) : Prop :=
  slookup x (gl_attributes l) = Some al \/
  (slookup x (gl_attributes l) = None /\ al_inherited al = [] /\ al_overridden al = []).
Definition no_attribute_lineage (u : ugroup) : Prop :=
  exists l, g_lineage (ug_group u) = Some l /\ gl_attributes l = [].

(* ---------- samples ---------- *)
Definition ref_prefixed (id : string) : attr_spec :=
  SRef {| rs_ref := id; rs_brief := None; rs_examples := None; rs_tag := None; rs_req := None;
          rs_sampling := None; rs_note := None; rs_stability := None; rs_deprecated := None;
          rs_prefix := true; rs_annotations := None; rs_role := None |}.
Definition id_noted (id : string) (stab : option stability) (role : option attr_role) : attr_spec :=
  SId {| is_id := id; is_type := TPrim PString; is_brief := None; is_examples := None; is_tag := None;
         is_req := RRecommended; is_sampling := None; is_note := "noted"; is_stability := stab;
         is_deprecated := None; is_annotations := None; is_role := role |}.
Definition lineage_at (gs : list ugroup) (i : nat) (x : string) : option attr_lineage :=
  match nth_error gs i with
  | Some u => match g_lineage (ug_group u) with Some l => slookup x (gl_attributes l) | None => None end
  | None => None
  end.
(* "defs" defines x; "mid" refers to it and gives it a brief; "leaf" extends "mid" without a word on x *)
Definition lineage_reg : list ugroup :=
  [sample_group "leaf" GSpan None (Some "mid") [] [sample_ref "y" None];
   sample_group "mid" GSpan None None [] [sample_ref "x" (Some "mine")];
   sample_group "defs" GAttributeGroup None None [] [sample_id "x" "ex"; sample_id "y" "why"]].
(* both "one" and "two" define x; "both" includes them *)
Definition two_bases : list ugroup :=
  [sample_group "child" GSpan None (Some "one") ["two"] [];
   sample_group "one" GAttributeGroup None None [] [id_noted "x" (Some SStable) None];
   sample_group "two" GAttributeGroup None None [] [id_noted "x" None None]].
(* "child" extends "parent", which defines x, and changes its brief *)
Definition one_base : list ugroup :=
  [sample_group "child" GSpan None (Some "parent") [] [sample_ref "x" (Some "mine")];
   sample_group "other" GSpan None (Some "parent") [] [];
   sample_group "parent" GSpan None None [] [id_noted "x" (Some SStable) (Some Identifying)]].
(* "child" extends "parent", whose reference to y has a prefix *)
Definition prefixed_base : list ugroup :=
  [sample_group "child" GSpan None (Some "parent") [] [];
   sample_group "parent" GSpan None None [] [ref_prefixed "y"];
   sample_group "defs" GAttributeGroup None None [] [sample_id "y" "why"]].
(* a registry resolved: extends and includes, then references *)
Definition resolves_to (gs gs2 : list ugroup) (c : catalog) : Prop :=
  exists gs1, resolve_extends no_env gs = Done gs1 /\ unreferenced gs1 /\ resolve_references no_env gs1 empty_catalog = Done (gs2, c).
(* the attribute called [x] of group number [i] *)
Definition attribute_at (gs : list ugroup) (c : catalog) (i : nat) (x : string) (a : attribute) : Prop :=
  exists u n, nth_error gs i = Some u /\ In n (g_attributes (ug_group u)) /\ denotes c n a /\ at_name a = x.
