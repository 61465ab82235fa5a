(* Vocabulary for the properties of resolution, independent of how it is computed. *)
From Coq Require Import String Ascii Bool Arith List Permutation.
Import ListNotations.
From Verif Require Import Base Json SemTypes Resolved Semver DefModel ResolveModel.
Local Open Scope string_scope.

(* ---------- C32: references and the catalog ---------- *)
(* reference [r] stands for attribute [a] in a catalog under construction / in a catalog *)
Definition denotes (c : catalog) (r : nat) (a : attribute) : Prop := In (a, r) (ct_refs c).
Definition points_to (cat : list attribute) (r : nat) (a : attribute) : Prop := nth_error cat r = Some a.
(* the attributes a group refers to *)
Definition attrs_in (c : catalog) (u : ugroup) (l : list attribute) : Prop :=
  Forall2 (denotes c) (g_attributes (ug_group u)) l.
Definition attrs_out (cat : list attribute) (g : group) (l : list attribute) : Prop :=
  Forall2 (points_to cat) (g_attributes g) l.
(* everything but the references and the lineage / everything but the references *)
Definition same_fields (g h : group) : Prop :=
  g_id g = g_id h /\ g_type g = g_type h /\ g_brief g = g_brief h /\ g_note g = g_note h /\
  g_prefix g = g_prefix h /\ g_extends g = g_extends h /\ g_stability g = g_stability h /\
  g_deprecated g = g_deprecated h /\ g_span_kind g = g_span_kind h /\ g_events g = g_events h /\
  g_metric_name g = g_metric_name h /\ g_instrument g = g_instrument h /\ g_unit g = g_unit h /\
  g_name g = g_name h /\ g_display_name g = g_display_name h /\ g_body g = g_body h /\
  g_annotations g = g_annotations h /\ g_assocs g = g_assocs h /\
  g_visibility g = g_visibility h /\ g_is_v2 g = g_is_v2 h /\ g_span_name g = g_span_name h /\
  g_level g = g_level h.
Definition same_data (g h : group) : Prop := same_fields g h /\ g_lineage g = g_lineage h.
(* groups as they come from the files *)
Definition unreferenced (gs : list ugroup) : Prop := forall u, In u gs -> g_attributes (ug_group u) = [].
Definition public (u : ugroup) : bool := match ug_visibility u with Some Internal => false | _ => true end.

(* ---------- building registries for the examples ---------- *)
Definition no_env : env :=
  {| ev_name := fun u => u; ev_semver := fun _ => None; ev_parse := fun u => Some u;
     ev_chosen := fun _ => None; ev_cached := fun _ => None; ev_deps := [] |}.
Definition sample_id (id brief : string) : attr_spec :=
  SId {| is_id := id; is_type := TPrim PString; is_brief := Some brief; is_examples := None; is_tag := None;
         is_req := RRecommended; is_sampling := None; is_note := ""; is_stability := None;
         is_deprecated := None; is_annotations := None; is_role := None |}.
Definition sample_ref (id : string) (brief : option string) : attr_spec :=
  SRef {| rs_ref := id; rs_brief := brief; rs_examples := None; rs_tag := None; rs_req := None;
          rs_sampling := None; rs_note := None; rs_stability := None; rs_deprecated := None;
          rs_prefix := false; rs_annotations := None; rs_role := None |}.
Definition sample_spec (id : string) (t : group_type) (v : option visibility) (ext : option string)
  (inc : list string) (attrs : list attr_spec) : group_spec :=
  {| gs_id := id; gs_type := t; gs_brief := ""; gs_note := ""; gs_prefix := ""; gs_extends := ext;
     gs_stability := None; gs_deprecated := None; gs_attributes := attrs; gs_span_kind := None;
     gs_events := []; gs_metric_name := None; gs_instrument := None; gs_unit := None; gs_name := None;
     gs_display_name := None; gs_body := None; gs_annotations := None; gs_assocs := [];
     gs_include := inc; gs_visibility := v; gs_is_v2 := false; gs_span_name := None; gs_level := None |}.
Definition sample_group id t v ext inc attrs : ugroup :=
  group_from_spec (sample_spec id t v ext inc attrs) {| pv_url := "https://acme.com/schemas/1.0.0"; pv_path := id |}.

(* ---------- C33: inheritance ---------- *)
(* the fields of an attribute specification, whatever its form; None is "not set" *)
Definition brief_of (a : attr_spec) := match a with SRef r => rs_brief r | SId i => is_brief i end.
Definition examples_of (a : attr_spec) := match a with SRef r => rs_examples r | SId i => is_examples i end.
Definition tag_of (a : attr_spec) := match a with SRef r => rs_tag r | SId i => is_tag i end.
Definition req_of (a : attr_spec) := match a with SRef r => rs_req r | SId i => Some (is_req i) end.
Definition sampling_of (a : attr_spec) := match a with SRef r => rs_sampling r | SId i => is_sampling i end.
Definition note_of (a : attr_spec) := match a with SRef r => rs_note r | SId i => Some (is_note i) end.
Definition stability_of (a : attr_spec) := match a with SRef r => rs_stability r | SId i => is_stability i end.
Definition deprecated_of (a : attr_spec) := match a with SRef r => rs_deprecated r | SId i => is_deprecated i end.
Definition annotations_of (a : attr_spec) := match a with SRef r => rs_annotations r | SId i => is_annotations i end.
Definition arole_of (a : attr_spec) := match a with SRef r => rs_role r | SId i => is_role i end.
Definition type_of (a : attr_spec) := match a with SRef _ => None | SId i => Some (is_type i) end.
Definition prefix_of (a : attr_spec) := match a with SRef r => rs_prefix r | SId _ => false end.

(* a value set by the child wins, otherwise the parent's *)
Definition first_set {A} (child parent : option A) : option A :=
  match child with Some _ => child | None => parent end.

(* [r] is what a reference [a] makes of the inherited specification [p]: every field.
   (The prefix flag of a reference has no counterpart in a definition.) *)
Definition overrides (a p r : attr_spec) : Prop :=
  match a with
  | SId _ => r = a
  | SRef _ =>
    spec_id r = spec_id a /\ type_of r = type_of p /\
    brief_of r = first_set (brief_of a) (brief_of p) /\
    examples_of r = first_set (examples_of a) (examples_of p) /\
    tag_of r = first_set (tag_of a) (tag_of p) /\
    req_of r = first_set (req_of a) (req_of p) /\
    sampling_of r = first_set (sampling_of a) (sampling_of p) /\
    note_of r = first_set (note_of a) (note_of p) /\
    stability_of r = first_set (stability_of a) (stability_of p) /\
    deprecated_of r = first_set (deprecated_of a) (deprecated_of p) /\
    annotations_of r = first_set (annotations_of a) (annotations_of p) /\
    arole_of r = first_set (arole_of a) (arole_of p) /\
    (type_of p = None -> prefix_of r = orb (prefix_of a) (prefix_of p))
  end.
(* the specifications of one attribute, lowest priority first, taken together *)
Inductive layered : list attr_spec -> attr_spec -> Prop :=
| layer_one s : layered [s] s
| layer_more l r s r' : layered l r -> overrides s r r' -> layered (app l [s]) r'.
Definition about (x : string) (l : list uattr) : list attr_spec :=
  filter (fun a => String.eqb (spec_id a) x) (map ua_spec l).
(* where the attributes of an extended or included group come from: the group itself, fully
   resolved, or a dependency *)
Definition settled_in (gs : list ugroup) (id : string) (attrs : list uattr) : Prop :=
  exists v, In v gs /\ g_id (ug_group v) = id /\ g_extends (ug_group v) = None /\ ug_include v = [] /\
            attrs = ug_attrs v.
Definition offered_by (e : env) (id : string) (attrs : list uattr) : Prop :=
  exists d s, In d (ev_deps e) /\ dep_summary e id d = Some s /\ opt_excluded (sm_annotations s) = false /\
              attrs = sm_attributes s.
(* the groups a group extends (first) and includes, with their attributes *)
Definition base_lists (e : env) (gs : list ugroup) (u : ugroup) (bases : list (list uattr)) : Prop :=
  exists par inc, bases = app par inc /\
    match g_extends (ug_group u) with
    | Some p => exists l, par = [l] /\ (settled_in gs p l \/ offered_by e p l)
    | None => par = []
    end /\
    Forall2 (settled_in gs) (ug_include u) inc.

(* ---------- C34: what can be resolved ---------- *)
Definition targets (u : ugroup) : list string :=
  app (match g_extends (ug_group u) with Some p => [p] | None => [] end) (ug_include u).
(* an id is grounded when following extends and includes from a group of that id ends *)
Inductive grounded (e : env) (gs : list ugroup) : string -> Prop :=
| gr_group u : In u gs ->
    (forall p, g_extends (ug_group u) = Some p -> grounded e gs p \/ (exists l, offered_by e p l)) ->
    (forall i, In i (ug_include u) -> grounded e gs i) ->
    grounded e gs (g_id (ug_group u)).
(* a group's reference to a group that cannot be resolved *)
Definition dangling (e : env) (gs : list ugroup) (u : ugroup) (p : string) : Prop :=
  (In p (ug_include u) /\ ~ grounded e gs p) \/
  (g_extends (ug_group u) = Some p /\ ~ grounded e gs p /\ ~ (exists l, offered_by e p l)).
(* the attribute ids a group has by itself or through the groups it extends or includes *)
Inductive provides (gs : list ugroup) : ugroup -> string -> Prop :=
| pv_own u a : In a (ug_attrs u) -> provides gs u (spec_id (ua_spec a))
| pv_inherit u v x : In (g_id (ug_group v)) (targets u) -> In v gs -> provides gs v x -> provides gs u x.
Definition attr_ids (u : ugroup) : list string := map (fun a => spec_id (ua_spec a)) (ug_attrs u).

(* the errors about the includes of a group *)
Definition include_error (u : ugroup) (err : rerr) : Prop :=
  (exists i, In i (ug_include u) /\ err = XUnresolvedInclude (g_id (ug_group u)) i) \/
  (exists i t, In i (ug_include u) /\ err = XExcluded i t (g_id (ug_group u))) \/
  (exists a, err = XDuplicateAttr (ug_include u) a).

(* ---------- C69: what a refinement inherits ---------- *)
(* no object has two entries with the same key *)
Inductive unique_keys : json -> Prop :=
| uk_obj m : NoDup (map fst m) -> (forall k v, In (k, v) m -> unique_keys v) -> unique_keys (JObj m)
| uk_other j : (forall m, j <> JObj m) -> unique_keys j.
(* [deep b o r]: [r] is [b] overridden by [o], piecemeal where both are objects *)
Inductive deep : json -> json -> json -> Prop :=
| deep_other b o : (forall bm om, b = JObj bm -> o = JObj om -> False) -> deep b o o
| deep_obj bm om rm :
    (forall k, slookup k om = None -> slookup k rm = slookup k bm) ->
    (forall k o, slookup k om = Some o -> slookup k bm = None -> slookup k rm = Some o) ->
    (forall k b o, slookup k om = Some o -> slookup k bm = Some b -> exists r, slookup k rm = Some r /\ deep b o r) ->
    deep (JObj bm) (JObj om) (JObj rm).
Definition annotations_merged (parent child result : option (list (string * json))) : Prop :=
  deep (JObj (match parent with Some m => m | None => [] end)) (JObj (match child with Some m => m | None => [] end))
       (JObj (match result with Some m => m | None => [] end)) /\ result <> Some [].
Definition text_or (child parent : string) : string := match child with "" => parent | _ => child end.
(* [g'] is what refining the signal described by [p] makes of [g] *)
Definition refined (g : group) (p : summary) (g' : group) : Prop :=
  g_id g' = g_id g /\ g_type g' = g_type g /\ g_prefix g' = g_prefix g /\ g_events g' = g_events g /\
  g_name g' = g_name g /\ g_display_name g' = g_display_name g /\ g_body g' = g_body g /\
  g_assocs g' = g_assocs g /\ g_visibility g' = g_visibility g /\ g_is_v2 g' = g_is_v2 g /\
  g_brief g' = text_or (g_brief g) (sm_brief p) /\ g_note g' = text_or (g_note g) (sm_note p) /\
  g_stability g' = first_set (g_stability g) (sm_stability p) /\
  g_deprecated g' = first_set (g_deprecated g) (sm_deprecated p) /\
  g_span_name g' = first_set (g_span_name g) (sm_span_name p) /\
  g_metric_name g' = sm_metric_name p /\ g_instrument g' = sm_instrument p /\ g_unit g' = sm_unit p /\
  g_span_kind g' = sm_span_kind p /\ g_level g' = sm_level p /\
  annotations_merged (sm_annotations p) (g_annotations g) (g_annotations g').
(* the signal with id [p], as resolved in the registry or offered by a dependency *)
Definition describes (s : summary) (g : group) : Prop :=
  sm_type s = g_type g /\ sm_brief s = g_brief g /\ sm_note s = g_note g /\ sm_stability s = g_stability g /\
  sm_deprecated s = g_deprecated g /\ sm_metric_name s = g_metric_name g /\
  sm_instrument s = g_instrument g /\ sm_unit s = g_unit g /\ sm_level s = g_level g /\
  sm_span_kind s = g_span_kind g /\ sm_span_name s = g_span_name g /\ sm_annotations s = g_annotations g.
Definition signal_of (e : env) (gs : list ugroup) (p : string) (s : summary) : Prop :=
  (exists v, In v gs /\ g_id (ug_group v) = p /\ targets v = [] /\ describes s (ug_group v)) \/
  (exists d, In d (ev_deps e) /\ dep_summary e p d = Some s).

(* ---------- C34: attribute references ---------- *)
(* the attribute a definition stands for *)
Definition from_definition (i : id_spec) (d : attribute) : Prop :=
  at_name d = is_id i /\ at_type d = is_type i /\
  at_brief d = (match is_brief i with Some b => b | None => "" end) /\
  at_examples d = is_examples i /\ at_tag d = is_tag i /\ at_req d = is_req i /\
  at_sampling d = is_sampling i /\ at_note d = is_note i /\ at_stability d = is_stability i /\
  at_deprecated d = is_deprecated i /\ at_prefix d = false /\ at_annotations d = is_annotations i /\
  at_role d = is_role i.
Definition value_or {A} (child : option A) (parent : A) : A := match child with Some x => x | None => parent end.
(* the attribute a reference stands for, given the definition it refers to *)
Definition from_reference (r : ref_spec) (name : string) (d a : attribute) : Prop :=
  at_name a = name /\ at_type a = at_type d /\ at_brief a = value_or (rs_brief r) (at_brief d) /\
  at_examples a = first_set (rs_examples r) (at_examples d) /\ at_tag a = first_set (rs_tag r) (at_tag d) /\
  at_req a = value_or (rs_req r) (at_req d) /\ at_sampling a = first_set (rs_sampling r) (at_sampling d) /\
  at_note a = value_or (rs_note r) (at_note d) /\ at_stability a = first_set (rs_stability r) (at_stability d) /\
  at_deprecated a = first_set (rs_deprecated r) (at_deprecated d) /\ at_prefix a = rs_prefix r /\
  at_annotations a = first_set (rs_annotations r) (at_annotations d) /\
  at_role a = first_set (rs_role r) (at_role d).
Definition full_name (u : ugroup) (r : ref_spec) : string :=
  if rs_prefix r then g_prefix (ug_group u) ++ "." ++ rs_ref r else rs_ref r.
(* [d] is a definition of [x]: in a group of the registry, in a dependency, or made by a
   reference with a prefix *)
Inductive defines (e : env) (gs : list ugroup) : string -> attribute -> Prop :=
| df_local u a i d : In u gs -> In a (ug_attrs u) -> ua_spec a = SId i -> ua_origin a = None ->
    from_definition i d -> defines e gs (is_id i) d
| df_dep x s s' : deps_lookup_attr e x = Got (Some s) -> upgrade_attr e s = Got s' -> defines e gs x (ws_attr s')
| df_prefix u a r d d' : In u gs -> In a (ug_attrs u) -> ua_spec a = SRef r -> rs_prefix r = true ->
    defines e gs (rs_ref r) d -> from_reference r (full_name u r) d d' -> defines e gs (full_name u r) d'.
(* what an attribute of a group becomes *)
Definition resolved_as (e : env) (gs : list ugroup) (u : ugroup) (a : uattr) (d : attribute) : Prop :=
  match ua_spec a with
  | SId i => from_definition i d
  | SRef r => exists d0, defines e gs (rs_ref r) d0 /\ from_reference r (full_name u r) d0 d
  end.
Definition no_excluded_attribute (gs : list ugroup) : Prop :=
  forall u a i, In u gs -> In a (ug_attrs u) -> ua_spec a = SId i -> opt_excluded (is_annotations i) = false.
(* errors about conflicting definitions in dependencies, not about references *)
Definition conflict_error (err : rerr) : Prop :=
  match err with
  | XAmbiguous _ _ _ | XIncompatible _ _ _ | XBadSemver _ | XInvalidUrl _ | XNotInUpgraded _ _ _ => True
  | _ => False
  end.
Definition undefined_reference (e : env) (gs : list ugroup) (err : rerr) : Prop :=
  exists u a r, In u gs /\ In a (ug_attrs u) /\ ua_spec a = SRef r /\
    err = XUnresolvedAttr (g_id (ug_group u)) (rs_ref r) /\ ~ exists d, defines e gs (rs_ref r) d.
