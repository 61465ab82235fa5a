(* Resolution of a registry: inheritance, attribute references, catalog, checks.
   Models crates/weaver_resolver/src/{registry,attribute,dependency,dependency_resolution,
   merge,conflict_strategy}.rs and crates/weaver_resolved_schema/src/lineage.rs.
   Simplified throughout: a schema url is its text, with its name and semantic version as
   functions of the text (schema_url.rs, modelled in UrlModel); YAML values are JSON values;
   errors keep their variant and the ids they name, not provenances; a double inside an
   attribute is equal to another when the bit patterns are; HashMap iteration orders that
   reach the output are parameters. *)
From Coq Require Import String Ascii Bool Arith ZArith NArith List.
Import ListNotations.
From Verif Require Import Base Json SemTypes Resolved Semver DefModel.
Local Open Scope string_scope.

(* ---------- errors (weaver_resolver/src/error.rs) ---------- *)
(* used by rr: attribute.rs 544-572 *)
Inductive rerr :=
| XUnresolvedExtends (group target : string)
| XUnresolvedInclude (group target : string)
| XUnresolvedAttr (group target : string)
| XExcluded (id type used_in : string)
| XDuplicateAttr (groups : list string) (attr : string)
| XInvalidRefinement (refinement target : string)
| XIdentity (refinement target attr : string) (role : attr_role)
| XAmbiguous (what url1 url2 : string)
| XIncompatible (name url1 url2 : string)
| XBadSemver (url : string)
| XInvalidUrl (url : string)
| XNotInUpgraded (attr url1 url2 : string)
| XUnresolvedEntity (group entity : string)
| XAmbiguousEntity (group entity : string) (registries : list string)
| XUnmatchedImport (pattern field : string)
| XBadAttributeRef (registry : string) (index : nat)
| XDuplicateGroupId (id : string)
| XDuplicateMetricName (name : string)
| XDuplicateGroupName (name : string)
| XCollidingV2Id (id : string) (groups : list string).

(* Result<T, Error> *)
(* used by rr_bind: attribute.rs 544-572 *)
Inductive rr (A : Type) := Got (a : A) | Bad (e : rerr).
Arguments Got {A}. Arguments Bad {A}.
(* used by fold_matches: attribute.rs 544-572 *)
Definition rr_bind {A B} (r : rr A) (f : A -> rr B) : rr B :=
  match r with Got a => f a | Bad e => Bad e end.

(* the outcome of an iterative phase: a result, CompoundError / a fatal error, or still
   running when the fuel is used up (never reached, see PropResolve) *)
(* no counterpart: the Result of the loops of crates/weaver_resolver/src/registry.rs 635-751 and 912-1050 *)
Inductive run (A : Type) := Done (a : A) | Failed (es : list rerr) | Running.
Arguments Done {A}. Arguments Failed {A}. Arguments Running {A}.

(* ---------- lineage.rs ---------- *)
(* BTreeSet<String> insert / remove *)
(* used by mark_local: lineage.rs 187-480 *)
Fixpoint set_add (x : string) (l : list string) : list string :=
  match l with
  | [] => [x]
  | y :: r => match str_cmp x y with Lt => x :: l | Eq => l | Gt => y :: set_add x r end
  end.
(* used by mark_local: lineage.rs 187-480 *)
Definition set_del (x : string) (l : list string) : list string :=
  filter (fun y => negb (String.eqb x y)) l.

(* 74-81: AttributeLineage::new *)
Definition al_new (source : string) : attr_lineage :=
  {| al_source := source; al_inherited := []; al_overridden := [] |}.
(* 178-180: is_empty *)
Definition al_is_empty (l : attr_lineage) : bool :=
  match al_inherited l, al_overridden l with [], [] => true | _, _ => false end.
(* 187-480: the two updates each of the field methods makes.  A field method returns the
   local value if present and otherwise the parent's; that value is computed apart, with
   opt_or / opt_get, from the update of the lineage below. *)
Definition mark_local (f : string) (l : attr_lineage) : attr_lineage :=
  {| al_source := al_source l; al_inherited := set_del f (al_inherited l);
     al_overridden := set_add f (al_overridden l) |}.
(* as above: lineage.rs 187-480 *)
Definition mark_inherited (f : string) (l : attr_lineage) : attr_lineage :=
  {| al_source := al_source l; al_inherited := set_add f (al_inherited l);
     al_overridden := al_overridden l |}.
(* brief, note, requirement_level: the parent always has a value *)
(* used by ref_lineage: attribute.rs 355-373, attribute.rs 375-390 *)
Definition lin_val {A} (f : string) (loc : option A) (l : attr_lineage) : attr_lineage :=
  if is_some loc then mark_local f l else mark_inherited f l.
(* optional_brief, optional_note, optional_requirement_level, examples, stability,
   optional_role, deprecated, tag, annotations, sampling_relevant *)
(* used by ref_lineage: attribute.rs 355-373, attribute.rs 375-390 *)
Definition lin_opt {A B} (f : string) (loc : option A) (par : option B) (l : attr_lineage) : attr_lineage :=
  if is_some loc then mark_local f l else if is_some par then mark_inherited f l else l.
(* prefix *)
(* used by inherit_lineage: registry.rs 1111-1141 *)
Definition lin_flag (f : string) (loc par : bool) (l : attr_lineage) : attr_lineage :=
  if loc then mark_local f l else if par then mark_inherited f l else l.
(* used by al_inherit_from: lineage.rs 85-175 *)
Definition mark_if (b : bool) (f : string) (l : attr_lineage) : attr_lineage :=
  if b then mark_inherited f l else l.

(* 85-175: inherit_from *)
Definition al_inherit_from (source : string) (a : attr_spec) : attr_lineage :=
  match a with
  | SRef r =>
    mark_if (rs_prefix r) "prefix"
    (mark_if (is_some (rs_deprecated r)) "deprecated"
    (mark_if (is_some (rs_stability r)) "stability"
    (mark_if (is_some (rs_note r)) "note"
    (mark_if (is_some (rs_sampling r)) "sampling_relevant"
    (mark_if (is_some (rs_req r)) "requirement_level"
    (mark_if (is_some (rs_tag r)) "tag"
    (mark_if (is_some (rs_examples r)) "examples"
    (mark_if (is_some (rs_brief r)) "brief" (al_new source)))))))))
  | SId i =>
    mark_if (is_some (is_deprecated i)) "deprecated"
    (mark_if (is_some (is_stability i)) "stability"
    (mark_inherited "note"
    (mark_if (is_some (is_sampling i)) "sampling_relevant"
    (mark_inherited "requirement_level"
    (mark_if (is_some (is_tag i)) "tag"
    (mark_if (is_some (is_examples i)) "examples"
    (mark_if (is_some (is_brief i)) "brief" (al_new source))))))))
  end.

(* 484-492, 495-498, 501-503, 506-508, 512-514 *)
Definition gl_new (p : provenance) : group_lineage :=
  {| gl_provenance := p; gl_extends := None; gl_extends_type := None; gl_attributes := [];
     gl_includes := [] |}.
(* as above: lineage.rs 484-492, lineage.rs 495-498, lineage.rs 501-503 *)
Definition gl_extend (parent : string) (ty : group_type) (l : group_lineage) : group_lineage :=
  {| gl_provenance := gl_provenance l; gl_extends := Some parent; gl_extends_type := Some ty;
     gl_attributes := gl_attributes l; gl_includes := gl_includes l |}.
(* as above: lineage.rs 484-492, lineage.rs 495-498, lineage.rs 501-503 *)
Definition gl_include (ids : list string) (l : group_lineage) : group_lineage :=
  {| gl_provenance := gl_provenance l; gl_extends := gl_extends l;
     gl_extends_type := gl_extends_type l; gl_attributes := gl_attributes l;
     gl_includes := app (gl_includes l) ids |}.
(* as above: lineage.rs 484-492, lineage.rs 495-498, lineage.rs 501-503 *)
Definition gl_add (id : string) (a : attr_lineage) (l : group_lineage) : group_lineage :=
  {| gl_provenance := gl_provenance l; gl_extends := gl_extends l;
     gl_extends_type := gl_extends_type l; gl_attributes := bt_insert id a (gl_attributes l);
     gl_includes := gl_includes l |}.
(* as above: lineage.rs 484-492, lineage.rs 495-498, lineage.rs 501-503 *)
Definition gl_has (l : group_lineage) (id : string) : bool := is_some (slookup id (gl_attributes l)).

(* ---------- unresolved groups (registry.rs 34-76) ---------- *)
Record uattr := { ua_spec : attr_spec; ua_origin : option string }.
(* as above: registry.rs 34-76 *)
Record ugroup := {
  ug_group : group; ug_attrs : list uattr; ug_include : list string;
  ug_visibility : option visibility; ug_is_v2 : bool; ug_provenance : option provenance
}.

(* registry.rs 371-415: group_from_spec *)
Definition group_from_spec (g : group_spec) (p : provenance) : ugroup :=
  {| ug_group :=
       {| g_id := gs_id g; g_type := gs_type g; g_brief := gs_brief g; g_note := gs_note g;
          g_prefix := gs_prefix g; g_extends := gs_extends g; g_stability := gs_stability g;
          g_deprecated := gs_deprecated g; g_attributes := []; g_span_kind := gs_span_kind g;
          g_events := gs_events g; g_metric_name := gs_metric_name g;
          g_instrument := gs_instrument g; g_unit := gs_unit g; g_name := gs_name g;
          g_lineage := Some (gl_new p); g_display_name := gs_display_name g;
          g_body := gs_body g; g_annotations := gs_annotations g; g_assocs := gs_assocs g;
          g_visibility := gs_visibility g; g_is_v2 := gs_is_v2 g; g_span_name := gs_span_name g;
          g_level := gs_level g |};
     ug_attrs := map (fun a => {| ua_spec := a; ua_origin := None |}) (gs_attributes g);
     ug_include := gs_include g; ug_visibility := gs_visibility g; ug_is_v2 := gs_is_v2 g;
     ug_provenance := Some p |}.

(* field updates of a group *)
(* used by upd_lineage: registry.rs 948-1027, registry.rs 754-775 *)
Definition set_lineage (l : option group_lineage) (g : group) : group :=
  {| g_id := g_id g; g_type := g_type g; g_brief := g_brief g; g_note := g_note g;
     g_prefix := g_prefix g; g_extends := g_extends g; g_stability := g_stability g;
     g_deprecated := g_deprecated g; g_attributes := g_attributes g; g_span_kind := g_span_kind g;
     g_events := g_events g; g_metric_name := g_metric_name g; g_instrument := g_instrument g;
     g_unit := g_unit g; g_name := g_name g; g_lineage := l; g_display_name := g_display_name g;
     g_body := g_body g; g_annotations := g_annotations g; g_assocs := g_assocs g;
     g_visibility := g_visibility g; g_is_v2 := g_is_v2 g; g_span_name := g_span_name g;
     g_level := g_level g |}.
(* used by finish_group: registry.rs 948-1027, registry.rs 754-775 *)
Definition set_extends (e : option string) (g : group) : group :=
  {| g_id := g_id g; g_type := g_type g; g_brief := g_brief g; g_note := g_note g;
     g_prefix := g_prefix g; g_extends := e; g_stability := g_stability g;
     g_deprecated := g_deprecated g; g_attributes := g_attributes g; g_span_kind := g_span_kind g;
     g_events := g_events g; g_metric_name := g_metric_name g; g_instrument := g_instrument g;
     g_unit := g_unit g; g_name := g_name g; g_lineage := g_lineage g;
     g_display_name := g_display_name g; g_body := g_body g; g_annotations := g_annotations g;
     g_assocs := g_assocs g; g_visibility := g_visibility g; g_is_v2 := g_is_v2 g;
     g_span_name := g_span_name g; g_level := g_level g |}.
(* used by stabilize: registry.rs 1360-1395 *)
Definition set_attributes (l : list nat) (g : group) : group :=
  {| g_id := g_id g; g_type := g_type g; g_brief := g_brief g; g_note := g_note g;
     g_prefix := g_prefix g; g_extends := g_extends g; g_stability := g_stability g;
     g_deprecated := g_deprecated g; g_attributes := l; g_span_kind := g_span_kind g;
     g_events := g_events g; g_metric_name := g_metric_name g; g_instrument := g_instrument g;
     g_unit := g_unit g; g_name := g_name g; g_lineage := g_lineage g;
     g_display_name := g_display_name g; g_body := g_body g; g_annotations := g_annotations g;
     g_assocs := g_assocs g; g_visibility := g_visibility g; g_is_v2 := g_is_v2 g;
     g_span_name := g_span_name g; g_level := g_level g |}.
(* group.lineage.as_mut() followed by an update *)
(* used by finish_group: registry.rs 948-1027, registry.rs 754-775 *)
Definition upd_lineage (f : group_lineage -> group_lineage) (g : group) : group :=
  set_lineage (option_map f (g_lineage g)) g.
(* used by finish_group: registry.rs 948-1027, registry.rs 754-775 *)
Definition with_group (u : ugroup) (g : group) : ugroup :=
  {| ug_group := g; ug_attrs := ug_attrs u; ug_include := ug_include u;
     ug_visibility := ug_visibility u; ug_is_v2 := ug_is_v2 u; ug_provenance := ug_provenance u |}.
(* used by resolve_prefix: registry.rs 421-432 *)
Definition with_attrs (u : ugroup) (l : list uattr) : ugroup :=
  {| ug_group := ug_group u; ug_attrs := l; ug_include := ug_include u;
     ug_visibility := ug_visibility u; ug_is_v2 := ug_is_v2 u; ug_provenance := ug_provenance u |}.
(* used by finish_group: registry.rs 948-1027, registry.rs 754-775 *)
Definition clear_include (u : ugroup) : ugroup :=
  {| ug_group := ug_group u; ug_attrs := ug_attrs u; ug_include := [];
     ug_visibility := ug_visibility u; ug_is_v2 := ug_is_v2 u; ug_provenance := ug_provenance u |}.
(* used by excluded_parent: registry.rs 1334-1355 *)
Definition uid (u : ugroup) : string := g_id (ug_group u).

(* registry.rs 421-432: resolve_prefix_on_attributes *)
Definition rename_id (i : id_spec) (id : string) : id_spec :=
  {| is_id := id; is_type := is_type i; is_brief := is_brief i; is_examples := is_examples i;
     is_tag := is_tag i; is_req := is_req i; is_sampling := is_sampling i; is_note := is_note i;
     is_stability := is_stability i; is_deprecated := is_deprecated i;
     is_annotations := is_annotations i; is_role := is_role i |}.
(* as above: registry.rs 421-432 *)
Definition prefix_attr (p : string) (a : uattr) : uattr :=
  match ua_spec a with
  | SId i => {| ua_spec := SId (rename_id i (p ++ "." ++ is_id i)); ua_origin := ua_origin a |}
  | SRef _ => a
  end.
(* as above: registry.rs 421-432 *)
Definition resolve_prefix (u : ugroup) : ugroup :=
  if String.eqb (g_prefix (ug_group u)) "" then u
  else with_attrs u (map (prefix_attr (g_prefix (ug_group u))) (ug_attrs u)).

(* ---------- dependency_resolution.rs ---------- *)
(* 27-34: is_excluded *)
Definition is_excluded (ann : list (string * json)) : bool :=
  match slookup "dependency_resolution" ann with
  | Some (JObj m) => match slookup "exclude" m with Some (JBool b) => b | _ => false end
  | _ => false
  end.
(* as above: dependency_resolution.rs 27-34 *)
Definition opt_excluded (ann : option (list (string * json))) : bool :=
  match ann with Some a => is_excluded a | None => false end.
(* 42-49: is_group_excluded *)
Definition is_group_excluded (ann : option (list (string * json))) (v : option visibility)
  (t : group_type) : bool :=
  opt_excluded ann ||
  (group_type_eqb t GAttributeGroup && match v with Some Public => false | _ => true end).
(* as above: dependency_resolution.rs 42-49 *)
Definition ug_excluded (u : ugroup) : bool :=
  is_group_excluded (g_annotations (ug_group u)) (ug_visibility u) (g_type (ug_group u)).

(* group.rs 670-683: Display for GroupType *)
Definition group_type_text (t : group_type) : string :=
  match t with
  | GAttributeGroup => "attribute_group" | GSpan => "span" | GEvent => "event"
  | GMetric => "metric" | GMetricGroup => "metric_group" | GEntity => "entity"
  | GScope => "scope" | GUndefined => "undefined"
  end.

(* ---------- merge.rs ---------- *)
(* 30-46: merge_yaml_values, as a fold over the entries of the override *)
Fixpoint merge_json (o : json) (base : json) {struct o} : json :=
  match o with
  | JObj om =>
    match base with
    | JObj bm =>
      JObj ((fix go (om : list (string * json)) (acc : list (string * json)) {struct om} :=
               match om with
               | [] => acc
               | (k, v) :: r =>
                 go r (match slookup k acc with
                       | Some b => sinsert k (merge_json v b) acc
                       | None => app acc [(k, v)]
                       end)
               end) om bm)
    | _ => o
    end
  | _ => o
  end.
(* 12-25: merge_annotations *)
Fixpoint merge_annotations (base over : list (string * json)) : list (string * json) :=
  match over with
  | [] => base
  | (k, v) :: r =>
    merge_annotations (match slookup k base with
                       | Some b => bt_insert k (merge_json v b) base
                       | None => bt_insert k v base
                       end) r
  end.

(* ---------- group summaries (dependency.rs 33-94) ---------- *)
Record summary := {
  sm_type : group_type; sm_brief : string; sm_note : string; sm_stability : option stability;
  sm_deprecated : option deprecated; sm_metric_name : option string;
  sm_instrument : option instrument; sm_unit : option string; sm_level : option signal_level;
  sm_span_kind : option span_kind; sm_span_name : option string; sm_attributes : list uattr;
  sm_annotations : option (list (string * json)); sm_local : bool
}.
(* 75-93: from_without_attributes, followed by setting the attributes *)
Definition summary_of (g : group) (attrs : list uattr) (loc : bool) : summary :=
  {| sm_type := g_type g; sm_brief := g_brief g; sm_note := g_note g;
     sm_stability := g_stability g; sm_deprecated := g_deprecated g;
     sm_metric_name := g_metric_name g; sm_instrument := g_instrument g; sm_unit := g_unit g;
     sm_level := g_level g; sm_span_kind := g_span_kind g; sm_span_name := g_span_name g;
     sm_attributes := attrs; sm_annotations := g_annotations g; sm_local := loc |}.

(* ---------- conflict_strategy.rs ---------- *)
(* what resolution asks of a schema url (schema_url.rs 76-123), the versions chosen in the
   dependency graph and the cached schemas (lib.rs 265-324) *)
Definition version_gtb (a b : version) : bool := match ver_cmp a b with Gt => true | _ => false end.

Section Conflict.
  Variable url_name : string -> string.
  Variable url_semver : string -> option version.

  (* 27-51: UseLatestMajorVersion::resolve_conflict *)
  Definition latest_major (u1 u2 : string) : rr string :=
    if negb (String.eqb (url_name u1) (url_name u2)) then Bad (XAmbiguous "registry mismatch" u1 u2)
    else
      match url_semver u1 with
      | None => Bad (XBadSemver u1)
      | Some v1 =>
        match url_semver u2 with
        | None => Bad (XBadSemver u2)
        | Some v2 =>
          if N.eqb (v_major v1) (v_major v2) then Got (if version_gtb v1 v2 then u1 else u2)
          else Bad (XIncompatible (url_name u1) u1 u2)
        end
      end.
End Conflict.

(* ---------- dependencies and the catalog (attribute.rs) ---------- *)
(* attribute.rs 36-56 *)
Inductive attr_source := SLocal (group : string) | SDep (url : string).
(* as above: attribute.rs 36-56 *)
Record sourced := { ws_attr : attribute; ws_source : attr_source; ws_def : bool }.

(* weaver_resolved_schema/src/catalog.rs 31-43: RootAttribute *)
Record root_attr := { ra_attr : attribute; ra_source : string; ra_def : bool }.

(* dependency.rs 98-103 / lib.rs 42-49: a resolved schema of either version *)
Inductive dependency :=
| D1 (s : schema1) (roots : list (string * root_attr))
| D2 (s : schema2).

(* registry.rs (resolved schema) 509-513: Group::provenance, the schema url *)
Definition g_url (g : group) : option string :=
  option_map (fun l => pv_url (gl_provenance l)) (g_lineage g).

(* what a registry is resolved with *)
(* used by recorded_url: attribute.rs 585-603, dependency.rs 283-304 *)
Record env := {
  ev_name : string -> string;              (* SchemaUrl::name *)
  ev_semver : string -> option version;    (* SchemaUrl::semver *)
  ev_parse : string -> option string;      (* SchemaUrl::try_from *)
  ev_chosen : string -> option string;     (* SchemaCacheLookup::chosen_version *)
  ev_cached : string -> option dependency; (* SchemaCacheLookup::lookup_schema *)
  ev_deps : list dependency
}.

(* used by recorded_url: attribute.rs 585-603, dependency.rs 283-304 *)
Definition first_some {A B} (f : A -> option B) : list A -> option B :=
  fix go (l : list A) := match l with [] => None | x :: r => match f x with Some b => Some b | None => go r end end.

(* attribute.rs 585-603, dependency.rs 283-304: the url behind the recorded source group *)
Definition recorded_url (e : env) (s : schema1) (source : string) : option string :=
  match strip_prefix "v2_dependency." source with
  | Some name =>
    match find (fun u => String.eqb (ev_name e u) name) (s1_dependencies s) with
    | Some u => Some u
    | None => first_some (fun g => match g_url g with
                                   | Some u => if String.eqb (ev_name e u) name then Some u else None
                                   | None => None
                                   end) (s1_groups s)
    end
  | None =>
    match find (fun g => String.eqb (g_id g) source) (s1_groups s) with
    | Some g => g_url g
    | None => None
    end
  end.

(* attribute.rs 574-666: V1Schema::lookup_attribute *)
Definition lookup_attr1 (e : env) (s : schema1) (roots : list (string * root_attr)) (key : string)
  : option sourced :=
  match slookup key roots with
  | Some r =>
    if ra_def r then
      Some {| ws_attr := ra_attr r;
              ws_source := match recorded_url e s (ra_source r) with
                           | Some u => SDep u
                           | None => SLocal (ra_source r)
                           end;
              ws_def := true |}
    else None
  | None =>
    first_some
      (fun g => first_some
         (fun ar => match nth_error (s1_catalog s) ar with
                    | Some a =>
                      if String.eqb (at_name a) key then
                        Some {| ws_attr := a;
                                ws_source := match g_url g with Some u => SDep u | None => SLocal (g_id g) end;
                                ws_def := true |}
                      else None
                    | None => None
                    end) (g_attributes g)) (s1_groups s)
  end.

(* attribute.rs 684-724: the v1 form of a v2 attribute definition *)
Definition attribute_of_v2 (a : attribute2) (r : req_level) (s : option bool) (role : option attr_role) : attribute :=
  {| at_name := a2_key a; at_type := a2_type a; at_brief := c_brief (a2_common a);
     at_examples := a2_examples a; at_tag := None; at_req := r; at_sampling := s;
     at_note := c_note (a2_common a); at_stability := Some (c_stability (a2_common a));
     at_deprecated := c_deprecated (a2_common a); at_prefix := false;
     at_annotations := Some (c_annotations (a2_common a)); at_role := role |}.
(* dependency.rs 336-347: v2_source_url *)
Definition source_url2 (s : schema2) (p : option nat) : string :=
  match p with
  | Some i => opt_get (nth_error (s2_dependencies s) i) (s2_url s)
  | None => s2_url s
  end.
(* attribute.rs 668-731: V2Schema::lookup_attribute *)
Definition lookup_attr2 (s : schema2) (key : string) : option sourced :=
  first_some
    (fun ar => match nth_error (s2_catalog s) ar with
               | Some a =>
                 if String.eqb (a2_key a) key then
                   Some {| ws_attr := attribute_of_v2 a RRequired None None;
                           ws_source := SDep (source_url2 s (p2_source (a2_provenance a)));
                           ws_def := true |}
                 else None
               | None => None
               end) (r2_attributes (s2_registry s)).

(* attribute.rs 534-542: WeaverResolvedSchema::lookup_attribute *)
Definition schema_lookup_attr (e : env) (d : dependency) (key : string) : option sourced :=
  match d with D1 s roots => lookup_attr1 e s roots key | D2 s => lookup_attr2 s key end.
(* attribute.rs 576-598 (ResolvedDependency): a local source becomes the dependency itself *)
Definition dep_lookup_attr (e : env) (d : dependency) (key : string) : rr (option sourced) :=
  match d with
  | D1 s roots =>
    match lookup_attr1 e s roots key with
    | Some at_ =>
      match ws_source at_ with
      | SLocal _ =>
        match ev_parse e (s1_url s) with
        | Some u => Got (Some {| ws_attr := ws_attr at_; ws_source := SDep u; ws_def := ws_def at_ |})
        | None => Bad (XInvalidUrl (s1_url s))
        end
      | SDep _ => Got (Some at_)
      end
    | None => Got None
    end
  | D2 s => Got (lookup_attr2 s key)
  end.

(* attribute.rs 191-235: resolve_conflict *)
Definition resolve_conflict (e : env) (key : string) (m existing : sourced) : rr sourced :=
  let mx := opt_excluded (at_annotations (ws_attr m)) in
  let ex := opt_excluded (at_annotations (ws_attr existing)) in
  if negb (Bool.eqb mx ex) then Got (if mx then existing else m)
  else
    match ws_def m, ws_def existing with
    | true, false => Got m
    | false, true => Got existing
    | _, _ =>
      match ws_source m, ws_source existing with
      | SLocal _, SLocal _ => Got existing
      | SLocal _, SDep _ => Got existing
      | SDep _, SLocal _ => Got m
      | SDep u1, SDep u2 =>
        match latest_major (ev_name e) (ev_semver e) u1 u2 with
        | Got w => if String.eqb w u2 then Got existing else Got m
        | Bad _ => Bad (XAmbiguous key u1 u2)
        end
      end
    end.

(* attribute.rs 544-572: Vec<ResolvedDependency>::lookup_attribute *)
Fixpoint fold_matches (e : env) (key : string) (acc : option sourced) (l : list sourced) : rr (option sourced) :=
  match l with
  | [] => Got acc
  | m :: r =>
    match acc with
    | None => fold_matches e key (Some m) r
    | Some existing =>
      let mx := opt_excluded (at_annotations (ws_attr m)) in
      let ex := opt_excluded (at_annotations (ws_attr existing)) in
      if mx || ex then fold_matches e key (Some (if mx then existing else m)) r
      else rr_bind (resolve_conflict e key m existing) (fun w => fold_matches e key (Some w) r)
    end
  end.
(* as above: attribute.rs 544-572 *)
Fixpoint collect_matches (e : env) (key : string) (ds : list dependency) : rr (list sourced) :=
  match ds with
  | [] => Got []
  | d :: r =>
    rr_bind (dep_lookup_attr e d key)
      (fun o => rr_bind (collect_matches e key r)
         (fun l => Got (match o with Some m => m :: l | None => l end)))
  end.
(* as above: attribute.rs 544-572 *)
Definition deps_lookup_attr (e : env) (key : string) : rr (option sourced) :=
  rr_bind (collect_matches e key (ev_deps e)) (fold_matches e key None).

(* attribute.rs 100-132: upgrade_attribute_with_source *)
Definition upgrade_attr (e : env) (a : sourced) : rr sourced :=
  match ws_source a with
  | SLocal _ => Got a
  | SDep u =>
    match ev_chosen e (ev_name e u) with
    | None => Got a
    | Some chosen =>
      if String.eqb chosen u then Got a
      else
        rr_bind (latest_major (ev_name e) (ev_semver e) u chosen)
          (fun w =>
             if String.eqb w chosen then
               match ev_cached e chosen with
               | None => Got a
               | Some d =>
                 match schema_lookup_attr e d (at_name (ws_attr a)) with
                 | Some up => Got {| ws_attr := ws_attr up; ws_source := SDep chosen; ws_def := ws_def up |}
                 | None => Bad (XNotInUpgraded (at_name (ws_attr a)) u chosen)
                 end
               end
             else Got a)
    end
  end.

(* equality of attributes, the key of the catalog's HashMap *)
Lemma num_eq_dec (a b : num) : {a = b} + {a <> b}.
Proof. decide equality; [apply Z.eq_dec | apply N.eq_dec]. Defined.
(* no counterpart: PartialEq of serde_json::Value *)
Fixpoint json_eq_dec (a b : json) : {a = b} + {a <> b}.
Proof.
  decide equality.
  - apply Bool.bool_dec.
  - apply num_eq_dec.
  - apply String.string_dec.
  - apply (list_eq_dec json_eq_dec).
  - apply list_eq_dec. intros [k v] [k' v'].
    destruct (String.string_dec k k') as [Hk|Hk]; [|right; congruence].
    destruct (json_eq_dec v v') as [Hv|Hv]; [left; congruence | right; congruence].
Defined.
Lemma value_spec_eq_dec (a b : value_spec) : {a = b} + {a <> b}.
Proof. decide equality; [apply Z.eq_dec | apply N.eq_dec | apply String.string_dec | apply Bool.bool_dec]. Defined.
Lemma annotations_eq_dec (a b : option (list (string * json))) : {a = b} + {a <> b}.
Proof.
  decide equality. apply list_eq_dec. intros [k v] [k' v'].
  destruct (String.string_dec k k') as [Hk|Hk]; [|right; congruence].
  destruct (json_eq_dec v v') as [Hv|Hv]; [left; congruence | right; congruence].
Defined.
Lemma opt_string_dec (a b : option string) : {a = b} + {a <> b}.
Proof. decide equality. apply String.string_dec. Defined.
Lemma deprecated_eq_dec (a b : deprecated) : {a = b} + {a <> b}.
Proof. decide equality; try apply String.string_dec. apply opt_string_dec. Defined.
Lemma stability_eq_dec (a b : stability) : {a = b} + {a <> b}.
Proof. decide equality. Defined.
Lemma enum_entry_eq_dec (a b : enum_entry) : {a = b} + {a <> b}.
Proof.
  decide equality.
  - apply annotations_eq_dec.
  - decide equality. apply deprecated_eq_dec.
  - decide equality. apply stability_eq_dec.
  - apply opt_string_dec.
  - apply opt_string_dec.
  - apply value_spec_eq_dec.
  - apply String.string_dec.
Defined.
Lemma attr_type_eq_dec (a b : attr_type) : {a = b} + {a <> b}.
Proof. decide equality; [decide equality | decide equality | apply (list_eq_dec enum_entry_eq_dec)]. Defined.
Lemma req_level_eq_dec (a b : req_level) : {a = b} + {a <> b}.
Proof. decide equality; apply String.string_dec. Defined.
Lemma examples_eq_dec (a b : examples) : {a = b} + {a <> b}.
Proof.
  decide equality;
    repeat match goal with
    | |- {?x = ?y} + {_} => first
        [ apply Bool.bool_dec | apply Z.eq_dec | apply N.eq_dec | apply String.string_dec
        | apply value_spec_eq_dec | apply list_eq_dec; intros ]
    end.
Defined.
Lemma attribute_eq_dec (a b : attribute) : {a = b} + {a <> b}.
Proof.
  decide equality.
  - decide equality. decide equality.
  - apply annotations_eq_dec.
  - apply Bool.bool_dec.
  - decide equality. apply deprecated_eq_dec.
  - decide equality. apply stability_eq_dec.
  - apply String.string_dec.
  - decide equality. apply Bool.bool_dec.
  - apply req_level_eq_dec.
  - apply opt_string_dec.
  - decide equality. apply examples_eq_dec.
  - apply String.string_dec.
  - apply attr_type_eq_dec.
  - apply String.string_dec.
Defined.
(* used by attribute_ref: attribute.rs 69-75 *)
Definition attribute_eqb (a b : attribute) : bool := if attribute_eq_dec a b then true else false.

(* attribute.rs 24-33: AttributeCatalog *)
Record catalog := { ct_refs : list (attribute * nat); ct_roots : list (string * sourced) }.
(* as above: attribute.rs 24-33 *)
Definition empty_catalog : catalog := {| ct_refs := []; ct_roots := [] |}.
(* as above: attribute.rs 24-33 *)
Definition set_root (k : string) (s : sourced) (c : catalog) : catalog :=
  {| ct_refs := ct_refs c; ct_roots := sinsert k s (ct_roots c) |}.

(* attribute.rs 69-75: attribute_ref *)
Definition attribute_ref (a : attribute) (c : catalog) : nat * catalog :=
  match lookup attribute_eqb a (ct_refs c) with
  | Some r => (r, c)
  | None => (length (ct_refs c), {| ct_refs := app (ct_refs c) [(a, length (ct_refs c))]; ct_roots := ct_roots c |})
  end.

(* attribute.rs 139-171: attribute_ref_with_provenance *)
Definition attribute_ref_prov (e : env) (a : attribute) (src : attr_source) (c : catalog) : rr (nat * catalog) :=
  rr_bind (upgrade_attr e {| ws_attr := a; ws_source := src; ws_def := true |})
    (fun n =>
       let '(r, c1) := attribute_ref (ws_attr n) c in
       rr_bind (match slookup (at_name a) (ct_roots c1) with
                | Some existing => resolve_conflict e (at_name a) n existing
                | None => Got n
                end)
         (fun root => Got (r, set_root (at_name a) root c1))).

(* attribute.rs 355-373, 375-390: the lineage of a resolved reference *)
Definition source_label (e : env) (s : attr_source) : string :=
  match s with SLocal g => g | SDep u => "v2_dependency." ++ ev_name e u end.
(* as above: attribute.rs 355-373, attribute.rs 375-390 *)
Definition ref_lineage (r : ref_spec) (root : attribute) (l : attr_lineage) : attr_lineage :=
  lin_opt "annotations" (rs_annotations r) (at_annotations root)
  (lin_opt "role" (rs_role r) (at_role root)
  (lin_opt "deprecated" (rs_deprecated r) (at_deprecated root)
  (lin_opt "stability" (rs_stability r) (at_stability root)
  (lin_val "note" (rs_note r)
  (lin_opt "sampling_relevant" (rs_sampling r) (at_sampling root)
  (lin_val "requirement_level" (rs_req r)
  (lin_opt "tag" (rs_tag r) (at_tag root)
  (lin_opt "examples" (rs_examples r) (at_examples root)
  (lin_val "brief" (rs_brief r) l))))))))).
(* attribute.rs 382-411: the resolved attribute of a reference *)
Definition apply_ref (r : ref_spec) (root : attribute) (name : string) : attribute :=
  {| at_name := name; at_type := at_type root; at_brief := opt_get (rs_brief r) (at_brief root);
     at_examples := opt_or (rs_examples r) (at_examples root);
     at_tag := opt_or (rs_tag r) (at_tag root);
     at_req := opt_get (rs_req r) (at_req root);
     at_sampling := opt_or (rs_sampling r) (at_sampling root);
     at_note := opt_get (rs_note r) (at_note root);
     at_stability := opt_or (rs_stability r) (at_stability root);
     at_deprecated := opt_or (rs_deprecated r) (at_deprecated root);
     at_prefix := rs_prefix r;
     at_annotations := opt_or (rs_annotations r) (at_annotations root);
     at_role := opt_or (rs_role r) (at_role root) |}.
(* attribute.rs 455-472: the attribute of a definition *)
Definition attribute_of_id (i : id_spec) : attribute :=
  {| at_name := is_id i; at_type := is_type i; at_brief := opt_get (is_brief i) "";
     at_examples := is_examples i; at_tag := is_tag i; at_req := is_req i;
     at_sampling := is_sampling i; at_note := is_note i; at_stability := is_stability i;
     at_deprecated := is_deprecated i; at_prefix := false; at_annotations := is_annotations i;
     at_role := is_role i |}.

(* attribute.rs 299-500: resolve.  The result carries the reference, the catalog and the
   lineage entry to record; None is "not resolvable yet", with the catalog unchanged. *)
Definition resolve_attr (e : env) (gid gprefix : string) (gexcl : bool) (a : uattr) (c : catalog)
  : rr (option (nat * catalog * option (string * attr_lineage))) :=
  match ua_spec a with
  | SRef r =>
    let own := match slookup (rs_ref r) (ct_roots c) with
               | Some s => if ws_def s then Some s else None
               | None => None
               end in
    rr_bind
      (match own with
       | Some s => Got (Some (s, c))
       | None =>
         rr_bind (deps_lookup_attr e (rs_ref r))
           (fun o => match o with
                     | Some s => rr_bind (upgrade_attr e s) (fun s' => Got (Some (s', set_root (rs_ref r) s' c)))
                     | None => Got None
                     end)
       end)
      (fun found =>
         match found with
         | None => Got None
         | Some (root, c1) =>
           let texcl := opt_excluded (at_annotations (ws_attr root)) in
           let fails := match ws_source root with SDep _ => texcl | SLocal _ => texcl && negb gexcl end in
           if fails then Bad (XExcluded (rs_ref r) "Attribute" gid)
           else
             let name := if rs_prefix r then gprefix ++ "." ++ rs_ref r else rs_ref r in
             let res := apply_ref r (ws_attr root) name in
             let '(ar, c2) := attribute_ref res c1 in
             let lin := ref_lineage r (ws_attr root) (al_new (source_label e (ws_source root))) in
             let c3 := if rs_prefix r
                       then set_root name {| ws_attr := res; ws_source := SLocal gid; ws_def := true |} c2
                       else c2 in
             Got (Some (ar, c3, Some (name, lin)))
         end)
  | SId i =>
    if negb gexcl && opt_excluded (is_annotations i) then Bad (XExcluded (is_id i) "Attribute" gid)
    else
      let at_ := attribute_of_id i in
      let root := {| ws_attr := at_;
                     ws_source := match ua_origin a with Some u => SDep u | None => SLocal gid end;
                     ws_def := negb (is_some (ua_origin a)) |} in
      rr_bind (match slookup (is_id i) (ct_roots c) with
               | Some existing => resolve_conflict e (is_id i) root existing
               | None => Got root
               end)
        (fun root' =>
           let '(ar, c2) := attribute_ref at_ (set_root (is_id i) root' c) in
           Got (Some (ar, c2, None)))
  end.

(* ---------- inheritance (registry.rs 1203-1295): resolve_inheritance_attr ---------- *)
Definition inherit_attr (a parent : attr_spec) : attr_spec :=
  match a with
  | SRef r =>
    match parent with
    | SRef p =>
      SRef {| rs_ref := rs_ref r; rs_brief := opt_or (rs_brief r) (rs_brief p);
              rs_examples := opt_or (rs_examples r) (rs_examples p);
              rs_tag := opt_or (rs_tag r) (rs_tag p); rs_req := opt_or (rs_req r) (rs_req p);
              rs_sampling := opt_or (rs_sampling r) (rs_sampling p);
              rs_note := opt_or (rs_note r) (rs_note p);
              rs_stability := opt_or (rs_stability r) (rs_stability p);
              rs_deprecated := opt_or (rs_deprecated r) (rs_deprecated p);
              rs_prefix := if rs_prefix r then true else rs_prefix p;
              rs_annotations := opt_or (rs_annotations r) (rs_annotations p);
              rs_role := opt_or (rs_role r) (rs_role p) |}
    | SId p =>
      SId {| is_id := rs_ref r; is_type := is_type p; is_brief := opt_or (rs_brief r) (is_brief p);
             is_examples := opt_or (rs_examples r) (is_examples p);
             is_tag := opt_or (rs_tag r) (is_tag p); is_req := opt_get (rs_req r) (is_req p);
             is_sampling := opt_or (rs_sampling r) (is_sampling p);
             is_note := opt_get (rs_note r) (is_note p);
             is_stability := opt_or (rs_stability r) (is_stability p);
             is_deprecated := opt_or (rs_deprecated r) (is_deprecated p);
             is_annotations := opt_or (rs_annotations r) (is_annotations p);
             is_role := opt_or (rs_role r) (is_role p) |}
    end
  | SId _ => a
  end.
(* the lineage updates made on the way, in the same order *)
(* used by add_base: registry.rs 1111-1141 *)
Definition inherit_lineage (a parent : attr_spec) (l : attr_lineage) : attr_lineage :=
  match a with
  | SRef r =>
    match parent with
    | SRef p =>
      lin_opt "role" (rs_role r) (rs_role p)
      (lin_opt "annotations" (rs_annotations r) (rs_annotations p)
      (lin_flag "prefix" (rs_prefix r) (rs_prefix p)
      (lin_opt "deprecated" (rs_deprecated r) (rs_deprecated p)
      (lin_opt "stability" (rs_stability r) (rs_stability p)
      (lin_opt "note" (rs_note r) (rs_note p)
      (lin_opt "sampling_relevant" (rs_sampling r) (rs_sampling p)
      (lin_opt "requirement_level" (rs_req r) (rs_req p)
      (lin_opt "tag" (rs_tag r) (rs_tag p)
      (lin_opt "examples" (rs_examples r) (rs_examples p)
      (lin_opt "brief" (rs_brief r) (rs_brief p) l))))))))))
    | SId p =>
      lin_opt "role" (rs_role r) (is_role p)
      (lin_opt "annotations" (rs_annotations r) (is_annotations p)
      (lin_opt "deprecated" (rs_deprecated r) (is_deprecated p)
      (lin_opt "stability" (rs_stability r) (is_stability p)
      (lin_val "note" (rs_note r)
      (lin_opt "sampling_relevant" (rs_sampling r) (is_sampling p)
      (lin_val "requirement_level" (rs_req r)
      (lin_opt "tag" (rs_tag r) (is_tag p)
      (lin_opt "examples" (rs_examples r) (is_examples p)
      (lin_opt "brief" (rs_brief r) (is_brief p) l)))))))))
    end
  | SId _ => l
  end.

(* registry.rs 1099-1103: AttrWithLineage *)
Record awl := { aw_spec : attr_spec; aw_lineage : attr_lineage; aw_origin : option string }.
(* as above: registry.rs 1099-1103 *)
Definition ua_id (a : uattr) : string := spec_id (ua_spec a).
(* as above: registry.rs 1099-1103 *)
Definition set_source (s : string) (l : attr_lineage) : attr_lineage :=
  {| al_source := s; al_inherited := al_inherited l; al_overridden := al_overridden l |}.

(* registry.rs 1111-1141: one attribute of a base *)
Definition add_base (gid : string) (m : list (string * awl)) (a : uattr) : list (string * awl) :=
  match slookup (ua_id a) m with
  | Some x =>
    bt_insert (ua_id a)
      {| aw_spec := inherit_attr (ua_spec a) (aw_spec x);
         aw_lineage := set_source gid (inherit_lineage (ua_spec a) (aw_spec x) (aw_lineage x));
         aw_origin := ua_origin a |} m
  | None =>
    bt_insert (ua_id a)
      {| aw_spec := ua_spec a; aw_lineage := al_inherit_from gid (ua_spec a); aw_origin := ua_origin a |} m
  end.
(* registry.rs 1144-1177: one attribute of the group itself *)
Definition add_own (gid : string) (m : list (string * awl)) (a : uattr) : list (string * awl) :=
  match ua_spec a with
  | SRef r =>
    match slookup (rs_ref r) m with
    | Some x =>
      bt_insert (rs_ref r)
        {| aw_spec := inherit_attr (ua_spec a) (aw_spec x);
           aw_lineage := inherit_lineage (ua_spec a) (aw_spec x) (aw_lineage x);
           aw_origin := aw_origin x |} m
    | None =>
      bt_insert (rs_ref r)
        {| aw_spec := ua_spec a; aw_lineage := al_new gid; aw_origin := ua_origin a |} m
    end
  | SId i =>
    bt_insert (is_id i) {| aw_spec := ua_spec a; aw_lineage := al_new gid; aw_origin := ua_origin a |} m
  end.
(* as above: registry.rs 1144-1177 *)
Definition inherited_map (gid : string) (own : list uattr) (bases : list (string * list uattr))
  : list (string * awl) :=
  fold_left (add_own gid) own
    (fold_left (fun m b => fold_left (add_base (fst b)) (snd b) m) bases []).
(* registry.rs 1093-1201: resolve_inheritance_attrs_unified *)
Definition inherit_attrs (gid : string) (own : list uattr) (bases : list (string * list uattr)) : list uattr :=
  map (fun kv => {| ua_spec := aw_spec (snd kv); ua_origin := aw_origin (snd kv) |}) (inherited_map gid own bases).
(* as above: registry.rs 1093-1201 *)
Definition inherit_group_lineage (gid : string) (own : list uattr) (bases : list (string * list uattr))
  (l : group_lineage) : group_lineage :=
  fold_left (fun l kv => if al_is_empty (aw_lineage (snd kv)) then l
                         else gl_add (spec_id (aw_spec (snd kv))) (aw_lineage (snd kv)) l)
    (inherited_map gid own bases) l.

(* registry.rs 1334-1355: excluded_parent_error *)
Definition excluded_parent (used_in : ugroup) (target : string) (s : summary) : option rerr :=
  if negb (sm_local s) then None
  else if negb (opt_excluded (sm_annotations s)) then None
  else if ug_excluded used_in then None
  else Some (XExcluded target (group_type_text (sm_type s)) (uid used_in)).

(* registry.rs 780-817: collect_included_group_attrs.  Some error is recorded exactly when
   the Rust function returns None. *)
Fixpoint dup_attrs (incs : list string) (seen : list string) (l : list uattr) : list rerr * list string :=
  match l with
  | [] => ([], seen)
  | a :: r =>
    if str_mem (ua_id a) seen then
      let '(es, seen') := dup_attrs incs seen r in (XDuplicateAttr incs (ua_id a) :: es, seen')
    else dup_attrs incs (ua_id a :: seen) r
  end.
(* as above: registry.rs 780-817 *)
Fixpoint collect_included (u : ugroup) (idx : list (string * summary)) (seen : list string)
  (incs : list string) : list rerr * list (string * list uattr) :=
  match incs with
  | [] => ([], [])
  | i :: r =>
    match slookup i idx with
    | None => let '(es, l) := collect_included u idx seen r in (XUnresolvedInclude (uid u) i :: es, l)
    | Some s =>
      match excluded_parent u i s with
      | Some err => let '(es, l) := collect_included u idx seen r in (err :: es, l)
      | None =>
        let '(ds, seen') := dup_attrs (ug_include u) seen (sm_attributes s) in
        let '(es, l) := collect_included u idx seen' r in
        (app ds es, (i, sm_attributes s) :: l)
      end
    end
  end.

(* dependency.rs 234-269: V1Schema::lookup_group_summary; find_attribute_source 274-332 *)
Definition attr_source1 (e : env) (s : schema1) (roots : list (string * root_attr)) (name my : string) : string :=
  match slookup name roots with
  | Some r => opt_get (recorded_url e s (ra_source r)) my
  | None =>
    match find (fun g => existsb (fun ar => match nth_error (s1_catalog s) ar with
                                            | Some a => String.eqb (at_name a) name
                                            | None => false
                                            end) (g_attributes g)) (s1_groups s) with
    | Some g => opt_get (g_url g) my
    | None => my
    end
  end.
(* as above: dependency.rs 234-269, dependency.rs 274-332 *)
Definition spec_of_attribute (a : attribute) : attr_spec :=
  SId {| is_id := at_name a; is_type := at_type a; is_brief := Some (at_brief a);
         is_examples := at_examples a; is_tag := at_tag a; is_req := at_req a;
         is_sampling := at_sampling a; is_note := at_note a; is_stability := at_stability a;
         is_deprecated := at_deprecated a; is_annotations := at_annotations a; is_role := at_role a |}.
(* as above: dependency.rs 234-269, dependency.rs 274-332 *)
Fixpoint somes {A} (l : list (option A)) : list A :=
  match l with [] => [] | Some x :: r => x :: somes r | None :: r => somes r end.
(* as above: dependency.rs 234-269, dependency.rs 274-332 *)
Definition summary1 (e : env) (s : schema1) (roots : list (string * root_attr)) (id : string) : option summary :=
  match find (fun g => String.eqb (g_id g) id) (s1_groups s) with
  | None => None
  | Some g =>
    Some (summary_of g
      (map (fun a => {| ua_spec := spec_of_attribute a;
                        ua_origin := option_map (fun my => attr_source1 e s roots (at_name a) my) (ev_parse e (s1_url s)) |})
           (somes (map (nth_error (s1_catalog s)) (g_attributes g)))) false)
  end.

(* dependency.rs 350-447: V2Schema::lookup_group_summary *)
Definition uattr2 (s : schema2) (role : option attr_role) (keep_sampling : bool) (u : attr_use) : option uattr :=
  option_map (fun a => {| ua_spec := spec_of_attribute
                            (attribute_of_v2 a (u_req u) (if keep_sampling then u_sampling u else None) role);
                          ua_origin := Some (source_url2 s (p2_source (a2_provenance a))) |})
    (nth_error (s2_catalog s) (u_base u)).
(* crates/weaver_resolver/src/dependency.rs 382-404 *)
Definition signal_summary (t : group_type) (c : common) (lvl : option signal_level) (attrs : list uattr)
  (mn : option string) (ins : option instrument) (un : option string) (k : option span_kind) (n : option string) : summary :=
  {| sm_type := t; sm_brief := c_brief c; sm_note := c_note c; sm_stability := Some (c_stability c);
     sm_deprecated := c_deprecated c; sm_metric_name := mn; sm_instrument := ins; sm_unit := un;
     sm_level := lvl; sm_span_kind := k; sm_span_name := n; sm_attributes := attrs;
     sm_annotations := Some (c_annotations c); sm_local := false |}.
(* as above: dependency.rs 350-447 *)
Definition find_signal {S} (name : S -> string) (prefix id : string) (l : list S) : option S :=
  let by_id n := find (fun s => String.eqb (name s) n) l in
  match (match strip_prefix prefix id with Some n => by_id n | None => None end) with
  | Some s => Some s
  | None => by_id id
  end.
(* as above: dependency.rs 350-447 *)
Definition summary2 (s : schema2) (id : string) : option summary :=
  match find_signal en2_type "entity." id (r2_entities (s2_registry s)) with
  | Some e =>
    Some (signal_summary GEntity (en2_common e) (en2_level e)
            (somes (app (map (uattr2 s (Some Identifying) false) (en2_identity e))
                        (map (uattr2 s (Some Descriptive) false) (en2_description e))))
            None None None None None)
  | None =>
  match find_signal me2_name "metric." id (r2_metrics (s2_registry s)) with
  | Some m =>
    Some (signal_summary GMetric (me2_common m) (me2_level m)
            (somes (map (uattr2 s None false) (me2_attributes m)))
            (Some (me2_name m)) (Some (me2_instrument m)) (Some (me2_unit m)) None None)
  | None =>
  match find_signal ev2_name "event." id (r2_events (s2_registry s)) with
  | Some e =>
    Some (signal_summary GEvent (ev2_common e) (ev2_level e)
            (somes (map (uattr2 s None false) (ev2_attributes e))) None None None None None)
  | None =>
  match find_signal sp2_type "span." id (r2_spans (s2_registry s)) with
  | Some p =>
    Some (signal_summary GSpan (sp2_common p) (sp2_level p)
            (somes (map (uattr2 s None true) (sp2_attributes p)))
            None None None (Some (sp2_kind p)) (Some (sp2_name p)))
  | None => None
  end end end end.
(* as above: dependency.rs 350-447 *)
Definition dep_summary (e : env) (id : string) (d : dependency) : option summary :=
  match d with D1 s roots => summary1 e s roots id | D2 s => summary2 s id end.

(* registry.rs 1305-1332: lookup_group_with_dependencies *)
Inductive found := FGot (s : summary) | FNone | FExcluded (t : group_type).
(* as above: registry.rs 1305-1332 *)
Fixpoint find_in_deps (e : env) (id : string) (ds : list dependency) (excl : option group_type) : found :=
  match ds with
  | [] => match excl with Some t => FExcluded t | None => FNone end
  | d :: r =>
    match dep_summary e id d with
    | Some s =>
      if opt_excluded (sm_annotations s)
      then find_in_deps e id r (match excl with Some t => Some t | None => Some (sm_type s) end)
      else FGot s
    | None => find_in_deps e id r excl
    end
  end.
(* as above: registry.rs 1305-1332 *)
Definition lookup_group (e : env) (idx : list (string * summary)) (id : string) : found :=
  match slookup id idx with
  | Some s => FGot s
  | None => find_in_deps e id (ev_deps e) None
  end.

(* registry.rs 862-905: inherit_v2_refinement_fields *)
Definition str_or (a b : string) : string := if String.eqb a "" then b else a.
(* as above: registry.rs 862-905 *)
Definition inherit_fields (g : group) (p : summary) : group :=
  {| g_id := g_id g; g_type := g_type g; g_brief := str_or (g_brief g) (sm_brief p);
     g_note := str_or (g_note g) (sm_note p); g_prefix := g_prefix g; g_extends := g_extends g;
     g_stability := opt_or (g_stability g) (sm_stability p);
     g_deprecated := opt_or (g_deprecated g) (sm_deprecated p);
     g_attributes := g_attributes g; g_span_kind := sm_span_kind p; g_events := g_events g;
     g_metric_name := sm_metric_name p; g_instrument := sm_instrument p; g_unit := sm_unit p;
     g_name := g_name g; g_lineage := g_lineage g; g_display_name := g_display_name g;
     g_body := g_body g;
     g_annotations :=
       (let base := opt_get (sm_annotations p) [] in
        match (match g_annotations g with Some c => merge_annotations base c | None => base end) with
        | [] => None
        | m => Some m
        end);
     g_assocs := g_assocs g; g_visibility := g_visibility g; g_is_v2 := g_is_v2 g;
     g_span_name := opt_or (g_span_name g) (sm_span_name p); g_level := sm_level p |}.
(* as above: registry.rs 862-905 *)
Definition refinement_errors (u : ugroup) (target : string) (p : summary) : list rerr :=
  if ug_is_v2 u && negb (group_type_eqb (g_type (ug_group u)) (sm_type p))
  then [XInvalidRefinement (uid u) target] else [].

(* registry.rs 1053-1091: entity_identity_refinement_errors *)
Definition role_of (a : attr_spec) : option attr_role :=
  match a with SRef r => rs_role r | SId i => is_role i end.
(* as above: registry.rs 1053-1091 *)
Definition role_eqb (a b : attr_role) : bool :=
  match a, b with Identifying, Identifying | Descriptive, Descriptive => true | _, _ => false end.
(* as above: registry.rs 1053-1091 *)
Definition identity_error (u : ugroup) (target : string) (parent : list uattr) (a : uattr) : option rerr :=
  match ua_spec a with
  | SId _ => None
  | SRef r =>
    match rs_role r with
    | None => None
    | Some role =>
      let changes :=
        match find (fun p => String.eqb (ua_id p) (rs_ref r)) parent with
        | Some base => match role_of (ua_spec base) with Some b => negb (role_eqb b role) | None => false end
        | None => role_eqb role Identifying
        end in
      if changes then Some (XIdentity (uid u) target (rs_ref r) role) else None
    end
  end.
(* as above: registry.rs 1053-1091 *)
Definition identity_errors (u : ugroup) (target : string) (p : summary) : list rerr :=
  if ug_is_v2 u && group_type_eqb (g_type (ug_group u)) GEntity && group_type_eqb (sm_type p) GEntity
  then somes (map (identity_error u target (sm_attributes p)) (ug_attrs u)) else [].

(* registry.rs 948-1027 and 754-775: the end of the treatment of one group, once its parent
   and its included groups are known *)
Definition finish_group (u : ugroup) (parent : option (string * summary))
  (included : list (string * list uattr)) : ugroup :=
  let g1 := match parent with
            | None => ug_group u
            | Some (pid, s) =>
              let g := upd_lineage (gl_extend pid (sm_type s)) (ug_group u) in
              if ug_is_v2 u then inherit_fields g s else g
            end in
  let g2 := upd_lineage (gl_include (ug_include u)) g1 in
  let bases := app (match parent with Some (pid, s) => [(pid, sm_attributes s)] | None => [] end) included in
  let g3 := upd_lineage (inherit_group_lineage (uid u) (ug_attrs u) bases) g2 in
  clear_include (with_attrs (with_group u (set_extends None g3)) (inherit_attrs (uid u) (ug_attrs u) bases)).

(* registry.rs 912-1049: resolve_extends_references *)
Record round := {
  rd_groups : list ugroup;   (* the groups after the round *)
  rd_errors : list rerr; rd_fatal : list rerr; rd_count : nat
}.
(* as above: registry.rs 912-1049 *)
Definition is_settled (u : ugroup) : bool :=
  match g_extends (ug_group u), ug_include u with None, [] => true | _, _ => false end.
(* as above: registry.rs 912-1049 *)
Definition local_summary (u : ugroup) : summary := summary_of (ug_group u) (ug_attrs u) true.
(* 920-938: the index at the start of a round *)
Definition start_index (gs : list ugroup) : list (string * summary) :=
  fold_left (fun idx u => if is_settled u then sinsert (uid u) (local_summary u) idx else idx) gs [].
(* one group: the group afterwards, what it adds to the index, errors, fatal errors *)
(* crates/weaver_resolver/src/registry.rs 912-1050 *)
Inductive step := Skip | Wait (es : list rerr) | Finish (u : ugroup) (es fatal : list rerr).
(* crates/weaver_resolver/src/registry.rs 912-1050 *)
Definition ext_step (e : env) (idx : list (string * summary)) (u : ugroup) : step :=
  if is_settled u then Skip
  else
    match collect_included u idx [] (ug_include u) with
    | (e1 :: es, _) => Wait (e1 :: es)
    | ([], included) =>
      match g_extends (ug_group u) with
      | None => Finish (finish_group u None included) [] []
      | Some pid =>
        match lookup_group e idx pid with
        | FNone => Wait [XUnresolvedExtends (uid u) pid]
        | FExcluded t => Wait [XExcluded pid (group_type_text t) (uid u)]
        | FGot s =>
          match excluded_parent u pid s with
          | Some err => Wait [err]
          | None => Finish (finish_group u (Some (pid, s)) included) (refinement_errors u pid s)
                      (identity_errors u pid s)
          end
        end
      end
    end.
(* crates/weaver_resolver/src/registry.rs 912-1050 *)
Fixpoint ext_groups (e : env) (idx : list (string * summary)) (gs : list ugroup) : round :=
  match gs with
  | [] => {| rd_groups := []; rd_errors := []; rd_fatal := []; rd_count := 0 |}
  | u :: r =>
    match ext_step e idx u with
    | Skip =>
      let d := ext_groups e idx r in
      {| rd_groups := u :: rd_groups d; rd_errors := rd_errors d; rd_fatal := rd_fatal d; rd_count := rd_count d |}
    | Wait es =>
      let d := ext_groups e idx r in
      {| rd_groups := u :: rd_groups d; rd_errors := app es (rd_errors d); rd_fatal := rd_fatal d;
         rd_count := rd_count d |}
    | Finish u' es fs =>
      let d := ext_groups e (sinsert (uid u') (local_summary u') idx) r in
      {| rd_groups := u' :: rd_groups d; rd_errors := app es (rd_errors d);
         rd_fatal := app fs (rd_fatal d); rd_count := S (rd_count d) |}
    end
  end.
(* crates/weaver_resolver/src/registry.rs 912-1050 *)
Fixpoint ext_loop (fuel : nat) (e : env) (gs : list ugroup) (fatal : list rerr) : run (list ugroup) :=
  match fuel with
  | 0 => Running
  | S f =>
    let d := ext_groups e (start_index gs) gs in
    let fatal' := app fatal (rd_fatal d) in
    match rd_errors d with
    | [] => match fatal' with [] => Done (rd_groups d) | _ => Failed fatal' end
    | es => if Nat.eqb (rd_count d) 0 then Failed (app fatal' es) else ext_loop f e (rd_groups d) fatal'
    end
  end.
(* crates/weaver_resolver/src/registry.rs 912-1050 *)
Definition resolve_extends (e : env) (gs : list ugroup) : run (list ugroup) :=
  ext_loop (S (length gs)) e gs [].

(* ---------- attribute references (registry.rs 635-751) ---------- *)
(* the attributes of one group, in order *)
(* part of registry.rs 635-751 *)
Record visit := {
  vs_resolved : list nat; vs_left : list uattr; vs_errors : list rerr;
  vs_catalog : catalog; vs_lineage : option group_lineage
}.
(* part of registry.rs 635-751 *)
Definition is_excluded_err (err : rerr) : bool := match err with XExcluded _ _ _ => true | _ => false end.
(* part of registry.rs 635-751 *)
Definition is_id_spec (a : uattr) : bool := match ua_spec a with SId _ => true | SRef _ => false end.
(* [only_ids]: the first pass leaves references alone *)
(* part of registry.rs 635-751 *)
Fixpoint visit_attrs (e : env) (only_ids : bool) (u : ugroup) (l : list uattr) (c : catalog)
  (lin : option group_lineage) : rr visit :=
  match l with
  | [] => Got {| vs_resolved := []; vs_left := []; vs_errors := []; vs_catalog := c; vs_lineage := lin |}
  | a :: r =>
    if only_ids && negb (is_id_spec a) then
      rr_bind (visit_attrs e only_ids u r c lin)
        (fun v => Got {| vs_resolved := vs_resolved v; vs_left := a :: vs_left v; vs_errors := vs_errors v;
                         vs_catalog := vs_catalog v; vs_lineage := vs_lineage v |})
    else
      match resolve_attr e (uid u) (g_prefix (ug_group u)) (ug_excluded u) a c with
      | Got (Some (ar, c', entry)) =>
        rr_bind (visit_attrs e only_ids u r c'
                   (match entry with Some (k, al) => option_map (gl_add k al) lin | None => lin end))
          (fun v => Got {| vs_resolved := ar :: vs_resolved v; vs_left := vs_left v; vs_errors := vs_errors v;
                           vs_catalog := vs_catalog v; vs_lineage := vs_lineage v |})
      | Got None =>
        rr_bind (visit_attrs e only_ids u r c lin)
          (fun v => Got {| vs_resolved := vs_resolved v; vs_left := a :: vs_left v;
                           vs_errors := match ua_spec a with
                                        | SRef s => if only_ids then vs_errors v
                                                    else XUnresolvedAttr (uid u) (rs_ref s) :: vs_errors v
                                        | SId _ => vs_errors v
                                        end;
                           vs_catalog := vs_catalog v; vs_lineage := vs_lineage v |})
      | Bad err =>
        if is_excluded_err err then
          rr_bind (visit_attrs e only_ids u r c lin)
            (fun v => Got {| vs_resolved := vs_resolved v; vs_left := a :: vs_left v;
                             vs_errors := err :: vs_errors v; vs_catalog := vs_catalog v;
                             vs_lineage := vs_lineage v |})
        else Bad err
      end
  end.
(* one pass over the groups *)
(* part of registry.rs 635-751 *)
Record pass := { ps_groups : list ugroup; ps_errors : list rerr; ps_catalog : catalog; ps_count : nat }.
(* part of registry.rs 635-751 *)
Fixpoint visit_groups (e : env) (only_ids : bool) (gs : list ugroup) (c : catalog) : rr pass :=
  match gs with
  | [] => Got {| ps_groups := []; ps_errors := []; ps_catalog := c; ps_count := 0 |}
  | u :: r =>
    rr_bind (visit_attrs e only_ids u (ug_attrs u) c (g_lineage (ug_group u)))
      (fun v =>
         rr_bind (visit_groups e only_ids r (vs_catalog v))
           (fun p =>
              let g := set_lineage (vs_lineage v)
                         (set_attributes (app (g_attributes (ug_group u)) (vs_resolved v)) (ug_group u)) in
              Got {| ps_groups := with_attrs (with_group u g) (vs_left v) :: ps_groups p;
                     ps_errors := app (vs_errors v) (ps_errors p); ps_catalog := ps_catalog p;
                     ps_count := length (vs_resolved v) + ps_count p |}))
  end.
(* part of registry.rs 635-751 *)
Fixpoint refs_loop (fuel : nat) (e : env) (init : list rerr) (gs : list ugroup) (c : catalog)
  : run (list ugroup * catalog) :=
  match fuel with
  | 0 => Running
  | S f =>
    match visit_groups e false gs c with
    | Bad err => Failed [err]
    | Got p =>
      match app init (ps_errors p) with
      | [] => Done (ps_groups p, ps_catalog p)
      | es => if Nat.eqb (ps_count p) 0 then Failed es else refs_loop f e init (ps_groups p) (ps_catalog p)
      end
    end
  end.
(* part of registry.rs 635-751 *)
Definition pending (gs : list ugroup) : nat := list_sum (map (fun u => length (ug_attrs u)) gs).
(* part of registry.rs 635-751 *)
Definition resolve_references (e : env) (gs : list ugroup) (c : catalog) : run (list ugroup * catalog) :=
  match visit_groups e true gs c with
  | Bad err => Failed [err]
  | Got p => refs_loop (S (pending (ps_groups p))) e (ps_errors p) (ps_groups p) (ps_catalog p)
  end.

(* ---------- catalog compaction (attribute.rs 253-282, registry.rs 1360-1395) ---------- *)
(* attribute.rs 253-282: the map from old to new references, and the new catalog.  [order]
   is the iteration order of the HashMap, [leb] the derived order of attributes. *)
Definition mem_ref (n : nat) (l : list nat) : bool := existsb (Nat.eqb n) l.
(* as above: attribute.rs 253-282 *)
Fixpoint number {A} (i : nat) (l : list A) : list (A * nat) :=
  match l with [] => [] | x :: r => (x, i) :: number (S i) r end.
(* as above: attribute.rs 253-282 *)
Definition gc_sorted (leb : attribute -> attribute -> bool)
  (order : list (attribute * nat) -> list (attribute * nat))
  (used : list nat) (refs : list (attribute * nat)) : list (attribute * nat) :=
  stable_sort (fun x y => leb (fst x) (fst y)) (order (filter (fun p => mem_ref (snd p) used) refs)).
(* as above: attribute.rs 253-282 *)
Definition gc_map (l : list (attribute * nat)) : list (nat * nat) :=
  map (fun p => (snd (fst p), snd p)) (number 0 l).
(* as above: attribute.rs 253-282 *)
Definition gc_catalog (l : list (attribute * nat)) : list attribute := map fst l.
(* registry.rs 1360-1395 *)
Definition remap (m : list (nat * nat)) (a : nat) : nat := opt_get (lookup Nat.eqb a m) a.
(* as above: registry.rs 1360-1395 *)
Definition used_refs (gs : list ugroup) : list nat := flat_map (fun u => g_attributes (ug_group u)) gs.
(* as above: registry.rs 1360-1395 *)
Definition is_internal (u : ugroup) : bool :=
  match ug_visibility u with Some Internal => true | _ => false end.
(* as above: registry.rs 1360-1395 *)
Definition stabilize (leb : attribute -> attribute -> bool)
  (order : list (attribute * nat) -> list (attribute * nat))
  (gs : list ugroup) (c : catalog) : list group * list attribute :=
  let sorted := gc_sorted leb order (used_refs gs) (ct_refs c) in
  let m := gc_map sorted in
  let gs1 := map (fun u => with_group u (set_attributes (map (remap m) (g_attributes (ug_group u))) (ug_group u))) gs in
  let gs2 := stable_sort (fun x y => str_leb (uid x) (uid y)) gs1 in
  (map (fun u => set_attributes (stable_sort Nat.leb (g_attributes (ug_group u))) (ug_group u))
     (filter (fun u => negb (is_internal u)) gs2),
   gc_catalog sorted).

(* weaver_semconv/src/lib.rs 516-636: Ord for YamlValue, without tagged values; the order of
   numbers is a parameter *)
Definition yaml_rank (j : json) : nat :=
  match j with JNull => 0 | JBool _ => 1 | JNum _ => 2 | JStr _ => 3 | JArr _ => 4 | JObj _ => 5 end.
(* as above: weaver_semconv/src/lib.rs 516-636 *)
Definition yaml_cmp (num_cmp : num -> num -> comparison) (a b : json) : comparison :=
  match a, b with
  | JBool x, JBool y => match x, y with false, true => Lt | true, false => Gt | _, _ => Eq end
  | JNum x, JNum y => num_cmp x y
  | JStr x, JStr y => str_cmp x y
  | _, _ => Nat.compare (yaml_rank a) (yaml_rank b)
  end.
(* derived order of Option<BTreeMap<String, YamlValue>> *)
(* used by opt_ann_cmp: attribute.rs 25-27 *)
Fixpoint ann_cmp (num_cmp : num -> num -> comparison) (a b : list (string * json)) : comparison :=
  match a, b with
  | [], [] => Eq
  | [], _ => Lt
  | _, [] => Gt
  | (k, v) :: a', (k', v') :: b' =>
    match str_cmp k k' with
    | Eq => match yaml_cmp num_cmp v v' with Eq => ann_cmp num_cmp a' b' | o => o end
    | o => o
    end
  end.
(* used by attribute_leb: attribute.rs 25-27 *)
Definition opt_ann_cmp (num_cmp : num -> num -> comparison) (a b : option (list (string * json))) : comparison :=
  match a, b with
  | None, None => Eq
  | None, _ => Lt
  | _, None => Gt
  | Some x, Some y => ann_cmp num_cmp x y
  end.
(* resolved attribute.rs 25-27: the derived order; [before] compares the fields declared
   before the annotations, [after] those after them *)
Definition attribute_leb (before after : attribute -> attribute -> comparison)
  (num_cmp : num -> num -> comparison) (a b : attribute) : bool :=
  match before a b with
  | Lt => true
  | Gt => false
  | Eq => match opt_ann_cmp num_cmp (at_annotations a) (at_annotations b) with
          | Lt => true
          | Gt => false
          | Eq => match after a b with Gt => false | _ => true end
          end
  end.

(* ---------- checks on the resolved registry (registry.rs 244-367) ---------- *)
(* 279-308: check_uniqueness; [key_order] is the iteration order of the HashMap.  Provenances
   are counted, not listed. *)
Definition count_keys (key : group -> option string) (gs : list group) : list (string * nat) :=
  fold_left (fun m g => match key g with
                        | Some k => sinsert k (opt_get (slookup k m) 0 + (if is_some (g_lineage g) then 1 else 0)) m
                        | None => m
                        end) gs [].
(* crates/weaver_resolver/src/registry.rs 279-308 *)
Definition check_uniqueness (key : group -> option string) (mk : string -> rerr)
  (key_order : list (string * nat) -> list (string * nat)) (gs : list group) : list rerr :=
  map (fun kv => mk (fst kv)) (filter (fun kv => Nat.ltb 1 (snd kv)) (key_order (count_keys key gs))).
(* as above: registry.rs 279-308 *)
Definition metric_key (g : group) : option string := if is_v2_refinement g then None else g_metric_name g.
(* as above: registry.rs 279-308 *)
Definition name_key (g : group) : option string := if is_v2_refinement g then None else g_name g.
(* 328-367: check_root_attribute_id_duplicates; an index outside the name index panics in the
   code, here it is skipped (never reached, see C32) *)
Definition root_entries (names : list string) (gs : list group) : list (string * string) :=
  flat_map (fun g =>
    if group_type_eqb (g_type g) GAttributeGroup then
      match g_lineage g with
      | None => []
      | Some l => flat_map (fun ar => match nth_error names ar with
                                      | Some n => if gl_has l n then [] else [(n, g_id g)]
                                      | None => []
                                      end) (g_attributes g)
      end
    else []) gs.
(* as above: registry.rs 328-367 *)
Definition group_entries (es : list (string * string)) : list (string * list string) :=
  fold_left (fun m kv => sinsert (fst kv) (app (opt_get (slookup (fst kv) m) []) [snd kv]) m) es [].
(* as above: registry.rs 328-367 *)
Definition check_root_attrs (names : list string)
  (key_order : list (string * list string) -> list (string * list string)) (gs : list group) : list rerr :=
  map (fun kv => XDuplicateAttr (snd kv) (fst kv))
    (filter (fun kv => Nat.ltb 1 (length (snd kv))) (key_order (group_entries (root_entries names gs)))).
