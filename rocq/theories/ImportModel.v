(* Imports from dependencies, entity associations, and the resolution of a registry as a whole.
   Models crates/weaver_resolver/src/{imports,dependency,registry}.rs and v2_namespace_id of
   crates/weaver_resolved_schema/src/v2/mod.rs.
   Simplified throughout: matching a glob pattern against a key (the globset crate) is the
   parameter [glob]; a pattern is its text and compiles; schema urls and errors as in
   ResolveModel; a CompoundError is the list of its errors. *)
From Coq Require Import String Ascii Bool Arith ZArith NArith List.
Import ListNotations.
From Verif Require Import Base Json SemTypes Resolved Semver DefModel ResolveModel.
Local Open Scope string_scope.

(* Result<T, Error> with a list of errors *)
(* no counterpart: `?` on a Result, as in crates/weaver_resolver/src/registry.rs 437-515 *)
Definition lift {A} (r : rr A) : run A := match r with Got a => Done a | Bad err => Failed [err] end.
(* used by import_all: registry.rs 437-495 *)
Definition run_bind {A B} (r : run A) (f : A -> run B) : run B :=
  match r with Done a => f a | Failed es => Failed es | Running => Running end.

(* ---------- import patterns (imports.rs 42-155) ---------- *)
(* 42-50: ImportField *)
Inductive field := FMetrics | FEvents | FSpans | FEntities | FAttributeGroups.
(* as above: imports.rs 42-50 *)
Definition field_eqb (a b : field) : bool :=
  match a, b with
  | FMetrics, FMetrics | FEvents, FEvents | FSpans, FSpans | FEntities, FEntities
  | FAttributeGroups, FAttributeGroups => true
  | _, _ => false
  end.
(* 55-64: ImportField::of *)
Definition field_of (t : group_type) : option field :=
  match t with
  | GMetric | GMetricGroup => Some FMetrics
  | GEvent => Some FEvents
  | GSpan => Some FSpans
  | GEntity => Some FEntities
  | GAttributeGroup => Some FAttributeGroups
  | GScope | GUndefined => None
  end.
(* 67-75: ImportField::all *)
Definition all_fields : list field := [FMetrics; FEvents; FSpans; FEntities; FAttributeGroups].
(* 78-86: ImportField::name *)
Definition field_name (f : field) : string :=
  match f with
  | FMetrics => "metrics" | FEvents => "events" | FSpans => "spans" | FEntities => "entities"
  | FAttributeGroups => "attribute_groups"
  end.
(* 89-98: ImportField::patterns *)
Definition field_patterns (f : field) (i : imports) : list string :=
  opt_get (match f with
           | FMetrics => im_metrics i | FEvents => im_events i | FSpans => im_spans i
           | FEntities => im_entities i | FAttributeGroups => im_attribute_groups i
           end) [].

(* weaver_semconv/src/group.rs [ImportsWithProvenance]: the block and the path it stands in *)
(* used by is_implicit: imports.rs 104-106 *)
Record block := { bk_imports : imports; bk_path : string }.
(* 104-106: is_implicit_import *)
Definition is_implicit (b : block) : bool := String.eqb (bk_path b) "--include-unreferenced".
(* as above: imports.rs 104-106 *)
Definition explicit_blocks (bs : list block) : list block := filter (fun b => negb (is_implicit b)) bs.
(* as above: imports.rs 104-106 *)
Definition patterns_of (f : field) (bs : list block) : list string :=
  flat_map (fun b => field_patterns f (bk_imports b)) bs.

(* 167-209: import_match_keys *)
Definition opt_list {A} (o : option A) : list A := match o with Some x => [x] | None => [] end.
(* as above: imports.rs 167-209 *)
Definition match_keys (g : group) : list string :=
  if g_is_v2 g then
    let keys sn prefix :=
      g_id g :: app (opt_list sn)
                    (app (if group_type_eqb (g_type g) GAttributeGroup
                          then opt_list (strip_prefix "registry." (g_id g)) else [])
                         (opt_list (strip_prefix prefix (g_id g)))) in
    match g_type g with
    | GAttributeGroup => keys None "attribute_group."
    | GSpan => keys (g_name g) "span."
    | GEvent => keys (g_name g) "event."
    | GMetric | GMetricGroup => keys (g_metric_name g) "metric."
    | GEntity => keys (g_name g) "entity."
    | GScope | GUndefined => []
    end
  else
    match g_type g with
    | GAttributeGroup | GSpan => [g_id g]
    | GEvent => opt_list (g_name g)
    | GEntity =>
      let keys := g_id g :: opt_list (strip_prefix "entity." (g_id g)) in
      match g_name g with
      | Some n => if existsb (String.eqb n) keys then keys else app keys [n]
      | None => keys
      end
    | GMetric => opt_list (g_metric_name g)
    | GMetricGroup | GScope | GUndefined => []
    end.

(* 282-297: GroupWithProvenance *)
Record imported := { im_group : group; im_url : string; im_origins : list (string * string) }.

Section Glob.
Variable glob : string -> string -> bool.

(* 254-275: ImportMatchers::matches_key, ImportMatchers::matches *)
Definition matches_key (bs : list block) (f : field) (key : string) : bool :=
  existsb (fun p => glob p key) (patterns_of f bs).
(* crates/weaver_resolver/src/imports.rs 251-259 *)
Definition matches (bs : list block) (g : group) : bool :=
  match field_of (g_type g) with
  | None => false
  | Some f => existsb (matches_key bs f) (match_keys g)
  end.

(* 114-155: unmatched_import_errors *)
Definition pattern_matched (f : field) (l : list imported) (p : string) : bool :=
  existsb (fun i => match field_of (g_type (im_group i)) with
                    | Some f' => field_eqb f' f && existsb (glob p) (match_keys (im_group i))
                    | None => false
                    end) l.
(* as above: imports.rs 114-155 *)
Definition unmatched_imports (bs : list block) (l : list imported) : list rerr :=
  flat_map (fun f => map (fun p => XUnmatchedImport p (field_name f))
                       (filter (fun p => negb (pattern_matched f l p)) (patterns_of f (explicit_blocks bs))))
    all_fields.

(* 511-542: ImportDecision, import_decision *)
Inductive decision := Include | Leave | Refuse (err : rerr).
(* as above: imports.rs 511-542 *)
Definition import_decision (ann : list (string * json)) (explicitly : bool) (id : string) (t : group_type)
  : decision :=
  if negb (is_excluded ann) then Include
  else if explicitly then Refuse (XExcluded id (group_type_text t) "imports") else Leave.

(* ---------- copies of one definition (imports.rs 472-507, 1016-1021) ---------- *)
(* 490-507: strip_group_type_prefix *)
Fixpoint strip_any (ps : list string) (id : string) : string :=
  match ps with
  | [] => id
  | p :: r => match strip_prefix p id with Some rest => rest | None => strip_any r id end
  end.
(* as above: imports.rs 490-507 *)
Definition strip_type_prefix (id : string) : string :=
  strip_any ["metric."; "event."; "entity."; "span."; "attribute_group."; "registry."] id.
(* as above: imports.rs 490-507 *)
Definition opt_str_eqb (a b : option string) : bool :=
  match a, b with
  | Some x, Some y => String.eqb x y
  | None, None => true
  | _, _ => false
  end.
(* 476-487: is_same_imported_group *)
Definition same_group (g c : group) : bool :=
  if negb (group_type_eqb (g_type g) (g_type c)) then false
  else if is_some (g_metric_name g) || is_some (g_metric_name c) then opt_str_eqb (g_metric_name g) (g_metric_name c)
  else if is_some (g_name g) || is_some (g_name c) then opt_str_eqb (g_name g) (g_name c)
  else String.eqb (strip_type_prefix (g_id g)) (strip_type_prefix (g_id c)).
(* 1016-1021: origin_url *)
Definition origin_url (g : group) (fallback : string) : string := opt_get (g_url g) fallback.

(* imports.rs 391-399, 937-945, registry.rs 468-476: the url of the chosen version where the
   conflict strategy prefers it *)
Definition winning_url (e : env) (u : string) : string :=
  match ev_chosen e (ev_name e u) with
  | None => u
  | Some c =>
    if String.eqb c u then u
    else match latest_major (ev_name e) (ev_semver e) u c with Got w => w | Bad _ => u end
  end.

(* AttributeCatalog::attribute_ref_with_provenance on each attribute in turn *)
(* used by upgrade_group: imports.rs 425-470 *)
Fixpoint intern (e : env) (l : list (attribute * string)) (c : catalog) : rr (list nat * catalog) :=
  match l with
  | [] => Got ([], c)
  | (a, src) :: r =>
    rr_bind (attribute_ref_prov e a (SDep src) c)
      (fun p => rr_bind (intern e r (snd p)) (fun q => Got (fst p :: fst q, snd q)))
  end.
(* the attributes of a group of a v1 schema, with the registry each comes from *)
(* used by upgrade_group: imports.rs 425-470 *)
Definition sourced_attrs (e : env) (s : schema1) (roots : list (string * root_attr)) (my : string) (g : group)
  : list (attribute * string) :=
  map (fun a => (a, attr_source1 e s roots (at_name a) my))
    (somes (map (nth_error (s1_catalog s)) (g_attributes g))).

(* 425-470: upgrade_imported_group *)
Definition upgrade_group (e : env) (g : group) (fallback : string) (c : catalog) : rr (option group * catalog) :=
  let origin := origin_url g fallback in
  match ev_chosen e (ev_name e origin) with
  | None => Got (None, c)
  | Some chosen =>
    if String.eqb chosen origin then Got (None, c)
    else
      match latest_major (ev_name e) (ev_semver e) origin chosen with
      | Bad _ => Got (None, c)
      | Got w =>
        if negb (String.eqb w chosen) then Got (None, c)
        else
          match ev_cached e chosen with
          | Some (D1 s roots) =>
            match find (same_group g) (s1_groups s) with
            | None => Got (None, c)
            | Some up =>
              rr_bind (intern e (sourced_attrs e s roots chosen up) c)
                (fun p => Got (Some (set_attributes (fst p) up), snd p))
            end
          | _ => Got (None, c)
          end
      end
  end.

(* ---------- looking an entity up (dependency.rs 125-222) ---------- *)
(* 141-159: V1Schema::lookup_entity: the origin and whether it is excluded *)
Definition lookup_entity1 (e : env) (s : schema1) (name : string) : option (string * bool) :=
  match ev_parse e (s1_url s) with
  | None => None
  | Some my =>
    option_map (fun g => (opt_get (g_url g) my, opt_excluded (g_annotations g)))
      (find (fun g => group_type_eqb (g_type g) GEntity && existsb (String.eqb name) (match_keys g)) (s1_groups s))
  end.
(* 161-185: V2Schema::lookup_entity *)
Definition lookup_entity2 (s : schema2) (name : string) : option (string * bool) :=
  option_map (fun en => (source_url2 s (p2_source (en2_provenance en)), is_excluded (c_annotations (en2_common en))))
    (match find (fun en => String.eqb (en2_type en) name) (r2_entities (s2_registry s)) with
     | Some en => Some en
     | None => option_map snd (find (fun r => String.eqb (fst r) name) (f2_entities (s2_refinements s)))
     end).
(* as above: dependency.rs 161-185 *)
Definition lookup_entity (e : env) (name : string) (d : dependency) : option (string * bool) :=
  match d with D1 s _ => lookup_entity1 e s name | D2 s => lookup_entity2 s name end.
(* 187-199: EntityResolution *)
Inductive entity_answer := EFound (url : string) | EPrivate | EAmbiguous (urls : list string) | EUnknown.
(* 210-222: resolve_entity *)
Fixpoint entity_origins (l : list (string * bool)) (origins : list string) (private : bool)
  : list string * bool :=
  match l with
  | [] => (origins, private)
  | (u, ex) :: r =>
    if ex then entity_origins r origins true
    else entity_origins r (if existsb (String.eqb u) origins then origins else app origins [u]) private
  end.
(* crates/weaver_resolver/src/dependency.rs 206-223 *)
Definition resolve_entity (e : env) (ds : list dependency) (name : string) : entity_answer :=
  match entity_origins (somes (map (lookup_entity e name) ds)) [] false with
  | ([], true) => EPrivate
  | ([], false) => EUnknown
  | ([u], _) => EFound u
  | (us, _) => EAmbiguous us
  end.

(* v2/entity.rs 101-113: EntityAssociation::refs; the explicit stack visits the last child first *)
Fixpoint refs {L} (a : assoc L) : list L :=
  match a with ARef l => [l] | AOneOf cs | AAllOf cs => concat (rev (map refs cs)) end.
(* v2/entity.rs 123-141: to_named_associations *)
Fixpoint named (a : assoc entity_ref) : assoc string :=
  match a with
  | ARef r => ARef (er_type r)
  | AOneOf cs => AOneOf (map named cs)
  | AAllOf cs => AAllOf (map named cs)
  end.
(* collecting pairs into a BTreeMap *)
(* used by origins1: imports.rs 300-322 *)
Definition collect_map (l : list (string * string)) : list (string * string) :=
  fold_left (fun m kv => bt_insert (fst kv) (snd kv) m) l [].

(* ---------- importing from one dependency (imports.rs 300-412, 544-952) ---------- *)
(* 300-322: v1_association_origins *)
Definition origins1 (e : env) (s : schema1) (g : group) : list (string * string) :=
  let recorded := slookup (g_id g) (s1_origins s) in
  collect_map (somes (map (fun n =>
    let origin :=
      match (match recorded with Some m => slookup n m | None => None end) with
      | Some u => Some u
      | None => match lookup_entity1 e s n with Some (u, false) => Some u | _ => None end
      end in
    option_map (fun u => (n, u)) origin) (flat_map referenced_entities (g_assocs g)))).

(* 347-406: the loop over the groups of a v1 dependency *)
Fixpoint import1 (e : env) (bs : list block) (s : schema1) (roots : list (string * root_attr)) (my : string)
  (gs : list group) (c : catalog) : rr (list imported * list rerr * catalog) :=
  match gs with
  | [] => Got ([], [], c)
  | g :: r =>
    if negb (matches bs g) then import1 e bs s roots my r c
    else
      match (match g_annotations g with
             | Some a => import_decision a (matches (explicit_blocks bs) g) (g_id g) (g_type g)
             | None => Include
             end) with
      | Leave => import1 e bs s roots my r c
      | Refuse err =>
        rr_bind (import1 e bs s roots my r c)
          (fun q => let '(l, es, c') := q in Got (l, err :: es, c'))
      | Include =>
        rr_bind (upgrade_group e g my c) (fun up =>
        rr_bind (match up with
                 | (Some g', c1) => Got (g', c1)
                 | (None, c1) => rr_bind (intern e (sourced_attrs e s roots my g) c1)
                                   (fun p => Got (set_attributes (fst p) g, snd p))
                 end) (fun gc =>
        rr_bind (import1 e bs s roots my r (snd gc)) (fun q =>
          let '(l, es, c') := q in
          Got ({| im_group := fst gc; im_url := winning_url e my; im_origins := origins1 e s (fst gc) |} :: l, es, c'))))
      end
  end.
(* 325-412: V1Schema::import_groups *)
Definition import_v1 (e : env) (bs : list block) (s : schema1) (roots : list (string * root_attr)) (c : catalog)
  : run (list imported * catalog) :=
  match ev_parse e (s1_url s) with
  | None => Failed [XInvalidUrl (s1_url s)]
  | Some my =>
    match import1 e bs s roots my (s1_groups s) c with
    | Bad err => Failed [err]
    | Got (l, [], c') => Done (l, c')
    | Got (_, es, _) => Failed es
    end
  end.

(* 601-637: import_v2_attributes; a reference is its index, requirement level, sampling
   relevance and role.  Each attribute is looked up and added in turn. *)
Fixpoint intern2 (e : env) (s : schema2) (l : list (nat * req_level * option bool * option attr_role)) (c : catalog)
  : rr (list nat * catalog) :=
  match l with
  | [] => Got ([], c)
  | (i, req, sampling, role) :: r =>
    match nth_error (s2_catalog s) i with
    | None => Bad (XBadAttributeRef (ev_name e (s2_url s)) i)
    | Some a =>
      rr_bind (attribute_ref_prov e (attribute_of_v2 a req sampling role)
                 (SDep (source_url2 s (p2_source (a2_provenance a)))) c)
        (fun p => rr_bind (intern2 e s r (snd p)) (fun q => Got (fst p :: fst q, snd q)))
    end
  end.
(* 642-680: imported_v2_group, with the fields its callers set *)
Definition group_of_v2 (id : string) (t : group_type) (co : common) (attrs : list nat) (l : option group_lineage)
  (metric : option (string * instrument * string)) (nm : option string) (span : option (span_kind * string))
  (assocs : list (assoc entity_ref)) : group :=
  {| g_id := id; g_type := t; g_brief := c_brief co; g_note := c_note co; g_prefix := "";
     g_extends := None; g_stability := Some (c_stability co); g_deprecated := c_deprecated co;
     g_attributes := attrs; g_span_kind := option_map fst span; g_events := [];
     g_metric_name := option_map (fun m => fst (fst m)) metric;
     g_instrument := option_map (fun m => snd (fst m)) metric; g_unit := option_map snd metric;
     g_name := nm; g_lineage := l; g_display_name := None; g_body := None;
     g_annotations := Some (c_annotations co); g_assocs := map named assocs; g_visibility := None;
     g_is_v2 := true; g_span_name := option_map snd span; g_level := None |}.
(* 587-596: v2_provenance *)
Definition lineage2 (s : schema2) (p : provenance2) : option group_lineage :=
  Some (gl_new {| pv_url := source_url2 s (p2_source p); pv_path := p2_path p |}).
(* 688-713: v2_association_origins *)
Definition origins2 (s : schema2) (l : list (assoc entity_ref)) : list (string * string) :=
  collect_map (somes (map (fun r =>
    let origin :=
      match p2_source (er_provenance r) with
      | Some i => nth_error (s2_dependencies s) i
      | None => match lookup_entity2 s (er_type r) with Some (u, false) => Some u | _ => None end
      end in
    option_map (fun u => (er_type r, u)) origin) (flat_map refs l))).

(* one signal of a published v2 schema, whatever its kind: what the loops of
   V2Schema::import_groups read from it.  [v_origins] is [None] for the kinds that record no
   association origins. *)
(* used by signal_of_metric: imports.rs 768-797 *)
Record v2_signal := {
  v_field : field; v_type : group_type; v_id : string; v_common : common;
  v_uses : list (nat * req_level * option bool * option attr_role);
  v_group : list nat -> group;
  v_origins : option (list (string * string))
}.
(* used by signal_of_metric: imports.rs 768-797 *)
Definition plain_uses (role : option attr_role) (l : list attr_use) :=
  map (fun u => (u_base u, u_req u, @None bool, role)) l.
(* 768-797 *)
Definition signal_of_metric (s : schema2) (m : metric2) : v2_signal :=
  {| v_field := FMetrics; v_type := GMetric; v_id := me2_name m; v_common := me2_common m;
     v_uses := plain_uses None (me2_attributes m);
     v_group := fun l => group_of_v2 (me2_name m) GMetric (me2_common m) l (lineage2 s (me2_provenance m))
                           (Some (me2_name m, me2_instrument m, me2_unit m)) None None (me2_assocs m);
     v_origins := Some (origins2 s (me2_assocs m)) |}.
(* 800-827 *)
Definition signal_of_event (s : schema2) (ev : event2) : v2_signal :=
  {| v_field := FEvents; v_type := GEvent; v_id := ev2_name ev; v_common := ev2_common ev;
     v_uses := plain_uses None (ev2_attributes ev);
     v_group := fun l => group_of_v2 (ev2_name ev) GEvent (ev2_common ev) l (lineage2 s (ev2_provenance ev))
                           None (Some (ev2_name ev)) None (ev2_assocs ev);
     v_origins := Some (origins2 s (ev2_assocs ev)) |}.
(* 831-862 *)
Definition signal_of_entity (s : schema2) (en : entity2) : v2_signal :=
  {| v_field := FEntities; v_type := GEntity; v_id := en2_type en; v_common := en2_common en;
     v_uses := app (plain_uses (Some Identifying) (en2_identity en)) (plain_uses (Some Descriptive) (en2_description en));
     v_group := fun l => group_of_v2 (en2_type en) GEntity (en2_common en) l (lineage2 s (en2_provenance en))
                           None (Some (en2_type en)) None [];
     v_origins := None |}.
(* 865-896 *)
Definition signal_of_span (s : schema2) (sp : span2) : v2_signal :=
  {| v_field := FSpans; v_type := GSpan; v_id := sp2_type sp; v_common := sp2_common sp;
     v_uses := map (fun u => (u_base u, u_req u, u_sampling u, None)) (sp2_attributes sp);
     v_group := fun l => group_of_v2 (sp2_type sp) GSpan (sp2_common sp) l (lineage2 s (sp2_provenance sp))
                           None (Some (sp2_type sp)) (Some (sp2_kind sp, sp2_name sp)) (sp2_assocs sp);
     v_origins := Some (origins2 s (sp2_assocs sp)) |}.
(* 900-920 *)
Definition signal_of_attribute_group (s : schema2) (ag : attribute_group2) : v2_signal :=
  {| v_field := FAttributeGroups; v_type := GAttributeGroup; v_id := ag2_id ag; v_common := ag2_common ag;
     v_uses := plain_uses None (ag2_attributes ag);
     v_group := fun l => group_of_v2 (ag2_id ag) GAttributeGroup (ag2_common ag) l None None None None [];
     v_origins := None |}.
(* the order of the five loops *)
(* used by import_v2: imports.rs 720-954 *)
Definition v2_signals (s : schema2) : list v2_signal :=
  let r := s2_registry s in
  app (map (signal_of_metric s) (r2_metrics r))
  (app (map (signal_of_event s) (r2_events r))
  (app (map (signal_of_entity s) (r2_entities r))
  (app (map (signal_of_span s) (r2_spans r))
       (map (signal_of_attribute_group s) (r2_attribute_groups r))))).

(* 739-920: the loops; the closure is_imported.  The second component is the map of
   association origins by group id. *)
Fixpoint import2 (e : env) (bs : list block) (s : schema2) (vs : list v2_signal)
  (origins : list (string * list (string * string))) (c : catalog)
  : rr (list group * list (string * list (string * string)) * list rerr * catalog) :=
  match vs with
  | [] => Got ([], origins, [], c)
  | v :: r =>
    if negb (matches_key bs (v_field v) (v_id v)) then import2 e bs s r origins c
    else
      match import_decision (c_annotations (v_common v))
              (matches_key (explicit_blocks bs) (v_field v) (v_id v)) (v_id v) (v_type v) with
      | Leave => import2 e bs s r origins c
      | Refuse err =>
        rr_bind (import2 e bs s r origins c)
          (fun q => let '(l, o, es, c') := q in Got (l, o, err :: es, c'))
      | Include =>
        rr_bind (intern2 e s (v_uses v) c) (fun p =>
        rr_bind (import2 e bs s r
                   (match v_origins v with Some o => sinsert (v_id v) o origins | None => origins end) (snd p))
          (fun q => let '(l, o, es, c') := q in Got (v_group v (fst p) :: l, o, es, c')))
      end
  end.
(* 926-934: substituting the upgraded definitions *)
Fixpoint upgrade_all (e : env) (fallback : string) (gs : list group) (c : catalog) : rr (list group * catalog) :=
  match gs with
  | [] => Got ([], c)
  | g :: r =>
    rr_bind (upgrade_group e g fallback c) (fun up =>
    rr_bind (upgrade_all e fallback r (snd up)) (fun q =>
      Got (opt_get (fst up) g :: fst q, snd q)))
  end.
(* 946-953: HashMap::remove for each group in turn *)
Definition remove_key {V} (k : string) (m : list (string * V)) : list (string * V) :=
  filter (fun kv => negb (String.eqb k (fst kv))) m.
(* as above: imports.rs 946-953 *)
Fixpoint hand_out (url : string) (origins : list (string * list (string * string))) (gs : list group) : list imported :=
  match gs with
  | [] => []
  | g :: r =>
    {| im_group := g; im_url := url; im_origins := opt_get (slookup (g_id g) origins) [] |}
      :: hand_out url (remove_key (g_id g) origins) r
  end.
(* 720-954: V2Schema::import_groups *)
Definition import_v2 (e : env) (bs : list block) (s : schema2) (c : catalog) : run (list imported * catalog) :=
  match import2 e bs s (v2_signals s) [] c with
  | Bad err => Failed [err]
  | Got (gs, origins, [], c1) =>
    match upgrade_all e (s2_url s) gs c1 with
    | Bad err => Failed [err]
    | Got (gs', c2) => Done (hand_out (winning_url e (s2_url s)) origins gs', c2)
    end
  | Got (_, _, es, _) => Failed es
  end.

(* used by import_all: registry.rs 437-495 *)
Definition import_one (e : env) (bs : list block) (d : dependency) (c : catalog) : run (list imported * catalog) :=
  match d with D1 s roots => import_v1 e bs s roots c | D2 s => import_v2 e bs s c end.

(* ---------- all dependencies (imports.rs 973-1008) ---------- *)
(* the buckets divide the kept groups by origin and type; here the comparison runs over all of
   them and asks for the same origin and type *)
(* used by keep_new: registry.rs 437-495 *)
Definition is_duplicate (kept : list imported) (x : imported) : bool :=
  existsb (fun k => String.eqb (origin_url (im_group k) (im_url k)) (origin_url (im_group x) (im_url x))
                    && group_type_eqb (g_type (im_group k)) (g_type (im_group x))
                    && same_group (im_group k) (im_group x)) kept.
(* used by import_all: registry.rs 437-495 *)
Fixpoint keep_new (kept : list imported) (l : list imported) : list imported :=
  match l with
  | [] => kept
  | x :: r => keep_new (if is_duplicate kept x then kept else app kept [x]) r
  end.
(* used by resolve_imports: registry.rs 437-495 *)
Fixpoint import_all (e : env) (bs : list block) (ds : list dependency) (kept : list imported) (c : catalog)
  : run (list imported * catalog) :=
  match ds with
  | [] => Done (kept, c)
  | d :: r => run_bind (import_one e bs d c) (fun p => import_all e bs r (keep_new kept (fst p)) (snd p))
  end.

(* registry.rs 437-495: resolve_dependency_imports: the groups to add, the recorded origins and
   the non-fatal errors *)
Definition ugroup_of_import (e : env) (i : imported) : ugroup :=
  let g := im_group i in
  let url := opt_get (g_url g) (im_url i) in
  {| ug_group := g; ug_attrs := []; ug_include := []; ug_visibility := None; ug_is_v2 := g_is_v2 g;
     ug_provenance := Some {| pv_url := winning_url e url;
                              pv_path := opt_get (option_map (fun l => pv_path (gl_provenance l)) (g_lineage g)) "" |} |}.
(* as above: registry.rs 437-495 *)
Definition record_origins (l : list imported) : list (string * list (string * string)) :=
  fold_left (fun m i => match im_origins i with [] => m | o => bt_insert (g_id (im_group i)) o m end) l [].
(* as above: registry.rs 437-495 *)
Record with_imports := {
  wi_groups : list ugroup; wi_origins : list (string * list (string * string)); wi_errors : list rerr; wi_catalog : catalog
}.
(* as above: registry.rs 437-495 *)
Definition resolve_imports (e : env) (bs : list block) (gs : list ugroup) (c : catalog) : run with_imports :=
  run_bind (import_all e bs (ev_deps e) [] c) (fun p =>
    Done {| wi_groups := app gs (map (ugroup_of_import e) (fst p));
            wi_origins := record_origins (fst p);
            wi_errors := unmatched_imports bs (fst p);
            wi_catalog := snd p |}).

(* ---------- entity associations (registry.rs 517-624) ---------- *)
(* v2/mod.rs 240-246: fix_group_id; 254-259: is_refinement_of; 268-274: entity_type_of *)
Definition fix_id (prefix id : string) : string := opt_get (strip_prefix prefix id) id.
(* as above: v2/mod.rs 240-246, v2/mod.rs 254-259, v2/mod.rs 268-274 *)
Definition refines_own_type (g : group) : bool :=
  match g_lineage g with
  | Some l => match gl_extends_type l with Some t => group_type_eqb t (g_type g) | None => false end
  | None => false
  end.
(* v2/mod.rs 291-306: v2_namespace_id *)
Definition v2_id (g : group) : option string :=
  match g_type g with
  | GSpan => Some (fix_id "span." (g_id g))
  | GAttributeGroup => Some (fix_id "attribute_group." (g_id g))
  | GEntity => Some (if refines_own_type g then fix_id "entity." (g_id g)
                     else opt_get (g_name g) (fix_id "entity." (g_id g)))
  | GEvent => if refines_own_type g then Some (fix_id "event." (g_id g)) else g_name g
  | GMetric => if refines_own_type g then Some (fix_id "metric." (g_id g)) else g_metric_name g
  | GMetricGroup | GScope | GUndefined => None
  end.

(* itertools unique: the first occurrence of each name *)
(* used by assoc_group: v2/mod.rs 557-612 *)
Fixpoint unique (seen : list string) (l : list string) : list string :=
  match l with
  | [] => []
  | x :: r => if existsb (String.eqb x) seen then unique seen r else x :: unique (x :: seen) r
  end.
(* 532-541: the entities of the registry itself; a later group replaces an earlier one *)
Definition local_entities (gs : list ugroup) : list (string * bool) :=
  fold_left (fun m u =>
    if group_type_eqb (g_type (ug_group u)) GEntity then
      match v2_id (ug_group u) with Some id => sinsert id (ug_excluded u) m | None => m end
    else m) gs [].
(* what one pass over the names carries: recorded origins by group id, errors, answers found *)
(* used by assoc_name: v2/mod.rs 557-612 *)
Record assoc_state := {
  as_origins : list (string * list (string * string)); as_errors : list rerr; as_found : list (string * string)
}.
(* used by assoc_name: v2/mod.rs 557-612 *)
Definition put_origin (gid name u : string) (m : list (string * list (string * string))) :=
  bt_insert gid (bt_insert name u (opt_get (slookup gid m) [])) m.
(* 557-612: one name of one group *)
Definition assoc_name (e : env) (local : list (string * bool)) (imported_origins : option (list (string * string)))
  (gid : string) (gexcl : bool) (st : assoc_state) (name : string) : assoc_state :=
  let err x := {| as_origins := as_origins st; as_errors := app (as_errors st) [x]; as_found := as_found st |} in
  if match imported_origins with Some m => is_some (slookup name m) | None => false end then st
  else
    match slookup name local with
    | Some false => st
    | Some true => if gexcl then st else err (XExcluded name (group_type_text GEntity) gid)
    | None =>
      match slookup name (as_found st) with
      | Some u => {| as_origins := put_origin gid name u (as_origins st); as_errors := as_errors st; as_found := as_found st |}
      | None =>
        match resolve_entity e (ev_deps e) name with
        | EFound u => {| as_origins := put_origin gid name u (as_origins st); as_errors := as_errors st;
                         as_found := sinsert name u (as_found st) |}
        | EPrivate => err (XExcluded name (group_type_text GEntity) gid)
        | EAmbiguous us => err (XAmbiguousEntity gid name us)
        | EUnknown => err (XUnresolvedEntity gid name)
        end
      end
    end.
(* as above: v2/mod.rs 557-612 *)
Definition assoc_group (e : env) (local : list (string * bool)) (recorded : list (string * list (string * string)))
  (st : assoc_state) (u : ugroup) : assoc_state :=
  fold_left (assoc_name e local (slookup (uid u) recorded) (uid u) (ug_excluded u))
    (unique [] (flat_map referenced_entities (g_assocs (ug_group u)))) st.
(* 517-624: resolve_entity_associations; the early return for a registry without associations
   gives the same result *)
Definition extend_map (m extra : list (string * string)) : list (string * string) :=
  fold_left (fun m kv => bt_insert (fst kv) (snd kv) m) extra m.
(* as above: registry.rs 517-624 *)
Definition resolve_associations (e : env) (gs : list ugroup) (recorded : list (string * list (string * string)))
  : run (list (string * list (string * string))) :=
  let st := fold_left (assoc_group e (local_entities gs) recorded) gs
              {| as_origins := []; as_errors := []; as_found := [] |} in
  match as_errors st with
  | [] => Done (fold_left (fun m kv => bt_insert (fst kv) (extend_map (opt_get (slookup (fst kv) m) []) (snd kv)) m)
                  (as_origins st) recorded)
  | es => Failed es
  end.

(* ---------- the whole of resolution (registry.rs 97-273) ---------- *)
(* 244-273: check_v2_signal_id_collisions; [order] stands for the order of the BTreeMap *)
Definition pair_eqb (a b : string * string) : bool := String.eqb (fst a) (fst b) && String.eqb (snd a) (snd b).
(* as above: registry.rs 244-273 *)
Definition by_signal (gs : list group) : list ((string * string) * list string) :=
  fold_left (fun m g => match v2_id g with
                        | Some id =>
                          let k := (group_type_text (g_type g), id) in
                          insert pair_eqb k (app (opt_get (lookup pair_eqb k m) []) [g_id g]) m
                        | None => m
                        end) gs [].
(* as above: registry.rs 244-273 *)
Definition check_collisions (order : list ((string * string) * list string) -> list ((string * string) * list string))
  (gs : list group) : list rerr :=
  flat_map (fun kv => let ids := unique [] (snd kv) in
                      if Nat.ltb (length ids) 2 then [] else [XCollidingV2Id (snd (fst kv)) ids])
    (order (by_signal gs)).

(* the iteration orders of the hash maps, and the derived order of attributes *)
(* used by resolve_registry: registry.rs 97-227 *)
Record orders := {
  or_leb : attribute -> attribute -> bool;
  or_refs : list (attribute * nat) -> list (attribute * nat);
  or_keys : list (string * nat) -> list (string * nat);
  or_attrs : list (string * list string) -> list (string * list string);
  or_signals : list ((string * string) * list string) -> list ((string * string) * list string)
}.
(* used by resolve_registry: registry.rs 97-227 *)
Record resolved := {
  rs_groups : list group; rs_catalog : list attribute; rs_origins : list (string * list (string * string));
  rs_errors : list rerr
}.
(* 130-154: the imports added by --include-unreferenced; the warning is not modelled *)
Definition everything : block :=
  let all := Some ["*"] in
  {| bk_imports := {| im_metrics := all; im_events := all; im_entities := all; im_spans := all; im_attribute_groups := all |};
     bk_path := "--include-unreferenced" |}.
(* 97-227: resolve_registry_with_dependencies *)
Definition unresolved_groups (specs : list (list group_spec * provenance)) : list ugroup :=
  flat_map (fun sp => map (fun g => group_from_spec g (snd sp)) (fst sp)) specs.
(* as above: registry.rs 97-227 *)
Definition resolve_registry (o : orders) (e : env) (specs : list (list group_spec * provenance)) (bs : list block)
  (include_unreferenced : bool) : run resolved :=
  let blocks := if include_unreferenced then app bs [everything] else bs in
  run_bind (resolve_extends e (map resolve_prefix (unresolved_groups specs))) (fun gs =>
  run_bind (resolve_references e gs empty_catalog) (fun gc =>
  run_bind (resolve_imports e blocks (fst gc) (snd gc)) (fun w =>
  run_bind (resolve_associations e (wi_groups w) (wi_origins w)) (fun origins =>
    let '(gs', attrs) := stabilize (or_leb o) (or_refs o) (wi_groups w) (wi_catalog w) in
    Done {| rs_groups := gs'; rs_catalog := attrs; rs_origins := origins;
            rs_errors :=
              app (wi_errors w)
              (app (check_uniqueness (fun g => Some (g_id g)) XDuplicateGroupId (or_keys o) gs')
              (app (check_uniqueness metric_key XDuplicateMetricName (or_keys o) gs')
              (app (check_uniqueness name_key XDuplicateGroupName (or_keys o) gs')
              (app (check_root_attrs (map at_name attrs) (or_attrs o) gs')
                   (check_collisions (or_signals o) gs'))))) |})))).
End Glob.
