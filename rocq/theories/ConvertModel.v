(* Conversion of a resolved registry, version 1, to version 2.
   Models crates/weaver_resolved_schema/src/v2/{mod,catalog}.rs.
   Simplified throughout: a schema url is its text, with its name and validity as functions
   of the text; YAML values are JSON values; two doubles inside an attribute are equal when
   their bit patterns are; an index is a natural number where the code casts to u32; log
   messages are left out. The order in which the HashSet of attributes is iterated and the
   hash of an attribute are parameters. *)
From Coq Require Import String Ascii Bool Arith ZArith NArith List.
Import ListNotations.
From Verif Require Import Base Json SemTypes Resolved ResolveModel.
Local Open Scope string_scope.

(* crates/weaver_resolved_schema/src/lib.rs 49-79, registry.rs 36-66 and catalog.rs 20-28: what
   the conversion reads of a resolved registry, version 1. The root attributes of the catalog
   (a HashMap) are reduced to the source group of each name; the set of dependencies
   (BTreeSet) is the list of its elements in order. *)
Record source1 := {
  so_url : string;
  so_registry_url : string;
  so_groups : list group;
  so_origins : list (string * list (string * string));
  so_catalog : list attribute;
  so_roots : list (string * string);
  so_deps : list string
}.

(* crates/weaver_resolved_schema/src/error.rs: the errors the conversion returns *)
(* used by conv: v2/mod.rs 423-483 *)
Inductive cerr :=
| CAttributeNotFound (group : string) (ref : nat)
| CBaseNotFound (group : string)
| CEventName (group : string)
| CAssociation (group name : string)
| CInvalidUrl (url : string).
(* outcome of a fallible function that may also panic *)
(* used by conv_bind: v2/mod.rs 423-483 *)
Inductive conv (A : Type) := Converted (a : A) | Failed (e : cerr) | Panicked.
Arguments Converted {A}. Arguments Failed {A}. Arguments Panicked {A}.
(* used by conv_map: v2/mod.rs 423-483 *)
Definition conv_bind {A B} (c : conv A) (f : A -> conv B) : conv B :=
  match c with Converted a => f a | Failed e => Failed e | Panicked => Panicked end.
(* used by convert_entity: v2/mod.rs 423-483 *)
Fixpoint conv_map {A B} (f : A -> conv B) (l : list A) : conv (list B) :=
  match l with
  | [] => Converted []
  | a :: r => conv_bind (f a) (fun b => conv_bind (conv_map f r) (fun m => Converted (b :: m)))
  end.

(* Iterator::position *)
(* used by get_provenance: v2/mod.rs 336-349 *)
Fixpoint position (p : string -> bool) (l : list string) : option nat :=
  match l with
  | [] => None
  | x :: r => if p x then Some 0 else option_map S (position p r)
  end.

(* v2/mod.rs 242-252: fix_group_id, fix_span_group_id *)
Definition fix_group_id (prefix id : string) : string :=
  match strip_prefix prefix id with Some rest => rest | None => id end.
(* v2/mod.rs 256-261: is_refinement_of *)
Definition is_refinement_of (g : group) : bool :=
  match g_lineage g with
  | Some l => match gl_extends_type l with Some t => group_type_eqb t (g_type g) | None => false end
  | None => false
  end.
(* the group the lineage says this one extended *)
(* used by entity_type: v2/mod.rs 442-459 *)
Definition extends_group (g : group) : option string :=
  match g_lineage g with Some l => gl_extends l | None => None end.
(* v2/mod.rs 270-276: entity_type_of *)
Definition entity_type_of (g : group) : string :=
  match g_name g with Some n => n | None => fix_group_id "entity." (g_id g) end.

(* v2/mod.rs 336-349: get_provenance *)
Definition get_provenance (s : source1) (g : group) : provenance2 :=
  match g_lineage g with
  | None => {| p2_source := None; p2_path := "" |}
  | Some l =>
      let p := gl_provenance l in
      {| p2_source := if String.eqb (pv_url p) (so_registry_url s) then None
                      else position (String.eqb (pv_url p)) (so_deps s);
         p2_path := pv_path p |}
  end.

(* v2/mod.rs 353-362: a group whose lineage says it defines the attribute itself *)
Definition defines_attr (name : string) (g : group) : bool :=
  match g_lineage g with
  | Some l => match lineage_attribute l name with Some al => String.eqb (al_source al) (g_id g) | None => false end
  | None => false
  end.
(* v2/mod.rs 351-382: attr_provenance *)
Definition attr_provenance (name_of : string -> string) (s : source1) (name : string) : provenance2 :=
  match find (defines_attr name) (so_groups s) with
  | Some g => get_provenance s g
  | None =>
      match slookup name (so_roots s) with
      | None => {| p2_source := None; p2_path := "" |}
      | Some src =>
          match find (fun g => String.eqb (g_id g) src) (so_groups s) with
          | Some g => get_provenance s g
          | None =>
              match strip_prefix "v2_dependency." src with
              | Some dep => {| p2_source := position (fun u => String.eqb (name_of u) dep) (so_deps s); p2_path := "" |}
              | None => {| p2_source := None; p2_path := "" |}
              end
          end
      end
  end.

(* crates/weaver_semconv/src/stability.rs 33-38: Default *)
Definition default_stability : stability := SDevelopment.
(* v2/mod.rs 386-405: the version 2 form of an attribute *)
Definition attribute_v2 (name_of : string -> string) (s : source1) (a : attribute) : attribute2 :=
  {| a2_key := at_name a; a2_type := at_type a; a2_examples := at_examples a;
     a2_common := {| c_brief := at_brief a; c_note := at_note a;
                     c_stability := opt_get (at_stability a) default_stability;
                     c_deprecated := at_deprecated a;
                     c_annotations := opt_get (at_annotations a) [] |};
     a2_provenance := attr_provenance name_of s (at_name a) |}.

(* equality of version 2 attributes, the key of the HashSet *)
Lemma annots_eq_dec (a b : list (string * json)) : {a = b} + {a <> b}.
Proof.
  apply list_eq_dec. intros [k v] [k' v'].
  destruct (String.string_dec k k') as [Hk|Hk]; [|right; congruence].
  destruct (json_eq_dec v v') as [Hv|Hv]; [left; congruence | right; congruence].
Defined.
Lemma common_eq_dec (a b : common) : {a = b} + {a <> b}.
Proof.
  decide equality.
  - apply annots_eq_dec.
  - decide equality. apply deprecated_eq_dec.
  - apply stability_eq_dec.
  - apply String.string_dec.
  - apply String.string_dec.
Defined.
Lemma provenance2_eq_dec (a b : provenance2) : {a = b} + {a <> b}.
Proof. decide equality; [apply String.string_dec | decide equality; apply Nat.eq_dec]. Defined.
Lemma opt_examples_eq_dec (a b : option examples) : {a = b} + {a <> b}.
Proof. decide equality. apply examples_eq_dec. Defined.
Lemma opt_deprecated_eq_dec (a b : option deprecated) : {a = b} + {a <> b}.
Proof. decide equality. apply deprecated_eq_dec. Defined.
Lemma attribute2_eq_dec (a b : attribute2) : {a = b} + {a <> b}.
Proof.
  decide equality.
  - apply provenance2_eq_dec.
  - apply common_eq_dec.
  - apply opt_examples_eq_dec.
  - apply attr_type_eq_dec.
  - apply String.string_dec.
Defined.
(* used by matches: v2/catalog.rs 65-82 *)
Definition dec {A} (eq : forall a b : A, {a = b} + {a <> b}) (a b : A) : bool := if eq a b then true else false.

(* v2/catalog.rs 37-43: the order of the catalog, by key and then by hash *)
Definition catalog_leb (hash : attribute2 -> N) (a b : attribute2) : bool :=
  match str_cmp (a2_key a) (a2_key b) with
  | Lt => true
  | Eq => N.leb (hash a) (hash b)
  | Gt => false
  end.
(* v2/mod.rs 384-407 and v2/catalog.rs 36-49: the catalog. The lookup map is rebuilt where it
   is read (key_indices). *)
Definition v2_catalog (hash : attribute2 -> N) (order : list attribute2 -> list attribute2)
    (name_of : string -> string) (s : source1) : list attribute2 :=
  stable_sort (catalog_leb hash)
    (order (nodup attribute2_eq_dec (map (attribute_v2 name_of s) (so_catalog s)))).

(* v2/catalog.rs 44-47: the entry of the lookup map for one key *)
Definition key_indices (cat : list attribute2) (key : string) : list nat :=
  filter (fun i => match nth_error cat i with Some b => String.eqb (a2_key b) key | None => false end)
         (seq 0 (length cat)).
(* v2/catalog.rs 65-82: the comparison *)
Definition matches (a : attribute) (b : attribute2) : bool :=
  String.eqb (a2_key b) (at_name a)
  && dec attr_type_eq_dec (a2_type b) (at_type a)
  && dec opt_examples_eq_dec (a2_examples b) (at_examples a)
  && String.eqb (c_brief (a2_common b)) (at_brief a)
  && String.eqb (c_note (a2_common b)) (at_note a)
  && dec opt_deprecated_eq_dec (c_deprecated (a2_common b)) (at_deprecated a)
  && stability_eqb (c_stability (a2_common b)) (opt_get (at_stability a) default_stability)
  && match at_annotations a with
     | Some ans => dec annots_eq_dec (c_annotations (a2_common b)) ans
     | None => match c_annotations (a2_common b) with [] => true | _ :: _ => false end
     end.
(* v2/catalog.rs 53-86: convert_ref *)
Definition convert_ref (cat : list attribute2) (a : attribute) : option nat :=
  find (fun i => match nth_error cat i with Some b => matches a b | None => false end)
       (key_indices cat (at_name a)).

(* v2/mod.rs 462-468 and its five copies: the fields all signals share *)
Definition group_common (g : group) : common :=
  {| c_brief := g_brief g; c_note := g_note g; c_stability := opt_get (g_stability g) default_stability;
     c_deprecated := g_deprecated g; c_annotations := opt_get (g_annotations g) [] |}.

(* v2/mod.rs 313-327: convert_attribute_ref *)
Definition convert_attribute_ref (s : source1) (cat : list attribute2) (gid : string) (r : nat)
    : conv (attribute * nat) :=
  match nth_error (so_catalog s) r with
  | None => Failed (CAttributeNotFound gid r)
  | Some a =>
      match convert_ref cat a with
      | None => Failed (CAttributeNotFound gid r)
      | Some b => Converted (a, b)
      end
  end.
(* v2/mod.rs 432-440: identity or description *)
Definition identifies (p : attribute * nat) : bool :=
  match at_role (fst p) with Some Identifying => true | _ => false end.
(* as above: v2/mod.rs 432-440 *)
Definition entity_use (p : attribute * nat) : attr_use :=
  {| u_base := snd p; u_req := at_req (fst p); u_sampling := None |}.
(* v2/mod.rs 442-459: the type of an entity *)
Definition entity_type (s : source1) (g : group) : conv string :=
  if is_refinement_of g then
    match extends_group g with
    | None => Failed (CBaseNotFound (g_id g))
    | Some base =>
        Converted (match find (fun b => String.eqb (g_id b) base) (so_groups s) with
                   | Some b => entity_type_of b
                   | None => fix_group_id "entity." base
                   end)
    end
  else Converted (entity_type_of g).
(* v2/mod.rs 423-483: one entity *)
Definition convert_entity (s : source1) (cat : list attribute2) (g : group) : conv entity2 :=
  conv_bind (conv_map (convert_attribute_ref s cat (g_id g)) (g_attributes g)) (fun l =>
  conv_bind (entity_type s g) (fun t =>
  Converted {| en2_type := t;
               en2_identity := map entity_use (filter identifies l);
               en2_description := map entity_use (filter (fun p => negb (identifies p)) l);
               en2_level := g_level g; en2_common := group_common g;
               en2_provenance := get_provenance s g |})).
(* v2/mod.rs 472-483: an entity with its group, as it is pushed *)
Definition entity_pass (s : source1) (cat : list attribute2) : conv (list (group * entity2)) :=
  conv_map (fun g => conv_bind (convert_entity s cat g) (fun e => Converted (g, e)))
           (filter (fun g => group_type_eqb (g_type g) GEntity) (so_groups s)).
(* as above: v2/mod.rs 472-483 *)
Definition entity_definitions (l : list (group * entity2)) : list entity2 :=
  map snd (filter (fun p => negb (is_refinement_of (fst p))) l).
(* as above: v2/mod.rs 472-483 *)
Definition entity_refinements (l : list (group * entity2)) : list (string * entity2) :=
  map (fun p => (if is_refinement_of (fst p) then fix_group_id "entity." (g_id (fst p)) else en2_type (snd p), snd p)) l.

(* v2/mod.rs 492-495: the entities of this registry; a later one replaces an earlier one *)
Definition local_entities (l : list (string * entity2)) : list (string * option nat) :=
  fold_left (fun m p => sinsert (fst p) (p2_source (en2_provenance (snd p))) m) l [].
(* v2/mod.rs 170-203: EntityRefResolver::resolve. The index of the dependencies (496-500) is
   the position in their list, which has no duplicates. *)
Definition entity_ref_local (name : string) : entity_ref :=
  {| er_type := name; er_provenance := {| p2_source := None; p2_path := "" |} |}.
(* as above: v2/mod.rs 170-203, v2/mod.rs 496-500 *)
Definition source_eqb (a b : option nat) : bool :=
  match a, b with Some x, Some y => Nat.eqb x y | None, None => true | _, _ => false end.
(* as above: v2/mod.rs 170-203, v2/mod.rs 496-500 *)
Definition resolve_entity (s : source1) (local : list (string * option nat)) (gid name : string) : option entity_ref :=
  match (match slookup gid (so_origins s) with Some m => slookup name m | None => None end) with
  | None => match slookup name local with Some _ => Some (entity_ref_local name) | None => None end
  | Some origin =>
      let src := position (String.eqb origin) (so_deps s) in
      match slookup name local with
      | Some held => if source_eqb held src then Some (entity_ref_local name)
                     else Some {| er_type := name; er_provenance := {| p2_source := src; p2_path := "" |} |}
      | None => Some {| er_type := name; er_provenance := {| p2_source := src; p2_path := "" |} |}
      end
  end.
(* v2/mod.rs 208-232: convert_entity_associations *)
Fixpoint convert_assoc (s : source1) (local : list (string * option nat)) (gid : string) (a : assoc string)
    : conv (assoc entity_ref) :=
  let fix go (l : list (assoc string)) : conv (list (assoc entity_ref)) :=
    match l with
    | [] => Converted []
    | x :: r => conv_bind (convert_assoc s local gid x) (fun y => conv_bind (go r) (fun m => Converted (y :: m)))
    end in
  match a with
  | ARef name => match resolve_entity s local gid name with
                 | Some r => Converted (ARef r)
                 | None => Failed (CAssociation gid name)
                 end
  | AOneOf l => conv_bind (go l) (fun m => Converted (AOneOf m))
  | AAllOf l => conv_bind (go l) (fun m => Converted (AAllOf m))
  end.
(* as above: v2/mod.rs 208-232 *)
Definition convert_assocs (s : source1) (local : list (string * option nat)) (g : group) : conv (list (assoc entity_ref)) :=
  conv_map (convert_assoc s local (g_id g)) (g_assocs g).

(* v2/mod.rs 513-526, 597-609, 652-664, 714-723: the attributes of a signal; what is missing from
   a catalog is skipped. Only a span keeps the sampling relevance. *)
Fixpoint signal_uses (s : source1) (cat : list attribute2) (sampled : bool) (l : list nat) : list attr_use :=
  match l with
  | [] => []
  | r :: rest =>
      match nth_error (so_catalog s) r with
      | None => signal_uses s cat sampled rest
      | Some a =>
          match convert_ref cat a with
          | None => signal_uses s cat sampled rest
          | Some b => {| u_base := b; u_req := at_req a; u_sampling := if sampled then at_sampling a else None |}
                      :: signal_uses s cat sampled rest
          end
      end
  end.

(* what the pass over the groups has pushed *)
(* used by nothing: v2/mod.rs 708-737 *)
Record pushed := {
  pu_groups : list attribute_group2;
  pu_spans : list span2; pu_span_refs : list (string * span2);
  pu_events : list event2; pu_event_refs : list (string * event2);
  pu_metrics : list metric2; pu_metric_refs : list (string * metric2)
}.
(* used by convert_group: v2/mod.rs 708-737 *)
Definition nothing : pushed :=
  {| pu_groups := []; pu_spans := []; pu_span_refs := []; pu_events := []; pu_event_refs := [];
     pu_metrics := []; pu_metric_refs := [] |}.
(* used by signal_pass: v2/mod.rs 507-743 *)
Definition join (a b : pushed) : pushed :=
  {| pu_groups := app (pu_groups a) (pu_groups b);
     pu_spans := app (pu_spans a) (pu_spans b); pu_span_refs := app (pu_span_refs a) (pu_span_refs b);
     pu_events := app (pu_events a) (pu_events b); pu_event_refs := app (pu_event_refs a) (pu_event_refs b);
     pu_metrics := app (pu_metrics a) (pu_metrics b); pu_metric_refs := app (pu_metric_refs a) (pu_metric_refs b) |}.
(* used by convert_span: v2/mod.rs 509-593 *)
Definition push_span (defs : list span2) (refs : list (string * span2)) : pushed :=
  {| pu_groups := []; pu_spans := defs; pu_span_refs := refs; pu_events := []; pu_event_refs := [];
     pu_metrics := []; pu_metric_refs := [] |}.
(* used by convert_event: v2/mod.rs 594-648 *)
Definition push_event (defs : list event2) (refs : list (string * event2)) : pushed :=
  {| pu_groups := []; pu_spans := []; pu_span_refs := []; pu_events := defs; pu_event_refs := refs;
     pu_metrics := []; pu_metric_refs := [] |}.
(* used by convert_metric: v2/mod.rs 649-704 *)
Definition push_metric (defs : list metric2) (refs : list (string * metric2)) : pushed :=
  {| pu_groups := []; pu_spans := []; pu_span_refs := []; pu_events := []; pu_event_refs := [];
     pu_metrics := defs; pu_metric_refs := refs |}.
(* used by convert_group: v2/mod.rs 708-737 *)
Definition push_group (g : attribute_group2) : pushed :=
  {| pu_groups := [g]; pu_spans := []; pu_span_refs := []; pu_events := []; pu_event_refs := [];
     pu_metrics := []; pu_metric_refs := [] |}.

(* v2/mod.rs 509-593: a span *)
Definition span_of (s : source1) (cat : list attribute2) (type : string) (assocs : list (assoc entity_ref)) (g : group) : span2 :=
  {| sp2_type := type; sp2_kind := opt_get (g_span_kind g) SkInternal;
     sp2_name := opt_get (g_span_name g) (opt_get (g_name g) "");
     sp2_attributes := signal_uses s cat true (g_attributes g);
     sp2_assocs := assocs; sp2_level := g_level g; sp2_common := group_common g;
     sp2_provenance := get_provenance s g |}.
(* as above: v2/mod.rs 509-593 *)
Definition convert_span (s : source1) (cat : list attribute2) (local : list (string * option nat)) (g : group) : conv pushed :=
  if negb (is_refinement_of g) then
    conv_bind (convert_assocs s local g) (fun l =>
      let sp := span_of s cat (fix_group_id "span." (g_id g)) l g in
      Converted (push_span [sp] [(sp2_type sp, sp)]))
  else
    match extends_group g with
    | None => Failed (CBaseNotFound (g_id g))
    | Some base =>
        conv_bind (convert_assocs s local g) (fun l =>
          Converted (push_span [] [(fix_group_id "span." (g_id g), span_of s cat (fix_group_id "span." base) l g)]))
    end.
(* v2/mod.rs 594-648: an event *)
Definition convert_event (s : source1) (cat : list attribute2) (local : list (string * option nat)) (g : group) : conv pushed :=
  match g_name g with
  | None => Failed (CEventName (g_id g))
  | Some name =>
      conv_bind (convert_assocs s local g) (fun l =>
        let ev := {| ev2_name := name; ev2_attributes := signal_uses s cat false (g_attributes g);
                     ev2_assocs := l; ev2_level := g_level g; ev2_common := group_common g;
                     ev2_provenance := get_provenance s g |} in
        Converted (if negb (is_refinement_of g) then push_event [ev] [(name, ev)]
                   else push_event [] [(fix_group_id "event." (g_id g), ev)]))
  end.
(* v2/mod.rs 649-704: a metric *)
Definition convert_metric (s : source1) (cat : list attribute2) (local : list (string * option nat)) (g : group) : conv pushed :=
  match g_metric_name g, g_instrument g, g_unit g with
  | Some name, Some instr, Some unit =>
      conv_bind (convert_assocs s local g) (fun l =>
        let me := {| me2_name := name; me2_instrument := instr; me2_unit := unit;
                     me2_attributes := signal_uses s cat false (g_attributes g);
                     me2_assocs := l; me2_level := g_level g; me2_common := group_common g;
                     me2_provenance := get_provenance s g |} in
        Converted (if is_refinement_of g then push_metric [] [(fix_group_id "metric." (g_id g), me)]
                   else push_metric [me] [(name, me)]))
  | _, _, _ => Panicked
  end.
(* v2/mod.rs 708-737: an attribute group *)
Definition convert_group (s : source1) (cat : list attribute2) (g : group) : pushed :=
  match g_visibility g with
  | Some Public =>
      push_group {| ag2_id := fix_group_id "attribute_group." (g_id g);
                    ag2_attributes := signal_uses s cat false (g_attributes g);
                    ag2_common := group_common g; ag2_provenance := get_provenance s g |}
  | _ => nothing
  end.
(* v2/mod.rs 507-743: one group of the second pass, and the pass *)
Definition convert_one (s : source1) (cat : list attribute2) (local : list (string * option nat)) (g : group) : conv pushed :=
  match g_type g with
  | GSpan => convert_span s cat local g
  | GEvent => convert_event s cat local g
  | GMetric => convert_metric s cat local g
  | GEntity => Converted nothing
  | GAttributeGroup => Converted (convert_group s cat g)
  | GMetricGroup | GScope | GUndefined => Converted nothing
  end.
(* as above: v2/mod.rs 507-743 *)
Fixpoint signal_pass (s : source1) (cat : list attribute2) (local : list (string * option nat)) (gs : list group) : conv pushed :=
  match gs with
  | [] => Converted nothing
  | g :: r => conv_bind (convert_one s cat local g) (fun p =>
              conv_bind (signal_pass s cat local r) (fun q => Converted (join p q)))
  end.

(* v2/mod.rs 748-770: the attribute definitions, in the order they are found *)
Definition is_def (g : group) (a : attribute) : bool :=
  match g_lineage g with
  | Some l => negb (is_some (lineage_attribute l (at_name a)))
  | None => true
  end.
(* as above: v2/mod.rs 748-770 *)
Definition group_defs (s : source1) (cat : list attribute2) (g : group) : list nat :=
  flat_map (fun r => match nth_error (so_catalog s) r with
                     | Some a => if is_def g a then match convert_ref cat a with Some b => [b] | None => [] end else []
                     | None => []
                     end) (g_attributes g).
(* Vec::dedup: consecutive equal elements *)
(* used by registry_attributes: v2/mod.rs 748-772 *)
Fixpoint dedup (l : list nat) : list nat :=
  match l with
  | x :: (y :: _) as r => if Nat.eqb x y then dedup r else x :: dedup r
  | _ => l
  end.
(* v2/mod.rs 748-772 *)
Definition registry_attributes (s : source1) (cat : list attribute2) : list nat :=
  dedup (stable_sort Nat.leb (flat_map (group_defs s cat) (so_groups s))).

(* v2/mod.rs 329-789 convert_v1_to_v2 and 130-154 try_from *)
Definition convert (hash : attribute2 -> N) (order : list attribute2 -> list attribute2)
    (name_of : string -> string) (url_ok : string -> bool) (s : source1) : conv schema2 :=
  let cat := v2_catalog hash order name_of s in
  conv_bind (entity_pass s cat) (fun es =>
  conv_bind (signal_pass s cat (local_entities (entity_refinements es)) (so_groups s)) (fun p =>
  if url_ok (so_url s) then
    Converted {| s2_url := so_url s; s2_catalog := cat;
                 s2_registry := {| r2_attributes := registry_attributes s cat;
                                   r2_attribute_groups := pu_groups p; r2_spans := pu_spans p;
                                   r2_metrics := pu_metrics p; r2_events := pu_events p;
                                   r2_entities := entity_definitions es |};
                 s2_refinements := {| f2_spans := pu_span_refs p; f2_metrics := pu_metric_refs p;
                                      f2_events := pu_event_refs p; f2_entities := entity_refinements es |};
                 s2_dependencies := so_deps s |}
  else Failed (CInvalidUrl (so_url s)))).
