(** Model of the schema diff (v1 and v2) and of the change summary. *)
From Coq Require Import String Ascii Bool Arith Lia List.
From Verif Require Import Base Json SemTypes Resolved.
Import ListNotations.
Local Open Scope string_scope.
Local Open Scope list_scope.

(** crates/weaver_semconv/src/deprecated.rs 186-199 [Deprecated::note]. *)
Definition dep_note (d : deprecated) : string :=
  match d with
  | DRenamed to None => ("Replaced by `" ++ to ++ "`.")%string
  | DRenamed _ (Some n) => n
  | DObsoleted n => n
  | DUncategorized n => n
  | DUnspecified n => n
  end.

(** deprecated.rs 203-210 [Deprecated::reason]. *)
Definition dep_reason (d : deprecated) : string :=
  match d with
  | DRenamed _ _ => "renamed"
  | DObsoleted _ => "obsoleted"
  | DUncategorized _ => "uncategorized"
  | DUnspecified _ => "unspecified"
  end.

(** deprecated.rs 20 derived [PartialEq]. *)
Definition dep_eqb (a b : deprecated) : bool :=
  match a, b with
  | DRenamed t n, DRenamed t' n' => String.eqb t t' && opt_eqb String.eqb n n'
  | DObsoleted n, DObsoleted n' => String.eqb n n'
  | DUncategorized n, DUncategorized n' => String.eqb n n'
  | DUnspecified n, DUnspecified n' => String.eqb n n'
  | _, _ => false
  end.

(** deprecated.rs 216-230 [Serialize for Deprecated]. *)
Definition dep_to_json (d : deprecated) : json :=
  JObj ([("reason", JStr (dep_reason d))]
        ++ match d with DRenamed to _ => [("renamed_to", JStr to)] | _ => [] end
        ++ [("note", JStr (dep_note d))]).

(** Reading a string field of an object. *)
(* used by dep_of_json: deprecated.rs 20-24 *)
Definition jstr_field (k : string) (m : list (string * json)) : option string :=
  match slookup k m with Some (JStr s) => Some s | _ => None end.

(** deprecated.rs 20-24 derived [Deserialize] with tag [reason], which is how the resolved
    schema files are read. Objects with unknown fields are accepted by serde for this enum;
    an absent or null note of a renamed item is [None]. *)
Definition dep_of_json (j : json) : option deprecated :=
  match j with
  | JObj m =>
      match jstr_field "reason" m with
      | Some "renamed" =>
          match jstr_field "renamed_to" m with
          | Some to =>
              match slookup "note" m with
              | None | Some JNull => Some (DRenamed to None)
              | Some (JStr n) => Some (DRenamed to (Some n))
              | Some _ => None
              end
          | None => None
          end
      | Some "obsoleted" => option_map DObsoleted (jstr_field "note" m)
      | Some "uncategorized" => option_map DUncategorized (jstr_field "note" m)
      | Some "unspecified" => option_map DUnspecified (jstr_field "note" m)
      | _ => None
      end
  | _ => None
  end.

(** deprecated.rs 64-133 [deserialize_deprecated], which is how definition files are read.
    The map visitor takes the last occurrence of a key; the model takes maps without
    duplicate keys. *)
Definition dep_of_definition (j : json) : option deprecated :=
  match j with
  | JStr s => Some (DUnspecified s)
  | JObj m =>
      if forallb (fun kv => str_mem (fst kv) ["reason"; "renamed_to"; "note"]) m
         && forallb (fun kv => match snd kv with JStr _ => true | _ => false end) m
      then
        match jstr_field "reason" m with
        | Some "renamed" =>
            match jstr_field "renamed_to" m with
            | Some to => Some (DRenamed to (jstr_field "note" m))
            | None => None
            end
        | Some "obsoleted" => Some (DObsoleted (opt_get (jstr_field "note" m) "Obsoleted."))
        | Some "uncategorized" =>
            Some (DUncategorized (opt_get (jstr_field "note" m) "Uncategorized."))
        | _ => None
        end
      else None
  | _ => None
  end.

(** crates/weaver_version/src/schema_changes.rs 55-95 [SchemaItemChange]; the placeholder
    [Updated] is never produced. *)
Inductive change :=
| ChAdded (name : string)
| ChRenamed (old new note : string)
| ChUpdated
| ChObsoleted (name note : string)
| ChUncategorized (name note : string)
| ChRemoved (name : string).

(** schema_changes.rs 12-23 [SchemaItemType]. *)
Inductive item_type := ItAttributes | ItMetrics | ItEvents | ItSpans | ItEntities.
(* as above: schema_changes.rs 12-23 *)
Definition item_type_eqb (a b : item_type) : bool :=
  match a, b with
  | ItAttributes, ItAttributes | ItMetrics, ItMetrics | ItEvents, ItEvents
  | ItSpans, ItSpans | ItEntities, ItEntities => true
  | _, _ => false
  end.

(** schema_changes.rs 28-39 [SchemaChanges]. *)
Record changes1 := {
  ch_head : string;
  ch_baseline : string;
  ch_map : list (item_type * list change)
}.

(** schema_changes.rs 100-123 [SchemaChanges::new]. *)
Definition changes_new : changes1 :=
  {| ch_head := ""; ch_baseline := "";
     ch_map := [(ItAttributes, []); (ItMetrics, []); (ItEvents, []); (ItSpans, []);
                (ItEntities, [])] |}.

(** schema_changes.rs 262-267 [add_change]; the [expect] cannot fail on a value built by
    [new], the model leaves the map unchanged in that case. *)
Definition add_change (c : changes1) (t : item_type) (x : change) : changes1 :=
  {| ch_head := ch_head c; ch_baseline := ch_baseline c;
     ch_map := match lookup item_type_eqb t (ch_map c) with
               | Some v => insert item_type_eqb t (v ++ [x]) (ch_map c)
               | None => ch_map c
               end |}.

(** schema_changes.rs 128-130, 134-136. *)
Definition changes_is_empty (c : changes1) : bool :=
  forallb (fun kv => match snd kv with [] => true | _ => false end) (ch_map c).
(* crates/weaver_version/src/schema_changes.rs 134-136 *)
Definition count_changes (c : changes1) : nat :=
  list_sum (map (fun kv => length (snd kv)) (ch_map c)).

(** schema_changes.rs 281-283 [changes_by_type]. *)
Definition changes_by_type (c : changes1) (t : item_type) : option (list change) :=
  lookup item_type_eqb t (ch_map c).

(** schema_changes.rs 140-209: the five kinds counted for registry attributes. *)
Definition is_added (c : change) := match c with ChAdded _ => true | _ => false end.
(* as above: schema_changes.rs 140-209 *)
Definition is_renamed (c : change) := match c with ChRenamed _ _ _ => true | _ => false end.
(* as above: schema_changes.rs 140-209 *)
Definition is_obsoleted (c : change) := match c with ChObsoleted _ _ => true | _ => false end.
(* as above: schema_changes.rs 140-209 *)
Definition is_uncategorized (c : change) :=
  match c with ChUncategorized _ _ => true | _ => false end.
(* as above: schema_changes.rs 140-209 *)
Definition is_removed (c : change) := match c with ChRemoved _ => true | _ => false end.
(* as above: schema_changes.rs 140-209 *)
Definition count_attr (p : change -> bool) (c : changes1) : nat :=
  match changes_by_type c ItAttributes with Some v => count_if p v | None => 0 end.
(* as above: schema_changes.rs 140-209 *)
Definition count_type (t : item_type) (c : changes1) : nat :=
  match changes_by_type c t with Some v => length v | None => 0 end.

(** Collecting (key, value) pairs into a HashMap: a later pair replaces an earlier one. *)
(* used by registry_attribute_map: crates/weaver_resolved_schema/src/v2/mod.rs 119-126 *)
Definition collect {V} (l : list (string * V)) : list (string * V) :=
  fold_left (fun m kv => sinsert (fst kv) (snd kv) m) l [].

Section Diff.
  (** HashMap iteration order: any permutation of the entries. *)
  Variable order : forall V : Type, list (string * V) -> list (string * V).

  (** * Version 1 *)

  (** crates/weaver_resolved_schema/src/lib.rs 242-270 [registry_attribute_map];
      [Err] is the panic of [expect]. *)
  Definition is_refinement_attr (g : group) (a : attribute) : bool :=
    match g_lineage g with
    | Some gl =>
        match lineage_attribute gl (at_name a) with
        | Some al => negb (String.eqb (al_source al) (g_id g))
        | None => false
        end
    | None => false
    end.

  (* used by groups_attrs: crates/weaver_resolved_schema/src/v2/mod.rs 119-126 *)
  Fixpoint group_attrs (s : schema1) (g : group) (refs : list nat)
    : res (list (string * attribute)) :=
    match refs with
    | [] => Ok []
    | r :: rest =>
        match nth_error (s1_catalog s) r with
        | None => Err "Attribute ref not found in catalog. This is a bug."
        | Some a =>
            let* l := group_attrs s g rest in
            Ok (if is_refinement_attr g a then l else (at_name a, a) :: l)
        end
    end.

  (* used by registry_attribute_map: crates/weaver_resolved_schema/src/v2/mod.rs 119-126 *)
  Fixpoint groups_attrs (s : schema1) (gs : list group) : res (list (string * attribute)) :=
    match gs with
    | [] => Ok []
    | g :: rest =>
        let* a := group_attrs s g (g_attributes g) in
        let* b := groups_attrs s rest in
        Ok (a ++ b)
    end.

  (* crates/weaver_resolved_schema/src/v2/mod.rs 119-126 *)
  Definition registry_attribute_map (s : schema1) : res (list (string * attribute)) :=
    let* l := groups_attrs s (s1_groups s) in
    Ok (collect l).

  (** lib.rs 285-292 [groups_by_name]. *)
  Definition groups_by_name (s : schema1) (t : group_type) : list (string * group) :=
    collect (flat_map (fun g => match signal_name g with Some n => [(n, g)] | None => [] end)
               (filter (fun g => group_type_eqb (g_type g) t) (s1_groups s))).

  (** The change reported for an item present on both sides; lib.rs 383-428, 461-503 and
      v2/mod.rs 816-847 have the same text up to how the name is spelled. [old_name] is the
      name used in a rename, [name] the one used otherwise. *)
  Definition deprecation_change (old_name name : string) (latest base : option deprecated)
    : list change :=
    match latest with
    | None => []
    | Some d =>
        if match base with Some b => dep_eqb d b | None => false end then []
        else match d with
             | DRenamed to _ => [ChRenamed old_name to (dep_note d)]
             | DObsoleted note => [ChObsoleted name note]
             | DUnspecified note | DUncategorized note => [ChUncategorized name note]
             end
    end.

  (** lib.rs 366-450 [diff_attributes]: names are taken from the attributes. *)
  Definition diff_attributes (latest base : list (string * attribute)) (c : changes1) : changes1 :=
    let c1 := fold_left
      (fun c '(n, a) =>
         match slookup n base with
         | Some b =>
             fold_left (fun c x => add_change c ItAttributes x)
               (deprecation_change (at_name b) (at_name a) (at_deprecated a) (at_deprecated b)) c
         | None => add_change c ItAttributes (ChAdded (at_name a))
         end) (order _ latest) c in
    fold_left
      (fun c '(n, b) =>
         if has_key String.eqb n latest then c
         else add_change c ItAttributes (ChRemoved (at_name b))) (order _ base) c1.

  (** lib.rs 452-530 [diff_signals]. *)
  Definition diff_signals (t : item_type) (latest base : list (string * group)) (c : changes1)
    : changes1 :=
    let c1 := fold_left
      (fun c '(n, g) =>
         match slookup n base with
         | Some b =>
             fold_left (fun c x => add_change c t x)
               (deprecation_change n n (g_deprecated g) (g_deprecated b)) c
         | None => add_change c t (ChAdded n)
         end) (order _ latest) c in
    fold_left
      (fun c '(n, _) =>
         if has_key String.eqb n latest then c else add_change c t (ChRemoved n))
      (order _ base) c1.

  (** lib.rs 305-364 [diff]. *)
  Definition diff1 (head base : schema1) : res changes1 :=
    let c0 := changes_new in
    let c0 := match s1_manifest_version head with
              | Some v => {| ch_head := v; ch_baseline := ch_baseline c0; ch_map := ch_map c0 |}
              | None => c0
              end in
    let c0 := match s1_manifest_version base with
              | Some v => {| ch_head := ch_head c0; ch_baseline := v; ch_map := ch_map c0 |}
              | None => c0
              end in
    let* la := registry_attribute_map head in
    let* ba := registry_attribute_map base in
    let c := diff_attributes la ba c0 in
    let c := diff_signals ItMetrics (groups_by_name head GMetric) (groups_by_name base GMetric) c in
    let c := diff_signals ItEvents (groups_by_name head GEvent) (groups_by_name base GEvent) c in
    let c := diff_signals ItSpans (groups_by_name head GSpan) (groups_by_name base GSpan) c in
    let c := diff_signals ItEntities (groups_by_name head GEntity) (groups_by_name base GEntity) c in
    Ok c.

  (** * Version 2 *)

  Section Hash.
    Context {T : Type}.
    Variable dep : T -> option deprecated.

    (** crates/weaver_resolved_schema/src/v2/mod.rs 808-867 [diff_signals_by_hash]. *)
    Definition diff_by_hash (latest base : list (string * T)) : list change :=
      flat_map
        (fun '(n, x) =>
           match slookup n base with
           | Some b => deprecation_change n n (dep x) (dep b)
           | None => [ChAdded n]
           end) (order _ latest)
      ++ flat_map
           (fun '(n, _) => if has_key String.eqb n latest then [] else [ChRemoved n])
           (order _ base).
  End Hash.

  (** v2/mod.rs 801-805 [diff_signals]. *)
  Definition diff_signals2 {T} (id : T -> string) (com : T -> common) (latest base : list T)
    : list change :=
    diff_by_hash (fun x => c_deprecated (com x))
      (collect (map (fun x => (id x, x)) latest)) (collect (map (fun x => (id x, x)) base)).

  (** v2/mod.rs 119-126 [registry_attribute_map]: dangling references are skipped. *)
  Definition registry_attribute_map2 (s : schema2) : list (string * attribute2) :=
    collect (flat_map (fun r => match nth_error (s2_catalog s) r with
                                | Some a => [(a2_key a, a)] | None => [] end)
               (r2_attributes (s2_registry s))).

  (** crates/weaver_version/src/v2/mod.rs [RegistryChanges] and [SchemaChanges]. *)
  (* used by diff2: v2/mod.rs 81-117 *)
  Record changes2 := {
    c2_head : string;
    c2_baseline : string;
    c2_attributes : list change;
    c2_attribute_groups : list change;
    c2_entities : list change;
    c2_events : list change;
    c2_metrics : list change;
    c2_spans : list change
  }.

  (* crates/weaver_version/src/v2/mod.rs 54-61, 68-70 *)
  Definition changes2_is_empty (c : changes2) : bool :=
    match c2_attributes c, c2_attribute_groups c, c2_entities c, c2_events c, c2_metrics c,
          c2_spans c with
    | [], [], [], [], [], [] => true
    | _, _, _, _, _, _ => false
    end.

  (** v2/mod.rs 81-117 [diff], [registry_diff], [registry_attribute_diff]. *)
  Definition diff2 (head base : schema2) : changes2 :=
    let h := s2_registry head in
    let b := s2_registry base in
    {| c2_head := s2_url head;
       c2_baseline := s2_url base;
       c2_attributes := diff_by_hash (fun a => c_deprecated (a2_common a))
                          (registry_attribute_map2 head) (registry_attribute_map2 base);
       c2_attribute_groups := diff_signals2 ag2_id ag2_common
                                (r2_attribute_groups h) (r2_attribute_groups b);
       c2_entities := diff_signals2 en2_type en2_common (r2_entities h) (r2_entities b);
       c2_events := diff_signals2 ev2_name ev2_common (r2_events h) (r2_events b);
       c2_metrics := diff_signals2 me2_name me2_common (r2_metrics h) (r2_metrics b);
       c2_spans := diff_signals2 sp2_type sp2_common (r2_spans h) (r2_spans b) |}.
End Diff.

(** schema_changes.rs 287-364 [dump_stats]: the counters printed for one item type, in
    order: added, "renamed to new", "renamed to existing", "deprecated", removed. *)
Definition dump_counts (l : list change) : nat * nat * nat * nat * nat :=
  (count_if is_added l, count_if is_renamed l, count_if is_renamed l, count_if is_obsoleted l,
   count_if is_removed l).
