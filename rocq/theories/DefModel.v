(* Semantic convention definitions as written in files, their validation, and the translation
   of version 2 files to groups.
   Models crates/weaver_semconv/src/{attribute,group,any_value,semconv,entity_association}.rs
   and crates/weaver_semconv/src/v2/*.rs.
   Simplified: YAML values are JSON values; an error keeps its variant, the id it is about and
   its text where two errors differ by it, not the path of the file; glob patterns of imports
   are their texts. *)
From Coq Require Import String Ascii Bool Arith ZArith NArith List.
Import ListNotations.
From Verif Require Import Base Json SemTypes Resolved ResultModel VdirModel Str CodeModel.
Local Open Scope string_scope.

(* attribute.rs 28-86: AttributeSpec::Ref *)
Record ref_spec := {
  rs_ref : string; rs_brief : option string; rs_examples : option examples; rs_tag : option string;
  rs_req : option req_level; rs_sampling : option bool; rs_note : option string;
  rs_stability : option stability; rs_deprecated : option deprecated; rs_prefix : bool;
  rs_annotations : option (list (string * json)); rs_role : option attr_role
}.
(* attribute.rs 87-144: AttributeSpec::Id *)
Record id_spec := {
  is_id : string; is_type : attr_type; is_brief : option string; is_examples : option examples;
  is_tag : option string; is_req : req_level; is_sampling : option bool; is_note : string;
  is_stability : option stability; is_deprecated : option deprecated;
  is_annotations : option (list (string * json)); is_role : option attr_role
}.
(* as above: attribute.rs 87-144 *)
Inductive attr_spec := SRef (r : ref_spec) | SId (i : id_spec).

(* attribute.rs 168-174 *)
Definition spec_id (a : attr_spec) : string := match a with SRef r => rs_ref r | SId i => is_id i end.

(* group.rs 32-166: GroupSpec *)
Record group_spec := {
  gs_id : string; gs_type : group_type; gs_brief : string; gs_note : string; gs_prefix : string;
  gs_extends : option string; gs_stability : option stability; gs_deprecated : option deprecated;
  gs_attributes : list attr_spec; gs_span_kind : option span_kind; gs_events : list string;
  gs_metric_name : option string; gs_instrument : option instrument; gs_unit : option string;
  gs_name : option string; gs_display_name : option string; gs_body : option any_value;
  gs_annotations : option (list (string * json)); gs_assocs : list (assoc string);
  gs_include : list string; gs_visibility : option visibility; gs_is_v2 : bool;
  gs_span_name : option string; gs_level : option signal_level
}.

(* semconv.rs 52-74: Imports; patterns by their text *)
Record imports := {
  im_metrics : option (list string); im_events : option (list string);
  im_entities : option (list string); im_spans : option (list string);
  im_attribute_groups : option (list string)
}.

(* semconv.rs 38-48: SemConvSpecV1 *)
Record spec1 := { sp1_groups : list group_spec; sp1_imports : option imports }.

(* lib.rs 35-430: the errors of definitions *)
Inductive spec_error :=
| EUsesPrefix (group : string)
| EGroupStability (group : string)
| EDuplicateRef (group attr : string)
| EMissingContent (group : string)
| EInvalidGroup (group why : string)
| EMissingType (group : string)
| EMissingSpanKind (group : string)
| EInvalidMetric (group why : string)
| EUnstructured (id : string)
| EInvalidAttribute (group attr : string)
| EAttributeWarning (group attr why : string)
| EExampleError (group attr : string)
| EExampleWarning (group attr : string)
| EAnyValue (group value : string)
| EAnyValueExample (group value : string)
| ENoLevel (group : string)
| EBothLists (group attr : string)
| ENoIdentity (group : string)
| EUnstableFormat
| EVersionField
| EBadFormat (key value : string)
| ENotMapping
| ENotParsed
| ECompound (es : list spec_error).

(* lib.rs: the severity attributes; none declared is None *)
(* crates/weaver_semconv/src/lib.rs 60-470, the #[diagnostic] attributes *)
Definition spec_severity (e : spec_error) : option severity :=
  match e with
  | EUsesPrefix _ | EGroupStability _ | EDuplicateRef _ _ | EMissingContent _ | EMissingType _
  | EMissingSpanKind _ | EUnstructured _ | EAttributeWarning _ _ _ | EExampleWarning _ _
  | EAnyValue _ _ | ENoLevel _ | EUnstableFormat | EVersionField => Some SevWarning
  | EExampleError _ _ | EAnyValueExample _ _ | EBadFormat _ _ | ENotMapping | ENotParsed => Some SevError
  | EInvalidGroup _ _ | EInvalidMetric _ _ | EInvalidAttribute _ _ | EBothLists _ _ | ENoIdentity _
  | ECompound _ => None
  end.

(* attribute.rs 576-658: Examples::validate *)
Definition validate_examples (e : examples) (t : attr_type) (gid aid : string) : list spec_error :=
  match e, t with
  | EBool _, TPrim PBoolean | EInt _, TPrim PInt | EDouble _, TPrim PDouble | EString _, TPrim PString
  | EInts _, TPrim PInt | EDoubles _, TPrim PDouble | EBools _, TPrim PBoolean | EStrings _, TPrim PString
  | EListInts _, TPrim PInts | EListDoubles _, TPrim PDoubles | EListBools _, TPrim PBooleans
  | EListStrings _, TPrim PStrings | _, TPrim PAny => []
  | _, TEnum _ => []
  | EInts _, TPrim PInts | EDoubles _, TPrim PDoubles | EBools _, TPrim PBooleans
  | EStrings _, TPrim PStrings => [EExampleWarning gid aid]
  | EString _, TTemplate PString | EInt _, TTemplate PInt | EDouble _, TTemplate PDouble
  | EBool _, TTemplate PBoolean | EListStrings _, TTemplate PStrings | EListInts _, TTemplate PInts
  | EListDoubles _, TTemplate PDoubles | EListBools _, TTemplate PBooleans
  | EStrings _, TTemplate PString | EInts _, TTemplate PInt | EDoubles _, TTemplate PDouble
  | EBools _, TTemplate PBoolean | _, TTemplate PAny => []
  | EString _, TTemplate PStrings | EStrings _, TTemplate PStrings => [EExampleWarning gid aid]
  | _, _ => [EExampleError gid aid]
  end.

(* any_value.rs 188-206, 222-225 *)
Definition av_common (v : any_value) : any_common :=
  match v with
  | AvPrim _ c | AvMap c _ | AvMaps c _ | AvBytes c | AvUndefined c | AvEnum c _ => c
  end.
(* as above: any_value.rs 188-206, any_value.rs 222-225 *)
Definition av_id (v : any_value) : string := ac_id (av_common v).

(* attribute.rs 661-727: Examples::validate_any_value.  [AvPrim PAny] does not exist. *)
Definition validate_av_examples (e : examples) (v : any_value) (gid : string) : list spec_error :=
  match e, v with
  | EBool _, AvPrim PBoolean _ | EInt _, AvPrim PInt _ | EDouble _, AvPrim PDouble _
  | EString _, AvPrim PString _ | EString _, AvMap _ _ | EString _, AvMaps _ _
  | EInts _, AvPrim PInt _ | EDoubles _, AvPrim PDouble _ | EBools _, AvPrim PBoolean _
  | EStrings _, AvPrim PString _ | EStrings _, AvMap _ _ | EStrings _, AvMaps _ _
  | EListInts _, AvPrim PInts _ | EListDoubles _, AvPrim PDoubles _ | EListBools _, AvPrim PBooleans _
  | EListStrings _, AvPrim PStrings _ | EListStrings _, AvMap _ _ => []
  | EListStrings _, AvMaps _ _ => []
  | _, AvEnum _ _ | _, AvBytes _ | _, AvUndefined _ => []
  | _, _ => [EAnyValueExample gid (av_id v)]
  end.

(* group.rs 541-584: validate_any_value_examples; only the fields of a map are visited *)
Fixpoint av_examples_errors (v : any_value) (gid : string) : list spec_error :=
  app (match ac_examples (av_common v) with
       | Some e => validate_av_examples e v gid
       | None =>
         match v with
         | AvPrim PString _ | AvPrim PStrings _ => [EAnyValueExample gid (av_id v)]
         | _ => []
         end
       end)
      (match v with
       | AvMap _ fields => flat_map (fun f => av_examples_errors f gid) fields
       | _ => []
       end).

(* group.rs 586-624: validate_any_value *)
Fixpoint av_errors (v : any_value) (gid : string) : list spec_error :=
  app (match ac_stability (av_common v) with None => [EAnyValue gid (av_id v)] | Some _ => [] end)
      (match v with
       | AvEnum _ members =>
         flat_map (fun m => match ee_stability m with None => [EAnyValue gid (av_id v)] | Some _ => [] end) members
       | AvMap _ fields => flat_map (fun f => av_errors f gid) fields
       | _ => []
       end).

(* group.rs 521-539: validate_duplicate_attribute_ref, with the references seen so far *)
Fixpoint duplicate_refs (gid : string) (seen : list string) (l : list attr_spec) : list spec_error :=
  match l with
  | [] => []
  | SRef r :: t =>
    if str_mem (rs_ref r) seen then EDuplicateRef gid (rs_ref r) :: duplicate_refs gid seen t
    else duplicate_refs gid (rs_ref r :: seen) t
  | SId _ :: t => duplicate_refs gid seen t
  end.

(* group.rs 492-519: validate_entity_association, the first failure; str::trim on ASCII *)
Fixpoint association_error (a : assoc string) : option string :=
  let first := fix first (l : list (assoc string)) : option string :=
    match l with
    | [] => None
    | c :: r => match association_error c with Some e => Some e | None => first r end
    end in
  match a with
  | ARef name => if is_empty (trim_ws name) then Some "empty entity reference" else None
  | AOneOf cs => match cs with [] => Some "empty one_of" | _ => first cs end
  | AAllOf cs => match cs with [] => Some "empty all_of" | _ => first cs end
  end.

(* used by member_errors: group.rs 359-398 *)
Definition is_unspecified (d : option deprecated) : bool :=
  match d with Some (DUnspecified _) => true | _ => false end.
(* as above: group.rs 492-519 *)
Definition opt_stab_eqb (a : option stability) (s : stability) : bool :=
  match a with Some x => stability_eqb x s | None => false end.
(* as above: group.rs 492-519 *)
Definition when (b : bool) (e : spec_error) : list spec_error := if b then [e] else [].
(* as above: group.rs 492-519 *)
Definition no {A} (o : option A) : bool := negb (is_some o).

(* group.rs 359-398: an enum member *)
Definition member_errors (gid aid : string) (m : enum_entry) : list spec_error :=
  app (if no (ee_stability m) then [EAttributeWarning gid aid "member stability"]
       else when (opt_stab_eqb (ee_stability m) SDeprecated) (EAttributeWarning gid aid "member deprecated"))
      (when (is_unspecified (ee_deprecated m)) (EUnstructured aid)).

(* group.rs 322-463: one attribute *)
Definition attribute_errors (gid : string) (a : attr_spec) : list spec_error :=
  match a with
  | SRef _ => []
  | SId i =>
    app (when (no (is_brief i) && no (is_deprecated i)) (EInvalidAttribute gid (is_id i)))
    (app (if no (is_stability i) then [EAttributeWarning gid (is_id i) "stability"]
          else when (opt_stab_eqb (is_stability i) SDeprecated) (EAttributeWarning gid (is_id i) "deprecated"))
    (app (match is_type i with TEnum ms => flat_map (member_errors gid (is_id i)) ms | _ => [] end)
    (app (when (is_unspecified (is_deprecated i)) (EUnstructured (is_id i)))
    (match is_examples i with
     | Some e => validate_examples e (is_type i) gid (is_id i)
     | None =>
       match is_type i with
       | TPrim PString | TPrim PStrings => [EExampleWarning gid (is_id i)]
       | _ => []
       end
     end))))
  end.

(* group.rs 172-488: GroupSpec::validate.  The order of the errors differs from the code for
   the example errors of a body: the code appends them to the same list. *)
Definition group_errors (g : group_spec) : list spec_error :=
  let id := gs_id g in
  let t := gs_type g in
  let is := group_type_eqb t in
  app (when (negb (String.eqb (gs_prefix g) "")) (EUsesPrefix id))
  (app (when (negb (is GAttributeGroup) && no (gs_stability g)) (EGroupStability id))
  (app (when (opt_stab_eqb (gs_stability g) SDeprecated) (EGroupStability id))
  (app (duplicate_refs id [] (gs_attributes g))
  (app (when (negb (is GMetric) && negb (is GEvent) && no (gs_extends g)
              && match gs_attributes g with [] => true | _ => false end) (EMissingContent id))
  (app (if negb (is GSpan) && negb (is GUndefined)
        then app (when (is_some (gs_span_kind g)) (EInvalidGroup id "span_kind"))
                 (when (match gs_events g with [] => false | _ => true end) (EInvalidGroup id "events"))
        else [])
  (app (when (is GUndefined) (EMissingType id))
  (app (when (is GSpan && no (gs_span_kind g)) (EMissingSpanKind id))
  (app (if is GEvent
        then app (when (is_some (gs_body g) && no (gs_name g)) (EInvalidGroup id "name"))
             (app (when (no (gs_body g) && no (gs_name g) && String.eqb (gs_prefix g) "") (EInvalidGroup id "name or prefix"))
             (match gs_body g with
              | Some b => app (av_errors b id) (av_examples_errors b id)
              | None => []
              end))
        else when (is_some (gs_body g)) (EInvalidGroup id "body"))
  (app (if is GMetric
        then app (when (no (gs_metric_name g)) (EInvalidMetric id "metric_name"))
             (app (when (no (gs_instrument g)) (EInvalidMetric id "instrument"))
                  (when (no (gs_unit g)) (EInvalidMetric id "unit")))
        else [])
  (app (when (is_unspecified (gs_deprecated g)) (EUnstructured id))
  (app (flat_map (attribute_errors id) (gs_attributes g))
       (match gs_assocs g with
        | [] => []
        | _ =>
          app (match t with GEvent | GMetric | GSpan => [] | _ => [EInvalidGroup id "entity_associations"] end)
              (flat_map (fun a => match association_error a with Some e => [EInvalidGroup id e] | None => [] end) (gs_assocs g))
        end)))))))))))).
(* as above: group.rs 172-488 *)
Definition validate_group (g : group_spec) : wresult unit spec_error := with_nfes tt (group_errors g).

(* semconv.rs 93-106: SemConvSpecV1::validate *)
Definition validate1 (s : spec1) : wresult spec1 spec_error :=
  with_nfes s (flat_map group_errors (sp1_groups s)).

(* entity_association.rs 44-57: referenced_entities, the iterator run to its end.  [n] bounds
   the number of steps; the size of the expression is enough. *)
Fixpoint assoc_size (a : assoc string) : nat :=
  match a with
  | ARef _ => 1
  | AOneOf cs | AAllOf cs => 1 + list_sum (map assoc_size cs)
  end.
(* the stack, with its top first; Vec::extend pushes the children in order *)
(* used by referenced_entities: crates/weaver_semconv/src/entity_association.rs 43-56 *)
Fixpoint drain (n : nat) (stack : list (assoc string)) : list string :=
  match n with
  | 0 => []
  | S m =>
    match stack with
    | [] => []
    | ARef name :: r => name :: drain m r
    | AOneOf cs :: r | AAllOf cs :: r => drain m (app (rev cs) r)
    end
  end.
(* crates/weaver_semconv/src/entity_association.rs 43-56 *)
Definition referenced_entities (a : assoc string) : list string := drain (assoc_size a) [a].

(* ** examples in files *)

(* attribute.rs 541-574: Examples is an untagged enum: the cases are tried in this order.
   i64 takes integers in its range, f64 any number; [EAny] cannot be reached. *)
Definition as_i64 (j : json) : option Z :=
  match j with
  | JNum (NInt z) => if (Z.leb (-9223372036854775808) z && Z.leb z 9223372036854775807)%Z then Some z else None
  | _ => None
  end.
Section Parse.
  (* conversion of an integer to f64 *)
  Variable to_f64 : Z -> N.
  (* untagged Deserialize of crates/weaver_semconv/src/attribute.rs 546-582 *)
  Definition as_f64 (j : json) : option N :=
    match j with JNum (NInt z) => Some (to_f64 z) | JNum (NFloat d) => Some d | _ => None end.
  (* untagged Deserialize of crates/weaver_semconv/src/attribute.rs 546-582 *)
  Definition as_bool (j : json) : option bool := match j with JBool b => Some b | _ => None end.
  (* untagged Deserialize of crates/weaver_semconv/src/attribute.rs 546-582 *)
  Definition as_text (j : json) : option string := match j with JStr s => Some s | _ => None end.
  (* untagged Deserialize of crates/weaver_semconv/src/attribute.rs 546-582 *)
  Definition as_value (j : json) : option value_spec :=
    match as_i64 j with
    | Some z => Some (VInt z)
    | None =>
      match as_f64 j with
      | Some d => Some (VDouble d)
      | None =>
        match as_text j with
        | Some s => Some (VString s)
        | None => match as_bool j with Some b => Some (VBool b) | None => None end
        end
      end
    end.
  (* untagged Deserialize of crates/weaver_semconv/src/attribute.rs 546-582 *)
  Fixpoint all_as {A} (f : json -> option A) (l : list json) : option (list A) :=
    match l with
    | [] => Some []
    | x :: r => match f x, all_as f r with Some a, Some t => Some (a :: t) | _, _ => None end
    end.
  (* untagged Deserialize of crates/weaver_semconv/src/attribute.rs 546-582 *)
  Definition list_as {A} (f : json -> option A) (j : json) : option (list A) :=
    match j with JArr l => all_as f l | _ => None end.
  (* untagged Deserialize of crates/weaver_semconv/src/attribute.rs 546-582 *)
  Definition try {A B} (o : option A) (k : A -> B) (next : option B) : option B :=
    match o with Some a => Some (k a) | None => next end.
  (* untagged Deserialize of crates/weaver_semconv/src/attribute.rs 546-582 *)
  Definition parse_examples (j : json) : option examples :=
    try (as_bool j) EBool (try (as_i64 j) EInt (try (as_f64 j) EDouble (try (as_text j) EString
    (try (as_value j) EAny
    (try (list_as as_i64 j) EInts (try (list_as as_f64 j) EDoubles (try (list_as as_bool j) EBools
    (try (list_as as_text j) EStrings (try (list_as as_value j) EAnys
    (try (list_as (list_as as_i64) j) EListInts (try (list_as (list_as as_f64) j) EListDoubles
    (try (list_as (list_as as_bool) j) EListBools (try (list_as (list_as as_text) j) EListStrings
    None))))))))))))).
End Parse.

(* ** version 2 definitions *)

(* v2/attribute.rs 19-60: AttributeRef; v2/span.rs 230-242 adds the sampling relevance *)
Record attr_ref2 := {
  ar_ref : string; ar_brief : option string; ar_examples : option examples; ar_req : option req_level;
  ar_note : option string; ar_stability : option stability; ar_deprecated : option deprecated;
  ar_annotations : list (string * json)
}.
(* v2/attribute.rs 155-173 and v2/span.rs 20-37: an attribute or a group; the sampling
   relevance is only set for spans *)
Inductive attr_or_group := UAttr (a : attr_ref2) (sampling : option bool) | UGroup (g : string).
(* v2/attribute.rs 107-129 *)
Record attr_def2 := { ad_key : string; ad_type : attr_type; ad_examples : option examples; ad_common : common }.

(* BTreeMap::is_empty *)
(* used by ref_to_v1: v2/attribute.rs 62-105, v2/span.rs 244-268 *)
Definition opt_annotations (m : list (string * json)) : option (list (string * json)) :=
  match m with [] => None | _ => Some m end.

(* v2/attribute.rs 62-105, v2/span.rs 244-268 *)
Definition ref_to_v1 (role : option attr_role) (sampling : option bool) (a : attr_ref2) : attr_spec :=
  SRef {| rs_ref := ar_ref a; rs_brief := ar_brief a; rs_examples := ar_examples a; rs_tag := None;
          rs_req := ar_req a; rs_sampling := sampling; rs_note := ar_note a;
          rs_stability := ar_stability a; rs_deprecated := ar_deprecated a; rs_prefix := false;
          rs_annotations := opt_annotations (ar_annotations a); rs_role := role |}.
(* v2/attribute.rs 131-153 *)
Definition def_to_v1 (a : attr_def2) : attr_spec :=
  SId {| is_id := ad_key a; is_type := ad_type a; is_brief := Some (c_brief (ad_common a));
         is_examples := ad_examples a; is_tag := None; is_req := RRecommended; is_sampling := None;
         is_note := c_note (ad_common a); is_stability := Some (c_stability (ad_common a));
         is_deprecated := c_deprecated (ad_common a);
         is_annotations := opt_annotations (c_annotations (ad_common a)); is_role := None |}.
(* v2/attribute.rs 175-193, v2/span.rs 39-60 *)
Fixpoint split_refs (l : list attr_or_group) : list attr_spec * list string :=
  match l with
  | [] => ([], [])
  | UAttr a s :: r => let '(x, y) := split_refs r in (ref_to_v1 None s a :: x, y)
  | UGroup g :: r => let '(x, y) := split_refs r in (x, g :: y)
  end.

(* v2/entity.rs, event.rs, metric.rs, span.rs, attribute_group.rs *)
(* used by spec2: v2/mod.rs 58-96 *)
Record entity_def := {
  ed_type : string; ed_identity : list attr_ref2; ed_description : list attr_ref2;
  ed_level : option signal_level; ed_common : common
}.
(* used by spec2: v2/mod.rs 58-96 *)
Record event_def := {
  vd_name : string; vd_attributes : list attr_or_group; vd_assocs : list (assoc string);
  vd_level : option signal_level; vd_common : common
}.
(* used by spec2: v2/mod.rs 58-96 *)
Record metric_def := {
  md_name : string; md_instrument : instrument; md_unit : string; md_attributes : list attr_or_group;
  md_assocs : list (assoc string); md_level : option signal_level; md_common : common
}.
(* used by spec2: v2/mod.rs 58-96 *)
Record span_def := {
  sd_type : string; sd_kind : span_kind; sd_name : string; sd_attributes : list attr_or_group;
  sd_assocs : list (assoc string); sd_level : option signal_level; sd_common : common
}.
(* used by spec2: v2/mod.rs 58-96 *)
Inductive group_def :=
| AgInternal (id : string) (attributes : list attr_or_group)
| AgPublic (id : string) (attributes : list attr_or_group) (c : common).
(* the fields common to all refinements *)
(* used by entity_refinement: crates/weaver_semconv/src/v2/entity.rs 42-77 *)
Record refining := {
  rf_id : string; rf_ref : string; rf_brief : option string; rf_note : option string;
  rf_stability : option stability; rf_deprecated : option deprecated; rf_annotations : list (string * json)
}.
(* crates/weaver_semconv/src/v2/entity.rs 42-77 *)
Record entity_refinement := { er_base : refining; er_identity : list attr_ref2; er_description : list attr_ref2 }.
(* used by spec2: v2/mod.rs 58-96 *)
Record signal_refinement := {
  sr_base : refining; sr_attributes : list attr_or_group; sr_assocs : list (assoc string);
  sr_span_name : option string (* spans only *)
}.
(* v2/mod.rs 58-96 *)
Record spec2 := {
  s2d_attributes : list attr_def2; s2d_entities : list entity_def; s2d_events : list event_def;
  s2d_metrics : list metric_def; s2d_spans : list span_def; s2d_groups : list group_def;
  s2d_entity_refinements : list entity_refinement; s2d_event_refinements : list signal_refinement;
  s2d_metric_refinements : list signal_refinement; s2d_span_refinements : list signal_refinement;
  s2d_imports : option imports
}.

(* GroupSpec::default with the fields that into_v1_group sets *)
(* crates/weaver_semconv/src/group.rs 33-160, Default *)
Definition blank_group (id : string) (t : group_type) : group_spec :=
  {| gs_id := id; gs_type := t; gs_brief := ""; gs_note := ""; gs_prefix := ""; gs_extends := None;
     gs_stability := None; gs_deprecated := None; gs_attributes := []; gs_span_kind := None;
     gs_events := []; gs_metric_name := None; gs_instrument := None; gs_unit := None; gs_name := None;
     gs_display_name := None; gs_body := None; gs_annotations := None; gs_assocs := []; gs_include := [];
     gs_visibility := None; gs_is_v2 := true; gs_span_name := None; gs_level := None |}.
(* used by entity_refinement_to_v1: v2/entity.rs 128-174 *)
Definition opt_text (o : option string) : string := match o with Some s => s | None => "" end.

(* v2/entity.rs 82-126 *)
Definition entity_refs (identity description : list attr_ref2) : list attr_spec :=
  app (map (ref_to_v1 (Some Identifying) None) identity) (map (ref_to_v1 (Some Descriptive) None) description).
(* as above: v2/entity.rs 82-126 *)
Definition entity_to_v1 (e : entity_def) : group_spec :=
  {| gs_id := "entity." ++ ed_type e; gs_type := GEntity; gs_brief := c_brief (ed_common e);
     gs_note := c_note (ed_common e); gs_prefix := ""; gs_extends := None;
     gs_stability := Some (c_stability (ed_common e)); gs_deprecated := c_deprecated (ed_common e);
     gs_attributes := entity_refs (ed_identity e) (ed_description e); gs_span_kind := None; gs_events := [];
     gs_metric_name := None; gs_instrument := None; gs_unit := None; gs_name := Some (ed_type e);
     gs_display_name := None; gs_body := None; gs_annotations := opt_annotations (c_annotations (ed_common e));
     gs_assocs := []; gs_include := []; gs_visibility := None; gs_is_v2 := true; gs_span_name := None;
     gs_level := ed_level e |}.
(* v2/entity.rs 128-174 *)
Definition entity_refinement_to_v1 (r : entity_refinement) : group_spec :=
  let b := er_base r in
  {| gs_id := rf_id b; gs_type := GEntity; gs_brief := opt_text (rf_brief b); gs_note := opt_text (rf_note b);
     gs_prefix := ""; gs_extends := Some ("entity." ++ rf_ref b); gs_stability := rf_stability b;
     gs_deprecated := rf_deprecated b; gs_attributes := entity_refs (er_identity r) (er_description r);
     gs_span_kind := None; gs_events := []; gs_metric_name := None; gs_instrument := None; gs_unit := None;
     gs_name := Some (rf_id b); gs_display_name := None; gs_body := None;
     gs_annotations := opt_annotations (rf_annotations b); gs_assocs := []; gs_include := [];
     gs_visibility := None; gs_is_v2 := true; gs_span_name := None; gs_level := None |}.
(* v2/event.rs 87-120 *)
Definition event_to_v1 (e : event_def) : group_spec :=
  let '(attrs, incl) := split_refs (vd_attributes e) in
  {| gs_id := "event." ++ vd_name e; gs_type := GEvent; gs_brief := c_brief (vd_common e);
     gs_note := c_note (vd_common e); gs_prefix := ""; gs_extends := None;
     gs_stability := Some (c_stability (vd_common e)); gs_deprecated := c_deprecated (vd_common e);
     gs_attributes := attrs; gs_span_kind := None; gs_events := []; gs_metric_name := None;
     gs_instrument := None; gs_unit := None; gs_name := Some (vd_name e); gs_display_name := None;
     gs_body := None; gs_annotations := opt_annotations (c_annotations (vd_common e));
     gs_assocs := vd_assocs e; gs_include := incl; gs_visibility := None; gs_is_v2 := true;
     gs_span_name := None; gs_level := vd_level e |}.
(* v2/event.rs 122-160 *)
Definition event_refinement_to_v1 (r : signal_refinement) : group_spec :=
  let b := sr_base r in
  let '(attrs, incl) := split_refs (sr_attributes r) in
  {| gs_id := rf_id b; gs_type := GEvent; gs_brief := opt_text (rf_brief b); gs_note := opt_text (rf_note b);
     gs_prefix := ""; gs_extends := Some ("event." ++ rf_ref b); gs_stability := rf_stability b;
     gs_deprecated := rf_deprecated b; gs_attributes := attrs; gs_span_kind := None; gs_events := [];
     gs_metric_name := None; gs_instrument := None; gs_unit := None; gs_name := Some (rf_id b);
     gs_display_name := None; gs_body := None; gs_annotations := opt_annotations (rf_annotations b);
     gs_assocs := sr_assocs r; gs_include := incl; gs_visibility := None; gs_is_v2 := true;
     gs_span_name := None; gs_level := None |}.
(* v2/metric.rs 98-131 *)
Definition metric_to_v1 (m : metric_def) : group_spec :=
  let '(attrs, incl) := split_refs (md_attributes m) in
  {| gs_id := "metric." ++ md_name m; gs_type := GMetric; gs_brief := c_brief (md_common m);
     gs_note := c_note (md_common m); gs_prefix := ""; gs_extends := None;
     gs_stability := Some (c_stability (md_common m)); gs_deprecated := c_deprecated (md_common m);
     gs_attributes := attrs; gs_span_kind := None; gs_events := []; gs_metric_name := Some (md_name m);
     gs_instrument := Some (md_instrument m); gs_unit := Some (md_unit m); gs_name := None;
     gs_display_name := None; gs_body := None; gs_annotations := opt_annotations (c_annotations (md_common m));
     gs_assocs := md_assocs m; gs_include := incl; gs_visibility := None; gs_is_v2 := true;
     gs_span_name := None; gs_level := md_level m |}.
(* v2/metric.rs 133-171 *)
Definition metric_refinement_to_v1 (r : signal_refinement) : group_spec :=
  let b := sr_base r in
  let '(attrs, incl) := split_refs (sr_attributes r) in
  {| gs_id := rf_id b; gs_type := GMetric; gs_brief := opt_text (rf_brief b); gs_note := opt_text (rf_note b);
     gs_prefix := ""; gs_extends := Some ("metric." ++ rf_ref b); gs_stability := rf_stability b;
     gs_deprecated := rf_deprecated b; gs_attributes := attrs; gs_span_kind := None; gs_events := [];
     gs_metric_name := None; gs_instrument := None; gs_unit := None; gs_name := None;
     gs_display_name := None; gs_body := None; gs_annotations := opt_annotations (rf_annotations b);
     gs_assocs := sr_assocs r; gs_include := incl; gs_visibility := None; gs_is_v2 := true;
     gs_span_name := None; gs_level := None |}.
(* v2/span.rs 139-173 *)
Definition span_to_v1 (s : span_def) : group_spec :=
  let '(attrs, incl) := split_refs (sd_attributes s) in
  {| gs_id := "span." ++ sd_type s; gs_type := GSpan; gs_brief := c_brief (sd_common s);
     gs_note := c_note (sd_common s); gs_prefix := ""; gs_extends := None;
     gs_stability := Some (c_stability (sd_common s)); gs_deprecated := c_deprecated (sd_common s);
     gs_attributes := attrs; gs_span_kind := Some (sd_kind s); gs_events := []; gs_metric_name := None;
     gs_instrument := None; gs_unit := None; gs_name := Some (sd_type s); gs_display_name := None;
     gs_body := None; gs_annotations := opt_annotations (c_annotations (sd_common s));
     gs_assocs := sd_assocs s; gs_include := incl; gs_visibility := None; gs_is_v2 := true;
     gs_span_name := Some (sd_name s); gs_level := sd_level s |}.
(* v2/span.rs 175-213 *)
Definition span_refinement_to_v1 (r : signal_refinement) : group_spec :=
  let b := sr_base r in
  let '(attrs, incl) := split_refs (sr_attributes r) in
  {| gs_id := rf_id b; gs_type := GSpan; gs_brief := opt_text (rf_brief b); gs_note := opt_text (rf_note b);
     gs_prefix := ""; gs_extends := Some ("span." ++ rf_ref b); gs_stability := rf_stability b;
     gs_deprecated := rf_deprecated b; gs_attributes := attrs; gs_span_kind := None; gs_events := [];
     gs_metric_name := None; gs_instrument := None; gs_unit := None; gs_name := Some (rf_id b);
     gs_display_name := None; gs_body := None; gs_annotations := opt_annotations (rf_annotations b);
     gs_assocs := sr_assocs r; gs_include := incl; gs_visibility := None; gs_is_v2 := true;
     gs_span_name := sr_span_name r; gs_level := None |}.
(* v2/attribute_group.rs 58-133 *)
Definition group_to_v1 (g : group_def) : group_spec :=
  match g with
  | AgInternal id l =>
    let '(attrs, incl) := split_refs l in
    {| gs_id := id; gs_type := GAttributeGroup; gs_brief := id; gs_note := ""; gs_prefix := "";
       gs_extends := None; gs_stability := None; gs_deprecated := None; gs_attributes := attrs;
       gs_span_kind := None; gs_events := []; gs_metric_name := None; gs_instrument := None;
       gs_unit := None; gs_name := None; gs_display_name := None; gs_body := None; gs_annotations := None;
       gs_assocs := []; gs_include := incl; gs_visibility := Some Internal; gs_is_v2 := true;
       gs_span_name := None; gs_level := None |}
  | AgPublic id l c =>
    let '(attrs, incl) := split_refs l in
    {| gs_id := id; gs_type := GAttributeGroup; gs_brief := c_brief c; gs_note := c_note c; gs_prefix := "";
       gs_extends := None; gs_stability := Some (c_stability c); gs_deprecated := c_deprecated c;
       gs_attributes := attrs; gs_span_kind := None; gs_events := []; gs_metric_name := None;
       gs_instrument := None; gs_unit := None; gs_name := None; gs_display_name := None; gs_body := None;
       gs_annotations := opt_annotations (c_annotations c); gs_assocs := []; gs_include := incl;
       gs_visibility := Some Public; gs_is_v2 := true; gs_span_name := None; gs_level := None |}
  end.

(* v2/mod.rs 246-318: into_v1_specification *)
Definition synthetic_group (file_name : string) (l : list attr_def2) : group_spec :=
  {| gs_id := "registry." ++ file_name; gs_type := GAttributeGroup; gs_brief := "<synthetic v2>";
     gs_note := ""; gs_prefix := ""; gs_extends := None; gs_stability := None; gs_deprecated := None;
     gs_attributes := map def_to_v1 l; gs_span_kind := None; gs_events := []; gs_metric_name := None;
     gs_instrument := None; gs_unit := None; gs_name := None; gs_display_name := None; gs_body := None;
     gs_annotations := None; gs_assocs := []; gs_include := []; gs_visibility := None; gs_is_v2 := true;
     gs_span_name := None; gs_level := None |}.
(* as above: v2/mod.rs 246-318 *)
Definition into_v1 (s : spec2) (file_name : string) : spec1 :=
  {| sp1_groups :=
       app (match s2d_attributes s with [] => [] | l => [synthetic_group file_name l] end)
       (app (map entity_to_v1 (s2d_entities s))
       (app (map event_to_v1 (s2d_events s))
       (app (map metric_to_v1 (s2d_metrics s))
       (app (map span_to_v1 (s2d_spans s))
       (app (map group_to_v1 (s2d_groups s))
       (app (map entity_refinement_to_v1 (s2d_entity_refinements s))
       (app (map event_refinement_to_v1 (s2d_event_refinements s))
       (app (map metric_refinement_to_v1 (s2d_metric_refinements s))
            (map span_refinement_to_v1 (s2d_span_refinements s))))))))));
     sp1_imports := s2d_imports s |}.

(* v2/mod.rs 176-243: SemConvSpecV2::validate *)
Definition overlaps (identity description : list attr_ref2) (gid : string) : list spec_error :=
  flat_map (fun a => when (existsb (fun i => String.eqb (ar_ref i) (ar_ref a)) identity) (EBothLists gid (ar_ref a))) description.
(* as above: v2/mod.rs 176-243 *)
Definition level_warnings (s : spec2) : list spec_error :=
  app (flat_map (fun m => when (no (md_level m)) (ENoLevel ("metric." ++ md_name m))) (s2d_metrics s))
  (app (flat_map (fun x => when (no (sd_level x)) (ENoLevel ("span." ++ sd_type x))) (s2d_spans s))
  (app (flat_map (fun e => when (no (vd_level e)) (ENoLevel ("event." ++ vd_name e))) (s2d_events s))
       (flat_map (fun e => when (no (ed_level e)) (ENoLevel ("entity." ++ ed_type e))) (s2d_entities s)))).
(* as above: v2/mod.rs 176-243 *)
Definition identity_errors (s : spec2) : list spec_error :=
  app (flat_map (fun e => app (overlaps (ed_identity e) (ed_description e) (ed_type e))
                              (match ed_identity e with [] => [ENoIdentity (ed_type e)] | _ => [] end)) (s2d_entities s))
      (flat_map (fun r => overlaps (er_identity r) (er_description r) (rf_id (er_base r))) (s2d_entity_refinements s)).
(* as above: v2/mod.rs 176-243 *)
Definition validate2 (s : spec2) : wresult spec2 spec_error :=
  match identity_errors s with
  | [] => with_nfes s (level_warnings s)
  | es => WFatal (ECompound es)
  end.

(* ** files *)

(* crates/weaver_semconv/src/semconv.rs 27-34 *)
Inductive versioned := V1 (s : spec1) | V2 (s : spec2).

(* semconv.rs 130-135 *)
Definition validate_versioned (v : versioned) : wresult versioned spec_error :=
  match v with
  | V1 s => wmap V1 (validate1 s)
  | V2 s => wmap V2 (validate2 s)
  end.
(* semconv.rs 121-127 *)
Definition versioned_into_v1 (v : versioned) (file_name : string) : spec1 :=
  match v with V1 s => s | V2 s => into_v1 s file_name end.

(* std::path::Path::file_stem of one component *)
(* used by path_to_name: semconv.rs 141-165 *)
Definition file_stem (name : string) : string :=
  match rfind_char "."%char name with
  | Some (S i) => str_take (S i) name
  | _ => name
  end.
(* semconv.rs 141-165: provenance_path_to_name *)
Definition path_to_name (path : string) : string :=
  join "." (flat_map (fun c => match c with Normal s => [file_stem s] | _ => [] end) (components path)).

(* serde_yaml::Value::get and as_str *)
(* used by detect: crates/weaver_semconv/src/semconv.rs 184-237 *)
Definition field_str (k : string) (y : json) : option string :=
  match y with
  | JObj m => match slookup k m with Some (JStr s) => Some s | _ => None end
  | _ => None
  end.
(* used by detect: crates/weaver_semconv/src/semconv.rs 184-237 *)
Definition opt_is (o : option string) (s : string) : bool :=
  match o with Some x => String.eqb x s | None => false end.
(* semconv.rs 167-235: FileFormat::detect; Unversioned is version 1.  The warnings are returned
   with the verdict. *)
Inductive format := FormatV1 | FormatV2.
(* crates/weaver_semconv/src/semconv.rs 184-237 *)
Definition detect (y : json) : list spec_error * (format + spec_error) :=
  let version := field_str "version" y in
  let file_format := field_str "file_format" y in
  let w := when (is_some version) EVersionField in
  if opt_is file_format "definition/2" || opt_is version "2" then (app w [EUnstableFormat], inl FormatV2)
  else if opt_is file_format "definition/1" || opt_is version "1" then (w, inl FormatV1)
  else match file_format, version with
       | None, None => (w, inl FormatV1)
       | _, Some v => (w, inr (EBadFormat "version" v))
       | Some f, None => (w, inr (EBadFormat "file_format" f))
       end.

(* semconv.rs 252-273 *)
Definition clean_mapping (y : json) : option json :=
  match y with
  | JObj m => Some (JObj (filter (fun kv => negb (String.eqb (fst kv) "file_format" || String.eqb (fst kv) "version")) m))
  | _ => None
  end.

Section File.
  (* serde deserialisation *)
  Variable parse1 : json -> option spec1.
  Variable parse2 : json -> option spec2.

  (* semconv.rs 297-318: from_yaml_value *)
  Definition from_yaml (y : json) : list spec_error * (versioned + spec_error) :=
    let '(w, f) := detect y in
    (w, match f with
        | inr e => inr e
        | inl f =>
          match clean_mapping y with
          | None => inr ENotMapping
          | Some c =>
            match f with
            | FormatV2 => match parse2 c with Some s => inl (V2 s) | None => inr ENotParsed end
            | FormatV1 => match parse1 c with Some s => inl (V1 s) | None => inr ENotParsed end
            end
          end
        end).

  (* semconv.rs 353-410: from_file_with_mapped_path, the file already read *)
  Definition load_file (y : json) : wresult versioned spec_error :=
    let '(w, r) := from_yaml y in
    let result := match r with inl v => validate_versioned v | inr e => WFatal e end in
    match w with
    | [] => result
    | _ =>
      match result with
      | WOk v => WOkNfe v w
      | WOkNfe v es => WOkNfe v (app es w)
      | WFatal e => WFatal e
      end
    end.
End File.
