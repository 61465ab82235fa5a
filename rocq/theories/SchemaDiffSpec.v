(** What a schema diff should report, stated without the diff algorithm. *)
From Coq Require Import String Bool List Permutation.
From Verif Require Import Base Json SemTypes Resolved SchemaDiffModel.
Import ListNotations.
Local Open Scope string_scope.
Local Open Scope list_scope.

(** [x] is the last element of [l] that satisfies [P]. *)
Definition last_with {A} (P : A -> Prop) (l : list A) (x : A) : Prop :=
  exists l1 l2, l = l1 ++ x :: l2 /\ P x /\ forall y, In y l2 -> ~ P y.

(** A view of one side of a diff: [V name status] says that [name] is defined and its
    deprecation status is [status]. *)
Definition view := string -> option deprecated -> Prop.
Definition defined (V : view) (n : string) : Prop := exists d, V n d.

(** The text that accompanies a rename: the author's note, or a generated sentence. *)
Definition rename_note (to : string) (note : option string) : string :=
  match note with
  | Some n => n
  | None => ("Replaced by `" ++ to ++ "`.")%string
  end.

(** The changes a diff from baseline [B] to head [H] should contain. *)
Inductive expected (H B : view) : change -> Prop :=
| exp_added : forall n, defined H n -> ~ defined B n -> expected H B (ChAdded n)
| exp_removed : forall n, defined B n -> ~ defined H n -> expected H B (ChRemoved n)
| exp_renamed : forall n to note b,
    H n (Some (DRenamed to note)) -> B n b -> b <> Some (DRenamed to note) ->
    expected H B (ChRenamed n to (rename_note to note))
| exp_obsoleted : forall n note b,
    H n (Some (DObsoleted note)) -> B n b -> b <> Some (DObsoleted note) ->
    expected H B (ChObsoleted n note)
| exp_uncategorized : forall n note b,
    H n (Some (DUncategorized note)) -> B n b -> b <> Some (DUncategorized note) ->
    expected H B (ChUncategorized n note)
| exp_unspecified : forall n note b,
    H n (Some (DUnspecified note)) -> B n b -> b <> Some (DUnspecified note) ->
    expected H B (ChUncategorized n note).

(** The name a change is about. *)
Definition subject (c : change) : string :=
  match c with
  | ChAdded n => n | ChRenamed old _ _ => old | ChUpdated => ""
  | ChObsoleted n _ => n | ChUncategorized n _ => n | ChRemoved n => n
  end.

(** [l] contains exactly the expected changes, and no name is reported twice. *)
Definition exact_report (H B : view) (l : list change) : Prop :=
  NoDup (map subject l) /\ forall x, In x l <-> expected H B x.

(** * Views of a version 1 schema *)

(** The signals of a type: the groups of that type, by their signal name (the metric name
    for metrics, the name for events, spans and entities). When several groups share a name
    the last one counts. *)
Definition signal_view (t : group_type) (s : schema1) : view := fun n d =>
  exists g,
    last_with (fun g => g_type g = t /\
                 (match t with GMetric => g_metric_name g | _ => g_name g end) = Some n)
      (s1_groups s) g
    /\ g_deprecated g = d.

(** An attribute use of group [g] is a definition unless its recorded origin is another
    group. *)
Definition is_definition (g : group) (a : attribute) : Prop :=
  forall gl al, g_lineage g = Some gl ->
    slookup (at_name a) (gl_attributes gl) = Some al -> al_source al = g_id g.

(** All the attribute uses of a schema, in document order. *)
Definition attribute_uses (s : schema1) : list (group * nat) :=
  flat_map (fun g => map (fun r => (g, r)) (g_attributes g)) (s1_groups s).

Definition attribute_view (s : schema1) : view := fun n d =>
  exists u a,
    last_with (fun u => exists a, nth_error (s1_catalog s) (snd u) = Some a
                                  /\ at_name a = n /\ is_definition (fst u) a)
      (attribute_uses s) u
    /\ nth_error (s1_catalog s) (snd u) = Some a /\ at_deprecated a = d.

Definition view1 (t : item_type) (s : schema1) : view :=
  match t with
  | ItAttributes => attribute_view s
  | ItMetrics => signal_view GMetric s
  | ItEvents => signal_view GEvent s
  | ItSpans => signal_view GSpan s
  | ItEntities => signal_view GEntity s
  end.

(** Every attribute reference of the schema points into its catalog. *)
Definition refs_valid (s : schema1) : Prop :=
  forall g r, In g (s1_groups s) -> In r (g_attributes g) -> r < length (s1_catalog s).

(** * Views of a version 2 schema *)

Definition list_view {T} (id : T -> string) (com : T -> common) (l : list T) : view :=
  fun n d => exists x, last_with (fun x => id x = n) l x /\ c_deprecated (com x) = d.

Definition attribute_view2 (s : schema2) : view := fun n d =>
  exists r a,
    last_with (fun r => exists a, nth_error (s2_catalog s) r = Some a /\ a2_key a = n)
      (r2_attributes (s2_registry s)) r
    /\ nth_error (s2_catalog s) r = Some a /\ c_deprecated (a2_common a) = d.

(** The six categories of a version 2 diff with the part of the report and the view of a
    schema that belong to each. *)
Inductive cat2 := C2Attributes | C2AttributeGroups | C2Entities | C2Events | C2Metrics | C2Spans.

Definition report2 (k : cat2) (c : changes2) : list change :=
  match k with
  | C2Attributes => c2_attributes c | C2AttributeGroups => c2_attribute_groups c
  | C2Entities => c2_entities c | C2Events => c2_events c | C2Metrics => c2_metrics c
  | C2Spans => c2_spans c
  end.

Definition view2 (k : cat2) (s : schema2) : view :=
  let r := s2_registry s in
  match k with
  | C2Attributes => attribute_view2 s
  | C2AttributeGroups => list_view ag2_id ag2_common (r2_attribute_groups r)
  | C2Entities => list_view en2_type en2_common (r2_entities r)
  | C2Events => list_view ev2_name ev2_common (r2_events r)
  | C2Metrics => list_view me2_name me2_common (r2_metrics r)
  | C2Spans => list_view sp2_type sp2_common (r2_spans r)
  end.

(** Nothing to report: both sides define the same names, and each name that is deprecated in
    the head is deprecated in the same way in the baseline. *)
Definition nothing_new (H B : view) : Prop :=
  (forall n, defined H n <-> defined B n) /\
  (forall n d b, H n (Some d) -> B n b -> b = Some d).

(** * Publishing: a schema is written to a file and read back *)

Definition reread_dep (d : option deprecated) : option deprecated :=
  match d with Some d => dep_of_json (dep_to_json d) | None => None end.

Definition reread_common (c : common) : common :=
  {| c_brief := c_brief c; c_note := c_note c; c_stability := c_stability c;
     c_deprecated := reread_dep (c_deprecated c); c_annotations := c_annotations c |}.

Definition reread_metric (m : metric2) : metric2 :=
  {| me2_name := me2_name m; me2_instrument := me2_instrument m; me2_unit := me2_unit m;
     me2_attributes := me2_attributes m; me2_assocs := me2_assocs m; me2_level := me2_level m;
     me2_common := reread_common (me2_common m); me2_provenance := me2_provenance m |}.

Definition reread_attribute (a : attribute2) : attribute2 :=
  {| a2_key := a2_key a; a2_type := a2_type a; a2_examples := a2_examples a;
     a2_common := reread_common (a2_common a); a2_provenance := a2_provenance a |}.
Definition reread_group (g : attribute_group2) : attribute_group2 :=
  {| ag2_id := ag2_id g; ag2_attributes := ag2_attributes g;
     ag2_common := reread_common (ag2_common g); ag2_provenance := ag2_provenance g |}.
Definition reread_entity (e : entity2) : entity2 :=
  {| en2_type := en2_type e; en2_identity := en2_identity e;
     en2_description := en2_description e; en2_level := en2_level e;
     en2_common := reread_common (en2_common e); en2_provenance := en2_provenance e |}.
Definition reread_event (e : event2) : event2 :=
  {| ev2_name := ev2_name e; ev2_attributes := ev2_attributes e; ev2_assocs := ev2_assocs e;
     ev2_level := ev2_level e; ev2_common := reread_common (ev2_common e);
     ev2_provenance := ev2_provenance e |}.
Definition reread_span (s : span2) : span2 :=
  {| sp2_type := sp2_type s; sp2_kind := sp2_kind s; sp2_name := sp2_name s;
     sp2_attributes := sp2_attributes s; sp2_assocs := sp2_assocs s; sp2_level := sp2_level s;
     sp2_common := reread_common (sp2_common s); sp2_provenance := sp2_provenance s |}.

(** The schema read back from its own file. Only the deprecation fields are not copied
    verbatim by serde. *)
Definition reread (s : schema2) : schema2 :=
  let r := s2_registry s in
  {| s2_url := s2_url s;
     s2_catalog := map reread_attribute (s2_catalog s);
     s2_registry :=
       {| r2_attributes := r2_attributes r;
          r2_attribute_groups := map reread_group (r2_attribute_groups r);
          r2_spans := map reread_span (r2_spans r);
          r2_metrics := map reread_metric (r2_metrics r);
          r2_events := map reread_event (r2_events r);
          r2_entities := map reread_entity (r2_entities r) |};
     s2_refinements := s2_refinements s;
     s2_dependencies := s2_dependencies s |}.

(** No rename in the schema leaves its note to be generated. *)
Definition notes_given (k : cat2) (s : schema2) : Prop :=
  forall n to, ~ view2 k s n (Some (DRenamed to None)).
