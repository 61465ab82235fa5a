(** C08, C09, C49: schema diff and publication of deprecations. *)
From Coq Require Import String Ascii Bool Arith Lia Permutation List.
From Verif Require Import Base BaseProofs Json SemTypes Resolved SchemaDiffModel SchemaDiffSpec SchemaDiffProofs.
Import ListNotations.
Local Open Scope string_scope.
Local Open Scope list_scope.

(** ** Example schemas *)

Definition ex_attr (n : string) (d : option deprecated) : attribute :=
  {| at_name := n; at_type := TPrim PString; at_brief := ""; at_examples := None; at_tag := None;
     at_req := RRecommended; at_sampling := None; at_note := ""; at_stability := None;
     at_deprecated := d; at_prefix := false; at_annotations := None; at_role := None |}.
Definition ex_lineage (attrs : list (string * string)) : group_lineage :=
  {| gl_provenance := {| pv_url := "u"; pv_path := "p" |}; gl_extends := None;
     gl_extends_type := None;
     gl_attributes := map (fun '(a, src) => (a, {| al_source := src; al_inherited := []; al_overridden := [] |})) attrs;
     gl_includes := [] |}.
Definition ex_group (id : string) (t : group_type) (name metric : option string) (d : option deprecated)
  (attrs : list nat) (l : option group_lineage) : group :=
  {| g_id := id; g_type := t; g_brief := ""; g_note := ""; g_prefix := ""; g_extends := None;
     g_stability := None; g_deprecated := d; g_attributes := attrs; g_span_kind := None;
     g_events := []; g_metric_name := metric; g_instrument := None; g_unit := None;
     g_name := name; g_lineage := l; g_display_name := None; g_body := None;
     g_annotations := None; g_assocs := []; g_visibility := None; g_is_v2 := false;
     g_span_name := None; g_level := None |}.
Definition ex_schema (gs : list group) (c : list attribute) (v : option string) : schema1 :=
  {| s1_url := "http://x/1.0.0"; s1_groups := gs; s1_catalog := c; s1_dependencies := [];
     s1_manifest_version := v; s1_origins := [] |}.

(** Head: [a] is renamed to [b], [b] is new, [c] obsoleted (also used by a metric as a
    refinement with another status), the metric [m.new] is new. *)
Definition ex_head : schema1 := ex_schema
  [ex_group "registry" GAttributeGroup None None None [0; 1; 2] None;
   ex_group "metric.m" GMetric None (Some "m.new") None [3] (Some (ex_lineage [("c", "registry")]))]
  [ex_attr "a" (Some (DRenamed "b" None)); ex_attr "b" None; ex_attr "c" (Some (DObsoleted "gone"));
   ex_attr "c" None] (Some "2.0.0").
Definition ex_base : schema1 := ex_schema
  [ex_group "registry" GAttributeGroup None None None [0; 1; 2] None;
   ex_group "metric.m" GMetric None (Some "m.old") None [] None]
  [ex_attr "a" None; ex_attr "c" (Some (DUnspecified "gone")); ex_attr "d" (Some (DObsoleted "x"))]
  None.
Definition id_order : forall V : Type, list (string * V) -> list (string * V) := fun _ m => m.
Definition rev_order : forall V : Type, list (string * V) -> list (string * V) := fun _ m => rev m.

(** ** C08 *)

(** Version 1: the diff of a schema with itself is empty, in every category. *)
Theorem C08_self_diff_v1 : forall order s c,
  (forall V m, Permutation (order V m) m) ->
  diff1 order s s = Ok c ->
  changes_is_empty c = true /\ count_changes c = 0 /\ forall t, changes_by_type c t = Some [].
Proof.
  intros order s c Ho H.
  assert (E : forall t, changes_by_type c t = Some []) by (intros t; exact (diff1_self order s c t Ho H)).
  pose proof (diff1_types order Ho _ _ _ H) as T.
  split; [apply (is_empty_types c T), E|]. split; [|exact E].
  rewrite (count_changes_types c T). unfold count_type. rewrite !E. reflexivity.
Qed.
Print Assumptions C08_self_diff_v1.

(** Version 2. *)
Theorem C08_self_diff_v2 : forall order s,
  (forall V m, Permutation (order V m) m) ->
  changes2_is_empty (diff2 order s s) = true /\ forall k, report2 k (diff2 order s s) = [].
Proof.
  intros order s Ho. assert (E : forall k, report2 k (diff2 order s s) = []) by (intros k; exact (diff2_self order Ho s k)).
  split; [apply changes2_is_empty_spec, E|exact E].
Qed.
Print Assumptions C08_self_diff_v2.

(** A report is empty exactly when both sides define the same names and no deprecation of
    the head is new. *)
Theorem C08_empty_iff_v1 : forall order head base c,
  (forall V m, Permutation (order V m) m) -> diff1 order head base = Ok c ->
  (changes_is_empty c = true <-> forall t, nothing_new (view1 t head) (view1 t base)).
Proof. exact diff1_empty_iff. Qed.
Print Assumptions C08_empty_iff_v1.

Theorem C08_empty_iff_v2 : forall order head base,
  (forall V m, Permutation (order V m) m) ->
  (changes2_is_empty (diff2 order head base) = true
   <-> forall k, nothing_new (view2 k head) (view2 k base)).
Proof. intros order head base Ho. exact (diff2_empty_iff order Ho head base). Qed.
Print Assumptions C08_empty_iff_v2.

Example C08_case :
  (forall V m, Permutation (rev_order V m) m) /\
  option_map changes_is_empty (match diff1 rev_order ex_head ex_head with Ok c => Some c | Err _ => None end)
    = Some true.
Proof. split; [intros V m; apply Permutation_sym, Permutation_rev|vm_compute; reflexivity]. Qed.

(** A schema compared with its own published file: empty in each category in which every
    rename carries a note. *)
Theorem C08_published_partial : forall order s k,
  (forall V m, Permutation (order V m) m) -> notes_given k s ->
  report2 k (diff2 order s (reread s)) = [].
Proof.
  intros order s k Ho N.
  eapply exact_report_nil; [..|apply (diff2_exact order Ho)|apply published_nothing_new, N];
    intros; eauto using view2_fun, view2_dec.
Qed.
Print Assumptions C08_published_partial.

Definition ex_common (d : option deprecated) : common :=
  {| c_brief := ""; c_note := ""; c_stability := SStable; c_deprecated := d; c_annotations := [] |}.
Definition ex_schema2 (d : option deprecated) : schema2 :=
  {| s2_url := "http://x/1.0.0";
     s2_catalog := [{| a2_key := "a"; a2_type := TPrim PString; a2_examples := None;
                       a2_common := ex_common d; a2_provenance := {| p2_source := None; p2_path := "" |} |}];
     s2_registry := {| r2_attributes := [0]; r2_attribute_groups := []; r2_spans := [];
                       r2_metrics := []; r2_events := []; r2_entities := [] |};
     s2_refinements := {| f2_spans := []; f2_metrics := []; f2_events := []; f2_entities := [] |};
     s2_dependencies := [] |}.

(** Otherwise it is not empty: an unchanged schema compared with its own published file
    reports a rename, because the generated note is read back as an explicit one. *)
Theorem C08_published_refuted : exists s,
  report2 C2Attributes (diff2 id_order s (reread s)) = [ChRenamed "a" "b" "Replaced by `b`."].
Proof. exists (ex_schema2 (Some (DRenamed "b" None))). vm_compute. reflexivity. Qed.
Print Assumptions C08_published_refuted.

Example C08_published_case :
  notes_given C2Attributes (ex_schema2 (Some (DRenamed "b" (Some "use b")))) /\
  defined (view2 C2Attributes (ex_schema2 (Some (DRenamed "b" (Some "use b"))))) "a".
Proof.
  split.
  - intros n to H. simpl in H. destruct H as (r & a & (l1 & l2 & E & _) & Ea & Hd). simpl in *.
    destruct r as [|r]; simpl in Ea; [injection Ea as <-; discriminate Hd|destruct r; discriminate].
  - exists (Some (DRenamed "b" (Some "use b"))). simpl. eexists 0, _. split; [|split; reflexivity].
    exists [], []. split; [reflexivity|]. split; [|intros ? []]. eexists. split; reflexivity.
Qed.

(** ** C09 *)

(** Version 1: in each category the report contains exactly the expected changes, each name
    once; the report carries the two manifest versions. *)
Theorem C09_exact_v1 : forall order head base c,
  (forall V m, Permutation (order V m) m) ->
  diff1 order head base = Ok c ->
  (forall t, exists l, changes_by_type c t = Some l /\ exact_report (view1 t head) (view1 t base) l) /\
  ch_head c = opt_get (s1_manifest_version head) "" /\
  ch_baseline c = opt_get (s1_manifest_version base) "".
Proof.
  intros order head base c Ho H. split; [intros t; exact (diff1_exact order Ho _ _ _ t H)|].
  exact (diff1_versions order Ho _ _ _ H).
Qed.
Print Assumptions C09_exact_v1.

(** The version 1 diff completes exactly on schemas whose attribute references are valid. *)
Theorem C09_completes_v1 : forall order head base,
  (exists c, diff1 order head base = Ok c) <-> refs_valid head /\ refs_valid base.
Proof. exact diff1_total. Qed.
Print Assumptions C09_completes_v1.

(** Version 2. *)
Theorem C09_exact_v2 : forall order head base,
  (forall V m, Permutation (order V m) m) ->
  (forall k, exact_report (view2 k head) (view2 k base) (report2 k (diff2 order head base))) /\
  c2_head (diff2 order head base) = s2_url head /\ c2_baseline (diff2 order head base) = s2_url base.
Proof. intros order head base Ho. split; [intros k; exact (diff2_exact order Ho head base k)|split; reflexivity]. Qed.
Print Assumptions C09_exact_v2.

(** The content of a report does not depend on the iteration order of the hash maps. *)
Theorem C09_order_independent : forall order order' head base,
  (forall V m, Permutation (order V m) m) -> (forall V m, Permutation (order' V m) m) ->
  forall c c', diff1 order head base = Ok c -> diff1 order' head base = Ok c' ->
  forall t, exists l l', changes_by_type c t = Some l /\ changes_by_type c' t = Some l' /\ Permutation l l'.
Proof. intros order order' head base Ho Ho' c c' H H' t. exact (diff1_order order order' head base c c' t Ho Ho' H H'). Qed.
Print Assumptions C09_order_independent.

(** The counters agree with the report: the total is the sum over the five categories, and
    for attributes the five kinds add up. *)
Theorem C09_counts : forall order head base c,
  (forall V m, Permutation (order V m) m) -> diff1 order head base = Ok c ->
  count_changes c = count_type ItAttributes c + count_type ItMetrics c + count_type ItEvents c
                    + count_type ItSpans c + count_type ItEntities c /\
  count_type ItAttributes c = count_attr is_added c + count_attr is_renamed c
    + count_attr is_obsoleted c + count_attr is_uncategorized c + count_attr is_removed c.
Proof.
  intros order head base c Ho H. split; [apply count_changes_types, (diff1_types order Ho _ _ _ H)|].
  destruct (diff1_exact order Ho _ _ _ ItAttributes H) as (l & E & X).
  unfold count_type, count_attr. rewrite E. exact (five_kinds _ _ _ X).
Qed.
Print Assumptions C09_counts.

Example C09_case :
  refs_valid ex_head /\ refs_valid ex_base /\
  match diff1 rev_order ex_head ex_base with
  | Ok c => changes_by_type c ItAttributes =
            Some [ChObsoleted "c" "gone"; ChAdded "b"; ChRenamed "a" "b" "Replaced by `b`."; ChRemoved "d"] /\
            changes_by_type c ItMetrics = Some [ChAdded "m.new"; ChRemoved "m.old"] /\
            ch_head c = "2.0.0"
  | Err _ => False
  end.
Proof.
  split; [|split; [|vm_compute; auto]].
  - intros g r [<-|[<-|[]]] Hr; simpl in *; lia.
  - intros g r [<-|[<-|[]]] Hr; simpl in *; lia.
Qed.

(** The printed summary does not add up: it counts every rename twice and leaves out
    uncategorized changes. *)
Theorem C09_printed_summary_refuted : exists l,
  (let '(a, n, e, d, r) := dump_counts l in a + n + e + d + r) <> length l /\
  exists l', length l' = 1 /\ dump_counts l' = (0, 0, 0, 0, 0).
Proof.
  exists [ChRenamed "a" "b" ""]. split; [vm_compute; discriminate|].
  exists [ChUncategorized "a" ""]. split; reflexivity.
Qed.
Print Assumptions C09_printed_summary_refuted.

(** ** C49 *)

(** Reading back a written deprecation gives the same kind, replacement and note. *)
Theorem C49_meaning_kept : forall d, exists d',
  dep_of_json (dep_to_json d) = Some d' /\
  dep_reason d' = dep_reason d /\ dep_note d' = dep_note d /\
  (forall to note, d = DRenamed to note -> exists note', d' = DRenamed to note') /\
  dep_to_json d' = dep_to_json d.
Proof.
  intros d. eexists. split; [apply dep_roundtrip|].
  destruct d as [to [n|]|n|n|n]; simpl; repeat split; try discriminate;
    intros t' n' [= <- <-]; eexists; reflexivity.
Qed.
Print Assumptions C49_meaning_kept.

(** It is the same value exactly when it is not a rename without a note. *)
Theorem C49_same_value_iff : forall d,
  dep_of_json (dep_to_json d) = Some d <-> (forall to, d <> DRenamed to None).
Proof.
  intros d. rewrite dep_roundtrip. destruct d as [to [n|]|n|n|n]; simpl.
  - split; [intros _ t F; discriminate F|reflexivity].
  - split; [intros H; discriminate H|intros H; destruct (H to eq_refl)].
  - split; [intros _ t F; discriminate F|reflexivity].
  - split; [intros _ t F; discriminate F|reflexivity].
  - split; [intros _ t F; discriminate F|reflexivity].
Qed.
Print Assumptions C49_same_value_iff.

(** The reader of definition files rejects the unstructured kind as written to a resolved
    schema, so such a file cannot be used as a definition. *)
Theorem C49_definition_reader_refuted : exists d,
  dep_of_definition (dep_to_json d) = None /\ dep_of_definition (JStr (dep_note d)) = Some d.
Proof. exists (DUnspecified "use b"). split; reflexivity. Qed.
Print Assumptions C49_definition_reader_refuted.

(** For the structured kinds the definition reader and the resolved-schema reader agree on
    what was written. *)
Theorem C49_readers_agree_partial : forall d,
  (forall n, d <> DUnspecified n) -> dep_of_definition (dep_to_json d) = dep_of_json (dep_to_json d).
Proof. intros d H. destruct d as [to [n|]|n|n|n]; try reflexivity. destruct (H n eq_refl). Qed.
Print Assumptions C49_readers_agree_partial.

Example C49_case :
  dep_of_json (dep_to_json (DRenamed "b" None)) = Some (DRenamed "b" (Some "Replaced by `b`.")) /\
  dep_of_json (dep_to_json (DUnspecified "x")) = Some (DUnspecified "x").
Proof. split; reflexivity. Qed.
