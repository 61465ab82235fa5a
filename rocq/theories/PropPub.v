(* C117: a published resolved schema is read back as it was written. *)
From Coq Require Import String Ascii Bool Arith ZArith NArith Lia Sorted Permutation List.
Import ListNotations.
From Verif Require Import Base Json SemTypes Resolved.
From Verif Require UrlModel DefModel SchemaDiffModel SchemaDiffSpec SchemaDiffProofs.
From Verif Require Import PubModel PubSpec PubProofs PubProofs4 PubProofs5.
Local Open Scope string_scope.

(* What a registry publishes is what a registry that depends on it reads: every attribute, group, signal
   and refinement with all its fields, in the same order.  Only the local file names are gone, and a
   rename that gave no note has the generated one. *)
Theorem C117_read_back_partial : forall to_f64 url_parse s,
  well_formed to_f64 url_parse s -> ~ member_deprecated_by_text s ->
  read_schema to_f64 url_parse (write_schema s) = Some (kept s).
Proof. exact schema_back. Qed.
Print Assumptions C117_read_back_partial.

(* Which published files can be read at all. *)
Theorem C117_readable : forall to_f64 url_parse s, well_formed to_f64 url_parse s ->
  ((exists s', read_schema to_f64 url_parse (write_schema s) = Some s') <-> ~ member_deprecated_by_text s).
Proof.
  intros f u s W. split.
  - intros [s' H] M. rewrite (schema_lost f u s W M) in H. discriminate.
  - intros N. exists (kept s). exact (schema_back f u s W N).
Qed.
Print Assumptions C117_readable.

(* Publishing again what was read changes nothing: the same document, and again the same schema. *)
Theorem C117_stable : forall to_f64 url_parse s s', well_formed to_f64 url_parse s ->
  read_schema to_f64 url_parse (write_schema s) = Some s' ->
  write_schema s' = write_schema s /\ read_schema to_f64 url_parse (write_schema s') = Some s'.
Proof.
  intros f u s s' W H.
  assert (N : ~ member_deprecated_by_text s) by (apply (C117_readable f u s W); eauto).
  pose proof (schema_back f u s W N) as B. rewrite H in B. injection B as ->.
  rewrite schema_same. split; [reflexivity|exact H].
Qed.
Print Assumptions C117_stable.

(* Two registries whose published documents are the same differ in nothing a reader could see. *)
Theorem C117_faithful : forall to_f64 url_parse s t,
  well_formed to_f64 url_parse s -> ~ member_deprecated_by_text s ->
  well_formed to_f64 url_parse t -> ~ member_deprecated_by_text t ->
  (write_schema s = write_schema t <-> kept s = kept t).
Proof.
  intros f u s t Ws Ns Wt Nt. split; intros H.
  - pose proof (schema_back f u s Ws Ns) as A. rewrite H, (schema_back f u t Wt Nt) in A. congruence.
  - rewrite <- (schema_same s), <- (schema_same t), H. reflexivity.
Qed.
Print Assumptions C117_faithful.

(* Comparing a registry with its own published file, either way round, reports nothing in a category in
   which every rename has a note. *)
Theorem C117_diff : forall to_f64 url_parse s s' order k,
  well_formed to_f64 url_parse s -> read_schema to_f64 url_parse (write_schema s) = Some s' ->
  (forall V m, Permutation (order V m) m) -> SchemaDiffSpec.notes_given k s ->
  SchemaDiffSpec.report2 k (SchemaDiffModel.diff2 order s s') = [] /\
  SchemaDiffSpec.report2 k (SchemaDiffModel.diff2 order s' s) = [].
Proof.
  intros f u s s' order k W H Ho N.
  assert (M : ~ member_deprecated_by_text s) by (apply (C117_readable f u s W); eauto).
  rewrite (schema_back f u s W M) in H. injection H as <-.
  destruct (kept_nothing_new k s N) as [A B].
  split; (eapply SchemaDiffProofs.exact_report_nil;
            [..|apply (SchemaDiffProofs.diff2_exact order Ho)|first [exact A|exact B]]);
    intros; eauto using SchemaDiffProofs.view2_fun, SchemaDiffProofs.view2_dec.
Qed.
Print Assumptions C117_diff.

(* Every schema that is read, from whatever document, is one of those spoken of here: it can be published
   and is then read as itself. *)
Theorem C117_loaded : forall to_f64 url_parse document s,
  read_schema to_f64 url_parse document = Some s ->
  well_formed to_f64 url_parse s /\
  (~ member_deprecated_by_text s -> read_schema to_f64 url_parse (write_schema s) = Some (kept s)).
Proof.
  intros f u v s H. pose proof (schema_reads f u v s H) as W. split; [exact W|]. exact (schema_back f u s W).
Qed.
Print Assumptions C117_loaded.

(* The examples of an attribute: what a document says is what is written. *)
Theorem C117_examples : forall to_f64 j e,
  DefModel.parse_examples to_f64 j = Some e -> DefModel.parse_examples to_f64 (write_examples e) = Some e.
Proof. exact examples_back. Qed.
Print Assumptions C117_examples.

(* A file with a key that does not belong there is refused. *)
Theorem C117_closed : forall to_f64 url_parse m s key v,
  read_schema to_f64 url_parse (JObj m) = Some s -> In (key, v) m ->
  In key ["file_format"; "schema_url"; "attribute_catalog"; "registry"; "refinements"; "dependencies"].
Proof.
  intros f u m s key v H Hin. unfold read_schema in H. cbn [JinModel.entries JinModel.obind] in H.
  unfold known in H. destruct (forallb _ m) eqn:E; [|discriminate].
  rewrite forallb_forall in E. specialize (E _ Hin). apply existsb_exists in E as (k & Hk & Q).
  apply String.eqb_eq in Q. cbn in Q. subst k. exact Hk.
Qed.
Print Assumptions C117_closed.

(* ---------- a case ---------- *)
Definition ex_parse (s : string) : option UrlModel.parsed_url :=
  if String.eqb s "https://a.b/c/1.0.0"
  then Some {| UrlModel.pu_scheme := "https"; UrlModel.pu_path := "/c/1.0.0"; UrlModel.pu_opaque := false |} else None.
Definition ex_f64 (z : Z) : N := 0.
Definition no_source : provenance2 := {| p2_source := None; p2_path := "model/a.yaml" |}.
Definition plain (d : option deprecated) : common :=
  {| c_brief := "b"; c_note := ""; c_stability := SStable; c_deprecated := d;
     c_annotations := [("x", JNum (NInt 1)); ("y", JArr [JNull])] |}.
Definition ex_member (d : option deprecated) : enum_entry :=
  {| ee_id := "m"; ee_value := VInt 7; ee_brief := Some "one"; ee_note := None; ee_stability := Some SDevelopment;
     ee_deprecated := d; ee_annotations := None |}.
Definition ex_assoc : assoc entity_ref :=
  AOneOf [ARef {| er_type := "host"; er_provenance := {| p2_source := Some 0; p2_path := "p" |} |};
          AAllOf [ARef {| er_type := "os"; er_provenance := no_source |}]].
Definition ex_span : span2 :=
  {| sp2_type := "http.client"; sp2_kind := SkClient; sp2_name := "{m}";
     sp2_attributes := [{| u_base := 1; u_req := RConditional "if known"; u_sampling := Some true |}];
     sp2_assocs := [ex_assoc]; sp2_level := Some SlOptIn; sp2_common := plain None; sp2_provenance := no_source |}.
Definition ex (d : option deprecated) : schema2 :=
  {| s2_url := "https://a.b/c/1.0.0";
     s2_catalog := [{| a2_key := "k"; a2_type := TEnum [ex_member d]; a2_examples := Some (EAnys [VInt 1; VString "s"]);
                       a2_common := plain (Some (DRenamed "z" None)); a2_provenance := no_source |};
                    {| a2_key := "t"; a2_type := TTemplate PStrings; a2_examples := None;
                       a2_common := plain None; a2_provenance := {| p2_source := Some 0; p2_path := "q" |} |}];
     s2_registry := {| r2_attributes := [0; 1]; r2_attribute_groups := []; r2_spans := [ex_span];
                       r2_metrics := [{| me2_name := "m"; me2_instrument := Gauge; me2_unit := "s";
                                         me2_attributes := [{| u_base := 0; u_req := ROptIn; u_sampling := None |}];
                                         me2_assocs := []; me2_level := None; me2_common := plain (Some (DObsoleted "gone"));
                                         me2_provenance := no_source |}];
                       r2_events := []; r2_entities := [] |};
     s2_refinements := {| f2_spans := [("http.client.x", ex_span)]; f2_metrics := []; f2_events := []; f2_entities := [] |};
     s2_dependencies := ["https://a.b/c/1.0.0"] |}.

Lemma ex_common_ok : forall d, common_ok (plain d).
Proof. intros d. unfold common_ok, in_order. cbn. repeat constructor. Qed.
Lemma ex_prov_ok : provenance_ok no_source.
Proof. intros n H. discriminate H. Qed.
Lemma ex_source_ok : forall q, provenance_ok {| p2_source := Some 0; p2_path := q |}.
Proof. intros q n [= <-]. unfold small. lia. Qed.
Lemma ex_span_ok : span_ok ex_span.
Proof.
  split; [|split; [|split; [apply ex_common_ok|apply ex_prov_ok]]].
  - constructor; [unfold span_use_ok, small; cbn; lia|constructor].
  - constructor; [|constructor]. intros r [<- | [<- | []]]; [apply ex_source_ok|apply ex_prov_ok].
Qed.
Lemma ex_url_ok : url_ok ex_parse "https://a.b/c/1.0.0".
Proof. exists "https://a.b/c/1.0.0/". eexists. split; reflexivity. Qed.
Lemma ex_well_formed : forall d, well_formed ex_f64 ex_parse (ex d).
Proof.
  intros d. constructor; cbn; try (repeat constructor; fail).
  - exact ex_url_ok.
  - constructor; [|constructor; [|constructor]].
    + split; [|split; [|split; [apply ex_common_ok|apply ex_prov_ok]]].
      * intros ms [= <-]. constructor; [split; [cbn; lia|discriminate]|constructor].
      * intros e [= <-]. exists (JArr [JNum (NInt 1); JStr "s"]). reflexivity.
    + split; [discriminate|split; [discriminate|split; [apply ex_common_ok|apply ex_source_ok]]].
  - constructor; [exact ex_span_ok|constructor].
  - constructor; [|constructor].
    split; [|split; [constructor|split; [apply ex_common_ok|apply ex_prov_ok]]].
    constructor; [split; [unfold small; cbn; lia|reflexivity]|constructor].
  - constructor; [exact ex_span_ok|constructor].
  - split; [constructor; [exact ex_url_ok|constructor]|repeat constructor].
Qed.
Lemma ex_not_text : forall d, (forall t, d <> Some (DUnspecified t)) -> ~ member_deprecated_by_text (ex d).
Proof.
  intros d H (a & ms & e & t & Ha & Et & He & D). cbn in Ha. destruct Ha as [<- | [<- | []]]; [|discriminate Et].
  cbn in Et. injection Et as <-. destruct He as [<- | []]. exact (H t D).
Qed.
Example C117_case :
  well_formed ex_f64 ex_parse (ex (Some (DRenamed "n" (Some "use n")))) /\
  ~ member_deprecated_by_text (ex (Some (DRenamed "n" (Some "use n")))) /\
  kept (ex (Some (DRenamed "n" (Some "use n")))) <> ex (Some (DRenamed "n" (Some "use n"))) /\
  SchemaDiffSpec.notes_given SchemaDiffSpec.C2Metrics (ex None).
Proof.
  split; [apply ex_well_formed|]. split; [apply ex_not_text; discriminate|]. split; [discriminate|].
  intros n to H. cbn in H. destruct H as (x & (l1 & l2 & E & _) & D).
  destruct l1 as [|y [|]]; cbn in E; try discriminate E; injection E as <-; discriminate D.
Qed.

(* The claim is false of a registry in which a member of an enumeration is deprecated with a text, the old
   form that definitions may still use: its published file cannot be read. *)
Theorem C117_read_back_refuted : exists to_f64 url_parse s,
  well_formed to_f64 url_parse s /\ read_schema to_f64 url_parse (write_schema s) = None.
Proof.
  exists ex_f64, ex_parse, (ex (Some (DUnspecified "old"))). split; [apply ex_well_formed|].
  apply schema_lost; [apply ex_well_formed|].
  eexists _, _, _, "old". split; [left; reflexivity|]. split; [reflexivity|]. split; [left; reflexivity|reflexivity].
Qed.
Print Assumptions C117_read_back_refuted.

(* The format of a file is not looked at: a file that says it has another one is read all the same. *)
Theorem C117_format_refuted : forall to_f64 url_parse s, exists rest,
  write_schema s = JObj (("file_format", JStr "resolved/2.0") :: rest) /\
  forall format, read_schema to_f64 url_parse (JObj (("file_format", JStr format) :: rest)) =
                 read_schema to_f64 url_parse (write_schema s).
Proof.
  intros f u s. eexists. split; [reflexivity|]. intros format. unfold write_schema, unless.
  destruct (is_nil (s2_dependencies s)); reflexivity.
Qed.
Print Assumptions C117_format_refuted.
