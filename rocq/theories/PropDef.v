(* Properties of definitions: validation, associations, type compatibility, examples, version 2
   files and file formats (C29-C31, C64-C67). *)
From Coq Require Import String Ascii Bool Arith Lia Permutation ZArith NArith List.
Import ListNotations.
From Verif Require Import Base BaseProofs Json SemTypes Resolved ResultModel ResultSpec VdirModel Str CodeModel CodeSpec
  LiveAdvisors DefModel DefSpec DefProofs DefProofs2 DefProofs3.
Local Open Scope string_scope.

(* ** C29 *)
Theorem C29_nothing_reported g : errors_of (validate_group g) = [] <-> group_sound g /\ group_clean g.
Proof.
  unfold validate_group. rewrite with_nfes_errors, <- quiet_nil, group_quiet. split; intros [A B]; split; auto.
Qed.
Theorem C29_no_error g : only_warnings (errors_of (validate_group g)) <-> group_sound g.
Proof.
  unfold validate_group. rewrite with_nfes_errors, <- quiet_warnings, group_quiet. split; [intros [A _]; exact A|].
  intros A. split; [exact A|discriminate].
Qed.
Theorem C29_file s : value_of (validate1 s) = Some s /\
  (errors_of (validate1 s) = [] <-> forall g, In g (sp1_groups s) -> group_sound g /\ group_clean g) /\
  (only_warnings (errors_of (validate1 s)) <-> forall g, In g (sp1_groups s) -> group_sound g).
Proof.
  unfold validate1. rewrite with_nfes_errors, with_nfes_value. split; [reflexivity|].
  rewrite <- quiet_nil, <- quiet_warnings, !q_flat. split; split; intros H g I; specialize (H g I).
  - apply group_quiet in H. destruct H. auto.
  - apply group_quiet. destruct H. auto.
  - apply group_quiet in H. destruct H. auto.
  - apply group_quiet. split; [exact H|discriminate].
Qed.

Definition plain_value (id : string) : any_common :=
  {| ac_id := id; ac_brief := ""; ac_note := ""; ac_stability := Some SStable; ac_examples := None; ac_req := RRequired |}.
Definition with_type (g : group_spec) (t : group_type) (attrs : list attr_spec) (kind : option span_kind)
  (name : option string) (body : option any_value) (assocs : list (assoc string)) : group_spec :=
  {| gs_id := gs_id g; gs_type := t; gs_brief := gs_brief g; gs_note := gs_note g; gs_prefix := gs_prefix g;
     gs_extends := gs_extends g; gs_stability := Some SStable; gs_deprecated := gs_deprecated g;
     gs_attributes := attrs; gs_span_kind := kind; gs_events := []; gs_metric_name := gs_metric_name g;
     gs_instrument := gs_instrument g; gs_unit := gs_unit g; gs_name := name; gs_display_name := None; gs_body := body;
     gs_annotations := None; gs_assocs := assocs; gs_include := []; gs_visibility := None; gs_is_v2 := false;
     gs_span_name := None; gs_level := None |}.
Definition plain_ref (r : string) : attr_spec :=
  SRef {| rs_ref := r; rs_brief := None; rs_examples := None; rs_tag := None; rs_req := None; rs_sampling := None;
          rs_note := None; rs_stability := None; rs_deprecated := None; rs_prefix := false; rs_annotations := None; rs_role := None |}.

Example C29_nonvacuous :
  let g := with_type (blank_group "s" GSpan) GSpan [plain_ref "a"; plain_ref "b"] (Some SkClient) None None [ARef "host"] in
  errors_of (validate_group g) = [] /\ group_sound g /\ group_clean g /\
  errors_of (validate_group (with_type g GSpan [plain_ref "a"; plain_ref "a"] (Some SkClient) None None [])) = [EDuplicateRef "s" "a"] /\
  errors_of (validate_group (with_type g GSpan [plain_ref "a"] (Some SkClient) None None [AOneOf [ARef " "]])) = [EInvalidGroup "s" "empty entity reference"].
Proof.
  cbv zeta. assert (E : errors_of (validate_group (with_type (blank_group "s" GSpan) GSpan [plain_ref "a"; plain_ref "b"] (Some SkClient) None None [ARef "host"])) = []) by reflexivity.
  pose proof (proj1 (C29_nothing_reported _) E) as [A B]. split; [exact E|]. split; [exact A|]. split; [exact B|]. split; reflexivity.
Qed.

(* a span without a kind and an attribute referenced twice are only warned about *)
Theorem C29_span_kind_refuted :
  exists g, gs_type g = GSpan /\ gs_span_kind g = None /\ ~ NoDup (refs_of g) /\ only_warnings (errors_of (validate_group g)).
Proof.
  exists (with_type (blank_group "s" GSpan) GSpan [plain_ref "a"; plain_ref "a"] None None None []).
  split; [reflexivity|]. split; [reflexivity|]. split.
  - intros H. inversion H as [|? ? N _]; subst. apply N. left. reflexivity.
  - intros e [<-|[<-|[]]]; reflexivity.
Qed.
(* the fields of a list of maps are not looked at *)
Theorem C29_list_of_maps_refuted :
  exists g c f, gs_body g = Some (AvMaps c [f]) /\ ~ value_examples f /\ ~ value_stability f /\ errors_of (validate_group g) = [].
Proof.
  exists (with_type (blank_group "e" GEvent) GEvent [] None (Some "e")
           (Some (AvMaps (plain_value "body") [AvPrim PString {| ac_id := "f"; ac_brief := ""; ac_note := "";
              ac_stability := None; ac_examples := None; ac_req := RRequired |}])) []).
  eexists _, _. split; [reflexivity|]. split; [|split; [|reflexivity]].
  - intros H. cbn in H. specialize (H {| ac_id := "f"; ac_brief := ""; ac_note := ""; ac_stability := None; ac_examples := None; ac_req := RRequired |}).
    destruct H as [H _]. congruence.
  - intros [H _]. apply H. reflexivity.
Qed.

Definition plain_common : common :=
  {| c_brief := "b"; c_note := ""; c_stability := SStable; c_deprecated := None; c_annotations := [] |}.
Definition plain_metric (name : string) (a : list (assoc string)) (l : list attr_or_group) : metric_def :=
  {| md_name := name; md_instrument := Counter; md_unit := "1"; md_attributes := l; md_assocs := a;
     md_level := Some SlRecommended; md_common := plain_common |}.
Definition plain_spec (ads : list attr_def2) (ms : list metric_def) (gs : list group_def) : spec2 :=
  {| s2d_attributes := ads; s2d_entities := []; s2d_events := []; s2d_metrics := ms; s2d_spans := [];
     s2d_groups := gs; s2d_entity_refinements := []; s2d_event_refinements := []; s2d_metric_refinements := [];
     s2d_span_refinements := []; s2d_imports := None |}.
Definition plain_def (k : string) (t : attr_type) (e : option examples) : attr_def2 :=
  {| ad_key := k; ad_type := t; ad_examples := e; ad_common := plain_common |}.
(* version 2 files skip these rules: an empty combinator and examples of the wrong type are
   accepted without a word *)
Theorem C29_version2_refuted :
  exists s, validate2 s = WOk s /\
    exists f, forall g, In g (sp1_groups (into_v1 s f)) -> ~ group_sound g.
Proof.
  exists (plain_spec [plain_def "a" (TPrim PBoolean) (Some (EString "no"))] [plain_metric "m" [AOneOf []] []] []).
  split; [reflexivity|]. exists "f". intros g [<-|[<-|[]]] H.
  - destruct H as (_ & _ & _ & _ & H & _). cbn [synthetic_group gs_attributes map] in H.
    specialize (H _ (or_introl eq_refl)). destruct H as [_ H]. specialize (H (EString "no") eq_refl). cbn in H.
    unfold prim_examples in H. shapes.
  - destruct H as (_ & _ & _ & _ & _ & _ & H). specialize (H (AOneOf []) (or_introl eq_refl)). inversion H. congruence.
Qed.

(* ** C30 *)
Theorem C30_exact a : Permutation (referenced_entities a) (leaves a).
Proof.
  unfold referenced_entities. eapply perm_trans; [apply drain_all; cbn; lia|]. cbn. rewrite app_nil_r. apply Permutation_refl.
Qed.
Theorem C30_set a x : In x (referenced_entities a) <-> mentions a x.
Proof.
  rewrite <- leaves_iff. split; apply Permutation_in; [apply C30_exact|apply Permutation_sym, C30_exact].
Qed.
Example C30_nonvacuous :
  referenced_entities (AAllOf [ARef "a"; AOneOf [ARef "b"; ARef "a"]; AAllOf []]) = ["a"; "b"; "a"].
Proof. reflexivity. Qed.

(* ** C31 *)
Theorem C31_compatible seen declared : is_compatible seen declared = true <-> compatible seen declared.
Proof.
  split.
  - destruct seen, declared; intros H; try discriminate H; constructor.
  - intros H. inversion H; subst; try reflexivity; [destruct declared|destruct seen]; reflexivity.
Qed.
Example C31_nonvacuous : is_compatible PInt PDouble = true /\ is_compatible PDouble PInt = false /\ is_compatible PInt PInts = false.
Proof. repeat split. Qed.

(* ** C64 *)
Theorem C64_shape f j k d : (exists e, parse_examples f j = Some e /\ has_shape e k d) <-> shaped k d j.
Proof.
  split; [intros (e & E & H); exact (shape_sound f j e k d E H)|apply shape_complete].
Qed.
Theorem C64_contents f j e : parse_examples f j = Some e -> contents f e j.
Proof. apply parse_contents. Qed.
Theorem C64_checked e t gid aid :
  let r := validate_examples e t gid aid in
  (r = [] <-> fit e t /\ ~ old_form e t) /\ (only_warnings r <-> fit e t \/ old_form e t).
Proof.
  cbv zeta. rewrite <- quiet_nil, <- quiet_warnings, !validate_examples_quiet. split; [|intuition discriminate].
  split; [|intros [A B]; auto]. intros [A B]. specialize (B eq_refl). destruct A as [A|A]; [auto|contradiction].
Qed.
Example C64_nonvacuous f :
  shaped KInt 1 (JArr [JNum (NInt 1); JNum (NInt 2)]) /\
  parse_examples f (JArr [JNum (NInt 1); JNum (NFloat 7)]) = Some (EDoubles [f 1%Z; 7%N]) /\
  parse_examples f (JArr [JArr [JStr "a"]; JArr []]) = Some (EListStrings [["a"]; []]) /\
  parse_examples f (JArr [JStr "a"; JBool true]) = Some (EAnys [VString "a"; VBool true]) /\
  validate_examples (EStrings ["a"]) (TPrim PStrings) "g" "a" = [EExampleWarning "g" "a"].
Proof.
  split; [|repeat split]. apply (C64_shape f). exists (EInts [1; 2]%Z). split; [reflexivity|constructor].
Qed.
(* integers are not taken as examples of a double *)
Theorem C64_int_for_double_refuted :
  exists j, (forall f, exists e, parse_examples f j = Some e /\ validate_examples e (TPrim PDouble) "g" "a" = [EExampleError "g" "a"]) /\
    exists l, j = JArr l /\ Forall number l /\ l <> [].
Proof.
  exists (JArr [JNum (NInt 1); JNum (NInt 2)]). split.
  - intros f. exists (EInts [1; 2]%Z). split; reflexivity.
  - eexists. split; [reflexivity|]. split; [|discriminate]. repeat constructor; lia.
Qed.
(* an empty list of examples is refused for every type but integers, enums and any *)
Theorem C64_empty_refuted : exists e, (forall f, parse_examples f (JArr []) = Some e) /\
  validate_examples e (TPrim PString) "g" "a" = [EExampleError "g" "a"] /\
  validate_examples e (TPrim PStrings) "g" "a" = [EExampleError "g" "a"].
Proof. exists (EInts []). repeat split. Qed.
(* the older form of array examples is a warning for attributes but an error for bodies and for
   templates other than string arrays *)
Theorem C64_old_form_refuted :
  validate_examples (EInts [1%Z]) (TPrim PInts) "g" "a" = [EExampleWarning "g" "a"] /\
  validate_examples (EInts [1%Z]) (TTemplate PInts) "g" "a" = [EExampleError "g" "a"] /\
  (forall c, only_warnings (validate_av_examples (EInts [1%Z]) (AvPrim PInts c) "g") -> False).
Proof.
  repeat split. intros c H. specialize (H _ (or_introl eq_refl)). discriminate H.
Qed.

(* ** C65 *)
Theorem C65_carried s f :
  exists a e v m sp g er vr mr sr,
    sp1_groups (into_v1 s f) = concat [a; e; v; m; sp; g; er; vr; mr; sr] /\
    attributes_as f (s2d_attributes s) a /\
    Forall2 entity_as (s2d_entities s) e /\ Forall2 event_as (s2d_events s) v /\
    Forall2 metric_as (s2d_metrics s) m /\ Forall2 span_as (s2d_spans s) sp /\
    Forall2 group_as (s2d_groups s) g /\
    Forall2 entity_refinement_as (s2d_entity_refinements s) er /\
    Forall2 (signal_refinement_as GEvent "event") (s2d_event_refinements s) vr /\
    Forall2 (signal_refinement_as GMetric "metric") (s2d_metric_refinements s) mr /\
    Forall2 (signal_refinement_as GSpan "span") (s2d_span_refinements s) sr /\
    sp1_imports (into_v1 s f) = s2d_imports s.
Proof.
  eexists _, _, _, _, _, _, _, _, _, _. split.
  { cbn [into_v1 sp1_groups concat]. rewrite app_nil_r. reflexivity. }
  split; [apply synthetic_as|].
  split; [apply forall2_map, entity_to_v1_as|]. split; [apply forall2_map, event_to_v1_as|].
  split; [apply forall2_map, metric_to_v1_as|]. split; [apply forall2_map, span_to_v1_as|].
  split; [apply forall2_map, group_to_v1_as|]. split; [apply forall2_map, entity_refinement_to_v1_as|].
  split; [apply forall2_map, event_refinement_to_v1_as|]. split; [apply forall2_map, metric_refinement_to_v1_as|].
  split; [apply forall2_map, span_refinement_to_v1_as|]. reflexivity.
Qed.
Theorem C65_lossless s s' f : into_v1 s f = into_v1 s' f -> same_file s s'.
Proof. apply into_v1_inj. Qed.
Example C65_nonvacuous :
  let s := plain_spec [plain_def "k" (TPrim PInt) None] [plain_metric "m" [ARef "host"] [UGroup "g"]] [AgInternal "g" []] in
  map gs_id (sp1_groups (into_v1 s "f")) = ["registry.f"; "metric.m"; "g"].
Proof. reflexivity. Qed.
(* two files may give their attributes groups of the same name *)
Theorem C65_file_names_refuted : exists p p', p <> p' /\ path_to_name p = path_to_name p' /\
  forall d, gs_id (synthetic_group (path_to_name p) [d]) = gs_id (synthetic_group (path_to_name p') [d]).
Proof. exists "model.v1/http.yaml", "model.v2/http.yaml". split; [discriminate|]. split; reflexivity. Qed.
(* an attribute group may have the name of the group of a metric *)
Theorem C65_ids_refuted : exists s g g' f, validate2 s = WOk s /\ In g (sp1_groups (into_v1 s f)) /\
  In g' (sp1_groups (into_v1 s f)) /\ gs_id g = gs_id g' /\ gs_type g <> gs_type g'.
Proof.
  exists (plain_spec [] [plain_metric "m" [] []] [AgInternal "metric.m" []]). eexists _, _, "f".
  split; [reflexivity|]. split; [left; reflexivity|]. split; [right; left; reflexivity|]. split; [reflexivity|discriminate].
Qed.

(* ** C66 *)
Theorem C66_loaded p1 p2 y v : value_of (load_file p1 p2 y) = Some v <->
  (says_v2 y /\ exists c s, body_of y c /\ p2 c = Some s /\ v = V2 s /\ value_of (validate2 s) = Some s) \/
  (says_v1 y /\ exists c s, body_of y c /\ p1 c = Some s /\ v = V1 s).
Proof.
  unfold load_file, from_yaml. destruct (detect y) as [w r] eqn:D. apply detect_spec in D. destruct D as [_ D].
  assert (VO : forall (res : wresult versioned spec_error), value_of (match w with [] => res | _ => match res with
      | WOk x => WOkNfe x w | WOkNfe x es => WOkNfe x (es ++ w)%list | WFatal e => WFatal e end end) = value_of res).
  { intros res. destruct w; [reflexivity|]. destruct res; reflexivity. }
  rewrite VO. clear VO.
  destruct r as [[]|e].
  - (* version 1 *)
    assert (N2 : ~ says_v2 y) by exact (proj1 D).
    destruct (clean_mapping y) as [c|] eqn:C.
    + destruct (p1 c) as [s|] eqn:P.
      * cbn [validate_versioned]. unfold validate1, with_nfes. split.
        { intros E. right. split; [exact D|]. exists c, s. split; [apply clean_iff; exact C|]. split; [exact P|].
          destruct (flat_map group_errors (sp1_groups s)); cbn in E; congruence. }
        intros [[H _]|(_ & c' & s' & B & P' & ->)]; [contradiction|]. apply clean_iff in B. rewrite C in B. injection B as <-.
        rewrite P in P'. injection P' as <-. destruct (flat_map group_errors (sp1_groups s)); reflexivity.
      * cbn [value_of]. split; [discriminate|]. intros [[H _]|(_ & c' & s' & B & P' & ->)]; [contradiction|].
        apply clean_iff in B. congruence.
    + cbn [value_of]. split; [discriminate|]. intros [[H _]|(_ & c' & s' & B & P' & ->)]; [contradiction|].
      apply clean_iff in B. congruence.
  - destruct (clean_mapping y) as [c|] eqn:C.
    + destruct (p2 c) as [s|] eqn:P.
      * cbn [validate_versioned]. unfold validate2, with_nfes. split.
        { intros E. left. split; [exact D|]. exists c, s. split; [apply clean_iff; exact C|]. split; [exact P|].
          destruct (identity_errors s); [|discriminate E]. destruct (level_warnings s); cbn in E |- *; split; congruence. }
        intros [(_ & c' & s' & B & P' & -> & V)|[[H _] _]]; [|contradiction]. apply clean_iff in B. rewrite C in B. injection B as <-.
        rewrite P in P'. injection P' as <-. destruct (identity_errors s); [|discriminate V]. destruct (level_warnings s); reflexivity.
      * cbn [value_of]. split; [discriminate|]. intros [(_ & c' & s' & B & P' & -> & V)|[[H _] _]]; [|contradiction].
        apply clean_iff in B. congruence.
    + cbn [value_of]. split; [discriminate|]. intros [(_ & c' & s' & B & P' & -> & V)|[[H _] _]]; [|contradiction].
      apply clean_iff in B. congruence.
  - cbn [value_of]. destruct D as (N2 & N1 & _). split; [discriminate|]. intros [[H _]|[H _]]; contradiction.
Qed.
Theorem C66_reported p1 p2 y v : value_of (load_file p1 p2 y) = Some v ->
  exists w, format_warnings y w /\
    errors_of (load_file p1 p2 y) =
      (match v with V1 s => errors_of (validate1 s) | V2 s => errors_of (validate2 s) end ++ w)%list.
Proof.
  unfold load_file, from_yaml. destruct (detect y) as [w r] eqn:D. apply detect_spec in D. destruct D as [FW _].
  set (res := match (match r with inl f => _ | inr e => _ end) with inl v => validate_versioned v | inr e => WFatal e end).
  intros E. exists w. split; [exact FW|].
  assert (VR : value_of res = Some v).
  { destruct w; [exact E|]. destruct res; exact E. }
  assert (ER : errors_of res = match v with V1 s => errors_of (validate1 s) | V2 s => errors_of (validate2 s) end).
  { clear E. unfold res in *. clear res. match goal with |- context [match ?x with inl _ => _ | inr _ => _ end] => destruct x as [u|e] end; [|discriminate VR].
    destruct u as [s|s]; cbn [validate_versioned] in *.
    - unfold validate1, with_nfes in *. destruct (flat_map group_errors (sp1_groups s)) eqn:Q; cbn in VR |- *; injection VR as <-; rewrite Q; reflexivity.
    - destruct (validate2 s) eqn:Q; cbn in VR |- *; [| |discriminate VR]; injection VR as <-;
        (assert (X : t = s) by (unfold validate2, with_nfes in Q; destruct (identity_errors s); [|discriminate Q]; destruct (level_warnings s); congruence));
        subst t; rewrite Q; reflexivity. }
  destruct w as [|w0 w]; [rewrite app_nil_r; exact ER|].
  rewrite <- ER. destruct res; [reflexivity|reflexivity|discriminate VR].
Qed.
Theorem C66_rejected p1 p2 y : ~ says_v2 y -> ~ says_v1 y ->
  exists k v, says y k v /\ load_file p1 p2 y = WFatal (EBadFormat k v).
Proof.
  intros N2 N1. unfold load_file, from_yaml. destruct (detect y) as [w r] eqn:D. apply detect_spec in D. destruct D as [_ D].
  destruct r as [[]|e]; [contradiction|contradiction|]. destruct D as (_ & _ & k & v & -> & H). exists k, v. split; [exact H|].
  destruct w; reflexivity.
Qed.
Example C66_nonvacuous p1 p2 :
  says_v2 (JObj [("file_format", JStr "definition/2"); ("metrics", JArr [])]) /\
  says_v1 (JObj [("groups", JArr [])]) /\
  load_file p1 p2 (JObj [("version", JStr "3")]) = WFatal (EBadFormat "version" "3").
Proof.
  split; [left; eexists; split; reflexivity|]. split; [|reflexivity]. split.
  - intros [(m & E & H)|(m & E & H)]; injection E as <-; discriminate H.
  - right. right. split; intros v (m & E & H); injection E as <-; discriminate H.
Qed.
(* a version written as a number is not seen: the file is read as version 1 *)
Theorem C66_numeric_version_refuted : says_v1 (JObj [("version", JNum (NInt 2)); ("metrics", JArr [])]) /\
  silent (JObj [("version", JNum (NInt 2)); ("metrics", JArr [])]) "version".
Proof.
  assert (S : silent (JObj [("version", JNum (NInt 2)); ("metrics", JArr [])]) "version")
    by (intros v (m & E & H); injection E as <-; discriminate H).
  split; [|exact S]. split.
  - intros [(m & E & H)|(m & E & H)]; injection E as <-; discriminate H.
  - right. right. split; [|exact S]. intros v (m & E & H); injection E as <-; discriminate H.
Qed.
(* an unknown file_format passes unnoticed beside a known version, and both may disagree *)
Theorem C66_unknown_format_refuted :
  says_v1 (JObj [("file_format", JStr "bogus"); ("version", JStr "1")]) /\
  says_v2 (JObj [("file_format", JStr "definition/1"); ("version", JStr "2")]).
Proof.
  split.
  - split; [intros [(m & E & H)|(m & E & H)]; injection E as <-; discriminate H|]. right. left. eexists. split; reflexivity.
  - right. eexists. split; reflexivity.
Qed.

(* ** C67 *)
Theorem C67_accepted s : value_of (validate2 s) = Some s <->
  (forall e, In e (s2d_entities s) -> ed_identity e <> [] /\ forall k, ~ in_both (ed_identity e) (ed_description e) k) /\
  (forall r k, In r (s2d_entity_refinements s) -> ~ in_both (er_identity r) (er_description r) k).
Proof.
  assert (N : identity_errors s = [] <-> forall e, ~ In e (identity_errors s)).
  { destruct (identity_errors s) as [|x l]; split; auto; try discriminate. intros H. destruct (H x (or_introl eq_refl)). }
  assert (V : value_of (validate2 s) = Some s <-> identity_errors s = []).
  { unfold validate2. destruct (identity_errors s); [|split; discriminate]. rewrite with_nfes_value. tauto. }
  rewrite V, N. setoid_rewrite identity_errors_in. split.
  - intros H. split.
    + intros e I. split.
      * intros E. apply (H (ENoIdentity (ed_type e))). left. exists e. auto.
      * intros k B. apply (H (EBothLists (ed_type e) k)). left. exists e. split; [exact I|]. left. eauto.
    + intros r k I B. apply (H (EBothLists (rf_id (er_base r)) k)). right. eauto 6.
  - intros [A B] e [(x & I & [(k & _ & J)|(_ & J)])|(r & k & I & _ & J)].
    + exact (proj2 (A x I) k J).
    + exact (proj1 (A x I) J).
    + exact (B r k I J).
Qed.
Theorem C67_reported s : value_of (validate2 s) = Some s ->
  errors_of (validate2 s) =
    (lacking md_level (fun m => "metric." ++ md_name m)%string (s2d_metrics s) ++
     lacking sd_level (fun x => "span." ++ sd_type x)%string (s2d_spans s) ++
     lacking vd_level (fun e => "event." ++ vd_name e)%string (s2d_events s) ++
     lacking ed_level (fun e => "entity." ++ ed_type e)%string (s2d_entities s))%list.
Proof.
  assert (L : forall A (lv : A -> option signal_level) nm l,
    flat_map (fun x => when (no (lv x)) (ENoLevel (nm x))) l = lacking lv nm l).
  { intros A lv nm l. unfold lacking. induction l as [|x l IH]; [reflexivity|]. cbn [flat_map filter].
    rewrite IH. destruct (lv x); reflexivity. }
  unfold validate2. destruct (identity_errors s); [|discriminate]. intros _. rewrite with_nfes_errors. unfold level_warnings.
  rewrite (L _ md_level), (L _ sd_level), (L _ vd_level), (L _ ed_level). reflexivity.
Qed.
(* a rejected file names every offending entity *)
Theorem C67_rejected s : value_of (validate2 s) <> Some s ->
  exists es, validate2 s = WFatal (ECompound es) /\
    forall e, In e es <->
      (exists x k, In x (s2d_entities s) /\ e = EBothLists (ed_type x) k /\ in_both (ed_identity x) (ed_description x) k) \/
      (exists x, In x (s2d_entities s) /\ e = ENoIdentity (ed_type x) /\ ed_identity x = []) \/
      (exists r k, In r (s2d_entity_refinements s) /\ e = EBothLists (rf_id (er_base r)) k /\ in_both (er_identity r) (er_description r) k).
Proof.
  intros H. exists (identity_errors s). split.
  - unfold validate2 in *. destruct (identity_errors s); [|reflexivity]. exfalso. apply H. apply with_nfes_value.
  - intros e. rewrite identity_errors_in. clear. split.
    + intros [(x & I & [(k & J)|J])|(r & k & J)]; [left; exists x, k; auto|right; left; exists x; auto|right; right; eauto].
    + intros [(x & k & I & J)|[(x & I & J)|(r & k & J)]]; [left; exists x; eauto|left; exists x; auto|right; eauto].
Qed.
Definition plain_aref (k : string) : attr_ref2 :=
  {| ar_ref := k; ar_brief := None; ar_examples := None; ar_req := None; ar_note := None; ar_stability := None;
     ar_deprecated := None; ar_annotations := [] |}.
Example C67_nonvacuous :
  let e i d := {| s2d_attributes := []; s2d_entities := [{| ed_type := "host"; ed_identity := i; ed_description := d;
                    ed_level := None; ed_common := plain_common |}]; s2d_events := []; s2d_metrics := []; s2d_spans := [];
                  s2d_groups := []; s2d_entity_refinements := []; s2d_event_refinements := []; s2d_metric_refinements := [];
                  s2d_span_refinements := []; s2d_imports := None |} in
  errors_of (validate2 (e [plain_aref "id"] [plain_aref "name"])) = [ENoLevel "entity.host"] /\
  validate2 (e [plain_aref "id"] [plain_aref "id"]) = WFatal (ECompound [EBothLists "host" "id"]) /\
  validate2 (e [] []) = WFatal (ECompound [ENoIdentity "host"]).
Proof. repeat split. Qed.

Print Assumptions C29_nothing_reported.
Print Assumptions C29_no_error.
Print Assumptions C29_file.
Print Assumptions C30_exact.
Print Assumptions C30_set.
Print Assumptions C31_compatible.
Print Assumptions C64_shape.
Print Assumptions C64_contents.
Print Assumptions C64_checked.
Print Assumptions C65_carried.
Print Assumptions C65_lossless.
Print Assumptions C66_loaded.
Print Assumptions C66_reported.
Print Assumptions C66_rejected.
Print Assumptions C67_accepted.
Print Assumptions C67_reported.
Print Assumptions C67_rejected.
