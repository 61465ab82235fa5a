From Coq Require Import String Ascii Bool Arith ZArith NArith Lia Sorted List.
Import ListNotations.
From Verif Require Import Base BaseProofs Json SemTypes Resolved.
From Verif Require SchemaDiffModel SchemaDiffSpec SchemaDiffProofs DefModel UrlModel JinModel JinSpec JinProofs StrProofs Str.
Import JinModel JinSpec JinProofs.
From Verif Require Import PubModel PubSpec PubProofs PubProofs2 PubProofs3.
Local Open Scope string_scope.

Section Read.
  Variable f : Z -> N.
  Variable url_parse : string -> option UrlModel.parsed_url.

  Lemma member_read : forall e, member_ok e ->
    read_member f (write_member e) =
    match ee_deprecated e with Some (DUnspecified _) => None | _ => Some (kept_member e) end.
  Proof.
    intros [i v b n s d a] [Hv Ha]. cbn in Hv, Ha. unfold read_member, write_member, kept_member.
    cbn [entries obind ee_id ee_value ee_brief ee_note ee_stability ee_deprecated ee_annotations].
    rewrite known_ok by keys. cbn [obind].
    rewrite (req_back read_string JStr (fun x => x) i "id"); [|at_key|reflexivity]. cbn [obind].
    rewrite (opt_some (DefModel.as_value f) write_value_spec (fun x => x) (Some v) "value");
      [|at_key|intros x [= <-]; split; [now apply value_back|apply value_nonnull]]. cbn [obind option_map].
    rewrite (opt_some read_string JStr (fun x => x) b "brief"); [|at_key|intros x _; split; [reflexivity|discriminate]]. cbn [obind].
    rewrite (opt_some read_string JStr (fun x => x) n "note"); [|at_key|intros x _; split; [reflexivity|discriminate]]. cbn [obind].
    rewrite (opt_some (read_named stability_of_name) write_stability (fun x => x) s "stability");
      [|at_key|intros x _; split; [apply stability_back|discriminate]]. cbn [obind].
    assert (Q : (exists t, d = Some (DUnspecified t)) \/ (forall x, d = Some x -> forall t, x <> DUnspecified t)).
    { destruct d as [[to o|t|t|t]|]; [right|right|right|left; eauto|right]; intros x Hx t' ->; discriminate Hx. }
    destruct Q as [[t ->]|Q].
    - rewrite (opt_one SchemaDiffModel.dep_of_definition "deprecated" _ (SchemaDiffModel.dep_to_json (DUnspecified t)));
        [|at_key|discriminate]. rewrite dep_member_lost. reflexivity.
    - rewrite (opt_some SchemaDiffModel.dep_of_definition SchemaDiffModel.dep_to_json kept_deprecation d "deprecated");
        [|at_key|intros x Hx; split; [apply dep_member_back; exact (Q x Hx)|destruct x as [? []| | |]; discriminate]].
      cbn [obind].
      rewrite (opt_some read_annotations write_annotations (fun x => x) a "annotations");
        [|at_key|intros x Hx; split; [apply annotations_back; exact (Ha x Hx)|discriminate]].
      destruct b, n, s, a, d as [[? ?|?|?|t]|]; try reflexivity; exfalso; exact (Q _ eq_refl t eq_refl).
  Qed.

  Definition told (t : attr_type) : Prop :=
    forall ms e x, t = TEnum ms -> In e ms -> ee_deprecated e <> Some (DUnspecified x).

  Lemma type_back : forall t, type_ok t -> told t -> read_type f (write_type t) = Some (kept_type t).
  Proof.
    intros [p|p|ms] H N.
    - unfold read_type, DefModel.try. cbn [write_type read_named kept_type]. rewrite prim_name. reflexivity.
    - destruct p; reflexivity.
    - unfold read_type, DefModel.try. cbn [write_type read_named kept_type].
      change (read_named prim_of_name (JObj [("members", write_vec write_member ms)])) with (@None prim).
      cbn [entries obind].
      assert (E : required (read_vec (read_member f)) "members" [("members", write_vec write_member ms)]
                  = Some (map kept_member ms)).
      { apply (req_back (read_vec (read_member f)) (write_vec write_member) (map kept_member)); [at_key|].
        apply vec_map. apply Forall_forall. intros e He. rewrite member_read.
        - destruct (ee_deprecated e) as [[? ?|?|?|x]|] eqn:D; try reflexivity.
          destruct (N ms e x eq_refl He D).
        - specialize (H ms eq_refl). rewrite Forall_forall in H. exact (H e He). }
      rewrite E. reflexivity.
  Qed.
  Lemma type_lost : forall ms e x, type_ok (TEnum ms) -> In e ms -> ee_deprecated e = Some (DUnspecified x) ->
    read_type f (write_type (TEnum ms)) = None.
  Proof.
    intros ms e x H He D. unfold read_type, DefModel.try. cbn [write_type read_named].
    change (read_named prim_of_name (JObj [("members", write_vec write_member ms)])) with (@None prim).
    cbn [entries obind].
    assert (E : required (read_vec (read_member f)) "members" [("members", write_vec write_member ms)] = None).
    { rewrite (req_one _ "members" _ (write_vec write_member ms)); [|at_key].
      apply (vec_none (read_member f) write_member e); [exact He|]. rewrite member_read; [now rewrite D|].
      specialize (H ms eq_refl). rewrite Forall_forall in H. exact (H e He). }
    rewrite E. reflexivity.
  Qed.

  Lemma attribute_back : forall a, attribute_ok f a -> told (a2_type a) ->
    read_attribute f (write_attribute a) = Some (kept_attribute a).
  Proof.
    intros [k t e c p] (Ht & He & Hc & Hp) N. cbn in Ht, He, Hc, Hp, N.
    unfold read_attribute, write_attribute, kept_attribute.
    cbn [entries obind a2_key a2_type a2_examples a2_common a2_provenance].
    rewrite known_ok by keys. cbn [obind].
    rewrite (req_back read_string JStr (fun x => x) k "key"); [|at_key|reflexivity]. cbn [obind].
    rewrite (req_back (read_type f) write_type kept_type t "type"); [|at_key|now apply type_back]. cbn [obind].
    rewrite (opt_some (DefModel.parse_examples f) PubModel.write_examples (fun x => x) e "examples");
      [|at_key|intros x Hx; split; [destruct (He x Hx) as [j Hj]; exact (examples_back f j x Hj)|apply examples_nonnull]].
    cbn [obind].
    rewrite (common_back c); [|exact Hc|at_common]. cbn [obind].
    rewrite (prov_back p); [destruct e; reflexivity|exact Hp|at_key].
  Qed.
  Lemma attribute_lost : forall a ms e x, attribute_ok f a -> a2_type a = TEnum ms -> In e ms ->
    ee_deprecated e = Some (DUnspecified x) -> read_attribute f (write_attribute a) = None.
  Proof.
    intros [k t ex c p] ms e x (Ht & He & Hc & Hp) E Hin D. cbn in Ht, He, Hc, Hp, E. subst t.
    unfold read_attribute, write_attribute. cbn [entries obind a2_key a2_type a2_examples a2_common a2_provenance].
    rewrite known_ok by keys. cbn [obind].
    rewrite (req_back read_string JStr (fun x => x) k "key"); [|at_key|reflexivity]. cbn [obind].
    rewrite (req_one (read_type f) "type" _ (write_type (TEnum ms))); [|at_key].
    rewrite (type_lost ms e x Ht Hin D). reflexivity.
  Qed.

  Lemma url_back : forall u, url_ok url_parse u -> read_url url_parse (JStr u) = Some u.
  Proof.
    intros u (text & su & H & <-). unfold read_url. cbn [read_string obind].
    assert (E : UrlModel.su_url su = Str.trim_end Str.is_slash text).
    { unfold UrlModel.schema_url_new in H. cbv zeta in H. repeat match type of H with
        | match ?x with _ => _ end = _ => destruct x; try discriminate
        | (if ?x then _ else _) = _ => destruct x; try discriminate
        end. now injection H as <-. }
    rewrite E. revert H. unfold UrlModel.schema_url_new. rewrite StrProofs.trim_end_idem.
    intros H. rewrite H, E. reflexivity.
  Qed.

  Lemma filter_all : forall {A} (p : A -> bool) l, Forall (fun a => p a = true) l -> filter p l = l.
  Proof. intros A p l H. induction H as [|a l Ha _ IH]; [reflexivity|]. cbn. rewrite Ha, IH. reflexivity. Qed.
  Lemma refinement_back : forall {A} (rd : list (string * json) -> option A) fields (g : A -> A) i x,
    rd (fields x) = Some (g x) -> ~ In "id" (map fst (fields x)) ->
    read_refinement rd (write_refinement fields (i, x)) = Some (i, g x).
  Proof.
    intros A rd fields g i x H N. unfold read_refinement, write_refinement. cbn [entries obind fst snd].
    rewrite (req_back read_string JStr (fun x => x) i "id"); [|rewrite under_cons; cbn|reflexivity].
    - cbn [obind filter fst]. cbn [String.eqb Ascii.eqb Bool.eqb negb].
      rewrite filter_all; [rewrite H; reflexivity|].
      apply Forall_forall. intros [k v] Hk. cbn. apply negb_true_iff, String.eqb_neq. intros ->.
      apply N. apply (in_map fst) in Hk. exact Hk.
    - f_equal. unfold under. replace (filter _ (fields x)) with (@nil (string * json)); [reflexivity|].
      clear H. induction (fields x) as [|[k v] l IH]; [reflexivity|]. cbn in N |- *.
      destruct (String.eqb_spec k "id") as [-> | _]; [destruct N; auto|]. apply IH. intros Q. apply N. auto.
  Qed.
  Lemma no_id : forall l ks, incl (map (@fst string json) l) ks -> existsb (String.eqb "id") ks = false -> ~ In "id" (map fst l).
  Proof.
    intros l ks H E Q. apply H in Q. assert (existsb (String.eqb "id") ks = true); [|congruence].
    apply existsb_exists. exists "id". split; [exact Q|reflexivity].
  Qed.

  Lemma span_refined : forall x, span_ok (snd x) ->
    read_refinement read_span_fields (write_refinement span_fields x) = Some (second kept_span x).
  Proof.
    intros [i x] H. apply refinement_back; [apply span_back; exact H|].
    apply no_id with (ks := (["type"; "kind"; "name"; "attributes"; "entity_associations"; "requirement_level"; "provenance"] ++ common_keys)%list);
      [unfold span_fields; keys|reflexivity].
  Qed.
  Lemma metric_refined : forall x, metric_ok (snd x) ->
    read_refinement read_metric_fields (write_refinement metric_fields x) = Some (second kept_metric x).
  Proof.
    intros [i x] H. apply refinement_back; [apply metric_back; exact H|].
    apply no_id with (ks := (["name"; "instrument"; "unit"; "attributes"; "entity_associations"; "requirement_level"; "provenance"] ++ common_keys)%list);
      [unfold metric_fields; keys|reflexivity].
  Qed.
  Lemma event_refined : forall x, event_ok (snd x) ->
    read_refinement read_event_fields (write_refinement event_fields x) = Some (second kept_event x).
  Proof.
    intros [i x] H. apply refinement_back; [apply event_back; exact H|].
    apply no_id with (ks := (["name"; "attributes"; "entity_associations"; "requirement_level"; "provenance"] ++ common_keys)%list);
      [unfold event_fields; keys|reflexivity].
  Qed.
  Lemma entity_refined : forall x, entity_ok (snd x) ->
    read_refinement read_entity_fields (write_refinement entity_fields x) = Some (second kept_entity x).
  Proof.
    intros [i x] H. apply refinement_back; [apply entity_back; exact H|].
    apply no_id with (ks := (["type"; "identity"; "description"; "requirement_level"; "provenance"] ++ common_keys)%list);
      [unfold entity_fields; keys|reflexivity].
  Qed.

  Lemma registry_back : forall s, well_formed f url_parse s ->
    read_registry (write_registry (s2_registry s)) = Some (kept_registry (s2_registry s)).
  Proof.
    intros s W. destruct W as [_ _ Wa Wg Ws Wm We Wn _ _ _ _ _]. destruct (s2_registry s) as [a g sp m e n].
    cbn in Wa, Wg, Ws, Wm, We, Wn. unfold read_registry, write_registry, kept_registry.
    cbn [entries obind r2_attributes r2_attribute_groups r2_spans r2_metrics r2_events r2_entities].
    rewrite known_ok by keys. cbn [obind].
    rewrite (req_back (read_vec read_ref) (write_vec PubModel.write_ref) (fun x => x) a "attributes");
      [|at_key|exact (vec_back _ _ _ _ ref_back Wa)]. cbn [obind].
    rewrite (req_back (read_vec read_group) (write_vec write_group) (map kept_group) g "attribute_groups");
      [|at_key|exact (vec_kept _ _ _ _ _ group_back Wg)]. cbn [obind].
    rewrite (req_back (read_vec (read_signal read_span_fields)) (write_vec (fun s => JObj (span_fields s))) (map kept_span) sp "spans");
      [|at_key|exact (vec_kept (read_signal read_span_fields) (fun s => JObj (span_fields s)) _ _ _ span_back Ws)]. cbn [obind].
    rewrite (req_back (read_vec (read_signal read_metric_fields)) (write_vec (fun s => JObj (metric_fields s))) (map kept_metric) m "metrics");
      [|at_key|exact (vec_kept (read_signal read_metric_fields) (fun s => JObj (metric_fields s)) _ _ _ metric_back Wm)]. cbn [obind].
    rewrite (req_back (read_vec (read_signal read_event_fields)) (write_vec (fun s => JObj (event_fields s))) (map kept_event) e "events");
      [|at_key|exact (vec_kept (read_signal read_event_fields) (fun s => JObj (event_fields s)) _ _ _ event_back We)]. cbn [obind].
    rewrite (req_back (read_vec (read_signal read_entity_fields)) (write_vec (fun s => JObj (entity_fields s))) (map kept_entity) n "entities");
      [reflexivity|at_key|exact (vec_kept (read_signal read_entity_fields) (fun s => JObj (entity_fields s)) _ _ _ entity_back Wn)].
  Qed.
  Lemma refinements_back : forall s, well_formed f url_parse s ->
    read_refinements (write_refinements (s2_refinements s)) = Some (kept_refinements (s2_refinements s)).
  Proof.
    intros s W. destruct W as [_ _ _ _ _ _ _ _ Ws Wm We Wn _]. destruct (s2_refinements s) as [sp m e n].
    cbn in Ws, Wm, We, Wn. unfold read_refinements, write_refinements, kept_refinements.
    cbn [entries obind f2_spans f2_metrics f2_events f2_entities].
    rewrite known_ok by keys. cbn [obind].
    rewrite (req_back (read_vec (read_refinement read_span_fields)) (write_vec (write_refinement span_fields)) (map (second kept_span)) sp "spans");
      [|at_key|exact (vec_kept _ _ _ (fun x => span_ok (snd x)) _ span_refined Ws)]. cbn [obind].
    rewrite (req_back (read_vec (read_refinement read_metric_fields)) (write_vec (write_refinement metric_fields)) (map (second kept_metric)) m "metrics");
      [|at_key|exact (vec_kept _ _ _ (fun x => metric_ok (snd x)) _ metric_refined Wm)]. cbn [obind].
    rewrite (req_back (read_vec (read_refinement read_event_fields)) (write_vec (write_refinement event_fields)) (map (second kept_event)) e "events");
      [|at_key|exact (vec_kept _ _ _ (fun x => event_ok (snd x)) _ event_refined We)]. cbn [obind].
    rewrite (def_one [] (read_vec (read_refinement read_entity_fields)) "entities" _ (write_vec (write_refinement entity_fields) n));
      [|at_key].
    rewrite (vec_kept _ _ _ (fun x => entity_ok (snd x)) _ entity_refined Wn). reflexivity.
  Qed.

  Lemma schema_read : forall s c, well_formed f url_parse s ->
    read_vec (read_attribute f) (write_vec write_attribute (s2_catalog s)) = c ->
    read_schema f url_parse (write_schema s) =
    match c with
    | Some c => Some {| s2_url := s2_url s; s2_catalog := c; s2_registry := kept_registry (s2_registry s);
                        s2_refinements := kept_refinements (s2_refinements s); s2_dependencies := s2_dependencies s |}
    | None => None
    end.
  Proof.
    intros s c W Hc. unfold read_schema, write_schema. cbn [entries obind].
    rewrite known_ok by keys. cbn [obind].
    rewrite (req_back read_string JStr (fun x => x) "resolved/2.0" "file_format"); [|at_key|reflexivity]. cbn [obind].
    rewrite (req_back (read_url url_parse) JStr (fun x => x) (s2_url s) "schema_url");
      [|at_key|apply url_back, (wf_url _ _ _ W)]. cbn [obind].
    rewrite (req_one (read_vec (read_attribute f)) "attribute_catalog" _ (write_vec write_attribute (s2_catalog s))); [|at_key].
    rewrite Hc. destruct c as [c|]; [|reflexivity]. cbn [obind].
    rewrite (req_back read_registry write_registry kept_registry (s2_registry s) "registry");
      [|at_key|now apply registry_back]. cbn [obind].
    rewrite (req_back read_refinements write_refinements kept_refinements (s2_refinements s) "refinements");
      [|at_key|now apply refinements_back]. cbn [obind].
    destruct (wf_dependencies _ _ _ W) as [Wd Wo].
    rewrite (def_unless [] (fun v => option_map as_set (read_vec (read_url url_parse) v)) (write_vec JStr) (fun x => x) is_nil
               (s2_dependencies s) "dependencies"); [reflexivity|at_key|apply nil_is|].
    rewrite (vec_back (read_url url_parse) JStr (url_ok url_parse)); [cbn; now rewrite set_back|apply url_back|exact Wd].
  Qed.

  Theorem schema_back : forall s, well_formed f url_parse s -> ~ member_deprecated_by_text s ->
    read_schema f url_parse (write_schema s) = Some (kept s).
  Proof.
    intros s W N. rewrite (schema_read s (Some (map kept_attribute (s2_catalog s))) W); [reflexivity|].
    apply vec_map. apply Forall_forall. intros a Ha. pose proof (wf_catalog _ _ _ W) as Wc. rewrite Forall_forall in Wc.
    apply attribute_back; [exact (Wc a Ha)|]. intros ms e x Et He D. apply N. exists a, ms, e, x. auto.
  Qed.
  Theorem schema_lost : forall s, well_formed f url_parse s -> member_deprecated_by_text s ->
    read_schema f url_parse (write_schema s) = None.
  Proof.
    intros s W (a & ms & e & x & Ha & Et & He & D). rewrite (schema_read s None W); [reflexivity|].
    pose proof (wf_catalog _ _ _ W) as Wc. rewrite Forall_forall in Wc.
    apply (vec_none _ _ a); [exact Ha|]. exact (attribute_lost a ms e x (Wc a Ha) Et He D).
  Qed.
End Read.

(* ---------- the same document ---------- *)
Lemma kept_dep_json : forall d, SchemaDiffModel.dep_to_json (kept_deprecation d) = SchemaDiffModel.dep_to_json d.
Proof. destruct d as [to [n|]| | |]; reflexivity. Qed.
Lemma if_some_map : forall {A} k (w : A -> json) g o, (forall a, w (g a) = w a) -> if_some k w (option_map g o) = if_some k w o.
Proof. intros A k w g [a|] H; cbn; [unfold if_some; now rewrite H|reflexivity]. Qed.
Lemma vec_same : forall {A} (w : A -> json) g l, (forall a, w (g a) = w a) -> write_vec w (map g l) = write_vec w l.
Proof. intros A w g l H. unfold write_vec. rewrite map_map. f_equal. apply map_ext. exact H. Qed.
Lemma common_same : forall c, write_common (kept_common c) = write_common c.
Proof. intros c. unfold write_common, kept_common. cbn [c_brief c_note c_stability c_deprecated c_annotations]. now rewrite (if_some_map _ _ _ _ kept_dep_json). Qed.
Lemma prov_same : forall p, write_provenance (kept_provenance p) = write_provenance p.
Proof. intros [s p]. reflexivity. Qed.
Lemma type_same : forall t, write_type (kept_type t) = write_type t.
Proof.
  intros [p|p|ms]; try reflexivity. cbn [kept_type write_type]. rewrite vec_same; [reflexivity|].
  intros e. unfold write_member, kept_member. cbn [ee_id ee_value ee_brief ee_note ee_stability ee_deprecated ee_annotations].
  now rewrite (if_some_map _ _ _ _ kept_dep_json).
Qed.
Lemma attribute_same : forall a, write_attribute (kept_attribute a) = write_attribute a.
Proof.
  intros a. unfold write_attribute, kept_attribute. cbn [a2_key a2_type a2_examples a2_common a2_provenance].
  now rewrite type_same, common_same, prov_same.
Qed.
Lemma assoc_same : forall a, write_assoc (kept_assoc a) = write_assoc a.
Proof.
  intros a. induction a as [r|l IH|l IH] using assoc_ind2; cbn [kept_assoc write_assoc];
    [unfold write_entity_ref, kept_ref; cbn [er_type er_provenance]; now rewrite prov_same|..].
  - do 3 f_equal. rewrite map_map. f_equal. induction IH as [|a l Ha _ IH]; [reflexivity|]. cbn. now rewrite Ha, IH.
  - do 3 f_equal. rewrite map_map. f_equal. induction IH as [|a l Ha _ IH]; [reflexivity|]. cbn. now rewrite Ha, IH.
Qed.
Lemma is_nil_map : forall {A B} (g : A -> B) l, is_nil (map g l) = is_nil l.
Proof. destruct l; reflexivity. Qed.
Lemma assocs_same : forall l, unless is_nil "entity_associations" (write_vec write_assoc) (map kept_assoc l)
                              = unless is_nil "entity_associations" (write_vec write_assoc) l.
Proof. intros l. unfold unless. rewrite is_nil_map, vec_same by exact assoc_same. reflexivity. Qed.
Lemma group_same : forall g, write_group (kept_group g) = write_group g.
Proof. intros g. unfold write_group, kept_group. cbn [ag2_id ag2_attributes ag2_common ag2_provenance]. now rewrite common_same, prov_same. Qed.
Lemma span_same : forall s, span_fields (kept_span s) = span_fields s.
Proof.
  intros s. unfold span_fields, kept_span. cbn [sp2_type sp2_kind sp2_name sp2_attributes sp2_assocs sp2_level sp2_common sp2_provenance].
  now rewrite assocs_same, common_same, prov_same.
Qed.
Lemma metric_same : forall s, metric_fields (kept_metric s) = metric_fields s.
Proof.
  intros s. unfold metric_fields, kept_metric. cbn [me2_name me2_instrument me2_unit me2_attributes me2_assocs me2_level me2_common me2_provenance].
  now rewrite assocs_same, common_same, prov_same.
Qed.
Lemma event_same : forall s, event_fields (kept_event s) = event_fields s.
Proof.
  intros s. unfold event_fields, kept_event. cbn [ev2_name ev2_attributes ev2_assocs ev2_level ev2_common ev2_provenance].
  now rewrite assocs_same, common_same, prov_same.
Qed.
Lemma entity_same : forall s, entity_fields (kept_entity s) = entity_fields s.
Proof.
  intros s. unfold entity_fields, kept_entity. cbn [en2_type en2_identity en2_description en2_level en2_common en2_provenance].
  now rewrite common_same, prov_same.
Qed.
Theorem schema_same : forall s, write_schema (kept s) = write_schema s.
Proof.
  intros s. unfold write_schema, kept. cbn [s2_url s2_catalog s2_registry s2_refinements s2_dependencies].
  rewrite (vec_same write_attribute) by exact attribute_same.
  replace (write_registry (kept_registry (s2_registry s))) with (write_registry (s2_registry s));
  [replace (write_refinements (kept_refinements (s2_refinements s))) with (write_refinements (s2_refinements s)); [reflexivity|]|].
  - unfold write_refinements, kept_refinements. cbn [f2_spans f2_metrics f2_events f2_entities].
    rewrite !vec_same; [reflexivity|..]; intros [i x]; unfold write_refinement, second; cbn [fst snd];
      rewrite ?span_same, ?metric_same, ?event_same, ?entity_same; reflexivity.
  - unfold write_registry, kept_registry. cbn [r2_attributes r2_attribute_groups r2_spans r2_metrics r2_events r2_entities].
    rewrite (vec_same write_group) by exact group_same.
    rewrite !vec_same; [reflexivity|..]; intros x; rewrite ?span_same, ?metric_same, ?event_same, ?entity_same; reflexivity.
Qed.

(* ---------- the diff ---------- *)
Import SchemaDiffModel SchemaDiffSpec SchemaDiffProofs.
Lemma kept_common_reread : forall c, kept_common c = reread_common c.
Proof. intros c. unfold kept_common, reread_common. destruct (c_deprecated c) as [[to [x|]|x|x|x]|]; reflexivity. Qed.
Lemma kept_view : forall k s n d, view2 k (kept s) n d <-> exists d0, view2 k s n d0 /\ d = reread_dep d0.
Proof.
  intros k s n d. destruct k; simpl; try (apply reread_list_view; [reflexivity|intros x; apply kept_common_reread]).
  unfold attribute_view2. simpl.
  assert (Q : forall r, (exists a, nth_error (map kept_attribute (s2_catalog s)) r = Some a /\ a2_key a = n)
              <-> (exists a, nth_error (s2_catalog s) r = Some a /\ a2_key a = n)).
  { intros r. rewrite nth_error_map. destruct (nth_error (s2_catalog s) r) as [a|]; simpl.
    - split; intros (b & [= <-] & <-); eexists; split; reflexivity.
    - split; intros (b & [=] & _). }
  split.
  - intros (r & a & Hr & Ea & Hd). rewrite nth_error_map in Ea.
    destruct (nth_error (s2_catalog s) r) as [a0|] eqn:E; [|discriminate]. injection Ea as <-.
    exists (c_deprecated (a2_common a0)). split.
    + exists r, a0. split; [eapply last_with_ext; [|exact Hr]; intros y; symmetry; apply Q|auto].
    + rewrite <- Hd. cbn [kept_attribute a2_common]. now rewrite kept_common_reread.
  - intros (d0 & (r & a & Hr & Ea & Hd) & ->). exists r, (kept_attribute a).
    split; [eapply last_with_ext; [|exact Hr]; intros y; apply Q|].
    rewrite nth_error_map, Ea. split; [reflexivity|]. cbn [kept_attribute a2_common].
    rewrite kept_common_reread. cbn [reread_common c_deprecated]. rewrite Hd. reflexivity.
Qed.
Theorem kept_nothing_new : forall k s, notes_given k s ->
  nothing_new (view2 k s) (view2 k (kept s)) /\ nothing_new (view2 k (kept s)) (view2 k s).
Proof.
  intros k s N.
  assert (S : forall d n, view2 k s n d -> reread_dep d = d).
  { intros [[to [x|]|x|x|x]|] n H; try reflexivity. destruct (N n to H). }
  split; split.
  - intros n. split; intros [d H].
    + exists (reread_dep d). apply kept_view. eauto.
    + apply kept_view in H as (d0 & H & _). exists d0. exact H.
  - intros n d b H1 H2. apply kept_view in H2 as (d0 & H2 & ->). rewrite (S _ _ H2).
    eapply view2_fun; eassumption.
  - intros n. split; intros [d H].
    + apply kept_view in H as (d0 & H & _). exists d0. exact H.
    + exists (reread_dep d). apply kept_view. eauto.
  - intros n d b H1 H2. apply kept_view in H1 as (d0 & H1 & E). rewrite (S _ _ H1) in E. subst d0.
    eapply view2_fun; eassumption.
Qed.
