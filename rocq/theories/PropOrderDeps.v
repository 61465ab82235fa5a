(* C35 for registries with dependencies. *)
From Coq Require Import String Ascii Bool Arith Lia Permutation Sorted List.
Import ListNotations.
From Verif Require Import Base BaseProofs BaseProofs2 Json SemTypes Resolved Semver DefModel DefSpec ResolveModel ResolveSpec ResolveProofs
  ExtProofs RefProofs ImportModel ImportSpec ImportProofs AssocProofs UniqueSpec ConflictSpec PropCatalog PropInherit PropRefs PropImport PropAssoc PropUnique
  OrderSpec OrderProofs PropOrder OrderImport.
From Verif Require PipeProofs.
Local Open Scope string_scope.

Lemma like_le c c' d d' u u' : cat_le c d -> cat_le c' d' -> like c c' u u' -> like d d' u u'.
Proof.
  intros L L' (A & B & C & ds & ds' & D & D' & P). split; [exact A|]. split; [exact B|]. split; [exact C|].
  exists ds, ds'. unfold attrs_in in *. split; [eapply denotes_all_le; eassumption|]. split; [eapply denotes_all_le; eassumption|exact P].
Qed.
Lemma rest_fields g g' : unref g = unref g' -> same_fields g g'.
Proof.
  intros H. unfold same_fields. repeat split; [apply (by_rest g_id)|apply (by_rest g_type)|apply (by_rest g_brief)|apply (by_rest g_note)|apply (by_rest g_prefix)
    |apply (by_rest g_extends)|apply (by_rest g_stability)|apply (by_rest g_deprecated)|apply (by_rest g_span_kind)|apply (by_rest g_events)
    |apply (by_rest g_metric_name)|apply (by_rest g_instrument)|apply (by_rest g_unit)|apply (by_rest g_name)|apply (by_rest g_display_name)
    |apply (by_rest g_body)|apply (by_rest g_annotations)|apply (by_rest g_assocs)|apply (by_rest g_visibility)|apply (by_rest g_is_v2)
    |apply (by_rest g_span_name)|apply (by_rest g_level)]; auto.
Qed.
Lemma anc_refl l : same_ancestry l l.
Proof. destruct l; cbn; auto. Qed.
Lemma import_like e c c' i i' : ialike c c' i i' -> like c c' (ugroup_of_import e i) (ugroup_of_import e i').
Proof.
  intros ((A & ds & D & D') & _). unfold ugroup_of_import. split; [apply rest_fields, A|]. split; [reflexivity|]. cbn [ug_group].
  assert (L : g_lineage (im_group i) = g_lineage (im_group i')) by (apply (by_rest g_lineage); auto).
  split; [rewrite L; apply anc_refl|]. exists ds, ds. auto.
Qed.
Lemma run_parts glob o e specs bs inc r : resolve_registry glob o e specs bs inc = Done r ->
  exists gs gs' c w, inherits_to e specs gs /\ resolve_references e gs empty_catalog = Done (gs', c) /\
    resolve_imports glob e (if inc then app bs [everything] else bs) gs' c = Done w /\
    resolve_associations e (wi_groups w) (wi_origins w) = Done (rs_origins r) /\
    stabilize (or_leb o) (or_refs o) (wi_groups w) (wi_catalog w) = (rs_groups r, rs_catalog r) /\
    rs_errors r =
      app (wi_errors w)
      (app (check_uniqueness (fun g => Some (g_id g)) XDuplicateGroupId (or_keys o) (rs_groups r))
      (app (check_uniqueness metric_key XDuplicateMetricName (or_keys o) (rs_groups r))
      (app (check_uniqueness name_key XDuplicateGroupName (or_keys o) (rs_groups r))
      (app (check_root_attrs (map at_name (rs_catalog r)) (or_attrs o) (rs_groups r))
           (check_collisions (or_signals o) (rs_groups r)))))).
Proof.
  intros H. unfold resolve_registry in H. cbv zeta in H. unfold inherits_to. rewrite start_read in H.
  destruct (resolve_extends e _) as [gs|es|]; cbn [run_bind] in H; [|discriminate|discriminate].
  destruct (resolve_references e gs empty_catalog) as [[gs' c]|es|] eqn:Er; cbn [run_bind fst snd] in H; [|discriminate|discriminate].
  destruct (resolve_imports glob e _ gs' c) as [w|es|] eqn:Ei; cbn [run_bind] in H; [|discriminate|discriminate].
  destruct (resolve_associations e (wi_groups w) (wi_origins w)) as [m|es|] eqn:Ea; cbn [run_bind] in H; [|discriminate|discriminate].
  destruct (stabilize (or_leb o) (or_refs o) (wi_groups w) (wi_catalog w)) as [out cat] eqn:Es. inversion H; subst r. cbn [rs_groups rs_catalog rs_errors rs_origins].
  exists gs, gs', c, w. repeat (split; [solve [reflexivity|assumption]|]). reflexivity.
Qed.
Lemma imports_refs glob e bs gs c w : cat_ok c -> refs_ok c gs -> resolve_imports glob e bs gs c = Done w -> refs_ok (wi_catalog w) (wi_groups w).
Proof.
  intros Hok Hr H. destruct (C40_added _ _ _ _ _ _ H) as (l & us & Hi & Hw & Hu & _).
  destruct (PipeProofs.import_all_refs _ _ _ _ _ _ _ _ Hok (fun i (X : In i []) => match X with end) Hi) as (A & B & C).
  rewrite Hw. intros u r Hin Hru. apply in_app_or in Hin as [Hin|Hin].
  - eapply ref_ok_le; [exact B|]. eapply Hr; eassumption.
  - destruct (forall2_left _ _ _ _ Hu Hin) as (i & Hil & E & _). rewrite E in Hru. exact (C i Hil r Hru).
Qed.
(* what entity associations read *)
Lemma like_uid c c' u u' : like c c' u u' -> uid u = uid u'.
Proof. intros (F & _). unfold uid. apply F. Qed.
Lemma like_names c c' u u' n : like c c' u u' -> (names_entity u n <-> names_entity u' n).
Proof. intros (F & _). unfold names_entity. assert (E : g_assocs (ug_group u) = g_assocs (ug_group u')) by apply F. rewrite E. reflexivity. Qed.
Lemma like_sym c c' u u' : like c c' u u' -> like c' c u' u.
Proof.
  intros (A & B & C & ds & ds' & D & D' & P). split; [apply fields_sym, A|]. split; [congruence|]. split; [apply anc_sym, C|].
  exists ds', ds. split; [exact D'|]. split; [exact D|apply Permutation_sym, P].
Qed.
Lemma like_entity c c' u u' n : like c c' u u' -> entity_name (ug_group u) n -> entity_name (ug_group u') n.
Proof. intros (F & V & A & _). apply entity_kept. split; [exact F|]. split; [exact V|exact A]. Qed.
(* lists of groups that correspond *)
Definition match_up (c c' : catalog) (gs gs' : list ugroup) : Prop :=
  exists gs2, Permutation gs gs2 /\ Forall2 (like c c') gs2 gs'.
Lemma match_left c c' gs gs' u : match_up c c' gs gs' -> In u gs -> exists u', In u' gs' /\ like c c' u u'.
Proof. intros (g2 & P & F) H. apply (Permutation_in _ P) in H. exact (forall2_left _ _ _ _ F H). Qed.
Lemma match_right c c' gs gs' u' : match_up c c' gs gs' -> In u' gs' -> exists u, In u gs /\ like c c' u u'.
Proof. intros (g2 & P & F) H. destruct (forall2_right _ _ _ _ F H) as (u & Hu & L). exists u. split; [apply (Permutation_in _ (Permutation_sym P)), Hu|exact L]. Qed.
Lemma match_own c c' gs gs' n : match_up c c' gs gs' -> (no_own_entity gs n <-> no_own_entity gs' n).
Proof.
  intros M. split; intros H w Hw X.
  - destruct (match_right _ _ _ _ _ M Hw) as (u & Hu & L). exact (H u Hu (like_entity _ _ _ _ _ (like_sym _ _ _ _ L) X)).
  - destruct (match_left _ _ _ _ _ M Hw) as (u & Hu & L). exact (H u Hu (like_entity _ _ _ _ _ L X)).
Qed.
Lemma match_there e c c' gs gs' n url : match_up c c' gs gs' -> (meant_there e gs n url <-> meant_there e gs' n url).
Proof. intros M. unfold meant_there. rewrite (match_own _ _ _ _ _ M). reflexivity. Qed.
Lemma match_recorded e c c' gs gs' rec m m' : match_up c c' gs gs' -> resolve_associations e gs rec = Done m -> resolve_associations e gs' rec = Done m' ->
  forall id n url, recorded_as m id n url <-> recorded_as m' id n url.
Proof.
  intros M H H' id n url. rewrite (C71_recorded _ _ _ _ H), (C71_recorded _ _ _ _ H').
  assert (B : forall u u', like c c' u u' -> (brought rec u n <-> brought rec u' n)) by (intros u u' L; unfold brought; rewrite (like_uid _ _ _ _ L); reflexivity).
  split; (intros [X|(u & Hu & E & N & Nb & T)]; [left; exact X|right]).
  - destruct (match_left _ _ _ _ _ M Hu) as (u' & Hu' & L). exists u'. split; [exact Hu'|]. split; [rewrite <- (like_uid _ _ _ _ L); exact E|].
    split; [apply (like_names _ _ _ _ _ L), N|]. split; [rewrite <- (B _ _ L); exact Nb|apply (match_there _ _ _ _ _ _ _ M), T].
  - destruct (match_right _ _ _ _ _ M Hu) as (u' & Hu' & L). exists u'. split; [exact Hu'|]. split; [rewrite (like_uid _ _ _ _ L); exact E|].
    split; [apply (like_names _ _ _ _ _ L), N|]. split; [rewrite (B _ _ L); exact Nb|apply (match_there _ _ _ _ _ _ _ M), T].
Qed.

(* The step that adds what is imported, whatever the order of the definitions before it. *)
Theorem C35_imports : forall glob e bs gs gs' c c' w w', cat_ok c -> cat_ok c' ->
  resolve_imports glob e bs gs c = Done w -> resolve_imports glob e bs gs' c' = Done w' ->
  exists us us', wi_groups w = app gs us /\ wi_groups w' = app gs' us' /\
    Forall2 (fun u u' => same_fields (ug_group u) (ug_group u') /\ ug_visibility u' = ug_visibility u /\
                         same_ancestry (g_lineage (ug_group u)) (g_lineage (ug_group u')) /\
                         same_attributes (wi_catalog w) (wi_catalog w') u u') us us' /\
    wi_origins w = wi_origins w' /\ wi_errors w = wi_errors w'.
Proof.
  intros glob e bs gs gs' c c' w w' O O' H H'. unfold resolve_imports in *.
  destruct (import_all glob e bs (ev_deps e) [] c) as [[l d]|es|] eqn:E; cbn [run_bind fst snd] in H; [|discriminate|discriminate].
  destruct (import_all glob e bs (ev_deps e) [] c') as [[l' d']|es|] eqn:E'; cbn [run_bind fst snd] in H'; [|discriminate|discriminate].
  inversion H; subst w. inversion H'; subst w'. cbn [wi_groups wi_origins wi_errors wi_catalog].
  destruct (all_alike _ _ _ _ _ _ _ _ _ _ _ _ O O' (Forall2_nil _) E E') as (G & F).
  exists (map (ugroup_of_import e) l), (map (ugroup_of_import e) l'). split; [reflexivity|]. split; [reflexivity|].
  split; [|split; [exact (recorded_alike _ _ _ _ F)|exact (unmatched_alike _ _ _ _ _ _ F)]].
  clear -F. induction F as [|i i' l l' A _ IH]; cbn [map]; constructor; [|exact IH]. exact (import_like e _ _ _ _ A).
Qed.
Print Assumptions C35_imports.

Lemma extended_apart e specs : files_apart e specs -> ids_apart e (map (fun sp => resolve_prefix (group_from_spec (fst sp) (snd sp))) (read_order specs)).
Proof.
  intros A u Hu X. apply in_map_iff in Hu as ([s p] & <- & I). cbn [fst snd] in X. apply (A s p I).
  assert (E : g_id (ug_group (resolve_prefix (group_from_spec s p))) = gs_id s) by (exact (prefix_id (group_from_spec s p))). rewrite <- E. exact X.
Qed.
Lemma published_ids leb ord gs c out cat : (forall l, Permutation (ord l) l) -> cat_ok c -> refs_ok c gs -> stabilize leb ord gs c = (out, cat) ->
  Permutation (map uid (filter public gs)) (map g_id out).
Proof.
  intros Ho Hc Hr E. destruct (stabilize_correct _ _ _ _ _ _ Ho Hc Hr E) as ((kp & Pk & Fk) & _). rewrite <- (Permutation_map uid Pk).
  assert (Q : map uid kp = map g_id out); [|rewrite Q; reflexivity]. clear -Fk.
  induction Fk as [|u g k ot [[[I _] _] _] _ IH]; [reflexivity|]. cbn [map]. rewrite IH. f_equal. exact I.
Qed.

(* Whatever the order of the files and of the definitions in them, a registry that resolves has the same
   catalog, the same groups, its own and those it imports, but for where the parts of attributes are said
   to come from, records the same entities of other registries, and is warned about for the same reasons,
   but for attributes defined twice.  The ids of the definitions must differ from each other and from
   those the dependencies offer, no two published groups may have the same id, and every attribute must
   have one definition, once inherited.  That the registry resolves for one order iff it does
   for another is C35_dependencies_success. *)
Theorem C35_dependencies_partial : forall glob o o' e specs specs' bs inc gs r r',
  real_orders o -> real_orders o' -> or_leb o' = or_leb o -> strict_order (or_leb o) (rs_catalog r) ->
  NoDup (map (fun sp => gs_id (fst sp)) (read_order specs)) -> files_apart e specs -> NoDup (map g_id (rs_groups r)) ->
  Permutation (read_order specs) (read_order specs') ->
  inherits_to e specs gs -> one_definition e gs ->
  resolve_registry glob o e specs bs inc = Done r -> resolve_registry glob o' e specs' bs inc = Done r' ->
  rs_catalog r = rs_catalog r' /\ Forall2 same_but_lineage (rs_groups r) (rs_groups r') /\
  (forall id n url, recorded_as (rs_origins r) id n url <-> recorded_as (rs_origins r') id n url) /\
  (forall err, (forall ids n, err <> XDuplicateAttr ids n) -> (In err (rs_errors r) <-> In err (rs_errors r'))).
Proof.
  intros glob o o' e specs specs' bs inc gs r r' Ro Ro' El St N Ap Np P Hi One H H'.
  destruct (run_parts _ _ _ _ _ _ _ H) as (gs1 & gs2 & c & w & I1 & R1 & W1 & A1 & S1 & E1).
  destruct (run_parts _ _ _ _ _ _ _ H') as (gs1' & gs2' & c' & w' & I1' & R1' & W1' & A1' & S1' & E1').
  unfold inherits_to in Hi, I1, I1'. rewrite Hi in I1. injection I1 as <-.
  set (start := fun sp : group_spec * provenance => resolve_prefix (group_from_spec (fst sp) (snd sp))) in *.
  assert (Nu : NoDup (map uid (map start (read_order specs)))) by (unfold start; rewrite start_ids; exact N).
  destruct (C35_extends e _ (map start (read_order specs')) gs Nu (extended_apart _ _ Ap) (Permutation_map start P) Hi) as (g' & Hg & Pg).
  rewrite Hg in I1'. injection I1' as ->.
  assert (Un : unreferenced gs) by (eapply extends_unreferenced; [apply start_unreferenced|exact Hi]).
  assert (Un' : unreferenced gs1') by (eapply extends_unreferenced; [apply start_unreferenced|exact Hg]).
  destruct (refs_same e gs gs1' gs2 c gs2' c' Un Pg One R1 R1') as (g2 & P2 & F2).
  destruct (resolve_references_ok _ _ _ _ _ empty_ok (unreferenced_ok _ _ Un) R1) as (Hc & _ & Hok).
  destruct (resolve_references_ok _ _ _ _ _ empty_ok (unreferenced_ok _ _ Un') R1') as (Hc' & _ & Hok').
  destruct (C35_imports _ _ _ _ _ _ _ _ _ Hc Hc' W1 W1') as (us & us' & Eg & Eg' & Fu & Eo & Ee).
  pose proof (imports_refs _ _ _ _ _ _ Hc Hok W1) as Hk. pose proof (imports_refs _ _ _ _ _ _ Hc' Hok' W1') as Hk'.
  assert (Cs : cat_ok (wi_catalog w) /\ cat_le c (wi_catalog w)).
  { destruct (C40_added _ _ _ _ _ _ W1) as (l & x & Il & _). destruct (PipeProofs.import_all_refs _ _ _ _ _ _ _ _ Hc (fun i (X : In i []) => match X with end) Il) as (A & B & _). auto. }
  assert (Cs' : cat_ok (wi_catalog w') /\ cat_le c' (wi_catalog w')).
  { destruct (C40_added _ _ _ _ _ _ W1') as (l & x & Il & _). destruct (PipeProofs.import_all_refs _ _ _ _ _ _ _ _ Hc' (fun i (X : In i []) => match X with end) Il) as (A & B & _). auto. }
  assert (F3 : Forall2 (like (wi_catalog w) (wi_catalog w')) (app g2 us) (wi_groups w')).
  { rewrite Eg'. apply Forall2_app; [|exact Fu]. eapply forall2_weak; [|exact F2]. intros a b L. eapply like_le; [apply Cs|apply Cs'|exact L]. }
  assert (P3 : Permutation (wi_groups w) (app g2 us)) by (rewrite Eg; apply Permutation_app_tail, P2).
  assert (Ng : NoDup (map uid (filter public (wi_groups w)))).
  { eapply Permutation_NoDup; [|exact Np]. apply Permutation_sym. eapply published_ids; [apply Ro|apply Cs|exact Hk|exact S1]. }
  rewrite El in S1'.
  destruct (stab_same (or_leb o) (or_refs o) (or_refs o') (wi_catalog w) (wi_catalog w') (wi_groups w) (app g2 us) (wi_groups w') (rs_groups r) (rs_catalog r) (rs_groups r') (rs_catalog r'))
    as [Ec Fg]; auto; try apply Ro; try apply Ro'; try apply Cs; try apply Cs'.
  split; [exact Ec|]. split; [exact Fg|]. split.
  { rewrite <- Eo in A1'. refine (match_recorded e _ _ _ _ _ _ _ _ A1 A1'). exists (app g2 us). split; [exact P3|exact F3]. }
  intros err Ne. rewrite E1, E1'. rewrite !in_app_iff.
  destruct Ro as (_ & O2 & O3 & O4), Ro' as (_ & O2' & O3' & O4').
  assert (X1 : In err (check_uniqueness (fun g => Some (g_id g)) XDuplicateGroupId (or_keys o) (rs_groups r)) <-> In err (check_uniqueness (fun g => Some (g_id g)) XDuplicateGroupId (or_keys o') (rs_groups r'))).
  { apply uniqueness_same; auto. intros g0 g1 S0. f_equal. symmetry. apply S0. }
  assert (X2 : In err (check_uniqueness metric_key XDuplicateMetricName (or_keys o) (rs_groups r)) <-> In err (check_uniqueness metric_key XDuplicateMetricName (or_keys o') (rs_groups r'))).
  { apply uniqueness_same; auto. intros g0 g1 S0. unfold metric_key. rewrite (refinement_same _ _ S0). assert (M : g_metric_name g1 = g_metric_name g0) by (symmetry; apply S0). rewrite M. reflexivity. }
  assert (X3 : In err (check_uniqueness name_key XDuplicateGroupName (or_keys o) (rs_groups r)) <-> In err (check_uniqueness name_key XDuplicateGroupName (or_keys o') (rs_groups r'))).
  { apply uniqueness_same; auto. intros g0 g1 S0. unfold name_key. rewrite (refinement_same _ _ S0). assert (M : g_name g1 = g_name g0) by (symmetry; apply S0). rewrite M. reflexivity. }
  assert (X4 : In err (check_collisions (or_signals o) (rs_groups r)) <-> In err (check_collisions (or_signals o') (rs_groups r'))).
  { unfold check_collisions. rewrite (signals_same _ _ Fg). apply flat_map_perm. rewrite (O4 _), (O4' _). reflexivity. }
  assert (X5 : forall nm k l, ~ In err (check_root_attrs nm k l)).
  { intros nm k l X. unfold check_root_attrs in X. apply in_map_iff in X as (kv & E & _). exact (Ne _ _ (eq_sym E)). }
  pose proof (X5 (map at_name (rs_catalog r)) (or_attrs o) (rs_groups r)). pose proof (X5 (map at_name (rs_catalog r')) (or_attrs o') (rs_groups r')).
  rewrite Ee. tauto.
Qed.
Print Assumptions C35_dependencies_partial.

(* ---------- a concrete registry ---------- *)
Definition deps_env : env := sample_versions [sample_giving "acme/1.0" "base" "x" "of acme" false].
Definition deps_specs : list group_spec :=
  [sample_defining "own" [sample_id "y" "an attribute"]; sample_extending "span.child" "base"; sample_referring "span.user" "x"].
Definition deps_specs' : list group_spec :=
  [sample_referring "span.user" "x"; sample_extending "span.child" "base"; sample_defining "own" [sample_id "y" "an attribute"]].
Lemma single_own e gs s : (forall u a i, In u gs -> In a (ug_attrs u) -> ua_spec a = SId i -> ua_origin a = None -> SId i = s) ->
  (forall s0, deps_lookup_attr e (spec_id s) <> Got (Some s0)) ->
  (forall u a r, In u gs -> In a (ug_attrs u) -> ua_spec a = SRef r -> rs_prefix r = false) -> one_definition e gs.
Proof.
  intros G Nd G2 x d d' H H'.
  inversion H as [u a i ? Hu Ha Es Or Fd E1 E2|? s1 t1 Hl Ul|u a q ? ? Hu Ha Es Hp]; subst; [| |rewrite (G2 u a q Hu Ha Es) in Hp; discriminate].
  - pose proof (G u a i Hu Ha Es Or) as Ei.
    inversion H' as [u' a' i' ? Hu' Ha' Es' Or' Fd' E1 E2|? ? ? Hl|u' a' q ? ? Hu' Ha' Es' Hp]; subst; [| |rewrite (G2 u' a' q Hu' Ha' Es') in Hp; discriminate].
    + pose proof (G u' a' i' Hu' Ha' Es' Or') as Ei'. assert (Q : i' = i) by congruence. rewrite Q in Fd'.
      clear -Fd Fd'. unfold from_definition in *. destruct d, d'. cbn in *. repeat match goal with X : _ /\ _ |- _ => destruct X end. subst. f_equal; congruence.
    + exfalso. eapply Nd. exact Hl.
  - inversion H' as [u' a' i' ? Hu' Ha' Es' Or' Fd' E1 E2|? s2 t2 Hl2 Ul2|u' a' q ? ? Hu' Ha' Es' Hp]; subst; [| |rewrite (G2 u' a' q Hu' Ha' Es') in Hp; discriminate].
    + exfalso. pose proof (G u' a' i' Hu' Ha' Es' Or') as Ei. eapply Nd. rewrite <- Ei. exact Hl.
    + congruence.
Qed.
Example C35_dependencies_case : exists gs r r',
  real_orders sample_orders /\ strict_order (or_leb sample_orders) (rs_catalog r) /\
  NoDup (map (fun sp => gs_id (fst sp)) (read_order [(deps_specs, sample_file)])) /\ files_apart deps_env [(deps_specs, sample_file)] /\
  NoDup (map g_id (rs_groups r)) /\
  Permutation (read_order [(deps_specs, sample_file)]) (read_order [(deps_specs', sample_file)]) /\
  inherits_to deps_env [(deps_specs, sample_file)] gs /\ one_definition deps_env gs /\
  resolve_registry sample_glob sample_orders deps_env [(deps_specs, sample_file)] [] true = Done r /\
  resolve_registry sample_glob sample_orders deps_env [(deps_specs', sample_file)] [] true = Done r' /\
  sample_texts r = [("base", ["of acme"]); ("own", ["an attribute"]); ("span.child", ["of acme"]); ("span.user", ["of acme"])].
Proof.
  eexists _, _, _. split; [apply sample_orders_real|].
  assert (R : resolve_registry sample_glob sample_orders deps_env [(deps_specs, sample_file)] [] true = Done _) by (vm_compute; reflexivity).
  assert (I : inherits_to deps_env [(deps_specs, sample_file)] _) by (unfold inherits_to; vm_compute; reflexivity).
  split; [|split; [|split; [|split; [|split; [|split; [exact I|split; [|split; [exact R|]]]]]]]].
  - split; [intros a b; apply str_leb_total|]. split; [intros a b c; apply str_leb_trans|]. cbn [rs_catalog].
    intros a b [<-|[<-|[]]] [<-|[<-|[]]] L1 L2; try reflexivity; vm_compute in L1, L2; discriminate.
  - cbn. repeat constructor; cbn; intuition discriminate.
  - intros s p Hs (l & d & t & Id & S & _). cbn in Id. destruct Id as [<-|[]]. cbn in Hs.
    destruct Hs as [Hs|[Hs|[Hs|[]]]]; injection Hs as <- <-; vm_compute in S; discriminate.
  - cbn [rs_groups map g_id]. repeat constructor; cbn; intuition discriminate.
  - apply (Permutation_rev [_; _; _]).
  - eapply (single_own deps_env _ (sample_id "y" "an attribute")).
    + intros u a i Hu Ha E Or. clear R I. cbn in Hu. rewrite <- E. destruct Hu as [<-|[<-|[<-|[]]]]; cbn [ug_attrs] in Ha; destruct Ha as [<-|[]]; try reflexivity; discriminate.
    + intros s0 X. vm_compute in X. discriminate.
    + intros u a q Hu Ha E. clear R I. cbn in Hu. destruct Hu as [<-|[<-|[<-|[]]]]; cbn [ug_attrs] in Ha; destruct Ha as [<-|[]]; cbn [ua_spec] in E; try discriminate E; inversion E; reflexivity.
  - split; [vm_compute; reflexivity|reflexivity].
Qed.
