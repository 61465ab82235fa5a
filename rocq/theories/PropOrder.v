(* C35: does the resolved registry depend on the order in which the definitions are read? *)
From Coq Require Import String Ascii Bool Arith Lia Permutation Sorted List.
Import ListNotations.
From Verif Require Import Base BaseProofs BaseProofs2 Json SemTypes Resolved Semver DefModel DefSpec ResolveModel ResolveSpec ResolveProofs
  ExtProofs RefProofs ImportModel ImportSpec AssocProofs UniqueSpec ConflictSpec PropCatalog PropInherit PropRefs PropAssoc PropUnique OrderSpec OrderProofs.
Local Open Scope string_scope.

Theorem C35_extends : forall e gs gs' r, NoDup (map (fun u => g_id (ug_group u)) gs) -> ids_apart e gs -> Permutation gs gs' ->
  resolve_extends e gs = Done r -> exists r', resolve_extends e gs' = Done r' /\ Permutation r r'.
Proof.
  intros e gs gs' r N A P H. apply (extends_order e gs gs' r); auto. intros u Hu s0 F. apply (A u Hu).
  apply find_in_deps_spec in F as (d & H1 & H2 & H3). exists (sm_attributes s0), d, s0. auto.
Qed.
Print Assumptions C35_extends.
(* ...so that it fails for one order iff it does for every order *)
Theorem C35_extends_failure : forall e gs gs', NoDup (map (fun u => g_id (ug_group u)) gs) -> ids_apart e gs -> Permutation gs gs' ->
  ((exists es, resolve_extends e gs = Failed es) <-> (exists es, resolve_extends e gs' = Failed es)).
Proof.
  assert (G : forall e gs gs', NoDup (map (fun u => g_id (ug_group u)) gs) -> ids_apart e gs -> Permutation gs gs' ->
    (exists es, resolve_extends e gs = Failed es) -> (exists es, resolve_extends e gs' = Failed es)).
  { intros e gs gs' N A P (es & H).
    assert (N' : NoDup (map (fun u => g_id (ug_group u)) gs')) by (eapply Permutation_NoDup; [apply Permutation_map; exact P|exact N]).
    assert (A' : ids_apart e gs') by (intros u Hu; apply A, (Permutation_in _ (Permutation_sym P)), Hu).
    destruct (resolve_extends e gs') as [r'|es'|] eqn:E.
    - destruct (C35_extends e gs' gs r' N' A' (Permutation_sym P) E) as (r & Hr & _). congruence.
    - eauto.
    - exfalso. exact (C34_extends_terminates _ _ E). }
  intros e gs gs' N A P. split; apply G; auto.
  - eapply Permutation_NoDup; [apply Permutation_map; exact P|exact N].
  - intros u Hu. apply A, (Permutation_in _ (Permutation_sym P)), Hu.
  - apply Permutation_sym, P.
Qed.
Print Assumptions C35_extends_failure.

(* References: whatever the order, they stand for the same attributes, if no attribute has several
   definitions. *)
Theorem C35_references : forall e gs gs' r c r' c', unreferenced gs -> Permutation gs gs' -> one_definition e gs ->
  resolve_references e gs empty_catalog = Done (r, c) -> resolve_references e gs' empty_catalog = Done (r', c') ->
  exists r2, Permutation r r2 /\
    Forall2 (fun u u' => same_fields (ug_group u) (ug_group u') /\ ug_visibility u' = ug_visibility u /\
                         same_ancestry (g_lineage (ug_group u)) (g_lineage (ug_group u')) /\ same_attributes c c' u u') r2 r'.
Proof. exact refs_same. Qed.
Print Assumptions C35_references.

(* ---------- the whole of resolution ---------- *)
Lemma start_read specs : map resolve_prefix (unresolved_groups specs) =
  map (fun sp => resolve_prefix (group_from_spec (fst sp) (snd sp))) (read_order specs).
Proof.
  unfold unresolved_groups, read_order. induction specs as [|[l p] specs IH]; [reflexivity|]. cbn [flat_map fst snd]. rewrite !map_app, IH. f_equal.
  rewrite !map_map. apply map_ext. reflexivity.
Qed.
Lemma prefix_id u : uid (resolve_prefix u) = uid u.
Proof. unfold resolve_prefix. destruct (String.eqb (g_prefix (ug_group u)) ""); reflexivity. Qed.
Lemma prefix_refs u : g_attributes (ug_group (resolve_prefix u)) = g_attributes (ug_group u).
Proof. unfold resolve_prefix. destruct (String.eqb (g_prefix (ug_group u)) ""); reflexivity. Qed.
Lemma start_ids sps : map uid (map (fun sp => resolve_prefix (group_from_spec (fst sp) (snd sp))) sps) = map (fun sp => gs_id (fst sp)) sps.
Proof. rewrite map_map. apply map_ext. intros [s p]. rewrite prefix_id. reflexivity. Qed.
Lemma start_unreferenced sps : unreferenced (map (fun sp => resolve_prefix (group_from_spec (fst sp) (snd sp))) sps).
Proof. intros u Hu. apply in_map_iff in Hu as (sp & <- & _). rewrite prefix_refs. reflexivity. Qed.
Lemma start_plain specs : nothing_hidden specs ->
  forall u, In u (map (fun sp => resolve_prefix (group_from_spec (fst sp) (snd sp))) (read_order specs)) -> plain_group u.
Proof.
  intros H u Hu. apply in_map_iff in Hu as ([s p] & <- & I). cbn [fst snd].
  assert (G : plain_group (group_from_spec s p)).
  { intros a Ha. cbn [group_from_spec ug_attrs] in Ha. apply in_map_iff in Ha as (a0 & <- & Ia). split; [reflexivity|]. cbn [ua_spec].
    destruct (annotations_of a0) as [ann|] eqn:E; [|reflexivity]. exact (H s p a0 ann I Ia E). }
  unfold resolve_prefix. destruct (String.eqb _ ""); [exact G|]. intros a Ha. cbn [with_attrs ug_attrs] in Ha. apply in_map_iff in Ha as (b & <- & Ib).
  destruct (G b Ib) as [G1 G2]. unfold prefix_attr. destruct (ua_spec b) as [q|i] eqn:E; split; cbn; rewrite ?E; try exact G1; cbn in G2; exact G2.
Qed.
Lemma no_apart e gs : ev_deps e = [] -> ids_apart e gs.
Proof. intros D u _ (l & d & s & H & _). rewrite D in H. destruct H. Qed.
Lemma extends_unreferenced e gs r : unreferenced gs -> resolve_extends e gs = Done r -> unreferenced r.
Proof. intros Hu He. eapply unreferenced_map; [|exact Hu]. unfold resolve_extends in He. eapply ext_loop_refs, He. Qed.
Lemma no_imports glob e bs gs c : ev_deps e = [] -> resolve_imports glob e bs gs c =
  Done {| wi_groups := app gs []; wi_origins := []; wi_errors := unmatched_imports glob bs []; wi_catalog := c |}.
Proof. intros D. unfold resolve_imports. rewrite D. reflexivity. Qed.
(* one run, step by step *)
Lemma run_alone glob o e specs bs inc r : ev_deps e = [] -> resolve_registry glob o e specs bs inc = Done r ->
  exists gs gs' c, inherits_to e specs gs /\ resolve_references e gs empty_catalog = Done (gs', c) /\
    stabilize (or_leb o) (or_refs o) gs' c = (rs_groups r, rs_catalog r) /\
    (exists m, resolve_associations e gs' [] = Done m) /\
    rs_errors r =
      app (unmatched_imports glob (if inc then app bs [everything] else bs) [])
      (app (check_uniqueness (fun g => Some (g_id g)) XDuplicateGroupId (or_keys o) (rs_groups r))
      (app (check_uniqueness metric_key XDuplicateMetricName (or_keys o) (rs_groups r))
      (app (check_uniqueness name_key XDuplicateGroupName (or_keys o) (rs_groups r))
      (app (check_root_attrs (map at_name (rs_catalog r)) (or_attrs o) (rs_groups r))
           (check_collisions (or_signals o) (rs_groups r)))))).
Proof.
  intros D H. unfold resolve_registry in H. cbv zeta in H. unfold inherits_to. rewrite start_read in H.
  destruct (resolve_extends e _) as [gs|es|]; cbn [run_bind] in H; [|discriminate|discriminate].
  destruct (resolve_references e gs empty_catalog) as [[gs' c]|es|] eqn:Er; cbn [run_bind fst snd] in H; [|discriminate|discriminate].
  rewrite (no_imports _ _ _ _ _ D) in H. cbn [run_bind wi_groups wi_catalog wi_errors wi_origins] in H. rewrite app_nil_r in H.
  destruct (resolve_associations e gs' []) as [m|es|] eqn:Ea; cbn [run_bind] in H; [|discriminate|discriminate].
  destruct (stabilize (or_leb o) (or_refs o) gs' c) as [out cat] eqn:Es. inversion H; subst r. cbn [rs_groups rs_catalog rs_errors].
  exists gs, gs', c. split; [reflexivity|]. split; [exact Er|]. split; [exact Es|]. split; [exists m; exact Ea|reflexivity].
Qed.

(* what the checks see *)
Lemma refinement_same g g' : same_but_lineage g g' -> is_v2_refinement g' = is_v2_refinement g.
Proof.
  intros (F & _ & A). unfold is_v2_refinement. assert (V : g_is_v2 g' = g_is_v2 g) by (symmetry; apply F). rewrite V. 
  destruct (g_lineage g) as [l|], (g_lineage g') as [l'|]; try contradiction; [|reflexivity]. destruct A as (_ & A2 & _). rewrite A2. reflexivity.
Qed.
Lemma v2_id_same g g' : same_but_lineage g g' -> v2_id g' = v2_id g.
Proof.
  intros (F & _ & A). unfold v2_id, refines_own_type.
  assert (T : g_type g' = g_type g) by (symmetry; apply F). assert (I : g_id g' = g_id g) by (symmetry; apply F).
  assert (M : g_metric_name g' = g_metric_name g) by (symmetry; apply F). assert (N : g_name g' = g_name g) by (symmetry; apply F).
  rewrite T, I, M, N. destruct (g_lineage g) as [l|], (g_lineage g') as [l'|]; try contradiction; [|reflexivity]. destruct A as (_ & _ & A3 & _). rewrite A3. reflexivity.
Qed.
Lemma counts_same (key : group -> option string) : (forall g g', same_but_lineage g g' -> key g' = key g) ->
  forall out out', Forall2 same_but_lineage out out' -> count_keys key out' = count_keys key out.
Proof.
  intros K out out' F. unfold count_keys. generalize (@nil (string * nat)) as m. induction F as [|g g' l l' H _ IH]; intros m; [reflexivity|]. cbn [fold_left].
  rewrite (K _ _ H). assert (L : is_some (g_lineage g') = is_some (g_lineage g)) by (destruct H as (_ & _ & A); destruct (g_lineage g), (g_lineage g'); try contradiction; reflexivity).
  rewrite L. apply IH.
Qed.
Lemma signals_same out out' : Forall2 same_but_lineage out out' -> by_signal out' = by_signal out.
Proof.
  intros F. unfold by_signal. generalize (@nil ((string * string) * list string)) as m. induction F as [|g g' l l' H _ IH]; intros m; [reflexivity|]. cbn [fold_left].
  rewrite (v2_id_same _ _ H). assert (T : g_type g' = g_type g) by (symmetry; apply H). assert (I : g_id g' = g_id g) by (symmetry; apply H). rewrite T, I. apply IH.
Qed.
Lemma flat_map_perm {A B} (f : A -> list B) l l' x : Permutation l l' -> (In x (flat_map f l) <-> In x (flat_map f l')).
Proof. intros P. rewrite !in_flat_map. split; intros (y & Hy & H); exists y; split; auto; [apply (Permutation_in _ P)|apply (Permutation_in _ (Permutation_sym P))]; exact Hy. Qed.
Lemma uniqueness_same key mk k k' out out' err : (forall l, Permutation (k l) l) -> (forall l, Permutation (k' l) l) ->
  (forall g g', same_but_lineage g g' -> key g' = key g) -> Forall2 same_but_lineage out out' ->
  (In err (check_uniqueness key mk k out) <-> In err (check_uniqueness key mk k' out')).
Proof.
  intros P P' K F. unfold check_uniqueness. rewrite (counts_same key K _ _ F). rewrite !in_map_iff.
  split; intros (kv & E & I); exists kv; split; auto; apply filter_In in I; apply filter_In; split; try apply I.
  - apply (Permutation_in _ (Permutation_sym (P' _))), (Permutation_in _ (P _)), I.
  - apply (Permutation_in _ (Permutation_sym (P _))), (Permutation_in _ (P' _)), I.
Qed.

(* Whatever the order of the files and of the definitions in them, a registry without dependencies that
   resolves has the same catalog and the same groups, but for where the parts of attributes are said to
   come from, and is warned about for the same reasons, but for attributes defined twice.  The ids of
   the definitions must differ, and every attribute must have one definition, once inherited: see the
   refutations below.  What is missing: registries with dependencies. *)
Theorem C35_registry_partial : forall glob o o' e specs specs' bs inc gs r r',
  real_orders o -> real_orders o' -> or_leb o' = or_leb o -> strict_order (or_leb o) (rs_catalog r) -> ev_deps e = [] ->
  NoDup (map (fun sp => gs_id (fst sp)) (read_order specs)) -> Permutation (read_order specs) (read_order specs') ->
  inherits_to e specs gs -> one_definition e gs ->
  resolve_registry glob o e specs bs inc = Done r -> resolve_registry glob o' e specs' bs inc = Done r' ->
  rs_catalog r = rs_catalog r' /\ Forall2 same_but_lineage (rs_groups r) (rs_groups r') /\
  (forall err, (forall ids n, err <> XDuplicateAttr ids n) -> (In err (rs_errors r) <-> In err (rs_errors r'))).
Proof.
  intros glob o o' e specs specs' bs inc gs r r' Ro Ro' El St D N P Hi One H H'.
  destruct (run_alone _ _ _ _ _ _ _ D H) as (gs1 & gs2 & c & I1 & R1 & S1 & _ & E1).
  destruct (run_alone _ _ _ _ _ _ _ D H') as (gs1' & gs2' & c' & I1' & R1' & S1' & _ & E1').
  unfold inherits_to in Hi, I1, I1'. rewrite Hi in I1. injection I1 as <-.
  set (start := fun sp : group_spec * provenance => resolve_prefix (group_from_spec (fst sp) (snd sp))) in *.
  assert (Nu : NoDup (map uid (map start (read_order specs)))) by (unfold start; rewrite start_ids; exact N).
  destruct (C35_extends e _ (map start (read_order specs')) gs Nu (no_apart _ _ D) (Permutation_map start P) Hi) as (g' & Hg & Pg).
  rewrite Hg in I1'. injection I1' as ->.
  assert (Un : unreferenced gs) by (eapply extends_unreferenced; [apply start_unreferenced|exact Hi]).
  assert (Un' : unreferenced gs1') by (eapply extends_unreferenced; [apply start_unreferenced|exact Hg]).
  destruct (refs_same e gs gs1' gs2 c gs2' c' Un Pg One R1 R1') as (g2 & P2 & F2).
  destruct (resolve_references_ok _ _ _ _ _ empty_ok (unreferenced_ok _ _ Un) R1) as (Hc & _ & Hok).
  destruct (resolve_references_ok _ _ _ _ _ empty_ok (unreferenced_ok _ _ Un') R1') as (Hc' & _ & Hok').
  assert (Ng : NoDup (map uid gs2)).
  { assert (Q : map uid gs2 = map uid (map start (read_order specs))); [|rewrite Q; exact Nu].
    assert (Q : forall l l', Forall2 stays l l' -> map uid l' = map uid l) by (intros l l' X; induction X as [|x y l l' Y _ IH]; [reflexivity|]; cbn [map]; rewrite IH, (st_id _ _ Y); reflexivity).
    rewrite (Q _ _ (references_stay _ _ _ _ _ R1)). apply Q, (extends_stays _ _ _ Hi). }
  rewrite El in S1'.
  destruct (stab_same (or_leb o) (or_refs o) (or_refs o') c c' gs2 g2 gs2' (rs_groups r) (rs_catalog r) (rs_groups r') (rs_catalog r')) as [Ec Fg]; auto; try apply Ro; try apply Ro'; [apply nodup_filter_map, Ng|].
  split; [exact Ec|]. split; [exact Fg|]. intros err Ne. rewrite E1, E1'. rewrite !in_app_iff.
  destruct Ro as (_ & O2 & O3 & O4), Ro' as (_ & O2' & O3' & O4').
  assert (X1 : In err (check_uniqueness (fun g => Some (g_id g)) XDuplicateGroupId (or_keys o) (rs_groups r)) <-> In err (check_uniqueness (fun g => Some (g_id g)) XDuplicateGroupId (or_keys o') (rs_groups r'))).
  { apply uniqueness_same; auto. intros g0 g1 S0. f_equal. symmetry. apply S0. }
  assert (X2 : In err (check_uniqueness metric_key XDuplicateMetricName (or_keys o) (rs_groups r)) <-> In err (check_uniqueness metric_key XDuplicateMetricName (or_keys o') (rs_groups r'))).
  { apply uniqueness_same; auto. intros g0 g1 S0. unfold metric_key. rewrite (refinement_same _ _ S0). assert (M : g_metric_name g1 = g_metric_name g0) by (symmetry; apply S0). rewrite M. reflexivity. }
  assert (X3 : In err (check_uniqueness name_key XDuplicateGroupName (or_keys o) (rs_groups r)) <-> In err (check_uniqueness name_key XDuplicateGroupName (or_keys o') (rs_groups r'))).
  { apply uniqueness_same; auto. intros g0 g1 S0. unfold name_key. rewrite (refinement_same _ _ S0). assert (M : g_name g1 = g_name g0) by (symmetry; apply S0). rewrite M. reflexivity. }
  assert (X4 : In err (check_collisions (or_signals o) (rs_groups r)) <-> In err (check_collisions (or_signals o') (rs_groups r'))).
  { unfold check_collisions. rewrite (signals_same _ _ Fg). apply flat_map_perm. rewrite (O4 _), (O4' _). reflexivity. }
  assert (X5 : forall nm k l, ~ In err (check_root_attrs nm k l)).
  { intros nm k l X. unfold check_root_attrs in X. apply in_map_iff in X as (kv & E & _). exact (Ne _ _ (eq_sym E)). }
  pose proof (X5 (map at_name (rs_catalog r)) (or_attrs o) (rs_groups r)). pose proof (X5 (map at_name (rs_catalog r')) (or_attrs o') (rs_groups r')).
  tauto.
Qed.
Print Assumptions C35_registry_partial.

(* ...and it resolves for one order iff it does for another, provided that nothing is kept from other
   registries. *)
Lemma entity_kept u v n : kept u v -> entity_name (ug_group u) n -> entity_name (ug_group v) n.
Proof.
  intros (F & _ & A) (T & E). assert (T' : g_type (ug_group v) = g_type (ug_group u)) by (symmetry; apply F).
  assert (I : g_id (ug_group v) = g_id (ug_group u)) by (symmetry; apply F). assert (M : g_name (ug_group v) = g_name (ug_group u)) by (symmetry; apply F).
  split; [congruence|]. rewrite I, M. destruct (g_lineage (ug_group u)) as [l|], (g_lineage (ug_group v)) as [l'|]; try contradiction; [|exact E].
  destruct A as (_ & _ & A3 & _). destruct E as [(l0 & E0 & X)|[X Y]].
  - injection E0 as <-. left. exists l'. rewrite <- A3. auto.
  - right. split; [|exact Y]. intros l0 E0. injection E0 as <-. rewrite <- A3. apply X. reflexivity.
Qed.
Lemma kept_sym u v : kept u v -> kept v u.
Proof. intros (A & B & C). split; [apply fields_sym, A|]. split; [congruence|apply anc_sym, C]. Qed.
Lemma kept_back_same u v : kept u v -> kept_back u -> kept_back v.
Proof.
  intros (F & V & _) [(a & E & H)|(T & X)].
  - left. exists a. split; [|exact H]. rewrite <- E. symmetry. apply F.
  - right. split; [|rewrite V; exact X]. rewrite <- T. symmetry. apply F.
Qed.
Theorem C35_success : forall glob o e specs specs' bs inc gs r, ev_deps e = [] ->
  NoDup (map (fun sp => gs_id (fst sp)) (read_order specs)) -> Permutation (read_order specs) (read_order specs') ->
  nothing_hidden specs -> inherits_to e specs gs -> entities_open gs ->
  resolve_registry glob o e specs bs inc = Done r -> exists r', resolve_registry glob o e specs' bs inc = Done r'.
Proof.
  intros glob o e specs specs' bs inc gs r D N P Hh Hi Ho H.
  destruct (run_alone _ _ _ _ _ _ _ D H) as (gs1 & gs2 & c & I1 & R1 & S1 & (m & As) & E1).
  unfold inherits_to in Hi, I1. rewrite Hi in I1. injection I1 as <-.
  set (start := fun sp : group_spec * provenance => resolve_prefix (group_from_spec (fst sp) (snd sp))) in *.
  assert (Nu : NoDup (map uid (map start (read_order specs)))) by (unfold start; rewrite start_ids; exact N).
  destruct (C35_extends e _ (map start (read_order specs')) gs Nu (no_apart _ _ D) (Permutation_map start P) Hi) as (gs1' & Hg & Pg).
  assert (Un : unreferenced gs) by (eapply extends_unreferenced; [apply start_unreferenced|exact Hi]).
  assert (Pl : forall u, In u gs -> plain_group u).
  { unfold resolve_extends in Hi. eapply (plain_loop e D); [|exact Hi]. apply start_plain, Hh. }
  destruct (refs_success e gs gs1' gs2 c D Pl Un Pg R1) as (gs2' & c' & R1').
  unfold resolve_registry. cbv zeta. rewrite start_read. fold start. rewrite Hg. cbn [run_bind]. rewrite R1'. cbn [run_bind fst snd].
  rewrite (no_imports _ _ _ _ _ D). cbn [run_bind wi_groups wi_catalog wi_errors wi_origins]. rewrite app_nil_r.
  destruct (C71_total e gs2' []) as [(m' & Em)|(es & Em)]; rewrite Em; cbn [run_bind].
  - destruct (stabilize (or_leb o) (or_refs o) gs2' c') as [out cat]. eexists. reflexivity.
  - exfalso. destruct (C71_errors _ _ _ _ Em) as (Ne & A & _). destruct es as [|er es]; [apply Ne; reflexivity|].
    destruct (A er (or_introl eq_refl)) as (u' & n & Iu' & Nn & _ & W).
    (* the same group of the other run *)
    pose proof (refs_kept _ _ _ _ _ R1) as K. pose proof (refs_kept _ _ _ _ _ R1') as K'.
    assert (Back : forall v', In v' gs2' -> exists u, In u gs /\ kept u v').
    { intros v' Iv. destruct (forall2_right _ _ _ _ K' Iv) as (u & Iu & Ku). exists u. split; [apply (Permutation_in _ (Permutation_sym Pg)), Iu|exact Ku]. }
    assert (Fwd : forall v, In v gs2 -> exists v', In v' gs2' /\ kept v v').
    { intros v Iv. destruct (forall2_right _ _ _ _ K Iv) as (u & Iu & Ku). apply (Permutation_in _ Pg) in Iu. destruct (forall2_left _ _ _ _ K' Iu) as (v' & Iv' & Kv').
      exists v'. split; [exact Iv'|]. eapply kept_trans; [apply kept_sym, Ku|exact Kv']. }
    assert (No : no_own_entity gs2' n).
    { inversion W as [w Ow Kb Nk| | |]; subst; try assumption. exfalso. apply own_in in Ow as [Iw [Tw _]]. destruct (Back w Iw) as (u & Iu & Ku).
      apply (Ho u Iu).
      - rewrite <- Tw. apply Ku.
      - apply kept_back_same with w; [apply kept_sym, Ku|exact Kb]. }
    destruct (Back u' Iu') as (u & Iu & Ku). destruct (forall2_left _ _ _ _ K Iu) as (v & Iv & Kv).
    assert (Nv : names_entity v n).
    { destruct Nn as (a & Ia & Ma). exists a. split; [|exact Ma]. assert (Q : g_assocs (ug_group v) = g_assocs (ug_group u')); [|rewrite Q; exact Ia].
      transitivity (g_assocs (ug_group u)); [symmetry; apply Kv|apply Ku]. }
    destruct (C71_resolved _ _ _ _ As v n Iv Nv) as [(m0 & url & X & _)|[(w & Ow & _)|(url & (_ & (d & Hd & _) & _) & _)]].
    + discriminate X.
    + apply own_in in Ow as [Iw Ew]. destruct (Fwd w Iw) as (w' & Iw' & Kw). exact (No w' Iw' (entity_kept _ _ _ Kw Ew)).
    + rewrite D in Hd. destruct Hd.
Qed.
Print Assumptions C35_success.

(* ---------- a concrete registry ---------- *)
Definition order_specs : list group_spec :=
  [sample_defining "base" [sample_id "x" "an attribute"]; sample_extending "span.child" "base"; sample_referring "span.user" "x"].
Definition order_specs' : list group_spec :=
  [sample_referring "span.user" "x"; sample_extending "span.child" "base"; sample_defining "base" [sample_id "x" "an attribute"]].
Lemma single_definition e gs s : ev_deps e = [] -> (forall u a i, In u gs -> In a (ug_attrs u) -> ua_spec a = SId i -> SId i = s) ->
  (forall u a r, In u gs -> In a (ug_attrs u) -> ua_spec a = SRef r -> rs_prefix r = false) -> one_definition e gs.
Proof.
  intros D G G2 x d d' H H'.
  assert (Nd : forall y s0, deps_lookup_attr e y <> Got (Some s0)) by (intros y s0; unfold deps_lookup_attr; rewrite D; discriminate).
  inversion H as [u a i ? Hu Ha Es _ Fd E1 E2|? ? ? Hl|u a q ? ? Hu Ha Es Hp]; subst; [|destruct (Nd _ _ Hl)|rewrite (G2 u a q Hu Ha Es) in Hp; discriminate].
  inversion H' as [u' a' i' ? Hu' Ha' Es' _ Fd' E1 E2|? ? ? Hl|u' a' q ? ? Hu' Ha' Es' Hp]; subst; [|destruct (Nd _ _ Hl)|rewrite (G2 u' a' q Hu' Ha' Es') in Hp; discriminate].
  pose proof (G u a i Hu Ha Es) as Ei. pose proof (G u' a' i' Hu' Ha' Es') as Ei'. assert (Q : i' = i) by congruence. rewrite Q in Fd'.
  clear -Fd Fd'. unfold from_definition in *. destruct d, d'. cbn in *. repeat match goal with X : _ /\ _ |- _ => destruct X end. subst. f_equal; congruence.
Qed.
Example C35_case : exists gs r r',
  real_orders sample_orders /\ strict_order (or_leb sample_orders) (rs_catalog r) /\ ev_deps (sample_env []) = [] /\
  NoDup (map (fun sp => gs_id (fst sp)) (read_order [(order_specs, sample_file)])) /\
  Permutation (read_order [(order_specs, sample_file)]) (read_order [(order_specs', sample_file)]) /\
  nothing_hidden [(order_specs, sample_file)] /\
  inherits_to (sample_env []) [(order_specs, sample_file)] gs /\ one_definition (sample_env []) gs /\ entities_open gs /\
  resolve_registry sample_glob sample_orders (sample_env []) [(order_specs, sample_file)] [] false = Done r /\
  resolve_registry sample_glob sample_orders (sample_env []) [(order_specs', sample_file)] [] false = Done r' /\
  sample_texts r = [("base", ["an attribute"]); ("span.child", ["an attribute"]); ("span.user", ["an attribute"])].
Proof.
  eexists _, _, _. split; [apply sample_orders_real|].
  assert (R : resolve_registry sample_glob sample_orders (sample_env []) [(order_specs, sample_file)] [] false = Done _) by (vm_compute; reflexivity).
  assert (I : inherits_to (sample_env []) [(order_specs, sample_file)] _) by (unfold inherits_to; vm_compute; reflexivity).
  split; [|split; [reflexivity|]]; [|split; [|split; [|split; [|split; [exact I|]]]]]; [| | | |split; [|split; [|split; [exact R|]]]].
  - split; [intros a b; apply str_leb_total|]. split; [intros a b c; apply str_leb_trans|]. cbn [rs_catalog].
    intros a b [<-|[]] [<-|[]] _ _. reflexivity.
  - cbn. repeat constructor; cbn; intuition discriminate.
  - apply (Permutation_rev [_; _; _]).
  - intros s p a ann Hs Ha E. cbn in Hs. destruct Hs as [Hs|[Hs|[Hs|[]]]]; injection Hs as <- <-; cbn in Ha;
      repeat (destruct Ha as [<-|Ha]; [discriminate E|]); destruct Ha.
  - eapply (single_definition (sample_env []) _ (sample_id "x" "an attribute")); [reflexivity| |].
    + intros u a i Hu Ha E. clear R I. cbn in Hu. rewrite <- E. destruct Hu as [<-|[<-|[<-|[]]]]; cbn [ug_attrs] in Ha; destruct Ha as [<-|[]]; try reflexivity. discriminate E.
    + intros u a q Hu Ha E. clear R I. cbn in Hu. destruct Hu as [<-|[<-|[<-|[]]]]; cbn [ug_attrs] in Ha; destruct Ha as [<-|[]]; cbn [ua_spec] in E; try discriminate E; inversion E; reflexivity.
  - intros u Hu T. cbn in Hu. destruct Hu as [<-|[<-|[<-|[]]]]; discriminate T.
  - split; [vm_compute; reflexivity|reflexivity].
Qed.

(* ---------- C35 as stated is false ---------- *)
(* A definition that extends another and overrides an attribute it inherits gives references
   elsewhere its own version of the attribute, if it is read first. *)
Theorem C35_override_refuted : exists glob o e l1 l2 r1 r2, real_orders o /\ ev_deps e = [] /\ Permutation l1 l2 /\
  resolve_registry glob o e [(l1, sample_file)] [] false = Done r1 /\ rs_errors r1 = [] /\
  resolve_registry glob o e [(l2, sample_file)] [] false = Done r2 /\ rs_errors r2 = [] /\
  In ("span.user", ["an attribute"]) (sample_texts r1) /\ In ("span.user", ["as used by the child"]) (sample_texts r2).
Proof.
  set (b := sample_defining "base" [sample_id "x" "an attribute"]).
  set (k := sample_spec "span.child" GSpan None (Some "base") [] [sample_ref "x" (Some "as used by the child")]).
  exists sample_glob, sample_orders, (sample_env []), [b; k; sample_referring "span.user" "x"], [k; b; sample_referring "span.user" "x"].
  eexists _, _. split; [apply sample_orders_real|]. split; [reflexivity|]. split; [apply perm_swap|].
  split; [vm_compute; reflexivity|]. split; [reflexivity|]. split; [vm_compute; reflexivity|]. split; [reflexivity|].
  split; vm_compute; tauto.
Qed.
Print Assumptions C35_override_refuted.
(* Where a reference is said to come from depends on the order even if what it means does not. *)
Theorem C35_lineage_refuted : exists glob o e l1 l2 r1 r2, real_orders o /\ ev_deps e = [] /\ Permutation l1 l2 /\
  resolve_registry glob o e [(l1, sample_file)] [] false = Done r1 /\ rs_errors r1 = [] /\
  resolve_registry glob o e [(l2, sample_file)] [] false = Done r2 /\ rs_errors r2 = [] /\
  In ("span.user", [("x", "base")]) (sample_sources r1) /\ In ("span.user", [("x", "span.child")]) (sample_sources r2).
Proof.
  exists sample_glob, sample_orders, (sample_env []), order_specs, order_specs'.
  eexists _, _. split; [apply sample_orders_real|]. split; [reflexivity|]. split; [apply (Permutation_rev [_; _; _])|].
  split; [vm_compute; reflexivity|]. split; [reflexivity|]. split; [vm_compute; reflexivity|]. split; [reflexivity|].
  split; vm_compute; tauto.
Qed.
Print Assumptions C35_lineage_refuted.
(* A definition that extends one of the registry that has yet to inherit, itself, gets the
   definition of that id of a dependency instead. *)
Theorem C35_shadow_refuted : exists glob o e l1 l2 r1 r2, real_orders o /\ Permutation l1 l2 /\
  resolve_registry glob o e [(l1, sample_file)] [] false = Done r1 /\ rs_errors r1 = [] /\
  resolve_registry glob o e [(l2, sample_file)] [] false = Done r2 /\ rs_errors r2 = [] /\
  In ("span.child", ["of the registry"]) (sample_texts r1) /\ In ("span.child", ["of acme"]) (sample_texts r2).
Proof.
  set (b := sample_spec "base" GAttributeGroup None (Some "root") [] []).
  set (t := sample_defining "root" [sample_id "y" "of the registry"]).
  exists sample_glob, sample_orders, (sample_versions [sample_giving "acme/1.0" "base" "x" "of acme" false]),
    [t; b; sample_extending "span.child" "base"], [sample_extending "span.child" "base"; b; t].
  eexists _, _. split; [apply sample_orders_real|]. split; [apply (Permutation_rev [_; _; _])|].
  split; [vm_compute; reflexivity|]. split; [reflexivity|]. split; [vm_compute; reflexivity|]. split; [reflexivity|].
  split; vm_compute; tauto.
Qed.
Print Assumptions C35_shadow_refuted.
