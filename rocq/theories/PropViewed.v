(* The view of a registry that was resolved and converted to version 2 (C84). *)
From Coq Require Import String Ascii Bool Arith ZArith NArith Lia Permutation Sorted List.
Import ListNotations.
From Verif Require Import Base BaseProofs BaseProofs2 Json SemTypes Resolved ConvertModel ConvertSpec ConvertProofs PropConvert ViewModel ViewSpec PropView.
Local Open Scope string_scope.

Lemma uses_in s out sampled l m u : uses s out sampled l m -> In u m -> u_base u < length (s2_catalog out).
Proof.
  intros H Hu. destruct (one_each_in _ _ _ _ _ H Hu) as (i & _ & _ & (a & _ & (b & Hb & _) & _)). apply nth_error_Some. congruence.
Qed.
Lemma role_uses_in P s out l m u : one_each P (used s out false) l m -> In u m -> u_base u < length (s2_catalog out).
Proof.
  intros H Hu. destruct (one_each_in _ _ _ _ _ H Hu) as (i & _ & _ & (a & _ & (b & Hb & _) & _)). apply nth_error_Some. congruence.
Qed.
Lemma number_in s P i : dep_number s P (Some i) -> i < length (so_deps s).
Proof. intros (u & H & _). apply nth_error_Some. congruence. Qed.
Lemma declared_in s g p i : declared s g p -> p2_source p = Some i -> i < length (so_deps s).
Proof.
  unfold declared. destruct (g_lineage g); intros H E.
  - destruct H as (_ & [(_ & H)|(_ & H)]); rewrite E in H; [discriminate | eapply number_in, H].
  - destruct H as (H & _). congruence.
Qed.
Lemma refers_in s out gid name r i : refers s out gid name r -> p2_source (er_provenance r) = Some i -> i < length (so_deps s).
Proof.
  intros [(_ & (_ & H & _) & _)|(u & src & _ & D & [(_ & (_ & H & _))|(_ & _ & H & _)])] E; [congruence|congruence|].
  rewrite <- H, E in D. eapply number_in, D.
Qed.
Lemma shape_leaf {A B} (R : A -> B -> Prop) a b y : same_shape R a b -> leaf y b -> exists x, leaf x a /\ R x y.
Proof.
  revert b. induction a as [x|l IH|l IH] using assoc_ind2; intros b H L; inversion H; subst; inversion L; subst.
  - exists x. split; [constructor | assumption].
  - rename m into m'. assert (E : exists a', In a' l /\ same_shape R a' c).
    { match goal with F : Forall2 _ l m', I : In c m' |- _ => clear -F I; induction F as [|p q l0 m0 Hpq F IHF]; [destruct I|]; destruct I as [<-|I];
        [exists p; split; [now left | exact Hpq] | destruct (IHF I) as (z & Hz & Hr); exists z; split; [now right | exact Hr]] end. }
    destruct E as (a' & Ha & Hs). rewrite Forall_forall in IH. destruct (IH a' Ha c Hs ltac:(assumption)) as (x & Hx & Hr).
    exists x. split; [econstructor; eauto | exact Hr].
  - rename m into m'. assert (E : exists a', In a' l /\ same_shape R a' c).
    { match goal with F : Forall2 _ l m', I : In c m' |- _ => clear -F I; induction F as [|p q l0 m0 Hpq F IHF]; [destruct I|]; destruct I as [<-|I];
        [exists p; split; [now left | exact Hpq] | destruct (IHF I) as (z & Hz & Hr); exists z; split; [now right | exact Hr]] end. }
    destruct E as (a' & Ha & Hs). rewrite Forall_forall in IH. destruct (IH a' Ha c Hs ltac:(assumption)) as (x & Hx & Hr).
    exists x. split; [econstructor; eauto | exact Hr].
Qed.
Lemma forall2_in_r {A B} (R : A -> B -> Prop) l m b : Forall2 R l m -> In b m -> exists a, In a l /\ R a b.
Proof.
  intros F. induction F as [|x y l m H F IH]; intros Hb; [destruct Hb|]. destruct Hb as [<-|Hb].
  - exists x. split; [now left | exact H].
  - destruct (IH Hb) as (a & Ha & Hr). exists a. split; [now right | exact Hr].
Qed.
Lemma forall2_in_l {A B} (R : A -> B -> Prop) l m a : Forall2 R l m -> In a l -> exists b, In b m /\ R a b.
Proof.
  intros F. induction F as [|x y l m H F IH]; intros Ha; [destruct Ha|]. destruct Ha as [<-|Ha].
  - exists y. split; [now left | exact H].
  - destruct (IH Ha) as (b & Hb & Hr). exists b. split; [now right | exact Hr].
Qed.
Lemma shapes_leaf {A B} (R : A -> B -> Prop) l m c y : Forall2 (same_shape R) l m -> In c m -> leaf y c ->
  exists c' x, In c' l /\ leaf x c' /\ R x y.
Proof.
  intros F Hc L. destruct (forall2_in_r _ _ _ _ F Hc) as (c' & Hc' & Hs). destruct (shape_leaf R _ _ _ Hs L) as (x & Hx & Hr). eauto.
Qed.
Lemma shown_in {X Y} (key : Y -> string) (R : X -> Y -> Prop) l m y : shown key R l m -> In y m -> exists x, In x l /\ R x y.
Proof. intros (k & F & P & _) Hy. apply (Permutation_in _ (Permutation_sym P)) in Hy. apply (forall2_in_r _ _ _ _ F Hy). Qed.
Lemma shown_has {X Y} (key : Y -> string) (R : X -> Y -> Prop) l m x : shown key R l m -> In x l -> exists y, In y m /\ R x y.
Proof. intros (k & F & P & _) Hx. destruct (forall2_in_l _ _ _ _ F Hx) as (y & Hy & Hr). exists y. split; [eapply Permutation_in; eauto | exact Hr]. Qed.

Section Converted.
  Variables (hash : attribute2 -> N) (order : list attribute2 -> list attribute2) (name_of : string -> string) (url_ok : string -> bool).
  Variables (s : source1) (out : schema2).
  Hypothesis OP : forall l, Permutation l (order l).
  Hypothesis HC : convert hash order name_of url_ok s = Converted out.

  Let DEF := C41_signals _ _ _ _ _ _ OP HC.
  Let REF := C41_refinements _ _ _ _ _ _ OP HC.
  Let CAT := C41_catalog _ _ _ _ _ _ OP HC.

  Lemma metric_src m : (In m (r2_metrics (s2_registry out)) \/ exists id, In (id, m) (f2_metrics (s2_refinements out))) -> exists g, is_metric s out g m.
  Proof.
    intros [H|(id & H)].
    - destruct (one_each_in _ _ _ _ _ (proj1 (proj2 DEF)) H) as (g & _ & _ & E). eauto.
    - destruct (one_each_in _ _ _ _ _ (proj1 (proj2 REF)) H) as (g & _ & _ & (E & _)). eauto.
  Qed.
  Lemma span_src m : (In m (r2_spans (s2_registry out)) \/ exists id, In (id, m) (f2_spans (s2_refinements out))) -> exists g, is_span s out g m.
  Proof.
    intros [H|(id & H)].
    - destruct (one_each_in _ _ _ _ _ (proj1 DEF) H) as (g & _ & _ & E). eauto.
    - destruct (one_each_in _ _ _ _ _ (proj1 REF) H) as (g & _ & _ & (E & _)). eauto.
  Qed.
  Lemma event_src m : (In m (r2_events (s2_registry out)) \/ exists id, In (id, m) (f2_events (s2_refinements out))) -> exists g, is_event s out g m.
  Proof.
    intros [H|(id & H)].
    - destruct (one_each_in _ _ _ _ _ (proj1 (proj2 (proj2 DEF))) H) as (g & _ & _ & E). eauto.
    - destruct (one_each_in _ _ _ _ _ (proj1 (proj2 (proj2 REF))) H) as (g & _ & _ & (E & _)). eauto.
  Qed.
  Lemma entity_src m : (In m (r2_entities (s2_registry out)) \/ exists id, In (id, m) (f2_entities (s2_refinements out))) -> exists g, is_entity s out g m.
  Proof.
    intros [H|(id & H)].
    - destruct (one_each_in _ _ _ _ _ (proj1 (proj2 (proj2 (proj2 DEF)))) H) as (g & _ & _ & E). eauto.
    - destruct (one_each_in _ _ _ _ _ (proj2 (proj2 (proj2 REF))) H) as (g & _ & _ & (E & _)). eauto.
  Qed.
  Lemma group_src m : In m (r2_attribute_groups (s2_registry out)) -> exists g, is_group s out g m.
  Proof. intros H. destruct (one_each_in _ _ _ _ _ (proj2 (proj2 (proj2 (proj2 DEF)))) H) as (g & _ & _ & E). eauto. Qed.
  Lemma deps_same : s2_dependencies out = so_deps s.
  Proof. apply CAT. Qed.

  (* a converted registry has no reference to nothing *)
  Theorem C84_sound : sound out /\ forall i, In i (r2_attributes (s2_registry out)) -> i < length (s2_catalog out).
  Proof.
    split.
    - assert (U : forall sampled l m r, uses s out sampled l m -> dangling_in out m r -> False).
      { intros sampled l m r H (u & Hu & <- & Hn). pose proof (uses_in _ _ _ _ _ _ H Hu). lia. }
      assert (E : forall g x r, is_entity s out g x -> dangling_in out (en2_identity x) r \/ dangling_in out (en2_description x) r -> False).
      { intros g x r (_ & _ & H1 & H2 & _) [(u & Hu & <- & Hn)|(u & Hu & <- & Hn)].
        - pose proof (role_uses_in _ _ _ _ _ _ H1 Hu). lia.
        - pose proof (role_uses_in _ _ _ _ _ _ H2 Hu). lia. }
      intros lb r [(m & Hm & _ & D)|[(id & m & Hm & _ & D)|[(m & Hm & _ & D)|[(id & m & Hm & _ & D)|[(m & Hm & _ & D)|[(id & m & Hm & _ & D)|[(m & Hm & _ & D)|[(id & m & Hm & _ & D)|(m & Hm & _ & D)]]]]]]]].
      + destruct (metric_src m (or_introl Hm)) as (g & _ & _ & _ & H & _). exact (U _ _ _ _ H D).
      + destruct (metric_src m (or_intror (ex_intro _ id Hm))) as (g & _ & _ & _ & H & _). exact (U _ _ _ _ H D).
      + destruct (span_src m (or_introl Hm)) as (g & _ & _ & _ & H & _). exact (U _ _ _ _ H D).
      + destruct (span_src m (or_intror (ex_intro _ id Hm))) as (g & _ & _ & _ & H & _). exact (U _ _ _ _ H D).
      + destruct (event_src m (or_introl Hm)) as (g & _ & H & _). exact (U _ _ _ _ H D).
      + destruct (event_src m (or_intror (ex_intro _ id Hm))) as (g & _ & H & _). exact (U _ _ _ _ H D).
      + destruct (entity_src m (or_introl Hm)) as (g & H). exact (E _ _ _ H D).
      + destruct (entity_src m (or_intror (ex_intro _ id Hm))) as (g & H). exact (E _ _ _ H D).
      + destruct (group_src m Hm) as (g & _ & H & _). exact (U _ _ _ _ H D).
    - intros i Hi. apply (proj1 (proj2 (C41_attributes _ _ _ _ _ _ OP HC))) in Hi as (a & _ & b & Hb & _). apply nth_error_Some. congruence.
  Qed.
  (* and every provenance it records is one of its dependencies: none is shown as its own by mistake *)
  Theorem C84_provenance p i : carries out p -> p2_source p = Some i -> exists u, nth_error (s2_dependencies out) i = Some u.
  Proof.
    intros C E. assert (L : i < length (so_deps s)); [|rewrite deps_same; apply nth_error_Some in L; destruct (nth_error _ i); [eauto | congruence]].
    assert (A : forall g l m, associated s out g l m -> (exists c r, In c m /\ leaf r c /\ er_provenance r = p) -> i < length (so_deps s)).
    { intros g l m H (c & r & Hc & Lf & <-). destruct (shapes_leaf _ _ _ _ _ H Hc Lf) as (c' & x & _ & _ & R). eapply refers_in; [exact R | exact E]. }
    destruct C as [(a & Ha & <-)|[(m & Hm & H)|[(m & Hm & H)|[(m & Hm & H)|[(m & Hm & <-)|(m & Hm & <-)]]]]].
    - apply (proj1 (proj2 (proj2 (proj2 CAT)))) in Ha. destruct Ha as [(g & _ & D)|(_ & [(src & g & _ & _ & D)|[(dep & _ & _ & _ & D)|(_ & D & _)]])].
      + eapply declared_in; eauto.
      + eapply declared_in; eauto.
      + rewrite E in D. eapply number_in, D.
      + congruence.
    - destruct (metric_src m Hm) as (g & _ & _ & _ & _ & Ha & _ & _ & D). destruct H as [<-|H]; [eapply declared_in; eauto | eapply A; eauto].
    - destruct (span_src m Hm) as (g & _ & _ & _ & _ & Ha & _ & _ & D). destruct H as [<-|H]; [eapply declared_in; eauto | eapply A; eauto].
    - destruct (event_src m Hm) as (g & _ & _ & Ha & _ & _ & D). destruct H as [<-|H]; [eapply declared_in; eauto | eapply A; eauto].
    - destruct (entity_src m Hm) as (g & _ & _ & _ & _ & _ & _ & D). eapply declared_in; eauto.
    - destruct (group_src m Hm) as (g & _ & _ & _ & D). eapply declared_in; eauto.
  Qed.

  Variables (conv1 : source1 -> conv schema2) (resolve : string -> resolution).
  Lemma declares_some t v name e : shows_own t v -> In (name, e) (f2_entities (s2_refinements t)) -> exists f, declares v name f.
  Proof.
    intros H I. destruct H as (_ & _ & _ & _ & _ & _ & _ & _ & _ & _ & H).
    destruct (shown_has _ _ _ _ _ H I) as ((id & f) & Hf & (Hid & _)). cbn in Hid. subst id.
    destruct (defined_entity v name) as [x|] eqn:D; [exists x; apply defined_iff, D|]. exfalso. unfold defined_entity in D.
    destruct (find _ (rf_entities _)); [discriminate|].
    destruct (find (fun p => String.eqb (fst p) name) (ff_entities (vw_refinements v))) eqn:F; [discriminate|].
    pose proof (List.find_none _ _ F _ Hf) as N. cbn in N. rewrite String.eqb_refl in N. discriminate N.
  Qed.
  Lemma associates_src n v nfes r : forge n conv1 resolve out = Some (Forged v nfes) -> associates v r ->
    exists g name x, refers s out (g_id g) name x /\ shows_ref (s2_dependencies out) x r.
  Proof.
    intros F A. apply C83_shown in F. inversion F as [? ? (_ & _ & _ & H1 & H2 & H3 & _ & H4 & H5 & H6 & _) _]; subst.
    assert (G : forall g l m k c, associated s out g l m -> shows_assocs out m k -> In c k -> leaf r c ->
      exists g name x, refers s out (g_id g) name x /\ shows_ref (s2_dependencies out) x r).
    { intros g l m k c Ha Hs Hc L. destruct (shapes_leaf _ _ _ _ _ Hs Hc L) as (c' & x & Hc' & L' & R).
      destruct (shapes_leaf _ _ _ _ _ Ha Hc' L') as (c'' & name & _ & _ & R'). exists g, name, x. auto. }
    destruct A as [(x & c & Hx & Hc & L)|[(x & c & Hx & Hc & L)|[(x & c & Hx & Hc & L)|[(id & x & c & Hx & Hc & L)|[(id & x & c & Hx & Hc & L)|(id & x & c & Hx & Hc & L)]]]]].
    - destruct (shown_in _ _ _ _ _ H1 Hx) as (m & Hm & (_ & _ & _ & _ & Hs & _)). destruct (metric_src m (or_introl Hm)) as (g & _ & _ & _ & _ & Ha & _). exact (G _ _ _ _ _ Ha Hs Hc L).
    - destruct (shown_in _ _ _ _ _ H2 Hx) as (m & Hm & (_ & _ & _ & _ & Hs & _)). destruct (span_src m (or_introl Hm)) as (g & _ & _ & _ & _ & Ha & _). exact (G _ _ _ _ _ Ha Hs Hc L).
    - destruct (shown_in _ _ _ _ _ H3 Hx) as (m & Hm & (_ & _ & Hs & _)). destruct (event_src m (or_introl Hm)) as (g & _ & _ & Ha & _). exact (G _ _ _ _ _ Ha Hs Hc L).
    - destruct (shown_in _ _ _ _ _ H4 Hx) as ((id' & m) & Hm & (_ & (_ & _ & _ & _ & Hs & _))). destruct (metric_src m (or_intror (ex_intro _ id' Hm))) as (g & _ & _ & _ & _ & Ha & _). exact (G _ _ _ _ _ Ha Hs Hc L).
    - destruct (shown_in _ _ _ _ _ H5 Hx) as ((id' & m) & Hm & (_ & (_ & _ & _ & _ & Hs & _))). destruct (span_src m (or_intror (ex_intro _ id' Hm))) as (g & _ & _ & _ & _ & Ha & _). exact (G _ _ _ _ _ Ha Hs Hc L).
    - destruct (shown_in _ _ _ _ _ H6 Hx) as ((id' & m) & Hm & (_ & (_ & _ & Hs & _))). destruct (event_src m (or_intror (ex_intro _ id' Hm))) as (g & _ & _ & Ha & _). exact (G _ _ _ _ _ Ha Hs Hc L).
  Qed.
  (* every entity reference of the view can be followed, when the entities that associations were
     resolved to are still declared where they came from *)
  Theorem C84_lookup_partial n v nfes r : traceable conv1 resolve s ->
    forge n conv1 resolve out = Some (Forged v nfes) -> associates v r -> exists e, lookup_entity v r = inl e.
  Proof.
    intros (T1 & T2) F A. destruct (associates_src _ _ _ _ F A) as (g & name & x & R & (Ety & Pr)).
    pose proof (C83_shown _ _ _ _ _ _ F) as Sh. inversion Sh as [? ? Own Deps]; subst. rewrite deps_same in Deps.
    assert (Local : forall src, holds out name src -> er_type x = name -> p2_source (er_provenance x) = None -> exists e, lookup_entity v r = inl e).
    { intros src (l1 & e & l2 & E & _) Et Es. destruct (declares_some out v name e Own) as (f & Hf); [rewrite E; apply in_elt|].
      exists f. apply C83_lookup. exists v. split; [|rewrite Ety, Et; exact Hf].
      unfold points_into. destruct Pr as (Pr & _). rewrite Es in Pr. rewrite Pr. reflexivity. }
    destruct R as [(_ & (Et & Es & _) & src & H)|(u & src & O & D & [(H & (Et & Es & _))|(_ & Et & Es & _)])].
    - exact (Local src H Et Es).
    - exact (Local src H Et Es).
    - destruct (T2 _ _ _ O) as (Iu & Hu). destruct src as [i|]; [|destruct (D u Iu eq_refl)].
      destruct D as (u' & Hi & <- & _). destruct Pr as (Pr & _). rewrite Es, deps_same, Hi in Pr.
      destruct (forall2_in_l _ _ _ _ Deps Iu) as (d & Hd & t & Hg & Ht).
      destruct (find (fun d => String.eqb (vw_url d) u) (vw_deps v)) as [w|] eqn:Fw.
      + assert (Pw : points_into v r w) by (apply points_iff; rewrite Pr; exact Fw).
        pose proof (List.find_some _ _ Fw) as (Iw & Ew). apply String.eqb_eq in Ew.
        destruct (forall2_in_r _ _ _ _ Deps Iw) as (u2 & Iu2 & t2 & Hg2 & Ht2). inversion Ht2 as [? ? Own2 _]; subst.
        assert (u2 = vw_url w). { destruct Own2 as (E2 & _). rewrite E2. symmetry. exact (T1 u2 t2 Iu2 Hg2). } subst u2.
        destruct (Hu t2 Hg2) as (e & He). destruct (declares_some t2 w _ e Own2 He) as (f & Hf).
        exists f. apply C83_lookup. exists w. split; [exact Pw | rewrite Ety; exact Hf].
      + exfalso. pose proof (List.find_none _ _ Fw d Hd) as N. cbn in N. inversion Ht as [? ? Own2 _]; subst.
        destruct Own2 as (E2 & _). rewrite E2, (T1 u t Iu Hg), String.eqb_refl in N. discriminate N.
  Qed.
End Converted.
Definition sample_out : schema2 :=
  match convert (fun _ => 0%N) (fun l => l) sample_name (fun _ => true) sample_source with Converted o => o | _ => bare_schema "" [] end.
Lemma sample_converted : convert (fun _ => 0%N) (fun l => l) sample_name (fun _ => true) sample_source = Converted sample_out.
Proof. vm_compute. reflexivity. Qed.
(* the sample: three references, to the registry itself and to two dependencies, all followed *)
Example C84_nonvacuous : traceable (fun _ => Panicked) declaring_resolver sample_source /\
  exists v, forge 2 (fun _ => Panicked) declaring_resolver sample_out = Some (Forged v []) /\
    (exists r, associates v r /\ pf_source (ef_provenance r) = Some "https://k8s.test/schemas/2.0") /\
    map (fun r => match lookup_entity v r with inl e => Some (enf_type e, pf_source (enf_provenance e), pf_path (enf_provenance e)) | inr _ => None end)
      [ {| ef_type := "host"; ef_provenance := {| pf_source := None; pf_path := None |} |};
        {| ef_type := "k8s.pod"; ef_provenance := {| pf_source := Some "https://k8s.test/schemas/2.0"; pf_path := None |} |};
        {| ef_type := "disk"; ef_provenance := {| pf_source := None; pf_path := None |} |} ]
    = [Some ("host", None, Some "m.yaml"); Some ("k8s.pod", None, Some "e.yaml"); None].
Proof.
  split.
  - split.
    + intros u t Hu (b & l & [= <- <-] & <-). reflexivity.
    + intros gid name u (m & H1 & H2). cbn in H1. destruct (String.eqb _ _); [|discriminate H1]. injection H1 as <-. cbn in H2.
      destruct (String.eqb _ _) eqn:E1 in H2.
      * injection H2 as <-. apply String.eqb_eq in E1. subst name. split; [now left|]. intros t (b & l & [= <- <-] & <-). eexists. now left.
      * destruct (String.eqb _ _) eqn:E2 in H2; [|discriminate H2]. injection H2 as <-. apply String.eqb_eq in E2. subst name.
        split; [right; now left|]. intros t (b & l & [= <- <-] & <-). eexists. now left.
  - eexists. split; [vm_compute; reflexivity|]. split.
    + exists {| ef_type := "k8s.pod"; ef_provenance := {| pf_source := Some "https://k8s.test/schemas/2.0"; pf_path := None |} |}. split; [|reflexivity].
      right. left. do 2 eexists. split; [now left|]. split; [now left|]. econstructor; [right; now left | constructor].
    + vm_compute. reflexivity.
Qed.
Print Assumptions C84_sound.
Print Assumptions C84_provenance.
Print Assumptions C84_lookup_partial.
