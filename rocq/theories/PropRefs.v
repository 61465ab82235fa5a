(* C34, second half: references to attributes. *)
From Coq Require Import String Ascii Bool Arith Lia Permutation Sorted NArith List.
Import ListNotations.
From Verif Require Import Base BaseProofs BaseProofs2 Json SemTypes Resolved Semver DefModel ResolveModel ResolveSpec
  ResolveProofs ExtProofs RefProofs.
Local Open Scope string_scope.

Lemma roots_ok_empty e gs : roots_ok e gs empty_catalog.
Proof. intros k s H. discriminate. Qed.
Lemma forall2_permute {A B} (R : A -> B -> Prop) l1 l2 ds : Permutation l1 l2 -> Forall2 R l2 ds ->
  exists ds', Permutation ds ds' /\ Forall2 R l1 ds'.
Proof.
  intros P. revert ds. induction P as [|x l l' P IH|x y l|l l' l'' P1 IH1 P2 IH2]; intros ds H.
  - exists ds. split; [reflexivity|exact H].
  - inversion H as [|? d ? ds0 H1 H2]; subst. destruct (IH _ H2) as (ds' & Q & F).
    exists (d :: ds'). split; [constructor; exact Q|constructor; assumption].
  - inversion H as [|? d ? ds0 H1 H2]; subst. inversion H2 as [|? d' ? ds1 H3 H4]; subst.
    exists (d' :: d :: ds1). split; [constructor|constructor; [assumption|constructor; assumption]].
  - destruct (IH2 _ H) as (ds' & Q & F). destruct (IH1 _ F) as (ds'' & Q' & F').
    exists ds''. split; [etransitivity; eassumption|exact F'].
Qed.

Theorem C34_refs_terminate : forall e gs, unreferenced gs -> resolve_references e gs empty_catalog <> Running.
Proof.
  intros e gs Hun. unfold resolve_references.
  destruct (visit_groups e true gs empty_catalog) as [p|err] eqn:Ev; [|discriminate].
  destruct (visit_groups_ok _ _ _ _ _ empty_ok (unreferenced_ok empty_catalog gs Hun) Ev) as (A & _ & B & _).
  apply refs_loop_ends; [exact A|exact B|]. lia.
Qed.
Print Assumptions C34_refs_terminate.

(* on success nothing is left, and each attribute of each group is, once, the attribute its
   definition stands for, or the one its reference makes of a definition *)
Theorem C34_refs_complete : forall e gs gs' c', unreferenced gs ->
  resolve_references e gs empty_catalog = Done (gs', c') ->
  Forall2 (fun u u' => g_id (ug_group u') = g_id (ug_group u) /\ ug_attrs u' = [] /\
     exists ds ds', attrs_in c' u' ds /\ Permutation ds ds' /\ Forall2 (resolved_as e gs u) (ug_attrs u) ds') gs gs'.
Proof.
  intros e gs gs' c' Hun. unfold resolve_references.
  destruct (visit_groups e true gs empty_catalog) as [p|err] eqn:Ev; [|discriminate]. intros H.
  destruct (visit_groups_part e gs true gs gs _ _ (fun x Hx => Hx) (part_start e gs gs _ (fun x Hx => Hx) Hun)
              (roots_ok_empty e gs) empty_ok Ev) as (A & B & C & _).
  destruct (refs_loop_part _ _ _ _ _ _ _ _ A B C H) as [F _]. destruct (refs_loop_clean _ _ _ _ _ _ _ H) as [N _].
  clear -F N. revert F. assert (G : forall l l', Forall (fun u => ug_attrs u = []) l' -> Forall2 (part e gs c') l l' ->
    Forall2 (fun u u' => g_id (ug_group u') = g_id (ug_group u) /\ ug_attrs u' = [] /\
     exists ds ds', attrs_in c' u' ds /\ Permutation ds ds' /\ Forall2 (resolved_as e gs u) (ug_attrs u) ds') l l').
  { intros l l' Hn Hf. induction Hf as [|u v l l' Huv _ IH]; [constructor|]. inversion Hn as [|? ? Hv Hn']; subst.
    constructor; [|apply IH, Hn']. destruct Huv as (X & _ & _ & done & ds & P & F & G). rewrite Hv, app_nil_r in P.
    destruct (forall2_permute _ _ _ _ P G) as (ds' & Q & G'). split; [exact X|]. split; [exact Hv|].
    exists ds, ds'. split; [exact F|]. split; assumption. }
  intros F. apply G; assumption.
Qed.
Print Assumptions C34_refs_complete.

(* a reference without a definition is never accepted *)
Theorem C34_refs_undefined_fails : forall e gs u a r, unreferenced gs -> In u gs -> In a (ug_attrs u) ->
  ua_spec a = SRef r -> ~ (exists d, defines e gs (rs_ref r) d) ->
  exists es, resolve_references e gs empty_catalog = Failed es.
Proof.
  intros e gs u a r Hun Hu Ha Es Hnd. destruct (resolve_references e gs empty_catalog) as [[gs' c']|es|] eqn:E.
  - exfalso. pose proof (C34_refs_complete e gs gs' c' Hun E) as F.
    destruct (forall2_left _ _ _ _ F Hu) as (v & _ & _ & _ & ds & ds' & _ & _ & G).
    destruct (forall2_left _ _ _ _ G Ha) as (d & _ & R). unfold resolved_as in R. rewrite Es in R.
    destruct R as (d0 & R & _). apply Hnd. exists d0. exact R.
  - eauto.
  - exfalso. exact (C34_refs_terminate e gs Hun E).
Qed.
Print Assumptions C34_refs_undefined_fails.

(* a failure is a conflict between dependencies, an excluded attribute, or it names exactly the
   references without a definition *)
Theorem C34_refs_failure : forall e gs es, unreferenced gs -> no_excluded_attribute gs ->
  resolve_references e gs empty_catalog = Failed es ->
  (exists err, es = [err] /\ conflict_error err) \/
  (exists x t g, In (XExcluded x t g) es) \/
  (es <> [] /\ forall err, In err es <-> undefined_reference e gs err).
Proof.
  intros e gs es Hun Hx. unfold resolve_references.
  destruct (visit_groups e true gs empty_catalog) as [p|err] eqn:Ev.
  2:{ intros H. injection H as <-. left. exists err. split; [reflexivity|]. eapply visit_groups_err, Ev. }
  intros H.
  destruct (visit_groups_part e gs true gs gs _ _ (fun x Hx => Hx) (part_start e gs gs _ (fun x Hx => Hx) Hun)
              (roots_ok_empty e gs) empty_ok Ev) as (A & B & C & _).
  assert (Hpl : roots_plain empty_catalog) by (intros k s Hk; discriminate).
  destruct (visit_ids_groups e gs gs Hx _ _ (fun x Hx => Hx) (roots_ok_empty e gs) empty_ok Hpl Ev) as (E0 & _ & K).
  rewrite E0 in H.
  destruct (refs_loop_failed e gs _ _ _ _ A K B C H) as [L|(l' & c' & q & F & K' & Eq & H0 & ->)]; [left; exact L|right].
  destruct (existsb is_excluded_err (ps_errors q)) eqn:Ex.
  { left. apply existsb_exists in Ex as (err & Hin & He). destruct err; try discriminate. exists id, type, used_in. exact Hin. }
  right. assert (Hnx : forall err, In err (ps_errors q) -> is_excluded_err err = false).
  { intros err Hin. destruct (is_excluded_err err) eqn:E1; [|reflexivity]. rewrite <- Ex. symmetry. apply existsb_exists. eauto. }
  pose proof (stuck_defined e gs l' c' q F K' Eq H0 Hnx) as SD.
  destruct (visit_groups_stuck _ _ _ _ Eq H0) as [St1 St2].
  assert (Hund : forall v a r, In v l' -> In a (ug_attrs v) -> ua_spec a = SRef r -> rattr e v a c' = Got None ->
                 ~ exists d, defines e gs (rs_ref r) d).
  { intros v a r Hv Ha Es Er [d D]. destruct (resolve_ref_none _ _ _ _ _ _ _ Es Er) as [N1 N2].
    destruct (SD _ _ D) as [S1|[s S1]]; [contradiction|congruence]. }
  split.
  { (* the loop does not fail without an error *)
    intros Hnil. revert H. clear -Hnil. intros H.
    assert (G : forall n l c, refs_loop n e [] l c <> Failed []).
    { induction n as [|n IH]; intros l c; cbn [refs_loop]; [discriminate|].
      destruct (visit_groups e false l c) as [p0|]; [|discriminate]. cbn [app].
      destruct (ps_errors p0); [discriminate|]. destruct (Nat.eqb (ps_count p0) 0); [discriminate|]. apply IH. }
    rewrite Hnil in H. exact (G _ _ _ H). }
  intros err. split.
  - intros Hin. destruct (St2 _ Hin) as [E1|(v & a & r & Hv & Ha & Es & Er & ->)]; [rewrite (Hnx _ Hin) in E1; discriminate|].
    destruct (forall2_right _ _ _ _ F Hv) as (u & Hu & Hid & Hpf & _ & done & ds & P & _).
    exists u, a, r. split; [exact Hu|]. split.
    { apply (Permutation_in a (Permutation_sym P)), in_or_app. right. exact Ha. }
    split; [exact Es|]. unfold uid in *. rewrite Hid. split; [reflexivity|]. eapply Hund; eassumption.
  - intros (u & a & r & Hu & Ha & Es & -> & Hnd).
    destruct (forall2_left _ _ _ _ F Hu) as (v & Hv & Hid & Hpf & _ & done & ds & P & _ & G).
    apply (Permutation_in a P), in_app_or in Ha as [Ha|Ha].
    + exfalso. destruct (forall2_left _ _ _ _ G Ha) as (d & _ & R). unfold resolved_as in R. rewrite Es in R.
      destruct R as (d0 & R & _). apply Hnd. exists d0. exact R.
    + destruct (St1 v a Hv Ha) as [(r' & E1 & _ & E3)|(er & E1 & E2)].
      * rewrite Es in E1. injection E1 as <-. unfold uid in *. rewrite <- Hid. exact E3.
      * rewrite (Hnx _ E2) in E1. discriminate.
Qed.
Print Assumptions C34_refs_failure.

(* a reference to a definition in a later group, one with a prefix, one to the prefixed attribute *)
Definition reg34r : list ugroup :=
  [sample_group "user" GSpan None None [] [sample_ref "x" (Some "mine"); sample_ref ".y" None];
   sample_group "p" GSpan None None []
     [SRef {| rs_ref := "y"; rs_brief := None; rs_examples := None; rs_tag := None; rs_req := None;
              rs_sampling := None; rs_note := None; rs_stability := None; rs_deprecated := None;
              rs_prefix := true; rs_annotations := None; rs_role := None |}];
   sample_group "defs" GAttributeGroup None None [] [sample_id "x" "ex"; sample_id "y" "why"]].
Example C34_refs_case : exists gs' c', resolve_references no_env reg34r empty_catalog = Done (gs', c') /\
  map (fun u => map (fun r => option_map (fun p => (at_name (fst p), at_brief (fst p)))
                               (find (fun p => Nat.eqb (snd p) r) (ct_refs c'))) (g_attributes (ug_group u))) gs' =
  [[Some ("x", "mine"); Some (".y", "why")]; [Some (".y", "why")]; [Some ("x", "ex"); Some ("y", "why")]] /\
  unreferenced reg34r /\ no_excluded_attribute reg34r.
Proof.
  eexists. eexists. split; [vm_compute; reflexivity|]. split; [vm_compute; reflexivity|]. split.
  - intros u [<-|[<-|[<-|[]]]]; reflexivity.
  - intros u a i [<-|[<-|[<-|[]]]] Ha; cbn in Ha; intuition; subst; try discriminate;
      match goal with H : ua_spec _ = SId _ |- _ => injection H as <-; reflexivity end.
Qed.
Example C34_refs_undefined_case : exists es,
  resolve_references no_env (tl reg34r) empty_catalog <> Failed es /\
  resolve_references no_env [sample_group "user" GSpan None None [] [sample_ref "x" None]] empty_catalog =
    Failed [XUnresolvedAttr "user" "x"].
Proof. exists []. split; vm_compute; [discriminate|reflexivity]. Qed.
