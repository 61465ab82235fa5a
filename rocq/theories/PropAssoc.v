(* C71: every entity a signal names is found, in the registry or in exactly one other. *)
From Coq Require Import String Ascii Bool Arith NArith Lia Permutation Sorted List.
Import ListNotations.
From Verif Require Import Base BaseProofs BaseProofs2 Json SemTypes Resolved Semver DefModel DefSpec ResolveModel ResolveSpec ResolveProofs RefProofs
  ExtProofs ImportModel ImportSpec ImportProofs AssocProofs.
Local Open Scope string_scope.

Lemma get2_recorded m g n v : get2 m g n = Some v <-> recorded_as m g n v.
Proof.
  unfold get2, recorded_as. destruct (slookup g m) as [om|].
  - split; [intros H; exists om; auto|intros (om' & E & H); injection E as ->; exact H].
  - split; [discriminate|intros (? & E & _); discriminate].
Qed.
Lemma associations_shape e gs recorded : exists st, pass e (local_entities gs) recorded (pairs gs) st /\
  resolve_associations e gs recorded = match as_errors st with [] => Done (merge (as_origins st) recorded) | es => Failed es end.
Proof.
  unfold resolve_associations. rewrite fold_pairs. eexists. split; [apply pass_ok|]. unfold merge. cbv zeta. reflexivity.
Qed.

(* When associations are resolved, every entity named by every group was brought in by its import, is
   an entity of the registry that the group may use, or is an entity of exactly one other registry,
   which is recorded. *)
Theorem C71_resolved : forall e gs recorded m, resolve_associations e gs recorded = Done m ->
  forall u n, In u gs -> names_entity u n ->
  brought recorded u n \/ meant_here gs u n \/ exists url, meant_there e gs n url /\ recorded_as m (uid u) n url.
Proof.
  intros e gs recorded m H u n Hu Hn. destruct (associations_shape e gs recorded) as (st & [F [S1 S2] E O] & R). rewrite R in H.
  destruct (as_errors st) as [|er es] eqn:Es; [|discriminate]. injection H as <-.
  pose proof (outcome_ok e gs recorded u n) as Oc. destruct (outcome_of e (local_entities gs) recorded u n) as [|v|err] eqn:X.
  - tauto.
  - right. right. exists v. split; [apply Oc|]. apply get2_recorded. rewrite merge_get2 by assumption.
    rewrite (proj2 (O (uid u) n v)); [reflexivity|]. exists u. split; [apply pairs_iff; auto|]. auto.
  - exfalso. apply (proj2 (E err)). exists u, n. split; [apply pairs_iff; auto|exact X].
Qed.

(* What the imports recorded is kept, and nothing else is recorded than the entities found in other
   registries. *)
Theorem C71_recorded : forall e gs recorded m, resolve_associations e gs recorded = Done m ->
  forall id n url, recorded_as m id n url <->
    recorded_as recorded id n url \/
    (exists u, In u gs /\ uid u = id /\ names_entity u n /\ ~ brought recorded u n /\ meant_there e gs n url).
Proof.
  intros e gs recorded m H id n url. destruct (associations_shape e gs recorded) as (st & [F [S1 S2] E O] & R). rewrite R in H.
  destruct (as_errors st) as [|er es] eqn:Es; [|discriminate]. injection H as <-.
  rewrite <- get2_recorded, merge_get2 by assumption. split.
  - destruct (get2 (as_origins st) id n) as [v|] eqn:G.
    + intros X. injection X as ->. right. apply O in G. destruct G as (u & Hp & <- & X). apply pairs_iff in Hp. destruct Hp as [Hu Hn].
      pose proof (outcome_ok e gs recorded u n) as Oc. rewrite X in Oc. exists u. destruct Oc as [Oc1 Oc2]. auto 6.
    + intros X. left. apply get2_recorded. exact X.
  - intros [X|(u & Hu & <- & Hn & Nb & Mt)].
    + destruct (get2 (as_origins st) id n) as [v|] eqn:G; [|apply get2_recorded; exact X]. exfalso.
      apply O in G. destruct G as (u & Hp & <- & Y). pose proof (outcome_ok e gs recorded u n) as Oc. rewrite Y in Oc. destruct Oc as [Nb _].
      apply Nb. destruct X as (om & X1 & X2). exists om, url. auto.
    + assert (X : outcome_of e (local_entities gs) recorded u n = OOrigin url).
      { pose proof (outcome_ok e gs recorded u n) as Oc. destruct Mt as (M1 & M2 & M3).
        destruct (outcome_of e (local_entities gs) recorded u n) as [|v|err].
        - destruct Oc as [Oc|(w & Hw & _)]; [contradiction|]. apply own_in in Hw. destruct (M1 w); apply Hw.
        - destruct Oc as (_ & _ & Oc & _). f_equal. apply M3. exact Oc.
        - destruct Oc as (_ & Oc). destruct Oc as [w Hw|? Hno|urls ? Nd Len Iff|? Hno].
          + apply own_in in Hw. destruct (M1 w); apply Hw.
          + destruct (Hno _ M2).
          + exfalso. destruct urls as [|a [|b urls]]; cbn [length] in Len; try lia. inversion Nd as [|? ? Na _]; subst. apply Na. left.
            transitivity url; [|symmetry]; apply M3, Iff; cbn; auto.
          + destruct (Hno _ M2). }
      rewrite (proj2 (O (uid u) n url)); [reflexivity|]. exists u. split; [apply pairs_iff; auto|]. auto.
Qed.

(* Resolution of associations fails exactly when some group names an entity wrongly; every error
   says what is wrong with a name, and every wrong name has its error. *)
Theorem C71_errors : forall e gs recorded es, resolve_associations e gs recorded = Failed es ->
  es <> [] /\
  (forall err, In err es -> exists u n, In u gs /\ names_entity u n /\ ~ brought recorded u n /\ wrong_name e gs u n err) /\
  (forall u n err, In u gs -> names_entity u n -> ~ brought recorded u n -> wrong_name e gs u n err ->
     exists err', In err' es /\ wrong_name e gs u n err').
Proof.
  intros e gs recorded es H. destruct (associations_shape e gs recorded) as (st & [F [S1 S2] E O] & R). rewrite R in H.
  assert (Es : as_errors st = es /\ es <> []) by (destruct (as_errors st); [discriminate|injection H as <-; split; [reflexivity|discriminate]]).
  destruct Es as [Es Ne]. split; [exact Ne|]. rewrite <- Es. split.
  - intros err He. apply E in He. destruct He as (u & n & Hp & X). apply pairs_iff in Hp. exists u, n. split; [apply Hp|]. split; [apply Hp|].
    pose proof (outcome_ok e gs recorded u n) as Oc. rewrite X in Oc. exact Oc.
  - intros u n err Hu Hn Nb W. pose proof (outcome_ok e gs recorded u n) as Oc.
    destruct (outcome_of e (local_entities gs) recorded u n) as [|v|err'] eqn:X.
    + exfalso. destruct Oc as [Oc|(w & Hw & K)]; [contradiction|]. destruct W as [w' Hw'|Hno|urls Hno|Hno].
      * rewrite (own_fun _ _ _ _ Hw Hw') in K. tauto.
      * apply own_in in Hw. destruct (Hno w); apply Hw.
      * apply own_in in Hw. destruct (Hno w); apply Hw.
      * apply own_in in Hw. destruct (Hno w); apply Hw.
    + exfalso. destruct Oc as (_ & M1 & M2 & M3). destruct W as [w' Hw'|? Hno|urls ? Nd Len Iff|? Hno].
      * apply own_in in Hw'. destruct (M1 w'); apply Hw'.
      * destruct (Hno _ M2).
      * destruct urls as [|a [|b urls]]; cbn [length] in Len; try lia. inversion Nd as [|? ? Na _]; subst. apply Na. left.
        transitivity v; [|symmetry]; apply M3, Iff; cbn; auto.
      * destruct (Hno _ M2).
    + exists err'. split; [|apply Oc]. apply E. exists u, n. split; [apply pairs_iff; auto|exact X].
Qed.
Theorem C71_total : forall e gs recorded,
  (exists m, resolve_associations e gs recorded = Done m) \/ (exists es, resolve_associations e gs recorded = Failed es).
Proof.
  intros e gs recorded. destruct (associations_shape e gs recorded) as (st & _ & ->). destruct (as_errors st); eauto.
Qed.

(* The answer does not depend on the order the dependencies are listed in. *)
Lemma has_deps e ds d n u p : has_entity (with_dependencies e ds) d n u p <-> has_entity e d n u p.
Proof. destruct d; reflexivity. Qed.
Lemma resolve_order e ds n : Permutation (ev_deps e) ds ->
  (forall u, resolve_entity e (ev_deps e) n = EFound u <-> resolve_entity (with_dependencies e ds) ds n = EFound u).
Proof.
  intros P u. pose proof (resolve_entity_ok e n) as A. pose proof (resolve_entity_ok (with_dependencies e ds) n) as B. cbn [ev_deps with_dependencies] in B.
  assert (Of : forall v, offers_entity e n v <-> offers_entity (with_dependencies e ds) n v).
  { intros v. unfold offers_entity. cbn [ev_deps with_dependencies]. split; intros (d & Hd & H); exists d.
    - split; [eapply Permutation_in; eassumption|apply has_deps; exact H].
    - split; [eapply Permutation_in; [apply Permutation_sym|]; eassumption|apply has_deps in H; exact H]. }
  destruct (resolve_entity e (ev_deps e) n) as [v| |us|]; destruct (resolve_entity (with_dependencies e ds) ds n) as [v'| |us'|];
    try (split; congruence).
  - assert (v = v'); [|subst; tauto]. apply B. apply Of. apply A.
  - destruct A as (A1 & _). apply Of in A1. destruct B as (B & _). destruct (B _ A1).
  - exfalso. destruct A as (A1 & A2). destruct B as (B1 & B2 & B3). destruct us' as [|a [|b us']]; cbn [length] in B2; try lia.
    inversion B1 as [|? ? Na _]; subst. apply Na. left. transitivity v; [|symmetry]; apply A2, Of, B3; cbn; auto.
  - destruct A as (A1 & _). apply Of in A1. destruct B as (B & _). destruct (B _ A1).
  - destruct B as (B1 & _). apply Of in B1. destruct A as (A & _). destruct (A _ B1).
  - exfalso. destruct B as (A1 & A2). destruct A as (B1 & B2 & B3). destruct us as [|a [|b us]]; cbn [length] in B2; try lia.
    inversion B1 as [|? ? Na _]; subst. apply Na. left. transitivity v'; [|symmetry]; apply A2, Of, B3; cbn; auto.
  - destruct B as (B1 & _). apply Of in B1. destruct A as (A & _). destruct (A _ B1).
Qed.
Definition lockstep (a b : assoc_state) : Prop :=
  as_origins a = as_origins b /\ as_found a = as_found b /\ length (as_errors a) = length (as_errors b).
Lemma step_lockstep e ds local recorded p a b : Permutation (ev_deps e) ds -> lockstep a b ->
  lockstep (step e local recorded a p) (step (with_dependencies e ds) local recorded b p).
Proof.
  intros P (H1 & H2 & H3). destruct p as [u n]. unfold step, assoc_name. cbn [fst snd ev_deps with_dependencies].
  destruct (match slookup (uid u) recorded with Some m => is_some (slookup n m) | None => false end); [split; auto|].
  assert (W : forall x y, lockstep {| as_origins := as_origins a; as_errors := app (as_errors a) [x]; as_found := as_found a |}
                                   {| as_origins := as_origins b; as_errors := app (as_errors b) [y]; as_found := as_found b |}).
  { intros x y. split; [exact H1|]. split; [exact H2|]. cbn. rewrite !app_length, H3. reflexivity. }
  destruct (slookup n local) as [[|]|]; [destruct (ug_excluded u); [split; auto|apply W]|split; auto|].
  rewrite <- H2 in W. rewrite <- H2. destruct (slookup n (as_found a)) as [v|].
  - split; [cbn; rewrite H1; reflexivity|]. split; [reflexivity|exact H3].
  - pose proof (resolve_order e ds n P) as R.
    destruct (resolve_entity e (ev_deps e) n) as [v| |us|] eqn:Ra; destruct (resolve_entity (with_dependencies e ds) ds n) as [v'| |us'|] eqn:Rb;
      try apply W; try (destruct (R v) as [R1 _]; specialize (R1 eq_refl); discriminate);
      try (destruct (R v') as [_ R1]; specialize (R1 eq_refl); discriminate).
    destruct (R v) as [R1 _]. specialize (R1 eq_refl). injection R1 as ->. split; [cbn; rewrite H1; reflexivity|].
    split; [reflexivity|exact H3].
Qed.
Theorem C71_dependency_order : forall e ds gs recorded m, Permutation (ev_deps e) ds ->
  resolve_associations e gs recorded = Done m -> resolve_associations (with_dependencies e ds) gs recorded = Done m.
Proof.
  intros e ds gs recorded m P. unfold resolve_associations. rewrite !fold_pairs.
  set (s0 := {| as_origins := []; as_errors := []; as_found := [] |}). set (local := local_entities gs).
  assert (L : forall ps a b, lockstep a b -> lockstep (fold_left (step e local recorded) ps a) (fold_left (step (with_dependencies e ds) local recorded) ps b)).
  { induction ps as [|p ps IH]; intros a b H; cbn [fold_left]; [exact H|]. apply IH. apply step_lockstep; assumption. }
  assert (H0 : lockstep s0 s0) by (split; [reflexivity|split; reflexivity]).
  destruct (L (pairs gs) s0 s0 H0) as (L1 & L2 & L3). cbv zeta. rewrite <- L1.
  destruct (as_errors (fold_left (step e local recorded) (pairs gs) s0)); [|discriminate].
  destruct (as_errors (fold_left (step (with_dependencies e ds) local recorded) (pairs gs) s0)); [|discriminate]. auto.
Qed.

(* ---- a concrete case ---- *)
Definition one71 : dependency := D2 (sample_published "https://a.io/schemas/1.0.0" ["https://o.io/schemas/1.0.0"] [] [sample_entity2 "host" (Some 0)] []).
Definition two71 : dependency := D2 (sample_published "https://b.io/schemas/1.0.0" ["https://o.io/schemas/1.0.0"] [] [sample_entity2 "host" (Some 0); sample_entity2 "pod" None] []).
Definition three71 : dependency := D2 (sample_published "https://c.io/schemas/1.0.0" [] [] [sample_entity2 "pod" None] []).
Example C71_case :
  resolve_associations (sample_env [one71; two71; three71]) [sample_using "span.s" "host"; sample_group "entity.own" GEntity None None [] []] [] =
    Done [("span.s", [("host", "https://o.io/schemas/1.0.0")])] /\
  resolve_associations (sample_env [one71; two71; three71]) [sample_using "span.s" "pod"; sample_using "span.t" "none"; sample_group "entity.own" GEntity None None [] []] [] =
    Failed [XAmbiguousEntity "span.s" "pod" ["https://b.io/schemas/1.0.0"; "https://c.io/schemas/1.0.0"]; XUnresolvedEntity "span.t" "none"].
Proof. split; vm_compute; reflexivity. Qed.
Example C71_names_case : names_entity (sample_using "span.s" "host") "host" /\ names_entity (sample_using "span.s" "host") "own".
Proof.
  split; (eexists; split; [left; reflexivity|]).
  - eapply me_one; [left; reflexivity|]. constructor.
  - eapply me_one; [right; left; reflexivity|]. eapply me_all; [right; left; reflexivity|]. constructor.
Qed.

Print Assumptions C71_resolved.
Print Assumptions C71_recorded.
Print Assumptions C71_errors.
Print Assumptions C71_total.
Print Assumptions C71_dependency_order.
