(* What the conversion of a resolved registry gives can be published. *)
From Coq Require Import String Ascii Bool Arith ZArith NArith Lia Permutation Sorted List.
Import ListNotations.
From Verif Require Import Base BaseProofs Json SemTypes Resolved ConvertModel ConvertProofs.
From Verif Require UrlModel.
From Verif Require Import PubSpec PubSpec2.
Local Open Scope list_scope.

Lemma position_small : forall p l n, small (length l) -> position p l = Some n -> small n.
Proof.
  intros p l n L H. assert (G : n < length l).
  { clear L. revert n H. induction l as [|x r IH]; intros n H; [discriminate H|]. cbn [position] in H.
    destruct (p x); [injection H as <-; cbn; lia|]. destruct (position p r) as [m|]; [|discriminate H].
    injection H as <-. specialize (IH m eq_refl). cbn. lia. }
  unfold small in *. lia.
Qed.

Section Pub.
  Variables (to_f64 : Z -> N) (url_parse : string -> option UrlModel.parsed_url).
  Variables (hash : attribute2 -> N) (order : list attribute2 -> list attribute2) (name_of : string -> string)
    (url_fits : string -> bool).
  Hypothesis order_perm : forall l, Permutation l (order l).
  Variable s : source1.
  Hypothesis R : resolved_registry to_f64 url_parse s.
  Let cat := v2_catalog hash order name_of s.

  Lemma deps_small : small (length (so_deps s)).
  Proof. apply R. Qed.

  Lemma prov_ok : forall g, provenance_ok (get_provenance s g).
  Proof.
    intros g n. unfold get_provenance. destruct (g_lineage g) as [l|]; cbn [p2_source]; [|discriminate].
    destruct (String.eqb _ _); [discriminate|]. apply position_small, deps_small.
  Qed.

  Lemma attr_prov_ok : forall name, provenance_ok (attr_provenance name_of s name).
  Proof.
    intros name. unfold attr_provenance. destruct (find (defines_attr name) (so_groups s)); [apply prov_ok|].
    destruct (slookup name (so_roots s)) as [src|]; [|intros n H; discriminate H].
    destruct (find _ (so_groups s)); [apply prov_ok|].
    destruct (strip_prefix _ src); [|intros n H; discriminate H].
    intros n H. cbn [p2_source] in H. exact (position_small _ _ _ deps_small H).
  Qed.

  Lemma cat_ok : Forall (attribute_ok to_f64) cat.
  Proof.
    apply Forall_forall. intros b H. apply (catalog_in hash order name_of order_perm) in H as (a & Ha & ->).
    destruct R as [_ A _ _ _]. rewrite Forall_forall in A. destruct (A a Ha) as (T & E & N). unfold attribute_ok, attribute_v2. cbn.
    split; [exact T|]. split; [exact E|]. split; [|apply attr_prov_ok]. unfold common_ok. cbn.
    destruct (at_annotations a) as [m|]; cbn [opt_get]; [exact (N m eq_refl)|constructor].
  Qed.

  Lemma ref_small : forall a i, convert_ref cat a = Some i -> small i.
  Proof.
    intros a i H. apply convert_ref_some in H as (b & H & _).
    assert (L : i < length cat) by (apply nth_error_Some; congruence).
    assert (M : length cat <= length (so_catalog s)).
    { unfold cat. rewrite <- (Permutation_length (catalog_perm hash order name_of order_perm s)).
      rewrite <- (map_length (attribute_v2 name_of s) (so_catalog s)).
      apply NoDup_incl_length; [apply NoDup_nodup|]. intros x Hx. apply nodup_In in Hx. exact Hx. }
    destruct R as [_ _ _ S _]. unfold small in *. lia.
  Qed.

  Lemma uses_small : forall sampled l, Forall span_use_ok (signal_uses s cat sampled l).
  Proof.
    induction l as [|r l IH]; cbn [signal_uses]; [constructor|].
    destruct (nth_error (so_catalog s) r) as [a|]; [|exact IH]. destruct (convert_ref cat a) as [b|] eqn:E; [|exact IH].
    constructor; [|exact IH]. exact (ref_small a b E).
  Qed.

  Lemma uses_plain : forall l, Forall use_ok (signal_uses s cat false l).
  Proof.
    induction l as [|r l IH]; cbn [signal_uses]; [constructor|].
    destruct (nth_error (so_catalog s) r) as [a|]; [|exact IH]. destruct (convert_ref cat a) as [b|] eqn:E; [|exact IH].
    constructor; [|exact IH]. split; [exact (ref_small a b E)|reflexivity].
  Qed.

  Lemma group_common_ok : forall g, In g (so_groups s) -> common_ok (group_common g).
  Proof.
    intros g H. destruct R as [_ _ G _ _]. rewrite Forall_forall in G. specialize (G g H). unfold common_ok. cbn.
    destruct (g_annotations g) as [m|] eqn:E; cbn [opt_get]; [exact (G m E)|constructor].
  Qed.

  Lemma entity_fine : forall g e, In g (so_groups s) -> convert_entity s cat g = Converted e -> entity_ok e.
  Proof.
    intros g e Hg H. unfold convert_entity in H.
    destruct (conv_map (convert_attribute_ref s cat (g_id g)) (g_attributes g)) as [l| |] eqn:E; try discriminate H.
    cbn [conv_bind] in H. destruct (entity_type s g) as [t| |]; try discriminate H. cbn [conv_bind] in H. injection H as <-.
    assert (A : forall f, Forall use_ok (map entity_use (filter f l))).
    { intros f. apply Forall_forall. intros u Hu. apply in_map_iff in Hu as ((a & b) & <- & Hu). apply filter_In in Hu as [Hu _].
      split; [|reflexivity]. cbn. apply conv_map_ok in E.
      assert (G : exists r, convert_attribute_ref s cat (g_id g) r = Converted (a, b)).
      { clear -E Hu. induction E as [|x y lx ly H E IH]; [destruct Hu|]. destruct Hu as [->|Hu]; [eauto|auto]. }
      destruct G as (r & G). unfold convert_attribute_ref in G. destruct (nth_error (so_catalog s) r) as [a'|]; [|discriminate G].
      destruct (convert_ref cat a') as [b'|] eqn:F; [|discriminate G]. injection G as -> ->. exact (ref_small a b F). }
    split; [apply A|]. split; [apply A|]. split; [apply group_common_ok; exact Hg|apply prov_ok].
  Qed.

  Lemma pass_fine : forall es, entity_pass s cat = Converted es -> Forall (fun x => entity_ok (snd x)) es.
  Proof.
    intros es H. unfold entity_pass in H. apply conv_map_ok in H.
    assert (G : forall g, In g (filter (fun g => group_type_eqb (g_type g) GEntity) (so_groups s)) -> In g (so_groups s))
      by (intros g Hg; apply filter_In in Hg; apply Hg).
    induction H as [|g p l m E H IH]; constructor.
    - destruct (convert_entity s cat g) as [e| |] eqn:F; try discriminate E. cbn [conv_bind] in E. injection E as <-. cbn [snd].
      apply (entity_fine g); [apply G; left; reflexivity|exact F].
    - apply IH. intros x Hx. apply G. right. exact Hx.
  Qed.

  Lemma resolve_fine : forall local gid name r, resolve_entity s local gid name = Some r -> provenance_ok (er_provenance r).
  Proof.
    intros local gid name r H n Hn. unfold resolve_entity, entity_ref_local in H.
    destruct (match slookup gid (so_origins s) with Some m => slookup name m | None => None end) as [origin|].
    - destruct (slookup name local) as [held|]; [destruct (source_eqb _ _)|]; injection H as <-; cbn [er_provenance p2_source] in Hn;
        try discriminate Hn; exact (position_small _ _ _ deps_small Hn).
    - destruct (slookup name local); [|discriminate H]. injection H as <-. discriminate Hn.
  Qed.

  Lemma assoc_fine : forall local gid (a : assoc string) b, convert_assoc s local gid a = Converted b -> assoc_ok b.
  Proof.
    intros local gid.
    assert (L : forall l m,
      (forall a, In a l -> forall b, convert_assoc s local gid a = Converted b -> assoc_ok b) ->
      (fix go (l : list (assoc string)) : conv (list (assoc entity_ref)) :=
         match l with
         | [] => Converted []
         | x :: r => conv_bind (convert_assoc s local gid x) (fun y => conv_bind (go r) (fun m => Converted (y :: m)))
         end) l = Converted m -> Forall assoc_ok m).
    { induction l as [|x l IH]; intros m A H; [injection H as <-; constructor|].
      destruct (convert_assoc s local gid x) as [y| |] eqn:E; try discriminate H. cbn [conv_bind] in H.
      match type of H with conv_bind ?t _ = _ => destruct t as [m'| |] eqn:E2; try discriminate H end.
      cbn [conv_bind] in H. injection H as <-. constructor; [exact (A x (or_introl eq_refl) y E)|].
      apply IH; [|reflexivity]. intros z Hz. apply A. right. exact Hz. }
    fix IH 1. intros a b H. destruct a as [name|l|l].
    - cbn in H. destruct (resolve_entity s local gid name) as [r|] eqn:E; [|discriminate H]. injection H as <-.
      intros r' [<-|[]]. exact (resolve_fine _ _ _ _ E).
    - cbn [convert_assoc] in H. match type of H with conv_bind ?t _ = _ => destruct t as [m| |] eqn:E; try discriminate H end.
      cbn [conv_bind] in H. injection H as <-.
      assert (F : Forall assoc_ok m).
      { apply (L l m); [|exact E]. clear -IH. induction l as [|x l IHl]; intros a Ha; [destruct Ha|].
        destruct Ha as [<-|Ha]; [exact (IH x)|exact (IHl a Ha)]. }
      intros r Hr. cbn [leaves] in Hr. apply in_flat_map in Hr as (c & Hc & Hr). rewrite Forall_forall in F. exact (F c Hc r Hr).
    - cbn [convert_assoc] in H. match type of H with conv_bind ?t _ = _ => destruct t as [m| |] eqn:E; try discriminate H end.
      cbn [conv_bind] in H. injection H as <-.
      assert (F : Forall assoc_ok m).
      { apply (L l m); [|exact E]. clear -IH. induction l as [|x l IHl]; intros a Ha; [destruct Ha|].
        destruct Ha as [<-|Ha]; [exact (IH x)|exact (IHl a Ha)]. }
      intros r Hr. cbn [leaves] in Hr. apply in_flat_map in Hr as (c & Hc & Hr). rewrite Forall_forall in F. exact (F c Hc r Hr).
  Qed.

  Lemma assocs_fine : forall local g l, convert_assocs s local g = Converted l -> Forall assoc_ok l.
  Proof.
    intros local g l H. unfold convert_assocs in H. apply conv_map_ok in H.
    induction H as [|a b x y E H IH]; constructor; [exact (assoc_fine _ _ _ _ E)|exact IH].
  Qed.

  Record pushed_fine (p : pushed) : Prop := {
    pf_groups : Forall group_ok (pu_groups p);
    pf_spans : Forall span_ok (pu_spans p);
    pf_span_refs : Forall (fun x => span_ok (snd x)) (pu_span_refs p);
    pf_events : Forall event_ok (pu_events p);
    pf_event_refs : Forall (fun x => event_ok (snd x)) (pu_event_refs p);
    pf_metrics : Forall metric_ok (pu_metrics p);
    pf_metric_refs : Forall (fun x => metric_ok (snd x)) (pu_metric_refs p)
  }.

  Lemma one_fine : forall local g p, In g (so_groups s) -> convert_one s cat local g = Converted p -> pushed_fine p.
  Proof.
    intros local g p Hg H.
    assert (N : pushed_fine nothing) by (constructor; constructor).
    pose proof (group_common_ok g Hg) as C. pose proof (prov_ok g) as P.
    unfold convert_one in H. destruct (g_type g); try (injection H as <-; exact N).
    - injection H as <-. unfold convert_group. destruct (g_visibility g) as [[]|]; try exact N.
      constructor; cbn; repeat constructor; cbn; try assumption. apply uses_plain.
    - unfold convert_span in H. destruct (is_refinement_of g); cbn [negb] in H.
      + destruct (extends_group g) as [b|]; [|discriminate H].
        destruct (convert_assocs s local g) as [l| |] eqn:E; try discriminate H. cbn [conv_bind] in H. injection H as <-.
        apply assocs_fine in E. constructor; cbn; repeat constructor; cbn; try assumption. apply uses_small.
      + destruct (convert_assocs s local g) as [l| |] eqn:E; try discriminate H. cbn [conv_bind] in H. injection H as <-.
        apply assocs_fine in E. constructor; cbn; repeat constructor; cbn; try assumption; apply uses_small.
    - unfold convert_event in H. destruct (g_name g) as [name|]; [|discriminate H].
      destruct (convert_assocs s local g) as [l| |] eqn:E; try discriminate H. cbn [conv_bind] in H. injection H as <-.
      apply assocs_fine in E. destruct (is_refinement_of g); constructor; cbn; repeat constructor; cbn; try assumption; apply uses_plain.
    - unfold convert_metric in H. destruct (g_metric_name g) as [name|]; [|discriminate H].
      destruct (g_instrument g); [|discriminate H]. destruct (g_unit g); [|discriminate H].
      destruct (convert_assocs s local g) as [l| |] eqn:E; try discriminate H. cbn [conv_bind] in H. injection H as <-.
      apply assocs_fine in E. destruct (is_refinement_of g); constructor; cbn; repeat constructor; cbn; try assumption; apply uses_plain.
  Qed.

  Lemma signals_fine : forall local gs p, (forall g, In g gs -> In g (so_groups s)) ->
    signal_pass s cat local gs = Converted p -> pushed_fine p.
  Proof.
    intros local. induction gs as [|g r IH]; intros p Hg H; cbn [signal_pass] in H.
    - injection H as <-. constructor; constructor.
    - destruct (convert_one s cat local g) as [a| |] eqn:E; try discriminate H. cbn [conv_bind] in H.
      destruct (signal_pass s cat local r) as [b| |] eqn:E2; try discriminate H. cbn [conv_bind] in H. injection H as <-.
      destruct (one_fine _ _ _ (Hg g (or_introl eq_refl)) E). destruct (IH b (fun x Hx => Hg x (or_intror Hx)) eq_refl).
      constructor; cbn [join pu_groups pu_spans pu_span_refs pu_events pu_event_refs pu_metrics pu_metric_refs];
        apply Forall_app; split; assumption.
  Qed.

  Lemma dedup_in : forall l x, In x (ConvertModel.dedup l) -> In x l.
  Proof.
    induction l as [|a l IH]; intros x H; [exact H|]. destruct l as [|b l]; [exact H|].
    change (ConvertModel.dedup (a :: b :: l)) with (if Nat.eqb a b then ConvertModel.dedup (b :: l) else a :: ConvertModel.dedup (b :: l)) in H.
    destruct (Nat.eqb a b); [right; apply IH; exact H|]. destruct H as [->|H]; [left; reflexivity|right; apply IH; exact H].
  Qed.

  Lemma converted_fine : forall out, convert hash order name_of url_fits s = Converted out -> well_formed to_f64 url_parse out.
  Proof.
    intros out H. unfold convert in H. fold cat in H.
    destruct (entity_pass s cat) as [es| |] eqn:E; try discriminate H. cbn [conv_bind] in H.
    destruct (signal_pass s cat (local_entities (entity_refinements es)) (so_groups s)) as [p| |] eqn:E2; try discriminate H.
    cbn [conv_bind] in H. destruct (url_fits (so_url s)); [|discriminate H]. injection H as <-.
    apply pass_fine in E. apply signals_fine in E2; [|auto]. destruct E2 as [G1 G2 G3 G4 G5 G6 G7].
    rewrite Forall_forall in E.
    constructor; cbn; try assumption.
    - apply R.
    - exact cat_ok.
    - apply Forall_forall. intros i Hi. apply dedup_in in Hi. apply stable_sort_in in Hi.
      apply in_flat_map in Hi as (g & _ & Hi). unfold group_defs in Hi. apply in_flat_map in Hi as (r & _ & Hi).
      destruct (nth_error (so_catalog s) r) as [a|]; [|destruct Hi]. destruct (is_def g a); [|destruct Hi].
      destruct (convert_ref cat a) as [b|] eqn:F; [|destruct Hi]. destruct Hi as [<-|[]]. exact (ref_small a b F).
    - apply Forall_forall. intros e He. unfold entity_definitions in He. apply in_map_iff in He as (x & <- & Hx).
      apply filter_In in Hx as [Hx _]. exact (E x Hx).
    - apply Forall_forall. intros e He. unfold entity_refinements in He. apply in_map_iff in He as (x & <- & Hx). cbn [snd].
      exact (E x Hx).
    - destruct R as [_ _ _ _ (A & B & _)]. split; assumption.
  Qed.

  Lemma converted_text : forall out, convert hash order name_of url_fits s = Converted out ->
    (member_deprecated_by_text out <-> given_member_deprecated_by_text s).
  Proof.
    intros out H. assert (C : s2_catalog out = cat).
    { unfold convert in H. fold cat in H. destruct (entity_pass s cat) as [es| |]; try discriminate H. cbn [conv_bind] in H.
      destruct (signal_pass s cat _ (so_groups s)) as [p| |]; try discriminate H. cbn [conv_bind] in H.
      destruct (url_fits (so_url s)); [|discriminate H]. injection H as <-. reflexivity. }
    unfold member_deprecated_by_text, given_member_deprecated_by_text. rewrite C. split.
    - intros (b & ms & e & t & Hb & T & He & D). apply (catalog_in hash order name_of order_perm) in Hb as (a & Ha & ->).
      exists a, ms, e, t. auto.
    - intros (a & ms & e & t & Ha & T & He & D). exists (attribute_v2 name_of s a), ms, e, t. split; [|auto].
      apply (catalog_in hash order name_of order_perm). eauto.
  Qed.
End Pub.
