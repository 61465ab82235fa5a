(* C69: the fields a version 2 refinement inherits from the signal it refines. *)
From Coq Require Import String Ascii Bool Arith Lia Permutation NArith List.
Import ListNotations.
From Verif Require Import Base BaseProofs BaseProofs2 Json SemTypes Resolved Semver DefModel ResolveModel ResolveSpec
  ResolveProofs ExtProofs PropInherit.
Local Open Scope string_scope.

Fixpoint merge_entries (om acc : list (string * json)) : list (string * json) :=
  match om with
  | [] => acc
  | (k, v) :: r =>
    merge_entries r (match slookup k acc with
                     | Some b => sinsert k (merge_json v b) acc
                     | None => app acc [(k, v)]
                     end)
  end.
Lemma merge_json_obj om bm : merge_json (JObj om) (JObj bm) = JObj (merge_entries om bm).
Proof. reflexivity. Qed.
Lemma slookup_snoc {V} k (v : V) m k' : slookup k m = None ->
  slookup k' (app m [(k, v)]) = if String.eqb k' k then Some v else slookup k' m.
Proof.
  intros H. unfold slookup in *. induction m as [|[a b] m IH]; cbn [app lookup] in *; [reflexivity|].
  destruct (String.eqb k a) eqn:E; [discriminate|]. destruct (String.eqb k' a) eqn:E'.
  - destruct (String.eqb_spec k' k) as [->|]; [|reflexivity]. congruence.
  - apply IH, H.
Qed.
Definition merged_at (o b : option json) : option json :=
  match o with
  | None => b
  | Some v => match b with Some b => Some (merge_json v b) | None => Some v end
  end.
Lemma merge_entries_at om : forall acc, NoDup (map fst om) -> forall k,
  slookup k (merge_entries om acc) = merged_at (slookup k om) (slookup k acc).
Proof.
  induction om as [|[a v] om IH]; intros acc Hn k; [reflexivity|]. cbn [merge_entries].
  inversion Hn as [|? ? Hni Hn']; subst. rewrite IH by exact Hn'.
  assert (Hc : slookup k ((a, v) :: om) = if String.eqb k a then Some v else slookup k om) by reflexivity.
  rewrite Hc. clear Hc.
  destruct (slookup a acc) as [b|] eqn:Ea.
  - rewrite slookup_sinsert. destruct (String.eqb_spec k a) as [->|N]; [|reflexivity].
    rewrite (proj2 (slookup_none om a) Hni). cbn [merged_at]. rewrite Ea. reflexivity.
  - rewrite slookup_snoc by exact Ea. destruct (String.eqb_spec k a) as [->|N]; [|reflexivity].
    rewrite (proj2 (slookup_none om a) Hni). cbn [merged_at]. rewrite Ea. reflexivity.
Qed.
Lemma merge_json_deep o : unique_keys o -> forall b, deep b o (merge_json o b).
Proof.
  induction o as [| | | | |om IH] using json_ind2; intros Hu base;
    try (apply deep_other; intros; discriminate).
  inversion Hu as [m Hn Hk E|j Hj E]; subst; [|exfalso; apply (Hj om); reflexivity].
  destruct base as [| | | | |bm]; try (apply deep_other; intros; discriminate).
  rewrite merge_json_obj. constructor.
  - intros k H. rewrite merge_entries_at by exact Hn. rewrite H. reflexivity.
  - intros k o H H'. rewrite merge_entries_at by exact Hn. rewrite H, H'. reflexivity.
  - intros k b o H H'. exists (merge_json o b). rewrite merge_entries_at by exact Hn. rewrite H, H'.
    split; [reflexivity|]. apply (slookup_in _ _ _ Hn) in H. rewrite Forall_forall in IH.
    apply (IH _ H). apply (Hk k), H.
Qed.
Lemma merge_annotations_at om : forall acc, NoDup (map fst om) -> forall k,
  slookup k (merge_annotations acc om) = merged_at (slookup k om) (slookup k acc).
Proof.
  induction om as [|[a v] om IH]; intros acc Hn k; [reflexivity|]. cbn [merge_annotations].
  inversion Hn as [|? ? Hni Hn']; subst. rewrite IH by exact Hn'.
  assert (Hc : slookup k ((a, v) :: om) = if String.eqb k a then Some v else slookup k om) by reflexivity.
  rewrite Hc. clear Hc.
  destruct (slookup a acc) as [b|] eqn:Ea.
  - rewrite bt_insert_lookup. destruct (String.eqb_spec k a) as [->|N]; [|reflexivity].
    rewrite (proj2 (slookup_none om a) Hni). cbn [merged_at]. rewrite Ea. reflexivity.
  - rewrite bt_insert_lookup. destruct (String.eqb_spec k a) as [->|N]; [|reflexivity].
    rewrite (proj2 (slookup_none om a) Hni). cbn [merged_at]. rewrite Ea. reflexivity.
Qed.
Lemma merge_annotations_deep om bm : unique_keys (JObj om) -> deep (JObj bm) (JObj om) (JObj (merge_annotations bm om)).
Proof.
  intros Hu. inversion Hu as [m Hn Hk E|j Hj E]; subst; [|exfalso; apply (Hj om); reflexivity].
  constructor.
  - intros k H. rewrite merge_annotations_at by exact Hn. rewrite H. reflexivity.
  - intros k o H H'. rewrite merge_annotations_at by exact Hn. rewrite H, H'. reflexivity.
  - intros k b o H H'. exists (merge_json o b). rewrite merge_annotations_at by exact Hn. rewrite H, H'.
    split; [reflexivity|]. apply (slookup_in _ _ _ Hn) in H. apply merge_json_deep, (Hk k), H.
Qed.

Lemma inherit_fields_refined g p : (forall m, g_annotations g = Some m -> unique_keys (JObj m)) ->
  refined g p (inherit_fields g p).
Proof.
  intros Hu. unfold refined, inherit_fields; cbn [g_id g_type g_prefix g_events g_name g_display_name g_body g_assocs
    g_visibility g_is_v2 g_brief g_note g_stability g_deprecated g_span_name g_metric_name g_instrument g_unit
    g_span_kind g_level g_annotations].
  assert (T : forall a b, str_or a b = text_or a b) by (intros [|] b; reflexivity).
  assert (O : forall A (a b : option A), opt_or a b = first_set a b) by (intros A [|] b; reflexivity).
  rewrite !T, !O. repeat (split; [reflexivity|]).
  unfold annotations_merged.
  set (base := opt_get (sm_annotations p) []).
  replace (match sm_annotations p with Some m => m | None => [] end) with base by (unfold base; destruct (sm_annotations p); reflexivity).
  set (m := match g_annotations g with Some c => merge_annotations base c | None => base end).
  assert (D : deep (JObj base) (JObj match g_annotations g with Some m => m | None => [] end) (JObj m)).
  { unfold m. destruct (g_annotations g) as [c|] eqn:E; [apply merge_annotations_deep, Hu; reflexivity|].
    apply (merge_annotations_deep [] base). constructor; [constructor|intros k v []]. }
  destruct m as [|x m']; (split; [exact D|discriminate]).
Qed.
Lemma refined_lineage g p g' l : refined g p g' -> refined g p (set_lineage l g').
Proof. exact (fun H => H). Qed.

(* C69 *)
Theorem C69_refinement_fields : forall e gs gs', resolve_extends e gs = Done gs' ->
  Forall2 (fun u u' =>
     (ug_is_v2 u = true -> forall p, g_extends (ug_group u) = Some p ->
        (forall m, g_annotations (ug_group u) = Some m -> unique_keys (JObj m)) ->
        exists s, signal_of e gs' p s /\ refined (ug_group u) s (ug_group u')) /\
     (ug_is_v2 u = false \/ g_extends (ug_group u) = None ->
        same_fields (ug_group u') (set_extends None (ug_group u)))) gs gs'.
Proof.
  intros e gs gs' H. unfold resolve_extends in H.
  destruct (ext_loop_done e gs _ _ _ _ (progress_refl e gs) H) as [Hp Hs]. unfold progress in Hp.
  assert (G : Forall2 (fun u v => (v = u \/ (is_settled u = false /\ built e gs' u v)) /\ is_settled v = true) gs gs').
  { set (R := fun u v => v = u \/ (is_settled u = false /\ built e gs' u v)).
    assert (A : forall l l', Forall2 R l l' -> Forall (fun v => is_settled v = true) l' ->
                 Forall2 (fun u v => R u v /\ is_settled v = true) l l').
    { induction 1 as [|u v l l' Huv _ IH]; intros Hs'; [constructor|].
      inversion Hs' as [|? ? Hv Hs'']; subst. constructor; [split; assumption|apply IH, Hs'']. }
    apply A; assumption. }
  revert G. apply Forall2_impl. intros u v [[->|[Hu (par & inc & -> & Hpar & Hinc)]] Hv].
  - apply is_settled_spec in Hv as [He _]. split; [intros _ p Hp'; congruence|].
    intros _. destruct (ug_group u); cbn in He |- *. rewrite He. repeat split.
  - split.
    + intros H2 p Hext Ha. unfold par_ok in Hpar. rewrite Hext in Hpar.
      destruct par as [[p' s]|]; [|destruct Hpar]. destruct Hpar as [-> Hpar]. exists s. split.
      * destruct Hpar as [(w & Hw & Hsw & Hid & ->)|(d & Hd & Hs1 & _)].
        -- left. exists w. split; [exact Hw|]. split; [exact Hid|]. split; [apply targets_settled, Hsw|].
           repeat split.
        -- right. exists d. split; assumption.
      * unfold finish_group. rewrite H2.
        apply (inherit_fields_refined (upd_lineage (gl_extend p (sm_type s)) (ug_group u)) s Ha).
    + intros Hor. unfold finish_group. unfold par_ok in Hpar.
      destruct Hor as [H2|H2].
      * destruct par as [[p' s]|]; [rewrite H2|]; repeat split.
      * rewrite H2 in Hpar. destruct par as [[p' s]|]; [destruct Hpar|]. repeat split.
Qed.
Print Assumptions C69_refinement_fields.

Definition ann (k v : string) : string * json := (k, JObj [(v, JBool true)]).
Definition refinement69 : ugroup :=
  with_group (v2_refinement "load.refined" "metric.load" GMetric)
    (let g := ug_group (v2_refinement "load.refined" "metric.load" GMetric) in
     {| g_id := g_id g; g_type := g_type g; g_brief := ""; g_note := "own note"; g_prefix := ""; g_extends := g_extends g;
        g_stability := None; g_deprecated := None; g_attributes := []; g_span_kind := None; g_events := [];
        g_metric_name := None; g_instrument := None; g_unit := None; g_name := None; g_lineage := g_lineage g;
        g_display_name := None; g_body := None; g_annotations := Some [ann "code" "child"]; g_assocs := [];
        g_visibility := None; g_is_v2 := true; g_span_name := None; g_level := None |}).
Definition metric69 : ugroup :=
  let u := sample_group "metric.load" GMetric None None [] [sample_id "x" "an attribute"] in
  with_group u
    (let g := ug_group u in
     {| g_id := g_id g; g_type := g_type g; g_brief := "parent brief"; g_note := "parent note"; g_prefix := ""; g_extends := None;
        g_stability := Some SStable; g_deprecated := None; g_attributes := []; g_span_kind := None; g_events := [];
        g_metric_name := Some "load"; g_instrument := Some Gauge; g_unit := Some "1"; g_name := None; g_lineage := g_lineage g;
        g_display_name := None; g_body := None; g_annotations := Some [ann "code" "parent"; ann "docs" "parent"]; g_assocs := [];
        g_visibility := None; g_is_v2 := false; g_span_name := None; g_level := None |}).
Example C69_case : exists a b, resolve_extends no_env [refinement69; metric69] = Done [a; b] /\
  g_brief (ug_group a) = "parent brief" /\ g_note (ug_group a) = "own note" /\ g_unit (ug_group a) = Some "1" /\
  g_metric_name (ug_group a) = Some "load" /\ g_stability (ug_group a) = Some SStable /\
  g_annotations (ug_group a) =
    Some [("code", JObj [("parent", JBool true); ("child", JBool true)]); ann "docs" "parent"] /\
  ug_is_v2 refinement69 = true /\ unique_keys (JObj [ann "code" "child"]).
Proof.
  eexists. eexists. split; [vm_compute; reflexivity|]. repeat (split; [reflexivity|]).
  constructor; [repeat constructor; intros []|]. intros k v [E|[]]. injection E as <- <-.
  constructor; [repeat constructor; intros []|]. intros k v [E|[]]. injection E as <- <-.
  apply uk_other. discriminate.
Qed.
