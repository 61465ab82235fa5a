(* Proofs about the translation of version 2 definitions and the reading of files. *)
From Coq Require Import String Ascii Bool Arith Lia Permutation ZArith NArith List.
Import ListNotations.
From Verif Require Import Base BaseProofs Json SemTypes Resolved ResultModel ResultSpec VdirModel Str CodeModel CodeSpec
  DefModel DefSpec DefProofs.
Local Open Scope string_scope.

(* ** every definition is carried *)
Lemma annotated_opt m : annotated m (opt_annotations m).
Proof. destruct m; [left; auto|right; split; [discriminate|reflexivity]]. Qed.
Lemma opt_annotations_inj m m' : opt_annotations m = opt_annotations m' -> m = m'.
Proof. destruct m, m'; cbn; congruence. Qed.
Lemma split_refs_eq l : split_refs l = (map (fun p => ref_to_v1 None (snd p) (fst p)) (attrs_of l), groups_of l).
Proof.
  induction l as [|[a s|g] l IH]; [reflexivity| |]; cbn [split_refs]; rewrite IH; reflexivity.
Qed.
Lemma ref_to_v1_as role s a : ref_as role (a, s) (ref_to_v1 role s a).
Proof. eexists. split; [reflexivity|]. cbn. repeat (split; [first [reflexivity|apply annotated_opt]|]). reflexivity. Qed.
Lemma def_to_v1_as a : def_as a (def_to_v1 a).
Proof. eexists. split; [reflexivity|]. cbn. repeat (split; [first [reflexivity|apply annotated_opt]|]). reflexivity. Qed.
Lemma forall2_map {A B} (R : A -> B -> Prop) (f : A -> B) l : (forall x, R x (f x)) -> Forall2 R l (map f l).
Proof. intros H. induction l; constructor; auto. Qed.
Lemma uses_refs l : Forall2 (ref_as None) (attrs_of l) (map (fun p => ref_to_v1 None (snd p) (fst p)) (attrs_of l)).
Proof. apply forall2_map. intros [a s]. apply ref_to_v1_as. Qed.
Lemma entity_uses_refs i d g : gs_attributes g = entity_refs i d -> gs_include g = [] -> entity_uses i d g.
Proof.
  intros A E. unfold entity_uses. rewrite A. unfold entity_refs. eexists _, _. split; [reflexivity|]. split; [exact E|].
  split; apply forall2_map; intros a; apply ref_to_v1_as.
Qed.
Lemma text_opt o : text_as o (opt_text o). Proof. destruct o; [right|left]; auto. Qed.

Ltac trivia := cbn; repeat split; try reflexivity; try apply annotated_opt; try apply text_opt.
Lemma entity_to_v1_as e : entity_as e (entity_to_v1 e).
Proof. unfold entity_as. pose proof (entity_uses_refs (ed_identity e) (ed_description e) (entity_to_v1 e) eq_refl eq_refl) as U.
  unfold commonly, unused. trivia. exact U. Qed.
Lemma event_to_v1_as e : event_as e (event_to_v1 e).
Proof. unfold event_as, event_to_v1, uses, commonly, unused. rewrite split_refs_eq. trivia. apply uses_refs. Qed.
Lemma metric_to_v1_as e : metric_as e (metric_to_v1 e).
Proof. unfold metric_as, metric_to_v1, uses, commonly, unused. rewrite split_refs_eq. trivia. apply uses_refs. Qed.
Lemma span_to_v1_as e : span_as e (span_to_v1 e).
Proof. unfold span_as, span_to_v1, uses, commonly, unused. rewrite split_refs_eq. trivia. apply uses_refs. Qed.
Lemma group_to_v1_as e : group_as e (group_to_v1 e).
Proof. unfold group_as, group_to_v1, uses, commonly, unused. destruct e; rewrite split_refs_eq; trivia; apply uses_refs. Qed.
Lemma entity_refinement_to_v1_as e : entity_refinement_as e (entity_refinement_to_v1 e).
Proof. unfold entity_refinement_as.
  pose proof (entity_uses_refs (er_identity e) (er_description e) (entity_refinement_to_v1 e) eq_refl eq_refl) as U.
  unfold refines, unused. trivia. exact U. Qed.
Lemma event_refinement_to_v1_as e : signal_refinement_as GEvent "event" e (event_refinement_to_v1 e).
Proof. unfold signal_refinement_as, event_refinement_to_v1, uses, refines, unused. rewrite split_refs_eq. trivia; [apply uses_refs|discriminate]. Qed.
Lemma metric_refinement_to_v1_as e : signal_refinement_as GMetric "metric" e (metric_refinement_to_v1 e).
Proof. unfold signal_refinement_as, metric_refinement_to_v1, uses, refines, unused. rewrite split_refs_eq. trivia; [apply uses_refs|discriminate]. Qed.
Lemma span_refinement_to_v1_as e : signal_refinement_as GSpan "span" e (span_refinement_to_v1 e).
Proof. unfold signal_refinement_as, span_refinement_to_v1, uses, refines, unused. rewrite split_refs_eq. trivia. apply uses_refs. Qed.
Lemma synthetic_as f l : attributes_as f l (match l with [] => [] | a :: r => [synthetic_group f (a :: r)] end).
Proof.
  destruct l as [|a l]; [reflexivity|]. cbn [attributes_as]. eexists. split; [reflexivity|].
  assert (F : Forall2 def_as (a :: l) (map def_to_v1 (a :: l))) by (apply forall2_map, def_to_v1_as).
  unfold unused. cbn. repeat split; exact F.
Qed.

(* ** nothing is lost *)
Definition kind_of (g : group_spec) : nat :=
  match gs_type g, gs_extends g, gs_visibility g with
  | GAttributeGroup, _, None => 0
  | GAttributeGroup, _, Some _ => 5
  | GEntity, None, _ => 1 | GEntity, Some _, _ => 6
  | GEvent, None, _ => 2 | GEvent, Some _, _ => 7
  | GMetric, None, _ => 3 | GMetric, Some _, _ => 8
  | GSpan, None, _ => 4 | GSpan, Some _, _ => 9
  | _, _, _ => 10
  end.
Definition pick (n : nat) (l : list group_spec) : list group_spec := filter (fun g => Nat.eqb (kind_of g) n) l.
Lemma pick_app n a b : pick n (a ++ b)%list = (pick n a ++ pick n b)%list.
Proof. apply filter_app. Qed.
Lemma pick_map {A} (f : A -> group_spec) k n l : (forall x, kind_of (f x) = k) ->
  pick n (map f l) = if Nat.eqb k n then map f l else [].
Proof.
  intros H. induction l as [|x l IH]; [cbn; destruct (Nat.eqb k n); reflexivity|]. unfold pick in *. cbn [map filter].
  rewrite H. destruct (Nat.eqb k n); rewrite IH; reflexivity.
Qed.
Lemma pick_synth f n l : pick n (match l with [] => [] | a :: r => [synthetic_group f (a :: r)] end) =
  if Nat.eqb 0 n then (match l with [] => [] | a :: r => [synthetic_group f (a :: r)] end) else [].
Proof. destruct l; [destruct n; reflexivity|]. destruct n; reflexivity. Qed.

Lemma kind_entity x : kind_of (entity_to_v1 x) = 1. Proof. reflexivity. Qed.
Lemma kind_event x : kind_of (event_to_v1 x) = 2. Proof. unfold event_to_v1. destruct (split_refs _). reflexivity. Qed.
Lemma kind_metric x : kind_of (metric_to_v1 x) = 3. Proof. unfold metric_to_v1. destruct (split_refs _). reflexivity. Qed.
Lemma kind_span x : kind_of (span_to_v1 x) = 4. Proof. unfold span_to_v1. destruct (split_refs _). reflexivity. Qed.
Lemma kind_group x : kind_of (group_to_v1 x) = 5. Proof. unfold group_to_v1. destruct x; destruct (split_refs _); reflexivity. Qed.
Lemma kind_er x : kind_of (entity_refinement_to_v1 x) = 6. Proof. reflexivity. Qed.
Lemma kind_evr x : kind_of (event_refinement_to_v1 x) = 7. Proof. unfold event_refinement_to_v1. destruct (split_refs _). reflexivity. Qed.
Lemma kind_mr x : kind_of (metric_refinement_to_v1 x) = 8. Proof. unfold metric_refinement_to_v1. destruct (split_refs _). reflexivity. Qed.
Lemma kind_sr x : kind_of (span_refinement_to_v1 x) = 9. Proof. unfold span_refinement_to_v1. destruct (split_refs _). reflexivity. Qed.

Lemma pick_all s f n : pick n (sp1_groups (into_v1 s f)) =
  match n with
  | 0 => match s2d_attributes s with [] => [] | l => [synthetic_group f l] end
  | 1 => map entity_to_v1 (s2d_entities s)
  | 2 => map event_to_v1 (s2d_events s)
  | 3 => map metric_to_v1 (s2d_metrics s)
  | 4 => map span_to_v1 (s2d_spans s)
  | 5 => map group_to_v1 (s2d_groups s)
  | 6 => map entity_refinement_to_v1 (s2d_entity_refinements s)
  | 7 => map event_refinement_to_v1 (s2d_event_refinements s)
  | 8 => map metric_refinement_to_v1 (s2d_metric_refinements s)
  | 9 => map span_refinement_to_v1 (s2d_span_refinements s)
  | _ => []
  end.
Proof.
  cbn [into_v1 sp1_groups]. rewrite !pick_app, pick_synth.
  rewrite (pick_map entity_to_v1 1 n _ kind_entity), (pick_map event_to_v1 2 n _ kind_event),
    (pick_map metric_to_v1 3 n _ kind_metric), (pick_map span_to_v1 4 n _ kind_span), (pick_map group_to_v1 5 n _ kind_group),
    (pick_map entity_refinement_to_v1 6 n _ kind_er), (pick_map event_refinement_to_v1 7 n _ kind_evr),
    (pick_map metric_refinement_to_v1 8 n _ kind_mr), (pick_map span_refinement_to_v1 9 n _ kind_sr).
  do 10 (destruct n as [|n]; [cbn [Nat.eqb app]; rewrite ?app_nil_r; reflexivity|]). reflexivity.
Qed.

Lemma map_forall2 {A B} (R : A -> A -> Prop) (f : A -> B) : (forall x y, f x = f y -> R x y) ->
  forall l l', map f l = map f l' -> Forall2 R l l'.
Proof.
  intros H. induction l as [|x l IH]; intros [|y l'] E; try discriminate E; constructor.
  - apply H. injection E as E _. exact E.
  - apply IH. injection E as _ E. exact E.
Qed.
Lemma forall2_eq {A} (l l' : list A) : Forall2 eq l l' -> l = l'.
Proof. induction 1; congruence. Qed.
Lemma map_inj {A B} (f : A -> B) : (forall x y, f x = f y -> x = y) -> forall l l', map f l = map f l' -> l = l'.
Proof. intros H l l' E. apply forall2_eq. exact (map_forall2 eq f H l l' E). Qed.

Lemma ref_inj role s a s' a' : ref_to_v1 role s a = ref_to_v1 role s' a' -> a = a' /\ s = s'.
Proof.
  destruct a as [a1 a2 a3 a4 a5 a6 a7 a8], a' as [b1 b2 b3 b4 b5 b6 b7 b8]. unfold ref_to_v1; cbn. intros E.
  injection E as E1 E2 E3 E4 E5 E6 E7 E8 E9. apply opt_annotations_inj in E9. subst. auto.
Qed.
Lemma common_eq c c' : c_brief c = c_brief c' -> c_note c = c_note c' -> c_stability c = c_stability c' ->
  c_deprecated c = c_deprecated c' -> c_annotations c = c_annotations c' -> c = c'.
Proof. destruct c, c'; cbn; intros; subst; reflexivity. Qed.
Lemma def_inj a a' : def_to_v1 a = def_to_v1 a' -> a = a'.
Proof.
  destruct a as [a1 a2 a3 a4], a' as [b1 b2 b3 b4]. unfold def_to_v1; cbn. intros E.
  injection E as E1 E2 E3 E4 E5 E6 E7 E8. apply opt_annotations_inj in E8. f_equal; auto. apply common_eq; auto.
Qed.
Lemma refs_inj l l' : map (fun p : attr_ref2 * option bool => ref_to_v1 None (snd p) (fst p)) l =
  map (fun p => ref_to_v1 None (snd p) (fst p)) l' -> l = l'.
Proof.
  apply map_inj. intros [a s] [a' s'] E. cbn [fst snd] in E. apply ref_inj in E. destruct E; congruence.
Qed.
Lemma cons_inj {A} (x y : A) l l' : x :: l = y :: l' -> x = y /\ l = l'.
Proof. intros E. injection E as E1 E2. auto. Qed.
Lemma entity_refs_inj i d i' d' : entity_refs i d = entity_refs i' d' -> i = i' /\ d = d'.
Proof.
  unfold entity_refs. revert i'. induction i as [|a i IH]; intros [|a' i'] E; cbn [map app] in E.
  - split; [reflexivity|]. revert E. apply map_inj. intros x y E. exact (proj1 (ref_inj _ _ _ _ _ E)).
  - destruct d; discriminate E.
  - destruct d'; discriminate E.
  - apply cons_inj in E. destruct E as [E1 E2]. assert (X : a = a') by exact (proj1 (ref_inj _ _ _ _ _ E1)).
    destruct (IH i' E2) as [-> ->]. rewrite X. auto.
Qed.

Ltac fld f E := let X := fresh "X" in pose proof (f_equal f E) as X; cbn in X.
Lemma prefix_inj p a b : p ++ a = p ++ b -> a = b.
Proof. induction p as [|c p IH]; cbn; [auto|]. intros E. injection E as E. auto. Qed.
Lemma opt_text_same a b : opt_text a = opt_text b -> same_text a b.
Proof. intros E. exists (opt_text a). split; [apply text_opt|]. rewrite E. apply text_opt. Qed.

Lemma entity_inj x y : entity_to_v1 x = entity_to_v1 y -> x = y.
Proof.
  intros E. pose proof (f_equal gs_name E) as E1. pose proof (f_equal gs_attributes E) as E2.
  pose proof (f_equal gs_level E) as E3. pose proof (f_equal gs_brief E) as E4. pose proof (f_equal gs_note E) as E5.
  pose proof (f_equal gs_stability E) as E6. pose proof (f_equal gs_deprecated E) as E7. pose proof (f_equal gs_annotations E) as E8.
  cbn [entity_to_v1 gs_name gs_attributes gs_level gs_brief gs_note gs_stability gs_deprecated gs_annotations] in *.
  apply entity_refs_inj in E2. destruct E2 as [E2 E2']. apply opt_annotations_inj in E8. injection E1 as E1. injection E6 as E6.
  destruct x as [x1 x2 x3 x4 x5], y as [y1 y2 y3 y4 y5]. cbn in *. subst. f_equal. apply common_eq; auto.
Qed.

Ltac split_eqs := rewrite !split_refs_eq in *.
Lemma event_inj x y : event_to_v1 x = event_to_v1 y -> same_event x y.
Proof.
  unfold event_to_v1. rewrite !split_refs_eq. intros E. injection E as _ E4 E5 E6 E7 E2 E1 E8 E9 E10 E3.
  apply opt_annotations_inj in E8. apply refs_inj in E2.
  unfold same_event, same_uses. repeat split; auto. apply common_eq; auto.
Qed.
Lemma metric_inj x y : metric_to_v1 x = metric_to_v1 y -> same_metric x y.
Proof.
  unfold metric_to_v1. rewrite !split_refs_eq. intros E. injection E as _ E4 E5 E6 E7 E2 E1 I U E8 E9 E10 E3.
  apply opt_annotations_inj in E8. apply refs_inj in E2.
  unfold same_metric, same_uses. repeat split; auto. apply common_eq; auto.
Qed.
Lemma span_inj x y : span_to_v1 x = span_to_v1 y -> same_span x y.
Proof.
  unfold span_to_v1. rewrite !split_refs_eq. intros E. injection E as _ E4 E5 E6 E7 E2 K E1 E8 E9 E10 SN E3.
  apply opt_annotations_inj in E8. apply refs_inj in E2.
  unfold same_span, same_uses. repeat split; auto. apply common_eq; auto.
Qed.
Lemma group_inj x y : group_to_v1 x = group_to_v1 y -> same_group x y.
Proof.
  unfold group_to_v1. destruct x as [i l|i l c], y as [i' l'|i' l' c']; rewrite !split_refs_eq; intros E.
  - pose proof (f_equal gs_id E) as E1. pose proof (f_equal gs_attributes E) as E2. pose proof (f_equal gs_include E) as E3.
    cbn [gs_id gs_attributes gs_include] in *. apply refs_inj in E2. split; [exact E1|split; assumption].
  - pose proof (f_equal gs_visibility E) as X. discriminate X.
  - pose proof (f_equal gs_visibility E) as X. discriminate X.
  - pose proof (f_equal gs_id E) as E1. pose proof (f_equal gs_attributes E) as E2. pose proof (f_equal gs_include E) as E3.
    pose proof (f_equal gs_brief E) as E4. pose proof (f_equal gs_note E) as E5.
    pose proof (f_equal gs_stability E) as E6. pose proof (f_equal gs_deprecated E) as E7. pose proof (f_equal gs_annotations E) as E8.
    cbn [gs_id gs_attributes gs_include gs_brief gs_note gs_stability gs_deprecated gs_annotations] in *.
    apply refs_inj in E2. apply opt_annotations_inj in E8. injection E6 as E6.
    split; [exact E1|]. split; [split; assumption|]. apply common_eq; auto.
Qed.
Lemma refining_inj p (b b' : refining) (g g' : group_spec) : g = g' ->
  gs_id g = rf_id b -> gs_id g' = rf_id b' -> gs_extends g = Some (p ++ rf_ref b) -> gs_extends g' = Some (p ++ rf_ref b') ->
  gs_brief g = opt_text (rf_brief b) -> gs_brief g' = opt_text (rf_brief b') ->
  gs_note g = opt_text (rf_note b) -> gs_note g' = opt_text (rf_note b') ->
  gs_stability g = rf_stability b -> gs_stability g' = rf_stability b' ->
  gs_deprecated g = rf_deprecated b -> gs_deprecated g' = rf_deprecated b' ->
  gs_annotations g = opt_annotations (rf_annotations b) -> gs_annotations g' = opt_annotations (rf_annotations b') ->
  same_refining b b'.
Proof.
  intros -> A1 A2 B1 B2 C1 C2 D1 D2 E1 E2 F1 F2 G1 G2. unfold same_refining.
  split; [congruence|]. split; [apply (prefix_inj p); congruence|]. split; [apply opt_text_same; congruence|].
  split; [apply opt_text_same; congruence|]. split; [congruence|]. split; [congruence|]. apply opt_annotations_inj. congruence.
Qed.
Lemma er_inj x y : entity_refinement_to_v1 x = entity_refinement_to_v1 y -> same_entity_refinement x y.
Proof.
  intros E. split; [apply (refining_inj "entity." _ _ _ _ E); reflexivity|].
  pose proof (f_equal gs_attributes E) as E2. cbn [entity_refinement_to_v1 gs_attributes] in E2. apply entity_refs_inj in E2. exact E2.
Qed.
Lemma evr_inj x y : event_refinement_to_v1 x = event_refinement_to_v1 y -> same_signal_refinement false x y.
Proof.
  unfold event_refinement_to_v1. rewrite !split_refs_eq. intros E. split; [apply (refining_inj "event." _ _ _ _ E); reflexivity|].
  pose proof (f_equal gs_attributes E) as E2. pose proof (f_equal gs_include E) as E3. pose proof (f_equal gs_assocs E) as E4.
  cbn [gs_attributes gs_include gs_assocs] in *. apply refs_inj in E2. split; [split; assumption|]. split; [exact E4|discriminate].
Qed.
Lemma mr_inj x y : metric_refinement_to_v1 x = metric_refinement_to_v1 y -> same_signal_refinement false x y.
Proof.
  unfold metric_refinement_to_v1. rewrite !split_refs_eq. intros E. split; [apply (refining_inj "metric." _ _ _ _ E); reflexivity|].
  pose proof (f_equal gs_attributes E) as E2. pose proof (f_equal gs_include E) as E3. pose proof (f_equal gs_assocs E) as E4.
  cbn [gs_attributes gs_include gs_assocs] in *. apply refs_inj in E2. split; [split; assumption|]. split; [exact E4|discriminate].
Qed.
Lemma sr_inj x y : span_refinement_to_v1 x = span_refinement_to_v1 y -> same_signal_refinement true x y.
Proof.
  unfold span_refinement_to_v1. rewrite !split_refs_eq. intros E. split; [apply (refining_inj "span." _ _ _ _ E); reflexivity|].
  pose proof (f_equal gs_attributes E) as E2. pose proof (f_equal gs_include E) as E3. pose proof (f_equal gs_assocs E) as E4.
  pose proof (f_equal gs_span_name E) as E5.
  cbn [gs_attributes gs_include gs_assocs gs_span_name] in *. apply refs_inj in E2. split; [split; assumption|]. split; [exact E4|intros _; exact E5].
Qed.

Lemma into_v1_inj s s' f : into_v1 s f = into_v1 s' f -> same_file s s'.
Proof.
  intros E. assert (P : forall n, pick n (sp1_groups (into_v1 s f)) = pick n (sp1_groups (into_v1 s' f))) by (rewrite E; reflexivity).
  pose proof (f_equal sp1_imports E) as EI. cbn [into_v1 sp1_imports] in EI.
  pose proof (P 0) as P0. pose proof (P 1) as P1. pose proof (P 2) as P2. pose proof (P 3) as P3. pose proof (P 4) as P4.
  pose proof (P 5) as P5. pose proof (P 6) as P6. pose proof (P 7) as P7. pose proof (P 8) as P8. pose proof (P 9) as P9.
  rewrite !pick_all in *. clear P E.
  unfold same_file. repeat split.
  - destruct (s2d_attributes s) as [|a l] eqn:A, (s2d_attributes s') as [|a' l'] eqn:A'; try discriminate P0; [reflexivity|].
    assert (X : map gs_attributes [synthetic_group f (a :: l)] = map gs_attributes [synthetic_group f (a' :: l')]) by (rewrite P0; reflexivity).
    cbn [map synthetic_group gs_attributes] in X. apply (map_inj def_to_v1 def_inj).
    exact (proj1 (cons_inj _ _ _ _ X)).
  - exact (map_inj _ entity_inj _ _ P1).
  - exact (map_forall2 _ _ event_inj _ _ P2).
  - exact (map_forall2 _ _ metric_inj _ _ P3).
  - exact (map_forall2 _ _ span_inj _ _ P4).
  - exact (map_forall2 _ _ group_inj _ _ P5).
  - exact (map_forall2 _ _ er_inj _ _ P6).
  - exact (map_forall2 _ _ evr_inj _ _ P7).
  - exact (map_forall2 _ _ mr_inj _ _ P8).
  - exact (map_forall2 _ _ sr_inj _ _ P9).
  - exact EI.
Qed.

(* ** validation of version 2 files *)
Lemma overlaps_in i d g e : In e (overlaps i d g) <-> exists k, e = EBothLists g k /\ in_both i d k.
Proof.
  unfold overlaps, in_both. rewrite in_flat_map. split.
  - intros (a & I & J). unfold when in J. destruct (existsb _ i) eqn:X; [|destruct J]. destruct J as [<-|[]].
    apply existsb_exists in X. destruct X as (b & Ib & Eb). apply String.eqb_eq in Eb. exists (ar_ref a).
    split; [reflexivity|]. split; eauto.
  - intros (k & -> & (a & Ia & Ea) & (b & Ib & Eb)). exists b. split; [exact Ib|]. unfold when.
    replace (existsb _ i) with true; [left; congruence|]. symmetry. apply existsb_exists. exists a. split; [exact Ia|].
    apply String.eqb_eq. congruence.
Qed.
Lemma identity_errors_in s e : In e (identity_errors s) <->
  (exists x, In x (s2d_entities s) /\ ((exists k, e = EBothLists (ed_type x) k /\ in_both (ed_identity x) (ed_description x) k) \/
                                       (e = ENoIdentity (ed_type x) /\ ed_identity x = []))) \/
  (exists r k, In r (s2d_entity_refinements s) /\ e = EBothLists (rf_id (er_base r)) k /\ in_both (er_identity r) (er_description r) k).
Proof.
  unfold identity_errors. rewrite in_app_iff, !in_flat_map. split.
  - intros [(x & I & J)|(r & I & J)].
    + left. exists x. split; [exact I|]. apply in_app_or in J. destruct J as [J|J]; [left; apply overlaps_in; exact J|right].
      destruct (ed_identity x); [|destruct J]. destruct J as [<-|[]]. auto.
    + right. apply overlaps_in in J. destruct J as (k & E & B). exists r, k. auto.
  - intros [(x & I & [J|[E N]])|(r & k & I & E & B)].
    + left. exists x. split; [exact I|]. apply in_or_app. left. apply overlaps_in. exact J.
    + left. exists x. split; [exact I|]. apply in_or_app. right. rewrite N, E. left. reflexivity.
    + right. exists r. split; [exact I|]. apply overlaps_in. eauto.
Qed.

(* ** file formats *)
Lemma field_str_iff k y v : field_str k y = Some v <-> says y k v.
Proof.
  unfold field_str, says. destruct y as [|b|n|s|l|m]; try (split; [discriminate|intros (m' & E & _); discriminate E]).
  split.
  - intros E. exists m. split; [reflexivity|]. destruct (slookup k m) as [[]|]; try discriminate E. congruence.
  - intros (m' & E & F). injection E as <-. rewrite F. reflexivity.
Qed.
Lemma field_str_none k y : field_str k y = None <-> silent y k.
Proof.
  split.
  - intros E v H. apply field_str_iff in H. congruence.
  - intros H. destruct (field_str k y) as [v|] eqn:E; [|reflexivity]. apply field_str_iff in E. destruct (H v E).
Qed.
Lemma opt_is_iff o s : opt_is o s = true <-> o = Some s.
Proof.
  destruct o as [x|]; cbn; [|split; discriminate]. rewrite String.eqb_eq. split; congruence.
Qed.
Lemma v2_iff y : (opt_is (field_str "file_format" y) "definition/2" || opt_is (field_str "version" y) "2")%bool = true <-> says_v2 y.
Proof. rewrite orb_true_iff, !opt_is_iff, !field_str_iff. reflexivity. Qed.

Lemma detect_spec y w r : detect y = (w, r) ->
  format_warnings y w /\
  match r with
  | inl FormatV2 => says_v2 y
  | inl FormatV1 => says_v1 y
  | inr e => ~ says_v2 y /\ ~ says_v1 y /\ exists k v, e = EBadFormat k v /\ says y k v
  end.
Proof.
  unfold detect. cbn zeta.
  assert (W : (silent y "version" /\ when (is_some (field_str "version" y)) EVersionField = []) \/
              (~ silent y "version" /\ when (is_some (field_str "version" y)) EVersionField = [EVersionField])).
  { destruct (field_str "version" y) as [v|] eqn:V; [right|left].
    - split; [|reflexivity]. intros H. apply field_str_iff in V. exact (H v V).
    - split; [|reflexivity]. apply field_str_none. exact V. }
  destruct (opt_is (field_str "file_format" y) "definition/2" || opt_is (field_str "version" y) "2")%bool eqn:B2.
  { apply v2_iff in B2. intros E. injection E as <- <-. split; [|exact B2]. eexists _, _. split; [reflexivity|]. split; [exact W|]. right. auto. }
  assert (N2 : ~ says_v2 y) by (rewrite <- v2_iff; congruence).
  assert (FW : format_warnings y (when (is_some (field_str "version" y)) EVersionField)).
  { exists (when (is_some (field_str "version" y)) EVersionField), []. rewrite app_nil_r. split; [reflexivity|]. split; [exact W|]. left. auto. }
  destruct (opt_is (field_str "file_format" y) "definition/1" || opt_is (field_str "version" y) "1")%bool eqn:B1.
  { intros E. injection E as <- <-. split; [exact FW|]. apply orb_true_iff in B1. rewrite !opt_is_iff, !field_str_iff in B1.
    split; [exact N2|]. destruct B1; auto. }
  assert (N1 : ~ says y "file_format" "definition/1" /\ ~ says y "version" "1").
  { rewrite <- !field_str_iff, <- !opt_is_iff. apply orb_false_iff in B1. destruct B1. split; congruence. }
  destruct (field_str "file_format" y) as [ff|] eqn:F, (field_str "version" y) as [v|] eqn:V; intros E; injection E as <- <-;
    (split; [exact FW|]).
  - split; [exact N2|]. split; [|exists "version", v; split; [reflexivity|]; apply field_str_iff; exact V].
    intros [_ [H|[H|[H _]]]]; [tauto|tauto|]. apply field_str_iff in F. exact (H ff F).
  - split; [exact N2|]. split; [|exists "file_format", ff; split; [reflexivity|]; apply field_str_iff; exact F].
    intros [_ [H|[H|[H _]]]]; [tauto|tauto|]. apply field_str_iff in F. exact (H ff F).
  - split; [exact N2|]. split; [|exists "version", v; split; [reflexivity|]; apply field_str_iff; exact V].
    intros [_ [H|[H|[_ H]]]]; [tauto|tauto|]. apply field_str_iff in V. exact (H v V).
  - split; [exact N2|]. right. right. split; apply field_str_none; assumption.
Qed.

Lemma clean_iff y c : clean_mapping y = Some c <-> body_of y c.
Proof.
  unfold clean_mapping, body_of. destruct y as [|b|n|s|l|m]; try (split; [discriminate|intros (m1 & m2 & E & _); discriminate E]).
  assert (F : filter (fun kv : string * json => negb (String.eqb (fst kv) "file_format" || String.eqb (fst kv) "version")) m =
              filter (fun kv => negb (str_mem (fst kv) ["file_format"; "version"])) m).
  { apply filter_ext. intros [k v]. unfold str_mem. cbn [fst existsb]. rewrite orb_false_r. reflexivity. }
  rewrite F. split.
  - intros E. injection E as <-. eexists _, _. split; [reflexivity|]. split; reflexivity.
  - intros (m1 & m2 & E & -> & ->). injection E as <-. reflexivity.
Qed.
