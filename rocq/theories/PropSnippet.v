(* Markdown snippets show what they name (C92). *)
From Coq Require Import String Ascii Bool Arith Lia List.
Import ListNotations.
From Verif Require Import Base BaseProofs BaseProofs2 Json SemTypes CodeSpec Resolved ConvertModel ConvertSpec ConvertProofs
  ViewModel ViewSpec PropView MdModel MdSpec MdProofs PropMd SnippetModel SnippetSpec.
Local Open Scope string_scope.

Lemma bare_ok s sampled l fs : bare_uses (s2_catalog s) sampled l = Some fs -> Forall2 (tells_use s sampled) l fs.
Proof.
  revert fs; induction l as [|u l IH]; intros fs H; cbn [bare_uses] in H; [injection H as <-; constructor|].
  destruct (nth_error (s2_catalog s) (u_base u)) as [a|] eqn:E; [|discriminate].
  destruct (bare_uses (s2_catalog s) sampled l) as [fs'|] eqn:F; [|discriminate]. injection H as <-.
  constructor; [|now apply IH]. split; [|split; reflexivity]. exists a; split; [exact E|].
  repeat (split; [reflexivity|]). split; reflexivity.
Qed.
Lemma bare_none s sampled l : bare_uses (s2_catalog s) sampled l = None <-> exists r, dangling_in s l r.
Proof.
  induction l as [|u l IH]; cbn [bare_uses].
  - split; [discriminate|]. intros [r [u [[] _]]].
  - destruct (nth_error (s2_catalog s) (u_base u)) as [a|] eqn:E.
    + assert (L : u_base u < length (s2_catalog s)) by (apply nth_error_Some; congruence).
      destruct (bare_uses (s2_catalog s) sampled l) as [fs'|] eqn:F.
      * split; [discriminate|]. intros [r [x [[<-|Hx] [<- Hr]]]]; [lia|].
        destruct IH as [_ IH]. enough (X : Some fs' = None) by discriminate X. apply IH. exists (u_base x), x. auto.
      * split; [|reflexivity]. intros _. destruct (proj1 IH eq_refl) as [r [x [Hx [<- Hr]]]].
        exists (u_base x), x. split; [now right|auto].
    + apply nth_error_None in E. split; [|reflexivity]. intros _. exists (u_base u), u. split; [now left|auto].
Qed.

(* what rendering a found thing gives *)
Definition outcome (s : schema2) (o : option thing) (r : looked) : Prop :=
  match o with
  | None => r = LookedNothing
  | Some t => (broken s t /\ r = LookedPanic) \/ (~ broken s t /\ exists c, r = Looked c /\ tells s t c)
  end.

Lemma render_outcome {X} s (f : X -> option shown_id) (tg : X -> thing) o :
  (forall x c, f x = Some c -> tells s (tg x) c) -> (forall x, f x = None <-> broken s (tg x)) ->
  outcome s (option_map tg o) (render_found f o).
Proof.
  intros H1 H2. destruct o as [x|]; cbn [option_map render_found outcome]; [|reflexivity].
  destruct (f x) as [c|] eqn:E; [right|left].
  - split; [|exists c; split; [reflexivity|now apply H1]]. intros B; apply H2 in B; congruence.
  - split; [now apply H2|reflexivity].
Qed.

Ltac silent_done := repeat (split; [first [reflexivity|eassumption|apply assocs_shows]|]); first [reflexivity|split; reflexivity].
Lemma metric_tells s m c : resolved_metric (s2_catalog s) (s2_dependencies s) m = Some c -> tells s (TgMetric m) c.
Proof.
  unfold resolved_metric. destruct (bare_uses _ _ _) as [l|] eqn:E; [|discriminate]. intros H; injection H as <-.
  apply bare_ok in E. cbn. silent_done.
Qed.
Lemma span_tells s m c : resolved_span (s2_catalog s) (s2_dependencies s) m = Some c -> tells s (TgSpan m) c.
Proof.
  unfold resolved_span. destruct (bare_uses _ _ _) as [l|] eqn:E; [|discriminate]. intros H; injection H as <-.
  apply bare_ok in E. cbn. silent_done.
Qed.
Lemma event_tells s m c : resolved_event (s2_catalog s) (s2_dependencies s) m = Some c -> tells s (TgEvent m) c.
Proof.
  unfold resolved_event. destruct (bare_uses _ _ _) as [l|] eqn:E; [|discriminate]. intros H; injection H as <-.
  apply bare_ok in E. cbn. silent_done.
Qed.
Lemma group_tells s m c : resolved_group (s2_catalog s) m = Some c -> tells s (TgGroup m) c.
Proof.
  unfold resolved_group. destruct (bare_uses _ _ _) as [l|] eqn:E; [|discriminate]. intros H; injection H as <-.
  apply bare_ok in E. cbn. silent_done.
Qed.
Lemma entity_tells s m c : resolved_entity (s2_catalog s) m = Some c -> tells s (TgEntity m) c.
Proof.
  unfold resolved_entity. destruct (bare_uses _ _ (en2_identity m)) as [l|] eqn:E; [|discriminate].
  destruct (bare_uses _ _ (en2_description m)) as [d|] eqn:D; [|discriminate]. intros H; injection H as <-.
  apply bare_ok in E. apply bare_ok in D. cbn. silent_done.
Qed.
Lemma entity_broken s m : resolved_entity (s2_catalog s) m = None <-> broken s (TgEntity m).
Proof.
  unfold resolved_entity, broken, uses_of.
  assert (A : (exists r, dangling_in s (app (en2_identity m) (en2_description m)) r) <->
              (exists r, dangling_in s (en2_identity m) r) \/ (exists r, dangling_in s (en2_description m) r)).
  { split.
    - intros [r [u [Hu H]]]. apply in_app_or in Hu. destruct Hu as [Hu|Hu]; [left|right]; exists r, u; auto.
    - intros [[r [u [Hu H]]]|[r [u [Hu H]]]]; exists r, u; (split; [apply in_or_app; auto|exact H]). }
  rewrite A, <- (bare_none s false), <- (bare_none s false).
  destruct (bare_uses _ _ (en2_identity m)); [|split; [now left|reflexivity]].
  destruct (bare_uses _ _ (en2_description m)); split; intros H; try discriminate H; auto.
  destruct H; discriminate.
Qed.
Ltac one_broken f := unfold f, broken, uses_of; rewrite <- bare_none; destruct (bare_uses _ _ _); split; congruence.
Lemma metric_broken s m : resolved_metric (s2_catalog s) (s2_dependencies s) m = None <-> broken s (TgMetric m).
Proof. unfold resolved_metric, broken, uses_of. rewrite <- (bare_none s false). destruct (bare_uses _ _ _); split; congruence. Qed.
Lemma span_broken s m : resolved_span (s2_catalog s) (s2_dependencies s) m = None <-> broken s (TgSpan m).
Proof. unfold resolved_span, broken, uses_of. rewrite <- (bare_none s true). destruct (bare_uses _ _ _); split; congruence. Qed.
Lemma event_broken s m : resolved_event (s2_catalog s) (s2_dependencies s) m = None <-> broken s (TgEvent m).
Proof. unfold resolved_event, broken, uses_of. rewrite <- (bare_none s false). destruct (bare_uses _ _ _); split; congruence. Qed.
Lemma group_broken s m : resolved_group (s2_catalog s) m = None <-> broken s (TgGroup m).
Proof. unfold resolved_group, broken, uses_of. rewrite <- (bare_none s false). destruct (bare_uses _ _ _); split; congruence. Qed.
Lemma attribute_never_broken s a : ~ broken s (TgAttribute a).
Proof. intros [r [u [[] _]]]. Qed.

Lemma listed_flat s : listed s (flat_map (fun i => match nth_error (s2_catalog s) i with Some a => [a] | None => [] end)
                                 (r2_attributes (s2_registry s))).
Proof.
  unfold listed. induction (r2_attributes (s2_registry s)) as [|i l IH]; cbn [flat_map]; [constructor|].
  destruct (nth_error (s2_catalog s) i) as [a|] eqn:E; cbn [app].
  - apply oe_take; [|exact E|exact IH]. apply nth_error_Some; congruence.
  - apply oe_skip; [|exact IH]. apply nth_error_None in E; lia.
Qed.
Lemma listed_fun s l l' : listed s l -> listed s l' -> l = l'.
Proof.
  unfold listed. intros H; revert l'. induction H; intros l' H'; inversion H'; subst; try contradiction; try reflexivity.
  - now apply IHone_each.
  - f_equal; [congruence|now apply IHone_each].
Qed.

(* the thing that the lookup finds *)
Lemma find_named {X} (key : X -> string) id l (P : Prop) :
  (exists x, first (fun x => key x = id) l x /\ find (fun x => String.eqb (key x) id) l = Some x) \/
  (none (fun x => key x = id) l /\ find (fun x => String.eqb (key x) id) l = None).
Proof.
  destruct (find (fun x => String.eqb (key x) id) l) as [x|] eqn:E; [left|right].
  - exists x; split; [|reflexivity]. apply (first_iff _ _ _ _ (fun y => String.eqb_eq (key y) id)), E.
  - split; [|reflexivity]. intros y Hy Hk. assert (X0 := find_none _ _ E y Hy). apply String.eqb_neq in X0. contradiction.
Qed.

Lemma first_none {X} (P : X -> Prop) l x : first P l x -> ~ none P l.
Proof. intros (a & b & -> & Hx & _) N. apply (N x); [|exact Hx]. apply in_or_app; right; now left. Qed.

Lemma lookup_outcome s id :
  match parse_id_lookup_v2 id with
  | None => lookup_id s id = LookedBadId
  | Some l => (exists t, named s l t /\ outcome s (Some t) (lookup_id s id)) \/
              ((forall t, ~ named s l t) /\ lookup_id s id = LookedNothing)
  end.
Proof.
  unfold lookup_id. destruct (parse_id_lookup_v2 id) as [l|] eqn:E; [|reflexivity].
  apply C62_lookup in E.
  assert (G : forall X (f : X -> option shown_id) (tg : X -> thing) (key : X -> string) k xs,
    (forall x c, f x = Some c -> tells s (tg x) c) -> (forall x, f x = None <-> broken s (tg x)) ->
    (forall x, first (fun x => key x = k) xs x -> named s l (tg x)) ->
    (forall t, named s l t -> exists x, first (fun x => key x = k) xs x) ->
    (exists t, named s l t /\ outcome s (Some t) (render_found f (find (fun x => String.eqb (key x) k) xs))) \/
    ((forall t, ~ named s l t) /\ render_found f (find (fun x => String.eqb (key x) k) xs) = LookedNothing)).
  { intros X f tg key k xs H1 H2 H3 H4. destruct (find_named key k xs True) as [(x & Hx & ->)|(Hn & ->)].
    - left. exists (tg x). split; [now apply H3|]. exact (render_outcome s f tg (Some x) H1 H2).
    - right. split; [|reflexivity]. intros t Ht. destruct (H4 t Ht) as [x Hx]. exact (first_none _ _ _ Hx Hn). }
  destruct l as [[] k|[] k]; cbn [lookup_text] in E; try (exfalso; tauto).
  - apply (G _ _ TgAttribute a2_key).
    + intros x c H; injection H as <-. repeat (split; [reflexivity|]). split; reflexivity.
    + intros x; split; [discriminate|]. intros B; destruct (attribute_never_broken _ _ B).
    + intros x Hx. eapply nm_attribute; [apply listed_flat|exact Hx].
    + intros t Ht. inversion Ht as [? l0 a Hl Hf| | | | | | | | |]; subst. exists a.
      rewrite (listed_fun s _ _ (listed_flat s) Hl). exact Hf.
  - apply (G _ _ TgGroup ag2_id); [apply group_tells|apply group_broken|intros x Hx; now constructor|].
    intros t Ht; inversion Ht; subst; eexists; eassumption.
  - apply (G _ _ TgSpan sp2_type); [apply span_tells|apply span_broken|intros x Hx; now constructor|].
    intros t Ht; inversion Ht; subst; eexists; eassumption.
  - apply (G _ _ TgMetric me2_name); [apply metric_tells|apply metric_broken|intros x Hx; now constructor|].
    intros t Ht; inversion Ht; subst; eexists; eassumption.
  - apply (G _ _ TgEvent ev2_name); [apply event_tells|apply event_broken|intros x Hx; now constructor|].
    intros t Ht; inversion Ht; subst; eexists; eassumption.
  - apply (G _ _ TgEntity en2_type); [apply entity_tells|apply entity_broken|intros x Hx; now constructor|].
    intros t Ht; inversion Ht; subst; eexists; eassumption.
  - apply (G _ _ (fun p => TgSpan (snd p)) fst);
      [intros x c; apply span_tells|intros x; apply span_broken|intros x Hx; now constructor|].
    intros t Ht; inversion Ht; subst; eexists; eassumption.
  - apply (G _ _ (fun p => TgMetric (snd p)) fst);
      [intros x c; apply metric_tells|intros x; apply metric_broken|intros x Hx; now constructor|].
    intros t Ht; inversion Ht; subst; eexists; eassumption.
  - apply (G _ _ (fun p => TgEvent (snd p)) fst);
      [intros x c; apply event_tells|intros x; apply event_broken|intros x Hx; now constructor|].
    intros t Ht; inversion Ht; subst; eexists; eassumption.
  - apply (G _ _ (fun p => TgEntity (snd p)) fst);
      [intros x c; apply entity_tells|intros x; apply entity_broken|intros x Hx; now constructor|].
    intros t Ht; inversion Ht; subst; eexists; eassumption.
Qed.

Lemma named_fun s l t t' : named s l t -> named s l t' -> t = t'.
Proof.
  assert (F : forall X (P : X -> Prop) l x y, first P l x -> first P l y -> x = y).
  { intros X P xs x y (a & b & -> & Hx & Ha) (c & d & E & Hy & Hc). revert c E Hc. induction a as [|z a IH]; intros c E Hc; destruct c as [|w c];
      cbn [app] in E.
    - injection E as -> _; reflexivity.
    - injection E as -> _. destruct (Hc w (or_introl eq_refl) Hx).
    - injection E as -> _. destruct (Ha y (or_introl eq_refl) Hy).
    - injection E as -> E. apply (IH (fun v Hv => Ha v (or_intror Hv)) c E). intros v Hv; apply Hc; now right. }
  intros H H'. destruct H as [id xs a Hl Hf|id x Hf|id x Hf|id x Hf|id x Hf|id x Hf|id p Hf|id p Hf|id p Hf|id p Hf];
    inversion H' as [id' xs' a' Hl' Hf'|id' x' Hf'|id' x' Hf'|id' x' Hf'|id' x' Hf'|id' x' Hf'|id' p' Hf'|id' p' Hf'|id' p' Hf'|id' p' Hf'];
    subst; f_equal; try f_equal; try (eapply F; eassumption).
  rewrite (listed_fun s _ _ Hl' Hl) in Hf'. eapply F; eassumption.
Qed.

(* C92: a snippet of a version 2 registry is rendered exactly when its id names something
   whose attributes exist, and from a context that tells everything about that thing. *)
Theorem C92_shown s id c :
  lookup_id s id = Looked c ->
  exists l t, lookup_text l id /\ named s l t /\ ~ broken s t /\ tells s t c.
Proof.
  intros H. assert (O := lookup_outcome s id). destruct (parse_id_lookup_v2 id) as [l|] eqn:E; [|congruence].
  apply C62_lookup in E. destruct O as [(t & Ht & [[_ X]|[Hb (c' & X & Hc)]])|[_ X]]; try congruence.
  exists l, t. split; [exact E|]. split; [exact Ht|]. split; [exact Hb|]. congruence.
Qed.
Print Assumptions C92_shown.

Theorem C92_found s id l t :
  lookup_text l id -> named s l t -> ~ broken s t -> exists c, lookup_id s id = Looked c /\ tells s t c.
Proof.
  intros E Ht Hb. assert (O := lookup_outcome s id). apply C62_lookup in E. rewrite E in O.
  destruct O as [(t' & Ht' & [[X _]|[_ H]])|[X _]].
  - rewrite (named_fun _ _ _ _ Ht' Ht) in X. contradiction.
  - rewrite (named_fun _ _ _ _ Ht' Ht) in H. exact H.
  - destruct (X t Ht).
Qed.
Print Assumptions C92_found.

(* C92: otherwise: an id that names nothing is reported as not found, an id of another form
   as invalid, and a thing that uses an attribute the catalog lacks makes the program panic. *)
Theorem C92_otherwise s id :
  (lookup_id s id = LookedNothing <-> exists l, lookup_text l id /\ forall t, ~ named s l t) /\
  (lookup_id s id = LookedBadId <-> forall l, ~ lookup_text l id) /\
  (lookup_id s id = LookedPanic <-> exists l t, lookup_text l id /\ named s l t /\ broken s t).
Proof.
  assert (O := lookup_outcome s id). destruct (parse_id_lookup_v2 id) as [l|] eqn:E.
  - assert (U : forall l', lookup_text l' id -> l' = l) by (intros l' H; apply C62_lookup in H; congruence).
    apply C62_lookup in E.
    destruct O as [(t & Ht & [[Hb X]|[Hb (c & X & Hc)]])|[Hn X]]; rewrite X; (split; [|split]); split; intros H;
      try discriminate H; try reflexivity.
    + destruct H as (l' & H1 & H2). rewrite (U _ H1) in H2. destruct (H2 t Ht).
    + destruct (H l E).
    + exists l, t. auto.
    + destruct H as (l' & H1 & H2). rewrite (U _ H1) in H2. destruct (H2 t Ht).
    + destruct (H l E).
    + destruct H as (l' & t' & H1 & H2 & H3). rewrite (U _ H1) in H2. rewrite (named_fun _ _ _ _ H2 Ht) in H3. contradiction.
    + exists l; auto.
    + destruct (H l E).
    + destruct H as (l' & t' & H1 & H2 & H3). rewrite (U _ H1) in H2. destruct (Hn t' H2).
  - assert (U : forall l, ~ lookup_text l id) by (intros l H; apply C62_lookup in H; congruence).
    rewrite O. split; [|split]; split; intros H; try discriminate H; auto.
    + destruct H as (l & H & _). destruct (U l H).
    + destruct H as (l & t & H & _). destruct (U l H).
Qed.
Print Assumptions C92_otherwise.

(* C92: every metric whose name is an id and unlike those of the other metrics can be shown:
   <!-- semconv registry.metrics.NAME --> is a directive whose snippet is about that metric. *)
Theorem C92_metric_line_partial s m base :
  In m (r2_metrics (s2_registry s)) ->
  (forall m', In m' (r2_metrics (s2_registry s)) -> me2_name m' = me2_name m -> m' = m) ->
  id_text (me2_name m) -> ~ broken s (TgMetric m) ->
  exists a c,
    semconv_directive ("<!-- semconv registry.metrics." ++ me2_name m ++ " -->") = Some a /\
    snippet2 s a base = Context2 {| x2_shown := c; x2_tags := []; x2_base := base |} /\ tells s (TgMetric m) c.
Proof.
  intros Hm Hu Hid Hb. set (id := "registry.metrics." ++ me2_name m).
  assert (Hid' : id_text id).
  { apply id_text_iff. apply id_text_iff in Hid. unfold id. destruct Hid as (c & r & E & Hc & Hr).
    rewrite E. eexists _, _. split; [reflexivity|]. split; [reflexivity|].
    cbn. rewrite (alpha_id c Hc). exact Hr. }
  exists {| sa_id := id; sa_args := [] |}.
  assert (D : semconv_directive ("<!-- semconv " ++ id ++ " -->") = Some {| sa_id := id; sa_args := [] |}).
  { apply C62_semconv_directive. exists " ", " ", "", " ", "". cbn [sa_id sa_args].
    assert (G : gap " ").
    { intros a c b E. destruct a as [|x [|y a]]; cbn in E; try discriminate E. injection E as <- _. now left. }
    split; [reflexivity|]. split; [exact G|]. split; [exact G|]. split; [exact G|]. split; [constructor|].
    split; [exact Hid'|constructor]. }
  assert (N : named s (LRegistry LMetric (me2_name m)) (TgMetric m)).
  { constructor. apply in_split in Hm. destruct (find_named me2_name (me2_name m) (r2_metrics (s2_registry s)) True)
      as [(x & Hx & _)|(Hn & _)].
    - assert (X : x = m).
      { destruct Hx as (a & b & Eq & Hk & _). apply Hu; [|exact Hk]. rewrite Eq. apply in_or_app; right; now left. }
      now subst x.
    - destruct Hm as (a & b & Eq). destruct (Hn m); [rewrite Eq; apply in_or_app; right; now left|reflexivity]. }
  assert (L : lookup_text (LRegistry LMetric (me2_name m)) id).
  { split; [exact Hid|]. exists "". split; [constructor|]. unfold id; cbn [lookup_word append].
    now rewrite str_app_nil_r. }
  destruct (C92_found s id _ _ L N Hb) as (c & Hc & Ht). exists c.
  split; [exact D|]. split; [|exact Ht]. unfold snippet2; cbn [sa_id]. rewrite Hc. reflexivity.
Qed.
Print Assumptions C92_metric_line_partial.

(* C92 fails for a metric whose name is no such id, say one that starts with a digit: no id
   shows it. *)
Theorem C92_unnameable_refuted :
  exists s m, In m (r2_metrics (s2_registry s)) /\ ~ broken s (TgMetric m) /\
    r2_metrics (s2_registry s) = [m] /\
    forall id c, lookup_id s id = Looked c -> ~ tells s (TgMetric m) c.
Proof.
  set (m := sample_metric2 "9p.requests" [0]).
  exists {| s2_url := "m"; s2_catalog := [sample_attr2 "k" (Some 0)];
     s2_registry := {| r2_attributes := [0]; r2_attribute_groups := []; r2_spans := [];
                       r2_metrics := [m]; r2_events := []; r2_entities := [] |};
     s2_refinements := no_refinements; s2_dependencies := ["x"] |}, m.
  split; [now left|]. split.
  { intros [r [u [[<-|[]] [<- H]]]]. cbn in H. lia. }
  split; [reflexivity|]. intros id c H T. apply C92_shown in H. destruct H as (l & t & Hl & Ht & _ & Hc).
  destruct c; cbn [tells] in T; try contradiction. destruct T as [T _].
  destruct Ht; cbn [tells] in Hc; try contradiction.
  - destruct Hc as [Hc _]. destruct H as (a & b & Eq & Hk & _). cbn in Eq.
    destruct Hl as [Hl _]. rewrite <- Hk, <- Hc, T in Hl. destruct Hl as (ch & rest & E & L & _). cbn in E.
    injection E as <- _. unfold letter in L. cbn in L. lia.
  - destruct H as (a & b & Eq & _). cbn in Eq. destruct a; discriminate Eq.
Qed.
Print Assumptions C92_unnameable_refuted.

(* C92: where a metric comes from is not told. *)
Theorem C92_provenance_refuted :
  exists s id f m, lookup_id s id = Looked (IMetric f) /\ In m (r2_metrics (s2_registry s)) /\
    mef_name f = me2_name m /\ p2_path (me2_provenance m) = "m.yaml" /\ pf_path (mef_provenance f) = None.
Proof.
  eexists (measuring [0]), "registry.metrics.a", _, (sample_metric2 "a" [0]).
  split; [reflexivity|]. split; [right; now left|]. repeat (split; [reflexivity|]). reflexivity.
Qed.
Print Assumptions C92_provenance_refuted.

(* C92: the metric a snippet shows is the one templates see, but for where it comes from. *)
Theorem C92_as_templates_see s id f :
  lookup_id s ("registry.metrics." ++ id) = Looked (IMetric f) ->
  forall v deps, v = view_local s deps ->
  exists f', In f' (rf_metrics (vw_registry v)) /\ f = silence_metric f'.
Proof.
  intros H v deps ->. assert (H' := H). apply C92_shown in H. destruct H as (l & t & Hl & Ht & Hb & Hc).
  destruct t as [| | |m| |]; try contradiction.
  assert (In m (r2_metrics (s2_registry s))).
  { inversion Ht as [| | |k x Hf| | | |k p Hf| |]; subst.
    - destruct Hf as (a & b & Eq & _). rewrite Eq. apply in_or_app; right; now left.
    - exfalso. destruct Hl as (_ & _ & _ & g & _ & E). cbn in E. discriminate E. }
  exists (fst (view_metric (s2_catalog s) (s2_dependencies s) m)). split.
  { cbn [view_local vw_registry rf_metrics]. unfold views.
    apply (Permutation.Permutation_in _ (stable_sort_perm _ _)). apply in_map_iff. now exists m. }
  assert (X : resolved_metric (s2_catalog s) (s2_dependencies s) m = Some (IMetric f)).
  { clear -H' Ht Hl. unfold lookup_id in H'. apply C62_lookup in Hl. rewrite Hl in H'.
    inversion Ht as [| | |k x Hf| | | |k p Hf| |]; subst.
    - apply (first_iff _ _ _ _ (fun y => String.eqb_eq (me2_name y) k)) in Hf. rewrite Hf in H'.
      unfold render_found in H'. destruct (resolved_metric _ _ m) as [c|]; [|discriminate]. congruence.
    - apply (first_iff _ _ _ _ (fun y => String.eqb_eq (fst y) k)) in Hf. rewrite Hf in H'.
      unfold render_found in H'. destruct (resolved_metric _ _ (snd p)) as [c|]; [|discriminate]. congruence. }
  unfold resolved_metric in X. destruct (bare_uses _ _ _) as [us|] eqn:B; [|discriminate]. injection X as <-.
  unfold silence_metric, view_metric; cbn [fst mef_name mef_instrument mef_unit mef_attributes mef_assocs mef_level mef_common].
  f_equal. clear -B. revert us B. unfold view_uses. induction (me2_attributes m) as [|u l IH]; intros us B; cbn [bare_uses] in B.
  - injection B as <-; reflexivity.
  - cbn [look_all]. unfold view_use at 1. destruct (nth_error (s2_catalog s) (u_base u)) as [a|]; [|discriminate].
    destruct (bare_uses (s2_catalog s) false l) as [fs|]; [|discriminate]. injection B as <-.
    cbn [fst map]. rewrite (IH fs eq_refl). reflexivity.
Qed.
Print Assumptions C92_as_templates_see.

(* C92: the parameters of a directive other than the tag change nothing. *)
Theorem C92_parameters_refuted s id base :
  snippet2 s {| sa_id := id; sa_args := [POmit] |} base = snippet2 s {| sa_id := id; sa_args := [] |} base /\
  snippet2 s {| sa_id := id; sa_args := [PMetricTable; PFull] |} base = snippet2 s {| sa_id := id; sa_args := [] |} base.
Proof. split; reflexivity. Qed.
Print Assumptions C92_parameters_refuted.

Lemma asks_for_filters a : asks_for (sa_args a) (tag_filters a).
Proof.
  unfold tag_filters. destruct a as [id ps]. cbn [sa_args].
  induction ps as [|p ps IH]; [left; split; [reflexivity|intros t []]|].
  destruct p; cbn [find_tag];
    try (destruct IH as [[-> N]|(pre & t & post & -> & N & ->)];
         [left; split; [reflexivity|intros t [K|K]; [discriminate K|exact (N t K)]]
         |right; eexists (_ :: pre), t, post; split; [reflexivity|];
          split; [intros u [K|K]; [discriminate K|exact (N u K)]|reflexivity]]).
  right. exists [], v, ps. split; [reflexivity|]. split; [intros u []|reflexivity].
Qed.

(* C92: a template gets, beside what the id stands for, the first tag of the directive and
   the base URL it was called with, whatever the version of the registry. *)
Theorem C92_context :
  (forall s a base c, snippet2 s a base = Context2 c ->
     asks_for (sa_args a) (x2_tags c) /\ x2_base c = base /\ lookup_id s (sa_id a) = Looked (x2_shown c)) /\
  (forall s a base c, snippet1 s a base = Context1 c ->
     asks_for (sa_args a) (x1_tags c) /\ x1_base c = base).
Proof.
  split; intros s a base c H.
  - unfold snippet2 in H. destruct (lookup_id s (sa_id a)) eqn:L; try discriminate H.
    injection H as <-. cbn [x2_tags x2_base x2_shown]. split; [apply asks_for_filters|]. split; reflexivity.
  - unfold snippet1 in H. destruct (find_group s (sa_id a)) as [g|]; [|discriminate H].
    destruct (snd (view_group _ g)); [|discriminate H].
    injection H as <-. cbn [x1_tags x1_base]. split; [apply asks_for_filters|reflexivity].
Qed.
Print Assumptions C92_context.
Example C92_context_case :
  asks_for [PMetricTable; PTag "b"; PTag "c"] ["b"] /\ ~ asks_for [PTag "b"] [].
Proof.
  split.
  - right. exists [PMetricTable], "b", [PTag "c"]. split; [reflexivity|].
    split; [intros u [K|[]]; discriminate K|reflexivity].
  - intros [[_ N]|(pre & t & post & _ & _ & K)]; [|discriminate K]. exact (N "b" (or_introl eq_refl)).
Qed.

(* ---------- version 1 ---------- *)

(* C92: a snippet of a version 1 registry shows the first group with that id, with its
   attributes looked up; a group that uses attributes the catalog lacks is refused naming
   them, an unknown id is reported. *)
Theorem C92_version_1 s a base :
  match snippet1 s a base with
  | Context1 c =>
    exists g, first (fun g => g_id g = sa_id a) (s1_groups s) g /\ shows_group (s1_catalog s) g (x1_group c) /\
      (x1_table c = MetricTable <-> In PMetricTable (sa_args a)) /\ x1_tags c = tag_filters a /\ x1_base c = base
  | GroupNotFound id => id = sa_id a /\ none (fun g => g_id g = sa_id a) (s1_groups s)
  | AttributesMissing l =>
    l <> [] /\ exists g, first (fun g => g_id g = sa_id a) (s1_groups s) g /\
      forall i r, In (i, r) l <-> i = g_id g /\ In r (g_attributes g) /\ length (s1_catalog s) <= r
  end.
Proof.
  unfold snippet1, find_group.
  destruct (find_named g_id (sa_id a) (s1_groups s) True) as [(g & Hg & ->)|(Hn & ->)]; [|split; [reflexivity|exact Hn]].
  destruct (snd (view_group (s1_catalog s) g)) as [|e l] eqn:E.
  - exists g. split; [exact Hg|]. cbn [x1_group x1_table x1_tags x1_base].
    split; [now apply view_group_shows|]. split; [|split; reflexivity].
    unfold is_metric_table. destruct (existsb _ (sa_args a)) eqn:X; split; intros H; try discriminate H.
    + apply existsb_exists in X. destruct X as (p & Hp & X). destruct p; try discriminate X. exact Hp.
    + reflexivity.
    + exfalso. assert (Y : existsb (fun p => match p with PMetricTable => true | _ => false end) (sa_args a) = true).
      { apply existsb_exists. exists PMetricTable; auto. } congruence.
  - split; [discriminate|]. exists g. split; [exact Hg|]. intros i r. rewrite <- E. cbn [view_group snd].
    rewrite look_err. split.
    + intros (b & Hb & H1 & H2). injection H2 as -> ->. apply nth_error_None in H1. auto.
    + intros (-> & H1 & H2). exists r. split; [exact H1|]. split; [now apply nth_error_None|reflexivity].
Qed.
Print Assumptions C92_version_1.

(* ---------- cases ---------- *)
Example C92_case_shown : exists c, lookup_id (measuring [0]) "registry.metrics.a" = Looked c /\
  tells (measuring [0]) (TgMetric (sample_metric2 "a" [0])) c.
Proof.
  destruct (C92_metric_line_partial (measuring [0]) (sample_metric2 "a" [0]) None) as (a & c & H1 & H2 & H3).
  - right; now left.
  - intros m' [<-|[<-|[]]] H; [discriminate H|reflexivity].
  - exists "a"%char, "". split; [reflexivity|]. split; [right; cbn; lia|]. intros x d b E. destruct x; discriminate E.
  - intros [r [u [[<-|[]] [<- H]]]]. cbn in H. lia.
  - vm_compute in H1. injection H1 as <-. exists c. split; [|exact H3]. unfold snippet2 in H2. cbn [sa_id] in H2.
    destruct (lookup_id _ _); congruence.
Qed.
Example C92_case_panic : lookup_id (measuring [7]) "registry.metrics.a" = LookedPanic.
Proof. reflexivity. Qed.
Example C92_case_nothing :
  lookup_id (measuring [0]) "registry.metrics.c" = LookedNothing /\ lookup_id (measuring [0]) "metric.a" = LookedBadId.
Proof. split; reflexivity. Qed.
