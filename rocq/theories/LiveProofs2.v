(** Proofs for the finding modifier, entity associations, template lookup and
    attribute-presence findings. *)
From Coq Require Import String Ascii Bool Arith Lia ZArith NArith QArith List Permutation Sorted.
From Verif Require Import Base BaseProofs Json SemTypes LiveModel LiveAdvisors LiveSpec LiveProofs.
Import ListNotations.
Local Open Scope string_scope.
Local Open Scope list_scope.
Local Open Scope nat_scope.

(** * Modifier *)
Lemma scope_matches_spec st names f r : scope_matches st names f r = true <-> in_scope st names f r.
Proof.
  unfold scope_matches, in_scope. split.
  - intros H. destruct st as [s|].
    + destruct (f_signal_type f) as [t|] eqn:Et; simpl in H; [|discriminate].
      destruct (String.eqb_spec t s) as [->|]; [|discriminate].
      split; [intros s' E; injection E as <-; reflexivity|].
      intros p ->. destruct (sample_name r) as [n|]; [|discriminate]. exists n; auto.
    + split; [discriminate|]. intros p ->. destruct (sample_name r) as [n|]; [|discriminate]. exists n; auto.
  - intros [H1 H2].
    assert (E : match st with None => true | Some s => opt_eqb String.eqb (f_signal_type f) (Some s) end = true).
    { destruct st as [s|]; [|reflexivity]. rewrite (H1 s eq_refl). simpl. apply String.eqb_refl. }
    rewrite E. destruct names as [p|]; [|reflexivity].
    destruct (H2 p eq_refl) as (n & -> & Hp). exact Hp.
Qed.

Lemma is_matched_spec f ids : is_matched_by f ids = true <-> (forall l, ids = Some l -> In (f_id f) l).
Proof.
  unfold is_matched_by. destruct ids as [l|].
  - rewrite str_mem_spec. split; [intros H l' E; injection E as <-; exact H|intros H; apply H; reflexivity].
  - split; [discriminate|reflexivity].
Qed.

Lemma override_spec o f r :
  scope_matches (co_signal_type o) (co_names o) f r && is_matched_by f (co_ids o) = true <->
  override_applies o f r.
Proof. rewrite andb_true_iff, scope_matches_spec, is_matched_spec. reflexivity. Qed.

Lemma apply_overrides_spec os f r :
  exists l, overridden_level os f r l /\ apply_overrides os f r = with_level f l.
Proof.
  induction os as [|o os IH]; simpl.
  - exists (f_level f). split; [right; split; [intros o []|reflexivity]|destruct f; reflexivity].
  - destruct (scope_matches _ _ _ _ && _) eqn:E.
    + exists (co_level o). split; [|reflexivity]. left. exists [], o, os.
      apply override_spec in E. split; [reflexivity|]. split; [exact E|]. split; [intros ? []|reflexivity].
    + assert (Hn : ~ override_applies o f r) by (rewrite <- override_spec, E; discriminate).
      destruct IH as (l & [(pre & o' & post & -> & Ha & Hpre & ->)|[Hall ->]] & ->).
      * exists (co_level o'). split; [|reflexivity]. left. exists (o :: pre), o', post.
        split; [reflexivity|]. split; [exact Ha|]. split; [|reflexivity].
        intros x [<-|Hx]; auto.
      * exists (f_level f). split; [|reflexivity]. right. split; [|reflexivity].
        intros x [<-|Hx]; auto.
Qed.

Lemma overridden_level_det os f r l l' :
  overridden_level os f r l -> overridden_level os f r l' -> l = l'.
Proof.
  assert (G : forall pre o post pre' o' post', pre ++ o :: post = pre' ++ o' :: post' ->
    override_applies o f r -> override_applies o' f r ->
    (forall x, In x pre -> ~ override_applies x f r) ->
    (forall x, In x pre' -> ~ override_applies x f r) -> o = o').
  { induction pre as [|p pre IH]; intros o post pre' o' post' E Ho Ho' H H'.
    - destruct pre' as [|p' pre']; simpl in E; injection E as -> E; [reflexivity|].
      exfalso; apply (H' p'); [left; reflexivity|exact Ho].
    - destruct pre' as [|p' pre']; simpl in E; injection E as -> E.
      + exfalso; apply (H o'); [left; reflexivity|exact Ho'].
      + eapply IH; eauto; intros x Hx; [apply H|apply H']; right; exact Hx. }
  intros [(pre & o & post & -> & Ha & Hpre & ->)|[Hall ->]]
         [(pre' & o' & post' & E & Ha' & Hpre' & ->)|[Hall' ->]]; auto.
  - f_equal. eapply G; eauto.
  - exfalso. apply (Hall' o); [apply in_or_app; right; left; reflexivity|exact Ha].
  - exfalso. apply (Hall o'); [rewrite E; apply in_or_app; right; left; reflexivity|exact Ha'].
Qed.

Lemma is_excluded_spec f c r : is_excluded_by f c r = true <->
  ((exists ids, cf_exclude c = Some ids /\ In (f_id f) ids) \/
   (exists m, cf_min_level c = Some m /\ level_rank (f_level f) < level_rank m) \/
   (exists p n, cf_exclude_samples c = Some p /\ sample_name r = Some n /\ p n = true)).
Proof.
  unfold is_excluded_by. split.
  - destruct (cf_exclude c) as [ids|]; [destruct (str_mem (f_id f) ids) eqn:E;
      [apply str_mem_spec in E; intros _; left; exists ids; auto|]|];
    (destruct (cf_min_level c) as [m|]; [unfold level_ltb; destruct (Nat.ltb_spec (level_rank (f_level f)) (level_rank m));
      [intros _; right; left; exists m; auto|]|];
    (destruct (cf_exclude_samples c) as [p|]; [|discriminate];
     destruct (sample_name r) as [n|]; [|discriminate];
     intros Hp; right; right; exists p, n; auto)).
  - intros [(ids & -> & Hin)|[(m & -> & Hlt)|(p & n & -> & -> & Hp)]].
    + apply str_mem_spec in Hin. rewrite Hin. reflexivity.
    + unfold level_ltb. apply Nat.ltb_lt in Hlt. rewrite Hlt.
      destruct (match cf_exclude c with Some ids => _ | None => false end); reflexivity.
    + rewrite Hp. destruct (match cf_exclude c with Some ids => _ | None => false end); [reflexivity|].
      destruct (match cf_min_level c with Some _ => _ | None => false end); reflexivity.
Qed.

Lemma excluded_spec fs f r : excluded fs f r = true <-> exists c, In c fs /\ filter_drops c f r.
Proof.
  induction fs as [|c fs IH]; simpl.
  - split; [discriminate|intros (c & [] & _)].
  - destruct (scope_matches _ _ _ _ && _) eqn:E.
    + split; [|reflexivity]. intros _. exists c. split; [left; reflexivity|].
      apply andb_true_iff in E as [E1 E2]. apply scope_matches_spec in E1. apply is_excluded_spec in E2.
      split; auto.
    + rewrite IH. split.
      * intros (x & Hx & Hd). exists x; auto.
      * intros (x & [<-|Hx] & Hd); [|exists x; auto].
        destruct Hd as [Hs He]. apply scope_matches_spec in Hs. apply is_excluded_spec in He.
        rewrite Hs, He in E. discriminate.
Qed.

Lemma modifier_spec m f r :
  exists l, overridden_level (overrides m) f r l /\
    (modifier_apply m f r = Some (with_level f l) /\
       (forall c, In c (filters m) -> ~ filter_drops c (with_level f l) r)
     \/ modifier_apply m f r = None /\
       (exists c, In c (filters m) /\ filter_drops c (with_level f l) r)).
Proof.
  destruct (apply_overrides_spec (overrides m) f r) as (l & Hl & E). exists l. split; [exact Hl|].
  unfold modifier_apply. rewrite E. destruct (excluded _ _ _) eqn:Ex.
  - right. split; [reflexivity|]. apply excluded_spec, Ex.
  - left. split; [reflexivity|]. intros c Hc Hd.
    assert (excluded (filters m) (with_level f l) r = true) by (apply excluded_spec; exists c; auto).
    congruence.
Qed.

(** ** Two runs that differ in the modifier *)

Lemma modifier_apply_name m f r r' : sample_name r = sample_name r' ->
  modifier_apply m f r = modifier_apply m f r'.
Proof.
  intros E. unfold modifier_apply.
  assert (S : forall st names g, scope_matches st names g r = scope_matches st names g r')
    by (intros; unfold scope_matches; rewrite E; reflexivity).
  assert (O : apply_overrides (overrides m) f r = apply_overrides (overrides m) f r').
  { induction (overrides m) as [|o os IH]; simpl; [reflexivity|]. rewrite S, IH. reflexivity. }
  rewrite O.
  assert (X : forall g, excluded (filters m) g r = excluded (filters m) g r').
  { intros g. induction (filters m) as [|c cs IH]; simpl; [reflexivity|].
    unfold is_excluded_by. rewrite S, IH, E. reflexivity. }
  rewrite X. reflexivity.
Qed.

Section Sim.
  Variables c c' : checker.
  Hypothesis Hattr : lc_attributes c = lc_attributes c'.
  Hypothesis Htmpl : lc_templates c = lc_templates c'.
  Hypothesis Hmet : lc_metrics c = lc_metrics c'.
  Hypothesis Hev : lc_events c = lc_events c'.
  Hypothesis Hent : lc_entities c = lc_entities c'.
  Hypothesis Hreg : lc_registry c = lc_registry c'.
  Hypothesis Hadv : lc_advisors c = lc_advisors c'.
  Variable g : sref -> lcr -> lcr.
  Hypothesis g_name : forall r r' l, sample_name r = sample_name r' -> g r l = g r' l.
  Hypothesis g_new : forall r, g r lcr_new = lcr_new.
  Hypothesis g_add : forall r l f,
    add_advice (lc_modifier c) r (g r l) f = g r (add_advice (lc_modifier c') r l f).

  Lemma g_add_list r fs : forall l,
    add_advice_list (lc_modifier c) r (g r l) fs = g r (add_advice_list (lc_modifier c') r l fs).
  Proof.
    induction fs as [|f fs IH]; intros l; [reflexivity|]. simpl. rewrite g_add. apply IH.
  Qed.

  Lemma sim_advisors advs r sig a s : forall acc,
    run_advisor_list (lc_modifier c) advs r sig a s (g r acc) =
    match run_advisor_list (lc_modifier c') advs r sig a s acc with
    | Ok l => Ok (g r l) | Err e => Err e end.
  Proof.
    induction advs as [|adv advs IH]; intros acc; simpl; [reflexivity|].
    destruct (adv r sig a s) as [fs|]; simpl; [|reflexivity].
    rewrite g_add_list. apply IH.
  Qed.

  Definition sim {T} (h : T -> T) (x y : res (T * lstats)) : Prop :=
    match x, y with
    | Ok (a, _), Ok (b, _) => a = h b
    | Err e, Err e' => e = e'
    | _, _ => False
    end.

  Lemma sim_run_advisors t r s sig st st' :
    sim (g r) (run_advisors c t r s sig st) (run_advisors c' t r s sig st').
  Proof.
    unfold run_advisors. rewrite <- (g_new r), sim_advisors, Hadv, (g_new r).
    destruct (run_advisor_list _ _ _ _ _ _ _); simpl; reflexivity.
  Qed.

  Lemma sim_list {T} (run run' : T -> lstats -> res (T * lstats)) h :
    (forall x st st', sim h (run x st) (run' x st')) ->
    forall l st st', sim (map h) (run_list run l st) (run_list run' l st').
  Proof.
    intros H. induction l as [|x l IH]; intros st st'; simpl; [reflexivity|].
    specialize (H x st st'). destruct (run x st) as [[a s1]|], (run' x st') as [[b s2]|]; simpl in *; try tauto.
    specialize (IH s1 s2).
    destruct (run_list run l s1) as [[l1 s3]|], (run_list run' l s2) as [[l2 s4]|]; simpl in *; try tauto.
    congruence.
  Qed.

  Lemma sim_attr s sig a st st' : sim (mr_attr g) (run_attr c s sig a st) (run_attr c' s sig a st').
  Proof.
    unfold run_attr. unfold find_attribute, find_template. rewrite Hattr, Htmpl, Hadv.
    set (sa := match slookup (sa_name a) (lc_attributes c') with Some x => Some x | None => _ end).
    match goal with |- sim _ (rbind (run_advisor_list _ _ _ _ _ _ ?x) _) (rbind (run_advisor_list _ _ _ _ _ _ ?y) _) =>
      assert (E : x = g (RfAttribute a) y) end.
    { destruct sa as [x|]; [destruct (is_template _)|]; rewrite <- ?g_add, ?g_new; reflexivity. }
    rewrite E, sim_advisors.
    destruct (run_advisor_list _ _ _ _ _ _ _) as [l|]; simpl; [|reflexivity].
    unfold mr_attr; simpl. f_equal. f_equal. apply g_name. reflexivity.
  Qed.

  Lemma sim_attrs s sig l st st' : sim (map (mr_attr g)) (run_attrs c s sig l st) (run_attrs c' s sig l st').
  Proof. apply sim_list. intros; apply sim_attr. Qed.

  Ltac both H :=
    match type of H with sim _ ?x ?y =>
      destruct x as [[? ?]|], y as [[? ?]|]; simpl in H |- *; try tauto; try subst end.

  (** Step both runs through the next sub-run, using lemma [L]. *)
  Ltac sub L :=
    match goal with |- sim _ (rbind ?x _) (rbind ?y _) =>
      let H := fresh "H" in
      assert (H : sim _ x y) by (eapply L); both H end.
  Ltac fin := simpl; f_equal; try (f_equal; apply g_name; reflexivity); auto.

  Lemma sim_exemplar s sig e st st' : sim (mr_exemplar g) (run_exemplar c s sig e st) (run_exemplar c' s sig e st').
  Proof.
    unfold run_exemplar. pose proof (sim_run_advisors "exemplar" (RfExemplar e) s sig st st') as H. both H.
    match goal with |- context [run_attrs c s sig (ex_attrs e) ?x] =>
      match goal with |- context [run_attrs c' s sig (ex_attrs e) ?y] =>
        pose proof (sim_attrs s sig (ex_attrs e) x y) as H1; both H1 end end.
    unfold mr_exemplar; simpl. f_equal. f_equal. apply g_name; reflexivity.
  Qed.

  Lemma sim_dpoint mk s sig p st st' : (forall x, sample_name (mk x) = None) ->
    sim (mr_dpoint g mk) (run_dpoint c mk s sig p st) (run_dpoint c' mk s sig p st').
  Proof.
    intros Hmk. unfold run_dpoint. sub sim_run_advisors. sub sim_attrs.
    sub (sim_list (run_exemplar c s sig) (run_exemplar c' s sig) (mr_exemplar g)
           (fun x a b => sim_exemplar s sig x a b)).
    unfold mr_dpoint; simpl; f_equal. f_equal. apply g_name. rewrite !Hmk. reflexivity.
  Qed.

  Lemma sim_span_event s sig e st st' :
    sim (mr_span_event g) (run_span_event c s sig e st) (run_span_event c' s sig e st').
  Proof. unfold run_span_event. sub sim_run_advisors. sub sim_attrs. unfold mr_span_event; fin. Qed.

  Lemma sim_span_link s sig e st st' :
    sim (mr_span_link g) (run_span_link c s sig e st) (run_span_link c' s sig e st').
  Proof. unfold run_span_link. sub sim_run_advisors. sub sim_attrs. unfold mr_span_link; fin. Qed.

  Lemma sim_span s sig e st st' : sim (mr_span g) (run_span c s sig e st) (run_span c' s sig e st').
  Proof.
    unfold run_span. sub sim_run_advisors. sub sim_attrs.
    sub (sim_list (run_span_event c s sig) (run_span_event c' s sig) (mr_span_event g)
           (fun x a b => sim_span_event s sig x a b)).
    sub (sim_list (run_span_link c s sig) (run_span_link c' s sig) (mr_span_link g)
           (fun x a b => sim_span_link s sig x a b)).
    unfold mr_span; fin.
  Qed.

  Lemma sim_assoc s sig : signal_assoc_findings c s sig = signal_assoc_findings c' s sig.
  Proof.
    assert (K : forall k, key_lookup c k = key_lookup c' k).
    { intros [n|e]; simpl; unfold find_entity, lookup_entity; rewrite ?Hent, ?Hreg; reflexivity. }
    assert (EV : forall (L : Type) (key : L -> entity_key) attrs a,
      eval_assoc key c attrs sig a = eval_assoc key c' attrs sig a).
    { intros L key attrs a. induction a as [l|l IH|l IH] using assoc_ind2; simpl.
      - rewrite K. reflexivity.
      - f_equal. apply map_ext_Forall, IH.
      - f_equal. apply map_ext_Forall, IH. }
    assert (CA : forall (L : Type) (key : L -> entity_key) attrs l,
      check_associations key c attrs sig l = check_associations key c' attrs sig l).
    { intros L key attrs l. unfold check_associations. destruct l as [|x [|y l]]; [reflexivity| |].
      - rewrite EV. reflexivity.
      - do 2 f_equal. apply map_ext. intros a; apply EV. }
    unfold signal_assoc_findings. destruct s as [[]|]; rewrite ?CA; reflexivity.
  Qed.

  Lemma sim_metric sig m st st' : sim (mr_metric g) (run_metric c sig m st) (run_metric c' sig m st').
  Proof.
    unfold run_metric. unfold find_metric. rewrite Hmet, Hadv.
    set (s := slookup (sm_name m) (lc_metrics c')).
    match goal with |- sim _ (rbind (run_advisor_list _ _ _ _ _ _ ?x) _) (rbind (run_advisor_list _ _ _ _ _ _ ?y) _) =>
      assert (E : x = g (RfMetric m) y) end.
    { destruct s; rewrite <- ?g_add, ?g_new; reflexivity. }
    rewrite E, sim_advisors. clear E.
    destruct (run_advisor_list _ _ _ _ _ _ _) as [l|]; simpl; [|reflexivity].
    rewrite sim_assoc, g_add_list.
    match goal with |- sim _ (rbind ?x _) (rbind ?y _) => assert (P : sim (mr_points g) x y) end.
    { destruct (sm_points m) as [[ps|ps|ps]|]; [| | |reflexivity].
      - sub (sim_list (run_dpoint c RfNumberDP s sig) (run_dpoint c' RfNumberDP s sig) (mr_dpoint g RfNumberDP)
          (fun x a b => sim_dpoint RfNumberDP s sig x a b (fun _ => eq_refl))). reflexivity.
      - sub (sim_list (run_dpoint c RfHistogramDP s sig) (run_dpoint c' RfHistogramDP s sig) (mr_dpoint g RfHistogramDP)
          (fun x a b => sim_dpoint RfHistogramDP s sig x a b (fun _ => eq_refl))). reflexivity.
      - sub (sim_list (run_dpoint c RfExponentialDP s sig) (run_dpoint c' RfExponentialDP s sig) (mr_dpoint g RfExponentialDP)
          (fun x a b => sim_dpoint RfExponentialDP s sig x a b (fun _ => eq_refl))). reflexivity. }
    both P. unfold mr_metric; fin.
  Qed.

  Lemma sim_log sig m st st' : sim (mr_log g) (run_log c sig m st) (run_log c' sig m st').
  Proof.
    unfold run_log. unfold find_event. rewrite Hev, Hadv.
    destruct (String.eqb (lg_event m) ""); [|destruct (slookup (lg_event m) (lc_events c'))].
    - rewrite <- (g_new (RfLog m)), sim_advisors, (g_new (RfLog m)).
      destruct (run_advisor_list _ _ _ _ _ _ _) as [l|]; cbn [rbind]; [|reflexivity].
      rewrite sim_assoc, g_add_list. sub sim_attrs. unfold mr_log; fin.
    - rewrite <- (g_new (RfLog m)), sim_advisors, (g_new (RfLog m)).
      destruct (run_advisor_list _ _ _ _ _ _ _) as [l|]; cbn [rbind]; [|reflexivity].
      rewrite sim_assoc, g_add_list. sub sim_attrs. unfold mr_log; fin.
    - rewrite <- (g_new (RfLog m)), g_add, sim_advisors, (g_new (RfLog m)).
      destruct (run_advisor_list _ _ _ _ _ _ _) as [l|]; cbn [rbind]; [|reflexivity].
      rewrite sim_assoc, g_add_list. sub sim_attrs. unfold mr_log; fin.
  Qed.

  Lemma sim_sample x st st' : sim (map_results g) (run_sample c x st) (run_sample c' x st').
  Proof.
    destruct x; simpl; unfold rmap.
    - sub sim_attr. reflexivity.
    - sub sim_span. reflexivity.
    - sub sim_span_event. reflexivity.
    - sub sim_span_link. reflexivity.
    - assert (P : sim (mr_resource g) (run_resource c None (SmpResource r) r st) (run_resource c' None (SmpResource r) r st')).
      { unfold run_resource. sub sim_run_advisors. sub sim_attrs. unfold mr_resource; fin. }
      both P. reflexivity.
    - assert (P : sim (mr_scope g) (run_scope c None (SmpScope s) s st) (run_scope c' None (SmpScope s) s st')).
      { unfold run_scope. sub sim_run_advisors. sub sim_attrs. unfold mr_scope; fin. }
      both P. reflexivity.
    - sub sim_metric. reflexivity.
    - sub sim_log. reflexivity.
    - assert (P : sim (mr_profile g) (run_profile c None (SmpProfile p) p st) (run_profile c' None (SmpProfile p) p st')).
      { unfold run_profile. sub sim_run_advisors. sub sim_attrs. unfold mr_profile; fin. }
      both P. reflexivity.
  Qed.

  Lemma sim_all l : forall cur st st', sim (map (map_results g)) (run_all c cur l st) (run_all c' cur l st').
  Proof.
    induction l as [|x l IH]; intros cur st st'; simpl; [reflexivity|].
    sub sim_sample. sub IH. reflexivity.
  Qed.
End Sim.

Lemma most_severe_unique l l' fs : most_severe l fs -> most_severe l' fs -> l = l'.
Proof.
  intros [(f & Hf & <-) H] [(f' & Hf' & <-) H'].
  specialize (H f' Hf'). specialize (H' f Hf).
  destruct (f_level f), (f_level f'); simpl in *; auto; lia.
Qed.

Lemma worst_spec fs : match worst fs with None => fs = [] | Some l => most_severe l fs end.
Proof.
  induction fs as [|f fs IH]; simpl; [reflexivity|].
  destruct (worst fs) as [l|].
  - destruct IH as [(g & Hg & El) Hall].
    destruct (Nat.ltb_spec (level_rank l) (level_rank (f_level f))) as [Hlt|Hge].
    + split; [exists f; split; [left|]; reflexivity|].
      intros x [<-|Hx]; [lia|]. specialize (Hall x Hx). lia.
    + split; [exists g; split; [right; exact Hg|exact El]|].
      intros x [<-|Hx]; auto.
  - subst fs. split; [exists f; split; [left|]; reflexivity|]. intros x [<-|[]]; auto.
Qed.

Lemma add_list_advice m r fs : forall l,
  all_advice (add_advice_list (Some m) r l fs) =
  all_advice l ++ somes (map (fun f => modifier_apply m f r) fs).
Proof.
  induction fs as [|f fs IH]; intros l; simpl; [rewrite app_nil_r; reflexivity|].
  rewrite IH. unfold add_advice. destruct (modifier_apply m f r) as [f'|]; simpl.
  - rewrite <- app_assoc. reflexivity.
  - reflexivity.
Qed.

Lemma modified_fold m r l : modified m r l = add_advice_list (Some m) r lcr_new (all_advice l).
Proof.
  set (x := add_advice_list (Some m) r lcr_new (all_advice l)).
  assert (Ea : all_advice x = somes (map (fun f => modifier_apply m f r) (all_advice l)))
    by (unfold x; rewrite add_list_advice; reflexivity).
  assert (W : wf_lcr x) by (apply wf_add_list, wf_new). clearbody x.
  unfold modified. rewrite <- Ea. destruct x as [a h]; simpl in *. f_equal.
  pose proof (worst_spec a) as Hs. unfold wf_lcr in W; simpl in W.
  destruct h as [h|], (worst a) as [w|].
  - f_equal. eapply most_severe_unique; eauto.
  - rewrite Hs in W. destruct W as [(f & [] & _) _].
  - rewrite W in Hs. destruct Hs as [(f & [] & _) _].
  - reflexivity.
Qed.

Lemma modifier_end_to_end c m ns f input :
  match live_check (with_modifier c (Some m)) ns f input, live_check (with_modifier c None) ns f input with
  | Ok (out, _, _), Ok (plain_out, _, _) => out = map (map_results (modified m)) plain_out
  | Err e, Err e' => e = e'
  | _, _ => False
  end.
Proof.
  unfold live_check.
  set (st := if ns then _ else _).
  change (if ns then Disabled else Cumulative (stats_new (lc_registry (with_modifier c None)))) with st.
  assert (H : sim (map (map_results (modified m)))
    (run_all (with_modifier c (Some m)) None input st) (run_all (with_modifier c None) None input st)).
  { apply sim_all; try reflexivity.
    - intros r r' l E. unfold modified.
      rewrite (map_ext _ (fun x => modifier_apply m x r') (fun x => modifier_apply_name m x r r' E)).
      reflexivity.
    - intros r l x. rewrite !modified_fold. simpl lc_modifier.
      change (all_advice (add_advice None r l x)) with (all_advice l ++ [x]).
      unfold add_advice_list. rewrite fold_left_app. reflexivity. }
  destruct (run_all _ _ _ _) as [[a s]|], (run_all (with_modifier c None) _ _ _) as [[b s']|]; simpl in *; auto.
Qed.

(** ** The report does not depend on statistics being enabled *)
Lemma map_id_pt {A} (f : A -> A) l : (forall x, f x = x) -> map f l = l.
Proof. intros H. rewrite (map_ext f (fun x => x)) by exact H. apply map_id. Qed.

Lemma map_results_id s : map_results (fun _ l => l) s = s.
Proof.
  assert (M : forall r o, mr (fun _ l => l) r o = o) by (intros r [l|]; reflexivity).
  assert (A : forall a, mr_attr (fun _ l => l) a = a) by (intros []; unfold mr_attr; simpl; rewrite M; reflexivity).
  assert (X : forall a, mr_exemplar (fun _ l => l) a = a)
    by (intros []; unfold mr_exemplar; simpl; rewrite M, (map_id_pt _ _ A); reflexivity).
  assert (D : forall mk a, mr_dpoint (fun _ l => l) mk a = a)
    by (intros mk []; unfold mr_dpoint; simpl; rewrite M, (map_id_pt _ _ A), (map_id_pt _ _ X); reflexivity).
  assert (E : forall a, mr_span_event (fun _ l => l) a = a)
    by (intros []; unfold mr_span_event; simpl; rewrite M, (map_id_pt _ _ A); reflexivity).
  assert (K : forall a, mr_span_link (fun _ l => l) a = a)
    by (intros []; unfold mr_span_link; simpl; rewrite M, (map_id_pt _ _ A); reflexivity).
  destruct s as [x|x|x|x|x|x|x|x|x]; simpl; f_equal; auto; destruct x; simpl;
    unfold mr_span, mr_resource, mr_scope, mr_metric, mr_log, mr_profile; simpl;
    rewrite M, ?(map_id_pt _ _ A), ?(map_id_pt _ _ E), ?(map_id_pt _ _ K); try reflexivity.
  f_equal. destruct sm_points as [[l|l|l]|]; simpl; rewrite ?(map_id_pt _ _ (D _)); reflexivity.
Qed.

Lemma run_all_stats_irrelevant c l cur st st' :
  match run_all c cur l st, run_all c cur l st' with
  | Ok (a, _), Ok (b, _) => a = b
  | Err e, Err e' => e = e'
  | _, _ => False
  end.
Proof.
  assert (H : sim (map (map_results (fun _ l => l))) (run_all c cur l st) (run_all c cur l st')).
  { apply sim_all; reflexivity. }
  destruct (run_all c cur l st) as [[a s]|], (run_all c cur l st') as [[b s']|]; simpl in *; auto.
  rewrite (map_id_pt _ _ map_results_id) in H. exact H.
Qed.

(** ** Running more samples extends the report *)
Lemma run_all_app c l1 : forall l2 cur st out st',
  run_all c cur (l1 ++ l2) st = Ok (out, st') ->
  exists out1 out2 st1, run_all c cur l1 st = Ok (out1, st1) /\ out = out1 ++ out2.
Proof.
  induction l1 as [|x l1 IH]; intros l2 cur st out st' H; simpl in *.
  - exists [], out, st. auto.
  - step H. step H. injection H as <- <-. apply IH in E0 as (o1 & o2 & s1 & E1 & ->).
    simpl. rewrite E1. simpl. exists (s :: o1), o2, s1. auto.
Qed.

Lemma count_if_mono {A} (p q : A -> bool) l :
  (forall x, p x = true -> q x = true) -> count_if p l <= count_if q l.
Proof.
  intros H. induction l as [|x l IH]; [apply le_n|]. rewrite !count_if_cons.
  specialize (H x). destruct (p x); [rewrite (H eq_refl)|destruct (q x)]; lia.
Qed.

Lemma covered_mono tr s1 s2 : covered tr s1 <= covered tr (s1 ++ s2).
Proof.
  apply count_if_mono. intros x. rewrite !str_mem_spec. intros H. apply in_or_app; auto.
Qed.

Lemma coverage_monotone c f l1 l2 out s code :
  live_check c false f (l1 ++ l2) = Ok (out, Cumulative s, code) ->
  exists out1 s1 code1, live_check c false f l1 = Ok (out1, Cumulative s1, code1) /\
    (st_coverage s1 <= st_coverage s)%Q.
Proof.
  intros H.
  assert (H1 : exists out1 out2 s1 code1, live_check c false f l1 = Ok (out1, Cumulative s1, code1) /\ out = out1 ++ out2).
  { unfold live_check in *. step H. injection H as <- Es Ec.
    apply run_all_app in E as (o1 & o2 & s1 & E1 & ->). rewrite E1. simpl.
    pose proof (run_all_good _ _ _ _ _ _ E1) as (-> & _). rewrite record_all_cumulative. simpl.
    eexists o1, o2, _, _. split; reflexivity. }
  destruct H1 as (out1 & out2 & s1 & code1 & H1 & ->).
  exists out1, s1, code1. split; [exact H1|].
  apply live_coverage in H as (_ & Hle & Hz & Hp). apply live_coverage in H1 as (_ & Hle1 & Hz1 & Hp1).
  cbv zeta in *. rewrite flat_map_app in *.
  set (total := _ + _ + length (distinct (tracked_events (lc_registry c)))) in *.
  destruct (Nat.eq_dec total 0) as [E|Hne].
  - rewrite (Hz E), (Hz1 E). apply Qle_refl.
  - rewrite (Hp ltac:(lia)), (Hp1 ltac:(lia)). unfold Qle; simpl.
    apply Z.mul_le_mono_nonneg_r; [lia|]. apply Nat2Z.inj_le.
    unfold seen_attrs, seen_metrics, seen_events. rewrite !map_app, !somes_app.
    repeat apply Nat.add_le_mono; apply covered_mono.
Qed.

(** * Entity associations *)

Lemma is_violation_spec f : is_violation f = true <-> f_level f = Violation.
Proof. apply level_eqb_spec. Qed.

Lemma existsb_app_or {A} (p : A -> bool) l1 l2 : existsb p (l1 ++ l2) = existsb p l1 || existsb p l2.
Proof. apply existsb_app. Qed.

Section AssocProofs.
  Context {L : Type} (key : L -> entity_key) (c : checker) (attrs : list sattr) (sig : sample).
  Let sat := satisfied (fun l => key_lookup c (key l)) (map sa_name attrs).
  Let ev := eval_assoc key c attrs sig.

  Lemma entity_check_spec e :
    existsb is_violation (check_entity_resource_attributes e attrs sig) = true <->
    exists k, required_key e k /\ ~ In k (map sa_name attrs).
  Proof.
    assert (HR : forall k, required_key e k <-> In (k, RRequired) (entity_attrs e)).
    { intros k. destruct e as [g|e]; simpl; rewrite in_map_iff.
      - split; intros (a & H); exists a; [destruct H as (H1 & H2 & H3); split; [congruence|auto]|].
        destruct H as [H1 H2]; injection H1; auto.
      - split; intros (a & H); exists a; rewrite in_app_iff in *;
          [destruct H as (H1 & H2 & H3); split; [congruence|auto]|].
        destruct H as [H1 H2]; injection H1; auto. }
    assert (HX : (exists k, required_key e k /\ ~ In k (map sa_name attrs)) <->
                 (exists k, In (k, RRequired) (entity_attrs e) /\ ~ In k (map sa_name attrs))).
    { split; intros (k & H1 & H2); exists k; (split; [apply HR, H1|exact H2]). }
    rewrite HX. clear HX HR.
    unfold check_entity_resource_attributes. rewrite existsb_exists. split.
    - intros (f & Hf & Hv). apply in_flat_map in Hf as ([k r] & Hk & Hf). simpl in Hf.
      unfold check_entity_attr in Hf. destruct (str_mem k (map sa_name attrs)) eqn:E; [contradiction|].
      destruct Hf as [<-|[]]. apply str_mem_false in E. exists k. split; [|exact E].
      destruct r; simpl in Hv; try discriminate. exact Hk.
    - intros (k & Hk & Hn). apply str_mem_false in Hn.
      eexists. split; [apply in_flat_map; exists (k, RRequired); split; [exact Hk|]|].
      + simpl. unfold check_entity_attr. rewrite Hn. left; reflexivity.
      + reflexivity.
  Qed.

  Lemma all_of_fold rs : forall acc,
    fst (fold_left (fun acc r => (fst acc && fst r, snd acc ++ snd r)) rs acc) =
      fst acc && forallb fst rs /\
    snd (fold_left (fun acc r => (fst acc && fst r, snd acc ++ snd r)) rs acc) =
      snd acc ++ flat_map (@snd bool (list finding)) rs.
  Proof.
    induction rs as [|r rs IH]; intros acc; simpl.
    - rewrite andb_true_r, app_nil_r. auto.
    - destruct (IH (fst acc && fst r, snd acc ++ snd r)) as [-> ->]. simpl.
      rewrite andb_assoc, app_assoc. auto.
  Qed.

  Lemma one_of_fold (rs : list (bool * list finding)) : forall acc,
    fold_left (fun acc (r : bool * list finding) => if fst r then (true, snd acc ++ snd r) else acc) rs acc =
    (fst acc || existsb fst rs, snd acc ++ flat_map snd (filter fst rs)).
  Proof.
    induction rs as [|[b fs] rs IH]; intros [a l]; simpl.
    - rewrite orb_false_r, app_nil_r. reflexivity.
    - rewrite IH. destruct b; simpl.
      + rewrite orb_true_r, <- app_assoc. reflexivity.
      + reflexivity.
  Qed.

  Lemma one_of_eval cs rs : one_of_results key sig cs rs =
    if existsb fst rs then (true, flat_map snd (filter fst rs))
    else (false, [association_not_satisfied (fun l => key_type (key l)) cs sig]).
  Proof.
    unfold one_of_results. rewrite one_of_fold. simpl. destruct (existsb fst rs); reflexivity.
  Qed.

  (** The verdict is the satisfaction of the expression, and the findings contain a
      violation exactly when the verdict is negative. *)
  Lemma eval_spec a : (fst (ev a) = true <-> sat a) /\
                      existsb is_violation (snd (ev a)) = negb (fst (ev a)).
  Proof.
    unfold ev, sat. induction a as [l|l IH|l IH] using assoc_ind2; simpl.
    - unfold entity_met. destruct (key_lookup c (key l)) as [e|]; simpl.
      + split; [|rewrite negb_involutive; reflexivity].
        rewrite negb_true_iff, <- not_true_iff_false, entity_check_spec. split.
        * intros Hn e' k Ee Hin. injection Ee as <-.
          destruct (in_dec string_dec k (map sa_name attrs)) as [H|H]; [exact H|].
          exfalso; apply Hn; exists k; auto.
        * intros H (k & Hin & Hni). apply Hni. eapply H; eauto.
      + split; [|reflexivity]. split; [|reflexivity]. intros _ e k E; discriminate.
    - rewrite one_of_eval.
      assert (H : existsb fst (map (eval_assoc key c attrs sig) l) = true <->
        fold_right (fun a p => satisfied (fun l => key_lookup c (key l)) (map sa_name attrs) a \/ p) False l).
      { clear - IH. induction IH as [|x l [Hx _] _ IH]; simpl; [split; [discriminate|tauto]|].
        rewrite orb_true_iff, Hx, IH. reflexivity. }
      destruct (existsb fst _) eqn:E; simpl.
      + split; [tauto|].
        apply not_true_is_false. intros Hx. apply existsb_exists in Hx as (f & Hf & Hv).
        apply in_flat_map in Hf as ([b fs] & Hin & Hf). apply filter_In in Hin as [Hin Hb].
        simpl in *. subst b. apply in_map_iff in Hin as (a & Ea & Ha).
        rewrite Forall_forall in IH. destruct (IH a Ha) as [_ Hev]. rewrite Ea in Hev. simpl in Hev.
        assert (existsb is_violation fs = true) by (apply existsb_exists; exists f; auto). congruence.
      + split; [exact H|reflexivity].
    - unfold all_of_results. destruct (all_of_fold (map (eval_assoc key c attrs sig) l) (true, [])) as [-> ->].
      simpl. split.
      + clear - IH. induction IH as [|x l [Hx _] _ IH]; simpl; [tauto|].
        rewrite andb_true_iff, Hx, IH. reflexivity.
      + clear - IH. induction IH as [|x l [_ Hx] _ IH]; simpl; [reflexivity|].
        rewrite existsb_app, Hx, IH, negb_andb. reflexivity.
  Qed.

  Lemma check_associations_spec l :
    (exists f, In f (check_associations key c attrs sig l) /\ f_level f = Violation) <->
    ~ all_satisfied (fun l => key_lookup c (key l)) (map sa_name attrs) l.
  Proof.
    assert (G : forall fs, (exists f, In f fs /\ f_level f = Violation) <-> existsb is_violation fs = true).
    { intros fs. rewrite existsb_exists. split; intros (f & Hf & Hv); exists f; (split; [exact Hf|]); apply is_violation_spec, Hv. }
    rewrite G. unfold check_associations, all_satisfied.
    destruct l as [|x [|y l]].
    - simpl. split; [discriminate|tauto].
    - destruct (eval_spec x) as [H1 H2]. unfold ev, sat in *. rewrite H2, negb_true_iff, <- not_true_iff_false, H1. tauto.
    - destruct (eval_spec (AOneOf (x :: y :: l))) as [H1 H2]. unfold ev, sat in *.
      cbn [eval_assoc] in H1, H2. rewrite H2, negb_true_iff, <- not_true_iff_false, H1.
      assert (E : forall cs, satisfied (fun l => key_lookup c (key l)) (map sa_name attrs) (AOneOf cs) <->
        exists x, In x cs /\ satisfied (fun l => key_lookup c (key l)) (map sa_name attrs) x).
      { induction cs as [|z cs IH]; simpl in *; [split; [tauto|intros (z & [] & _)]|].
        rewrite IH. split.
        - intros [H|(z' & Hz & Hs)]; [exists z; auto|exists z'; auto].
        - intros (z' & [<-|Hz] & Hs); [auto|right; exists z'; auto]. }
      rewrite E. tauto.
  Qed.
End AssocProofs.

(** * Registry lookup *)

Lemma reg_attr_list_eq r : reg_attribute_list r = map (fun a => (vattr_name a, a)) (defined_attrs r).
Proof.
  destruct r as [gs|r]; simpl.
  - induction gs as [|g gs IH]; simpl; [reflexivity|]. rewrite IH, map_app, map_map. reflexivity.
  - rewrite map_map. reflexivity.
Qed.

Lemma filter_map_pair (p : vattr -> bool) l :
  filter (fun q : string * vattr => p (snd q)) (map (fun a => (vattr_name a, a)) l) =
  map (fun a => (vattr_name a, a)) (filter p l).
Proof. induction l as [|a l IH]; simpl; [reflexivity|]. destruct (p a); simpl; rewrite IH; reflexivity. Qed.

Lemma insert_all_last {V} kvs : forall (m : list (string * V)) k,
  slookup k (insert_all kvs m) =
  match find (fun kv => String.eqb k (fst kv)) (rev kvs) with
  | Some kv => Some (snd kv) | None => slookup k m end.
Proof.
  induction kvs as [|[k0 v0] kvs IH] using rev_ind; intros m k; [reflexivity|].
  unfold insert_all in *. rewrite fold_left_app, rev_unit. simpl.
  destruct (String.eqb_spec k k0) as [->|Hne].
  - unfold slookup, sinsert. rewrite (lookup_insert_eq _ string_eqb_spec). reflexivity.
  - unfold slookup, sinsert. rewrite (lookup_insert_ne _ string_eqb_spec) by exact Hne. apply IH.
Qed.

Lemma find_app_none {A} (p : A -> bool) l1 l2 :
  find p (l1 ++ l2) = match find p l1 with Some x => Some x | None => find p l2 end.
Proof. induction l1 as [|x l1 IH]; simpl; [reflexivity|]. destruct (p x); auto. Qed.

(** The last non-template definition with the name, if any. *)
Lemma find_attribute_spec r advs m n :
  match find_attribute (checker_new r advs m) n with
  | Some a => exists pre post, defined_attrs r = pre ++ a :: post /\ vattr_name a = n /\
                is_template (vattr_type a) = false /\
                (forall b, In b post -> is_template (vattr_type b) = false -> vattr_name b <> n)
  | None => forall b, In b (defined_attrs r) -> is_template (vattr_type b) = false -> vattr_name b <> n
  end.
Proof.
  unfold find_attribute, checker_new; simpl. rewrite insert_all_last, reg_attr_list_eq.
  rewrite (filter_map_pair (fun a => negb (is_template (vattr_type a)))), <- map_rev.
  induction (defined_attrs r) as [|a l IH] using rev_ind; simpl; [intros b []|].
  rewrite filter_app, rev_app_distr. simpl.
  destruct (is_template (vattr_type a)) eqn:Et; simpl.
  - destruct (find _ _) as [[k x]|].
    + destruct IH as (pre & post & E & H1 & H2 & H3). simpl in E.
      exists pre, (post ++ [a]). split; [rewrite E, <- app_assoc; reflexivity|].
      split; [exact H1|]. split; [exact H2|].
      intros b Hb Ht. apply in_app_or in Hb as [Hb|[<-|[]]]; [auto|congruence].
    + intros b Hb Ht. apply in_app_or in Hb as [Hb|[<-|[]]]; [auto|congruence].
  - destruct (String.eqb_spec n (vattr_name a)) as [->|Hne].
    + exists l, []. repeat split; auto.
    + destruct (find _ _) as [[k x]|].
      * destruct IH as (pre & post & E & H1 & H2 & H3). simpl in E.
        exists pre, (post ++ [a]). split; [rewrite E, <- app_assoc; reflexivity|].
        split; [exact H1|]. split; [exact H2|].
        intros b Hb Ht. apply in_app_or in Hb as [Hb|[<-|[]]]; [auto|congruence].
      * intros b Hb Ht. apply in_app_or in Hb as [Hb|[<-|[]]]; [auto|congruence].
Qed.

Lemma starts_with_prefix pre s : starts_with pre s = true <-> prefix_of pre s.
Proof. apply starts_with_spec. Qed.

Lemma first_prefix_spec l n :
  match first_prefix l n with
  | Some a => exists pre t post, l = pre ++ (t, a) :: post /\ prefix_of t n /\
                forall t' a', In (t', a') pre -> ~ prefix_of t' n
  | None => forall t a, In (t, a) l -> ~ prefix_of t n
  end.
Proof.
  induction l as [|[t a] l IH]; simpl; [intros t a []|].
  destruct (starts_with t n) eqn:E.
  - exists [], t, l. split; [reflexivity|]. split; [apply starts_with_prefix, E|intros ? ? []].
  - assert (Hn : ~ prefix_of t n) by (rewrite <- starts_with_prefix, E; discriminate).
    destruct (first_prefix l n) as [x|].
    + destruct IH as (pre & t' & post & -> & H1 & H2). exists ((t, a) :: pre), t', post.
      split; [reflexivity|]. split; [exact H1|].
      intros t0 a0 [E0|H0]; [injection E0 as <- <-; exact Hn|eauto].
    + intros t0 a0 [E0|H0]; [injection E0 as <- <-; exact Hn|eauto].
Qed.

Lemma longer_first_total a b : longer_first a b = true \/ longer_first b a = true.
Proof. unfold longer_first. rewrite !Nat.leb_le. lia. Qed.
Lemma longer_first_trans a b c : longer_first a b = true -> longer_first b c = true -> longer_first a c = true.
Proof. unfold longer_first. rewrite !Nat.leb_le. lia. Qed.

Lemma prefix_same_length a b n : prefix_of a n -> prefix_of b n -> String.length a = String.length b -> a = b.
Proof.
  intros [x ->] [y E] Hl. revert b E Hl. induction a as [|ch a IH]; intros [|ch' b] E Hl; simpl in *; try discriminate; auto.
  injection E as -> E. f_equal. apply IH; auto.
Qed.

Lemma filter_head_split {A} (p : A -> bool) l x r : filter p l = x :: r ->
  exists pre post, l = pre ++ x :: post /\ p x = true /\ forall y, In y pre -> p y = false.
Proof.
  induction l as [|a l IH]; simpl; [discriminate|]. destruct (p a) eqn:E.
  - intros H. injection H as -> _. exists [], l. repeat split; auto. intros y [].
  - intros H. destruct (IH H) as (pre & post & -> & Hx & Hp). exists (a :: pre), post.
    repeat split; auto. intros y [<-|Hy]; auto.
Qed.

Lemma find_template_spec r advs m n :
  match find_template (checker_new r advs m) n with
  | Some a =>
      prefix_of (vattr_name a) n /\ is_template (vattr_type a) = true /\
      (forall b, In b (defined_attrs r) -> is_template (vattr_type b) = true ->
         prefix_of (vattr_name b) n -> String.length (vattr_name b) <= String.length (vattr_name a)) /\
      (exists pre post, defined_attrs r = pre ++ a :: post /\
         forall b, In b pre -> is_template (vattr_type b) = true -> vattr_name b <> vattr_name a)
  | None => forall b, In b (defined_attrs r) -> is_template (vattr_type b) = true ->
              ~ prefix_of (vattr_name b) n
  end.
Proof.
  unfold find_template, checker_new; cbn [lc_templates].
  rewrite reg_attr_list_eq, (filter_map_pair (fun a => is_template (vattr_type a))).
  set (ts := map (fun a => (vattr_name a, a)) (filter (fun a => is_template (vattr_type a)) (defined_attrs r))).
  assert (Hts : forall t a, In (t, a) ts <-> t = vattr_name a /\ In a (defined_attrs r) /\ is_template (vattr_type a) = true).
  { intros t a. unfold ts. rewrite in_map_iff. split.
    - intros (b & E & Hb). injection E as <- <-. apply filter_In in Hb. tauto.
    - intros (-> & H1 & H2). exists a. split; [reflexivity|]. apply filter_In; auto. }
  pose proof (first_prefix_spec (stable_sort longer_first ts) n) as H.
  destruct (first_prefix _ n) as [a|].
  - destruct H as (pre & t & post & E & Hp & Hpre).
    assert (Hin : In (t, a) ts).
    { apply (stable_sort_in longer_first). rewrite E. apply in_or_app; right; left; reflexivity. }
    apply Hts in Hin as (-> & Hd & Ht).
    split; [exact Hp|]. split; [exact Ht|]. split.
    + intros b Hb Htb Hpb.
      assert (Hinb : In (vattr_name b, b) (stable_sort longer_first ts)) by (apply stable_sort_in, Hts; auto).
      rewrite E in Hinb. apply in_app_or in Hinb as [Hinb|[Eb|Hinb]].
      * exfalso; eapply Hpre; eauto.
      * injection Eb as E1 E2. rewrite E1; lia.
      * pose proof (stable_sort_sorted longer_first longer_first_total longer_first_trans ts) as Hs.
        rewrite E in Hs. clear - Hs Hinb. induction pre as [|x pre IH]; simpl in Hs.
        -- inversion Hs as [|? ? _ Hall]; subst. rewrite Forall_forall in Hall. specialize (Hall _ Hinb).
           unfold longer_first in Hall; simpl in Hall. apply Nat.leb_le in Hall; exact Hall.
        -- inversion Hs; auto.
    + set (p := fun q : string * vattr => String.eqb (fst q) (vattr_name a)).
      assert (Hst : filter p (stable_sort longer_first ts) = filter p ts).
      { apply stable_sort_stable. unfold p, longer_first. intros x y Hx Hy.
        apply String.eqb_eq in Hx, Hy. rewrite Hx, Hy. apply Nat.leb_refl. }
      rewrite E, filter_app in Hst.
      assert (Hnil : filter p pre = []).
      { destruct (filter p pre) as [|[t' a'] l] eqn:El; [reflexivity|]. exfalso.
        assert (Hi : In (t', a') (filter p pre)) by (rewrite El; left; reflexivity).
        apply filter_In in Hi as [Hi Hpi]. apply String.eqb_eq in Hpi. simpl in Hpi. subst t'. eapply Hpre; eauto. }
      rewrite Hnil in Hst. simpl in Hst. unfold p at 1 in Hst. simpl in Hst. rewrite String.eqb_refl in Hst.
      unfold ts in Hst.
      assert (Hf : forall l, filter p (map (fun a => (vattr_name a, a)) l) =
        map (fun a => (vattr_name a, a)) (filter (fun b => String.eqb (vattr_name b) (vattr_name a)) l)).
      { induction l as [|b l IH]; cbn [map filter]; [reflexivity|].
        change (p (vattr_name b, b)) with (String.eqb (vattr_name b) (vattr_name a)).
        destruct (String.eqb _ _); cbn [map]; rewrite IH; reflexivity. }
      rewrite Hf in Hst. destruct (filter (fun b => String.eqb _ _) _) as [|b0 l0] eqn:E0; [discriminate|].
      simpl in Hst. injection Hst as E1 E2 E3. subst b0.
      assert (E0' : filter (fun b => is_template (vattr_type b) && String.eqb (vattr_name b) (vattr_name a)) (defined_attrs r) = a :: l0).
      { rewrite <- E0. clear. induction (defined_attrs r) as [|b l IH]; simpl; [reflexivity|].
        destruct (is_template (vattr_type b)); simpl; [destruct (String.eqb _ _); rewrite IH|]; auto. }
      apply filter_head_split in E0' as (pre' & post' & E' & _ & Hb). exists pre', post'. split; [exact E'|].
      intros b Hb1 Ht1 En. specialize (Hb b Hb1). rewrite Ht1, En, String.eqb_refl in Hb. discriminate.
  - intros b Hb Ht. eapply H. apply stable_sort_in, Hts. eauto.
Qed.

(** What the attribute runner reports, without modifier: the lookup finding followed by the
    advisors' findings in order. *)
Lemma run_advisor_list_none advs r sig a g : forall acc l,
  run_advisor_list None advs r sig a g acc = Ok l ->
  exists fss, Forall2 (fun adv fs => adv r sig a g = Ok fs) advs fss /\
    all_advice l = all_advice acc ++ concat fss.
Proof.
  induction advs as [|adv advs IH]; intros acc l H; simpl in H.
  - injection H as <-. exists []. split; [constructor|]. simpl. rewrite app_nil_r. reflexivity.
  - destruct (adv r sig a g) as [fs|] eqn:E; [|discriminate]. simpl in H.
    apply IH in H as (fss & HF & Ea). exists (fs :: fss). split; [constructor; auto|].
    rewrite Ea. simpl. rewrite app_assoc. f_equal. clear.
    revert acc. induction fs as [|f fs IH]; intros acc; simpl; [rewrite app_nil_r; reflexivity|].
    rewrite IH. simpl. rewrite <- app_assoc. reflexivity.
Qed.


Lemma run_attr_report r advs g sig a st a' st' :
  let c := checker_new r advs None in
  run_attr c g sig a st = Ok (a', st') ->
  exists l pre fss, sa_result a' = Some l /\
    Forall2 (fun adv fs => adv (RfAttribute a) sig (lookup_attr c (sa_name a)) g = Ok fs) advs fss /\
    all_advice l = pre ++ concat fss /\
    match find_attribute c (sa_name a), find_template c (sa_name a) with
    | Some _, _ => pre = []
    | None, Some t => (exists f, pre = [f] /\ f_id f = "template_attribute" /\ f_level f = Information /\
         f_context f = Some (JObj [("attribute_key", JStr (sa_name a)); ("template_name", JStr (vattr_name t))]))
    | None, None => (exists f, pre = [f] /\ f_id f = "missing_attribute" /\ f_level f = Violation /\
         f_context f = Some (JObj [("attribute_key", JStr (sa_name a))]))
    end.
Proof.
  intros c. unfold run_attr. fold (lookup_attr c (sa_name a)).
  change (lc_modifier c) with (@None modifier). change (lc_advisors c) with advs.
  match goal with |- context [run_advisor_list _ _ _ _ _ _ ?x] => set (l0 := x) end.
  destruct (run_advisor_list None _ _ _ _ _ l0) as [l|] eqn:E; [|discriminate].
  cbn [rbind]. intros H. injection H as <- <-.
  apply run_advisor_list_none in E as (fss & HF & Ea).
  exists l, (all_advice l0), fss. split; [reflexivity|]. split; [exact HF|]. split; [exact Ea|].
  unfold l0, lookup_attr. clear Ea HF.
  pose proof (find_attribute_spec r advs None (sa_name a)) as HA.
  pose proof (find_template_spec r advs None (sa_name a)) as HT. fold c in HA, HT.
  destruct (find_attribute c (sa_name a)) as [x|].
  - destruct HA as (_ & _ & _ & _ & -> & _). reflexivity.
  - destruct (find_template c (sa_name a)) as [x|].
    + destruct HT as (_ & -> & _). eexists; repeat split.
    + eexists; repeat split.
Qed.

(** * Missing attributes *)
Lemma attr_present_spec k attrs :
  attr_present k attrs = true <-> carries attrs (ck_key k) (is_template (ck_type k)).
Proof.
  unfold attr_present, carries. destruct (is_template (ck_type k)).
  - rewrite existsb_exists. split; intros (a & Ha & Hp); exists a; (split; [exact Ha|]); apply starts_with_prefix, Hp.
  - rewrite str_mem_spec, in_map_iff. split; intros (a & H1 & H2); exists a; auto.
Qed.

Lemma not_present_ok sig k f : f = not_present_finding sig k -> missing_finding (ck_key k) (ck_req k) f.
Proof.
  intros ->. destruct k as [key r t]; simpl. destruct r; econstructor; eauto; reflexivity.
Qed.

Lemma check_attributes_exact defs attrs sig :
  exists missing, 
    Forall2 (fun k f => missing_finding (ck_key k) (ck_req k) f) missing (check_attributes defs attrs sig) /\
    (exists keep, missing = filter keep defs /\
       forall k, keep k = true <-> ~ carries attrs (ck_key k) (is_template (ck_type k))).
Proof.
  exists (filter (fun k => negb (attr_present k attrs)) defs). split.
  - induction defs as [|k defs IH]; simpl; [constructor|].
    destruct (attr_present k attrs); simpl; [exact IH|]. constructor; [|exact IH].
    eapply not_present_ok; reflexivity.
  - eexists. split; [reflexivity|]. intros k. rewrite <- attr_present_spec, negb_true_iff.
    destruct (attr_present k attrs); split; congruence.
Qed.

(** * Which name counts for coverage *)

Lemma last_template_none fs : (forall f, In f fs -> f_id f <> "template_attribute") -> last_template fs = None.
Proof.
  induction fs as [|f fs IH]; intros H; simpl; [reflexivity|].
  rewrite IH by (intros; apply H; right; assumption). unfold template_of.
  assert (E : String.eqb (f_id f) "template_attribute" = false)
    by (apply String.eqb_neq, H; left; reflexivity).
  rewrite E. reflexivity.
Qed.

Lemma concat_never (P : advisor -> list finding -> Prop) advs fss :
  Forall2 P advs fss -> Forall never_says_template advs ->
  (forall adv fs, never_says_template adv -> P adv fs -> forall f, In f fs -> f_id f <> "template_attribute") ->
  forall f, In f (concat fss) -> f_id f <> "template_attribute".
Proof.
  induction 1 as [|adv fs advs fss Hadv HF IH]; intros Hn HP f Hf; simpl in Hf; [contradiction|].
  inversion Hn; subst. apply in_app_or in Hf as [Hf|Hf]; eauto.
Qed.

Lemma counted_name_spec r advs g sig a st a' st' :
  let c := checker_new r advs None in
  Forall never_says_template advs ->
  run_attr c g sig a st = Ok (a', st') ->
  counted_name a' =
    match find_attribute c (sa_name a), find_template c (sa_name a) with
    | None, Some t => vattr_name t
    | _, _ => sa_name a
    end.
Proof.
  intros c Hn H. pose proof H as H0. apply run_attr_good in H0 as (_ & _ & He).
  assert (En : sa_name a' = sa_name a) by (injection He; auto).
  apply run_attr_report in H as (l & pre & fss & El & HF & Ea & Hpre). fold c in Hpre, HF.
  unfold counted_name. rewrite El, Ea, En.
  assert (Hc : forall f, In f (concat fss) -> f_id f <> "template_attribute").
  { intros f Hf. eapply concat_never; eauto. intros adv fs Hadv E. simpl in E. eauto. }
  assert (Hl : forall f, last_template (f :: concat fss) = template_of f)
    by (intros f; simpl; rewrite (last_template_none _ Hc); reflexivity).
  destruct (find_attribute c (sa_name a)) as [x|].
  - subst pre. cbn [app]. rewrite (last_template_none _ Hc). reflexivity.
  - destruct (find_template c (sa_name a)) as [x|].
    + destruct Hpre as (f & -> & Hid & _ & Hctx). cbn [app]. rewrite Hl. unfold template_of.
      rewrite Hid, Hctx. reflexivity.
    + destruct Hpre as (f & -> & Hid & _). cbn [app]. rewrite Hl. unfold template_of. rewrite Hid. reflexivity.
Qed.

Lemma default_never_template show : Forall never_says_template (default_advisors show).
Proof.
  assert (CA : forall defs attrs sig f, In f (check_attributes defs attrs sig) -> f_id f <> "template_attribute").
  { intros defs attrs sig f H. apply in_flat_map in H as (k & _ & H). destruct (attr_present k attrs); [contradiction|].
    destruct H as [<-|[]]. simpl. destruct (ck_req k); discriminate. }
  repeat constructor; intros r sig a g fs f E Hin.
  - unfold deprecated_advisor in E. injection E as <-.
    destruct r; try contradiction; [destruct a as [va|]|destruct g as [s|]|destruct g as [s|]]; try contradiction;
      apply in_map_iff in Hin as (d & <- & _); discriminate.
  - unfold stability_advisor in E. injection E as <-.
    assert (S : forall k ck n s, In f (stability_findings k ck n sig s) -> f_id f <> "template_attribute").
    { intros k ck n [s|] H; [|contradiction]. unfold stability_findings in H.
      destruct (stability_eqb s SStable); [contradiction|]. destruct H as [<-|[]]. discriminate. }
    destruct r; try contradiction; [destruct a as [va|]|destruct g as [s|]|destruct g as [s|]]; try contradiction; eapply S; eauto.
  - unfold type_advisor in E. injection E as <-.
    destruct r; try contradiction.
    + unfold type_advise_attr in Hin. destruct a as [va|]; [|contradiction]. destruct (sa_type a0) as [ty|]; [|contradiction].
      destruct (vattr_type va) as [p|p|ms].
      * destruct (is_compatible ty p); [contradiction|]. destruct Hin as [<-|[]]. discriminate.
      * destruct (is_compatible ty p); [contradiction|]. destruct Hin as [<-|[]]. discriminate.
      * destruct (_ && _); [|contradiction]. destruct Hin as [<-|[]]. discriminate.
    + unfold type_advise_metric in Hin. destruct g as [s|]; [|contradiction]. apply in_app_or in Hin as [Hin|Hin].
      * unfold instrument_findings in Hin. destruct (sm_instrument m) as [i|n]; [|destruct Hin as [<-|[]]; discriminate].
        destruct (vsig_instrument s) as [e|]; [|contradiction]. destruct (instrument_eqb e i); [contradiction|].
        destruct Hin as [<-|[]]; discriminate.
      * unfold unit_findings in Hin. destruct (vsig_unit s) as [u|]; [|contradiction].
        destruct (String.eqb u (sm_unit m)); [contradiction|]. destruct Hin as [<-|[]]; discriminate.
    + destruct g; [eapply CA; eauto|contradiction].
    + destruct g; [eapply CA; eauto|contradiction].
    + destruct g; [eapply CA; eauto|contradiction].
  - unfold enum_advisor in E. injection E as <-.
    destruct r; try contradiction. destruct a as [va|]; [|contradiction].
    destruct (sa_value a0) as [v|]; [|contradiction]. destruct (sa_type a0) as [ty|]; [|contradiction].
    destruct (vattr_type va) as [p|p|ms]; try contradiction.
    destruct (_ && _); [contradiction|]. destruct (existsb _ _); [contradiction|].
    destruct Hin as [<-|[]]; discriminate.
Qed.

(** * The run never fails unless an advisor does *)
Definition total_advisor (adv : advisor) : Prop := forall r sig a g, exists fs, adv r sig a g = Ok fs.

Section NoError.
  Variable c : checker.
  Hypothesis Hadv : Forall total_advisor (lc_advisors c).

  Definition ok {T} (x : res T) : Prop := exists y, x = Ok y.

  Lemma ok_advisors m r sig a g : forall acc, ok (run_advisor_list m (lc_advisors c) r sig a g acc).
  Proof.
    revert Hadv. generalize (lc_advisors c) as advs.
    induction advs as [|adv advs IH]; intros H acc; simpl; [eexists; reflexivity|].
    inversion H as [|? ? Ht H']; subst. destruct (Ht r sig a g) as [fs ->]. simpl. apply IH, H'.
  Qed.

  Lemma ok_run t r g sig st : ok (run_advisors c t r g sig st).
  Proof. unfold run_advisors. destruct (ok_advisors (lc_modifier c) r sig None g lcr_new) as [l ->]. eexists; reflexivity. Qed.

  Lemma ok_list {T} (run : T -> lstats -> res (T * lstats)) :
    (forall x st, ok (run x st)) -> forall l st, ok (run_list run l st).
  Proof.
    intros H. induction l as [|x l IH]; intros st; simpl; [eexists; reflexivity|].
    destruct (H x st) as [[x' s1] ->]. simpl. destruct (IH s1) as [[l' s2] ->]. eexists; reflexivity.
  Qed.

  Lemma ok_attr g sig a st : ok (run_attr c g sig a st).
  Proof.
    unfold run_attr.
    match goal with |- context [run_advisor_list ?m _ ?r ?s ?a ?g ?x] => destruct (ok_advisors m r s a g x) as [l ->] end.
    eexists; reflexivity.
  Qed.
  Lemma ok_attrs g sig l st : ok (run_attrs c g sig l st).
  Proof. apply ok_list. intros; apply ok_attr. Qed.

  Ltac okstep L := match goal with |- ok (rbind ?x _) =>
    let H := fresh in assert (H : ok x) by (eapply L); destruct H as [[? ?] H]; rewrite H; clear H; cbn [rbind] end.
  Ltac okfin := eexists; reflexivity.

  Lemma ok_exemplar g sig a st : ok (run_exemplar c g sig a st).
  Proof. unfold run_exemplar. okstep ok_run. okstep ok_attrs. okfin. Qed.
  Lemma ok_dpoint mk g sig a st : ok (run_dpoint c mk g sig a st).
  Proof. unfold run_dpoint. okstep ok_run. okstep ok_attrs. okstep (ok_list _ (fun x s => ok_exemplar g sig x s)). okfin. Qed.
  Lemma ok_span_event g sig a st : ok (run_span_event c g sig a st).
  Proof. unfold run_span_event. okstep ok_run. okstep ok_attrs. okfin. Qed.
  Lemma ok_span_link g sig a st : ok (run_span_link c g sig a st).
  Proof. unfold run_span_link. okstep ok_run. okstep ok_attrs. okfin. Qed.
  Lemma ok_span g sig a st : ok (run_span c g sig a st).
  Proof.
    unfold run_span. okstep ok_run. okstep ok_attrs. okstep (ok_list _ (fun x s => ok_span_event g sig x s)).
    okstep (ok_list _ (fun x s => ok_span_link g sig x s)). okfin.
  Qed.
  Lemma ok_metric sig m st : ok (run_metric c sig m st).
  Proof.
    unfold run_metric.
    match goal with |- context [run_advisor_list ?m _ ?r ?s ?a ?g ?x] => destruct (ok_advisors m r s a g x) as [l ->] end.
    cbn [rbind]. destruct (sm_points m) as [[ps|ps|ps]|]; [| | |okfin];
      match goal with |- context [run_dpoint c ?mk ?g ?s] =>
        destruct (ok_list _ (fun x st => ok_dpoint mk g s x st) ps st) as [[? ?] ->] end; okfin.
  Qed.
  Lemma ok_log sig m st : ok (run_log c sig m st).
  Proof.
    unfold run_log.
    match goal with |- context [let '(s, l0) := ?x in _] => destruct x as [s l0] end.
    match goal with |- context [run_advisor_list ?m _ ?r ?s ?a ?g ?x] => destruct (ok_advisors m r s a g x) as [l ->] end.
    cbn [rbind]. okstep ok_attrs. okfin.
  Qed.
  Lemma ok_sample s st : ok (run_sample c s st).
  Proof.
    destruct s; simpl; unfold rmap.
    - okstep ok_attr. okfin.
    - okstep ok_span. okfin.
    - okstep ok_span_event. okfin.
    - okstep ok_span_link. okfin.
    - unfold run_resource. match goal with |- ok (rbind ?x _) => assert (H : ok x) end.
      { okstep ok_run. okstep ok_attrs. okfin. } destruct H as [[? ?] ->]. okfin.
    - unfold run_scope. match goal with |- ok (rbind ?x _) => assert (H : ok x) end.
      { okstep ok_run. okstep ok_attrs. okfin. } destruct H as [[? ?] ->]. okfin.
    - okstep ok_metric. okfin.
    - okstep ok_log. okfin.
    - unfold run_profile. match goal with |- ok (rbind ?x _) => assert (H : ok x) end.
      { okstep ok_run. okstep ok_attrs. okfin. } destruct H as [[? ?] ->]. okfin.
  Qed.
  Lemma ok_all l : forall cur st, ok (run_all c cur l st).
  Proof.
    induction l as [|s l IH]; intros cur st; simpl; [okfin|].
    okstep ok_sample. okstep IH. okfin.
  Qed.
  Lemma ok_live ns f input : ok (live_check c ns f input).
  Proof. unfold live_check. okstep ok_all. okfin. Qed.
End NoError.

Lemma default_total show : Forall total_advisor (default_advisors show).
Proof. repeat constructor; intros r sig a g; eexists; reflexivity. Qed.

(** * Association findings reach the report *)
Lemma add_list_none r fs : forall l, all_advice (add_advice_list None r l fs) = all_advice l ++ fs.
Proof.
  induction fs as [|f fs IH]; intros l; simpl; [rewrite app_nil_r; reflexivity|].
  rewrite IH. simpl. rewrite <- app_assoc. reflexivity.
Qed.

Lemma run_metric_report c sig m st m' st' :
  lc_modifier c = None -> run_metric c sig m st = Ok (m', st') ->
  exists l pre fss, sm_result m' = Some l /\
    Forall2 (fun adv fs => adv (RfMetric m) sig None (find_metric c (sm_name m)) = Ok fs) (lc_advisors c) fss /\
    all_advice l = pre ++ concat fss ++ signal_assoc_findings c (find_metric c (sm_name m)) sig /\
    match find_metric c (sm_name m) with
    | Some _ => pre = []
    | None => exists f, pre = [f] /\ f_id f = "missing_metric" /\ f_level f = Violation
    end.
Proof.
  intros Hm. unfold run_metric. rewrite Hm. intros H.
  match type of H with context [run_advisor_list _ _ _ _ _ _ ?x] => set (l0 := x) in * end.
  destruct (run_advisor_list _ _ _ _ _ _ l0) as [l1|] eqn:E; [|discriminate]. cbn [rbind] in H.
  apply run_advisor_list_none in E as (fss & HF & Ea).
  step H. injection H as <- _. eexists _, (all_advice l0), fss. split; [reflexivity|]. split; [exact HF|].
  split; [rewrite add_list_none, Ea, <- app_assoc; reflexivity|].
  unfold l0. destruct (find_metric c (sm_name m)); [reflexivity|]. eexists; repeat split.
Qed.

Lemma run_log_report c sig m st m' st' :
  lc_modifier c = None -> run_log c sig m st = Ok (m', st') ->
  let def := if String.eqb (lg_event m) "" then None else find_event c (lg_event m) in
  exists l pre fss, lg_result m' = Some l /\
    Forall2 (fun adv fs => adv (RfLog m) sig None def = Ok fs) (lc_advisors c) fss /\
    all_advice l = pre ++ concat fss ++ signal_assoc_findings c def sig /\
    (if String.eqb (lg_event m) "" then pre = [] else
     match def with
     | Some _ => pre = []
     | None => exists f, pre = [f] /\ f_id f = "missing_event" /\ f_level f = Violation
     end).
Proof.
  intros Hm. unfold run_log. rewrite Hm. cbv zeta. intros H.
  destruct (String.eqb (lg_event m) "") eqn:Ee; [|destruct (find_event c (lg_event m)) as [d|] eqn:Ef];
  match type of H with context [run_advisor_list _ _ _ _ _ _ ?x] => set (l0 := x) in * end;
  (destruct (run_advisor_list _ _ _ _ _ _ l0) as [l1|] eqn:E; [|discriminate]; cbn [rbind] in H;
  apply run_advisor_list_none in E as (fss & HF & Ea);
  step H; injection H as <- _; eexists _, (all_advice l0), fss; split; [reflexivity|]; split; [exact HF|];
  split; [rewrite ?add_list_none, Ea; cbn [signal_assoc_findings]; rewrite ?app_nil_r, <- ?app_assoc; reflexivity|]).
  - reflexivity.
  - reflexivity.
  - eexists; repeat split.
Qed.


Lemma signal_assoc_spec c s sig :
  (exists f, In f (signal_assoc_findings c (Some s) sig) /\ f_level f = Violation) <->
  ~ signal_satisfied c s (resource_attrs sig).
Proof. destruct s; apply check_associations_spec. Qed.

Lemma attr_present_spec' k attrs : attr_present k attrs = false <->
  ~ carries attrs (ck_key k) (is_template (ck_type k)).
Proof. rewrite <- attr_present_spec. destruct (attr_present k attrs); split; congruence. Qed.

Lemma c07_exact r s sig ra attrs :
  presence_checked r s = Some attrs ->
  exists fs missing, type_advisor r sig ra (Some s) = Ok fs /\
    Forall2 (fun k f => missing_finding (fst (fst k)) (snd (fst k)) f) missing fs /\
    (exists keep, missing = filter keep (attr_rules s) /\
       forall k, keep k = true <-> ~ carries attrs (fst (fst k)) (snd k)).
Proof.
  intros H.
  assert (G : forall defs, map (fun k => (ck_key k, ck_req k, is_template (ck_type k))) defs = attr_rules s ->
    exists missing, Forall2 (fun k f => missing_finding (fst (fst k)) (snd (fst k)) f) missing
                      (check_attributes defs attrs sig) /\
    (exists keep, missing = filter keep (attr_rules s) /\
       forall k, keep k = true <-> ~ carries attrs (fst (fst k)) (snd k))).
  { intros defs <-.
    set (keep := fun k : string * req_level * bool =>
      negb (if snd k then existsb (fun a => starts_with (fst (fst k)) (sa_name a)) attrs
            else str_mem (fst (fst k)) (map sa_name attrs))).
    assert (K : forall k, keep (ck_key k, ck_req k, is_template (ck_type k)) = negb (attr_present k attrs)) by reflexivity.
    exists (filter keep (map (fun k => (ck_key k, ck_req k, is_template (ck_type k))) defs)). split.
    - induction defs as [|k defs IH]; simpl; [constructor|].
      rewrite K. destruct (attr_present k attrs); simpl; [exact IH|].
      constructor; [|exact IH]. simpl. eapply not_present_ok; reflexivity.
    - exists keep. split; [reflexivity|]. intros [[k q] t].
      set (ck := {| ck_key := k; ck_req := q; ck_type := if t then TTemplate PAny else TPrim PAny |}).
      pose proof (attr_present_spec' ck attrs) as P.
      assert (Et : is_template (ck_type ck) = t) by (destruct t; reflexivity). rewrite Et in P.
      change (keep (k, q, t) = true <-> ~ carries attrs (ck_key ck) t). rewrite <- P.
      assert (Ek : keep (k, q, t) = negb (attr_present ck attrs)) by (rewrite <- K, Et; reflexivity). rewrite Ek.
      destruct (attr_present ck attrs); split; simpl; congruence. }
  destruct r; try discriminate; destruct s; try discriminate; injection H as <-;
  (edestruct G as (missing & HF & HK); [|eexists _, missing; split; [reflexivity|]; split; [exact HF|exact HK]];
   simpl; rewrite map_map; apply map_ext; reflexivity).
Qed.
