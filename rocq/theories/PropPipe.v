(* From the files of a registry to its consumers (C97). *)
From Coq Require Import String Ascii Bool Arith Lia Permutation NArith List.
Import ListNotations.
From Verif Require Import Base BaseProofs BaseProofs2 Json SemTypes Resolved ResultModel ResultSpec Semver DefModel DefSpec DefProofs PropDef
  ResolveModel ResolveSpec ResolveProofs ExtProofs PropCatalog ImportModel ImportSpec ImportProofs AssocProofs PropAssoc PropImport PropUnique UniqueSpec StatsModel StatsSpec PipeSpec PipeProofs.
From Verif Require ConvertModel ConvertSpec PropConvert ViewModel ViewSpec PropView PropStats.
Local Open Scope string_scope.

Lemma kept_groups o c us out cat : (forall l, Permutation (or_refs o l) l) -> cat_ok c -> refs_ok c us ->
  stabilize (or_leb o) (or_refs o) us c = (out, cat) ->
  (forall g, In g out -> (exists u, In u us /\ same_data (ug_group u) g) /\ forall r, In r (g_attributes g) -> exists a, nth_error cat r = Some a) /\
  (forall u, In u us -> public u = true -> exists g, In g out /\ same_data (ug_group u) g).
Proof.
  intros Ho Hc Hr H. destruct (stabilize_correct _ _ _ _ _ _ Ho Hc Hr H) as ((kp & P & F) & _). split.
  - intros g Hg. destruct (Forall2_in_r _ _ _ _ F Hg) as (u & Hu & Sd & before & after & _ & Ao & _). split.
    + exists u. split; [|exact Sd]. apply (Permutation_in _ P) in Hu. apply filter_In in Hu. apply Hu.
    + intros r Hr'. unfold attrs_out in Ao. destruct (Forall2_in_l _ _ _ _ Ao Hr') as (a & _ & Ha). exists a. exact Ha.
  - intros u Hu Pu. assert (Hk : In u kp) by (apply (Permutation_in _ (Permutation_sym P)), filter_In; auto).
    destruct (Forall2_in_l _ _ _ _ F Hk) as (g & Hg & Sd & _). exists g. auto.
Qed.
Lemma same_data_sym g h : same_data g h -> same_data h g.
Proof. intros [S1 S2]. unfold same_data, same_fields in *. intuition congruence. Qed.

(* Whatever resolves can be shown to templates and policies. *)
Theorem C97_view : forall glob o e specs bs inc r, (forall l, Permutation (or_refs o l) l) ->
  resolve_registry glob o e specs bs inc = Done r ->
  forall url, exists v, ViewModel.view_registry url (rs_groups r) (rs_catalog r) = inl v.
Proof.
  intros glob o e specs bs inc r Ho H url. apply PropView.C82_success. intros id x (g & Hg & _ & _ & Hx & Hl).
  destruct (run_full _ _ _ _ _ _ _ H) as (gs & gs' & c & w & He & Hr & Hi & _ & Hs).
  destruct (all_refs glob e specs bs inc gs gs' c w He Hr Hi) as [Hc Hok].
  destruct (kept_groups _ _ _ _ _ Ho Hc Hok Hs) as [K _]. destruct (K g Hg) as [_ A]. destruct (A x Hx) as [a Ha].
  apply nth_error_None in Hl. congruence.
Qed.
Print Assumptions C97_view.

Lemma all_counted glob o e specs bs inc r : (forall l, Permutation (or_refs o l) l) ->
  clean_files specs -> refines_metrics e specs -> (forall h, known_group e h -> counted h) ->
  resolve_registry glob o e specs bs inc = Done r -> forall g, In g (rs_groups r) -> counted g.
Proof.
  intros Ho Cl Rm Kn H g Hg. destruct (run_full _ _ _ _ _ _ _ H) as (gs & gs' & c & w & He & Hr & Hi & _ & Hs).
  destruct (all_refs glob e specs bs inc gs gs' c w He Hr Hi) as [Hc Hok].
  destruct (kept_groups _ _ _ _ _ Ho Hc Hok Hs) as [K _]. destruct (K g Hg) as [(u & Hu & Sd) _].
  apply (same_data_counted _ _ (same_data_sym _ _ Sd)).
  eapply (all_groups glob e specs bs inc gs gs' c w He Hr Hi); [exact same_data_counted|exact Kn|exact carries_counted| |exact Hu].
  exact (local_counted e specs gs gs' c He Hr Cl Rm Kn).
Qed.
(* The statistics of a registry whose files report no error do not crash. *)
Theorem C97_counts_partial : forall glob o e specs bs inc r, (forall l, Permutation (or_refs o l) l) ->
  clean_files specs -> refines_metrics e specs -> (forall g, known_group e g -> counted g) ->
  resolve_registry glob o e specs bs inc = Done r ->
  forall url deps, exists st, stats1 (schema_of url r deps) = Some st.
Proof.
  intros glob o e specs bs inc r Ho Cl Rm Kn H url deps. destruct (stats1 (schema_of url r deps)) as [st|] eqn:E; [eauto|]. exfalso.
  apply PropStats.C91_panic in E. destruct E as (g & Hg & T & N). apply N. exact (all_counted _ _ _ _ _ _ _ Ho Cl Rm Kn H g Hg T).
Qed.
Print Assumptions C97_counts_partial.

Lemma leaf_mentions n a : ConvertSpec.leaf n a -> mentions a n.
Proof. induction 1; econstructor; eassumption. Qed.
Lemma same_name g n : entity_name g n -> g_type g = GEntity /\ ConvertSpec.entity_id g n.
Proof.
  intros (T & D). split; [exact T|]. unfold ConvertSpec.entity_id, ConvertSpec.refines, ConvertSpec.entity_name, ConvertSpec.without. rewrite T.
  destruct D as [(l & L & X & D)|(N & D)].
  - left. split; [exists l; auto|]. destruct D as [D|[D1 D2]]; auto.
  - right. split; [intros (l & L & X); exact (N l L X)|]. destruct D as [D|(D0 & [D|[D1 D2]])]; auto.
Qed.
Lemma same_data_entity g h n : same_data g h -> ConvertSpec.entity_id g n -> ConvertSpec.entity_id h n.
Proof.
  intros ((I & T & _ & _ & _ & _ & _ & _ & _ & _ & _ & _ & _ & N & _) & L).
  unfold ConvertSpec.entity_id, ConvertSpec.refines, ConvertSpec.entity_name. rewrite I, T, N, L. auto.
Qed.
Lemma based_iff g : based g -> ConvertSpec.has_base g.
Proof.
  intros B (l & L & X). specialize (B l L). rewrite X in B. destruct (gl_extends l) as [b|] eqn:E; [|exfalso; apply B; [discriminate|reflexivity]].
  exists b, l. auto.
Qed.
(* A registry whose files report no error, and whose version 1 events have names, can be converted to
   version 2, under any valid url. *)
Theorem C97_convert_partial : forall glob o e specs bs inc r, (forall l, Permutation (or_refs o l) l) ->
  clean_files specs -> refines_metrics e specs -> names_events specs ->
  (forall g, known_group e g -> counted g /\ has_name g /\ says_base g) ->
  resolve_registry glob o e specs bs inc = Done r ->
  forall hash order name_of url_ok url name roots deps, (forall l, Permutation l (order l)) -> url_ok url = true ->
  exists out, ConvertModel.convert hash order name_of url_ok (source_of url name r roots deps) = ConvertModel.Converted out.
Proof.
  intros glob o e specs bs inc r Ho Cl Rm Ne Kn H hash order name_of url_ok url name roots deps Oo Uok.
  apply PropConvert.C76_success; [exact Oo|]. split; [exact Uok|]. intros g Hg. cbn [source_of ConvertModel.so_groups] in Hg.
  pose proof (all_counted _ _ _ _ _ _ _ Ho Cl Rm (fun h Hh => proj1 (Kn h Hh)) H g Hg) as Cg.
  destruct (run_full _ _ _ _ _ _ _ H) as (gs & gs' & c & w & He & Hr & Hi & Ha & Hs).
  destruct (all_refs glob e specs bs inc gs gs' c w He Hr Hi) as [Hc Hok].
  destruct (kept_groups _ _ _ _ _ Ho Hc Hok Hs) as [K1 K2]. destruct (K1 g Hg) as [(u & Hu & Sd) At].
  assert (Ng : has_name g).
  { apply (same_data_named _ _ (same_data_sym _ _ Sd)).
    eapply (all_groups glob e specs bs inc gs gs' c w He Hr Hi); [exact same_data_named|intros h Hh; apply (Kn h Hh)|exact carries_named| |exact Hu].
    exact (local_named e specs gs gs' c He Hr Cl Ne). }
  assert (Bg : ConvertSpec.has_base g).
  { apply based_iff. apply (same_data_based _ _ (same_data_sym _ _ Sd)).
    eapply (all_groups glob e specs bs inc gs gs' c w He Hr Hi); [exact same_data_based|intros h Hh; apply (Kn h Hh)|exact carries_based| |exact Hu].
    exact (local_based e specs gs gs' c He Hr). }
  assert (Rg : ConvertSpec.resolvable (source_of url name r roots deps) g).
  { intros a n Hin Hl. assert (Hn : names_entity u n).
    { exists a. split; [|apply leaf_mentions, Hl]. destruct Sd as [Sf _]. unfold same_fields in Sf. decompose [and] Sf. congruence. }
    assert (Id : uid u = g_id g) by (destruct Sd as [Sf _]; unfold same_fields in Sf; decompose [and] Sf; assumption).
    destruct (C71_resolved _ _ _ _ Ha u n Hu Hn) as [(m & v & B1 & B2)|[(x & (before & after & Eg & En & _) & _)|(v & _ & (m & B1 & B2))]].
    - left. exists v. assert (R1 : recorded_as (rs_origins r) (uid u) n v).
      { apply (C71_recorded _ _ _ _ Ha). left. exists m. auto. }
      rewrite Id in R1. exact R1.
    - right. destruct (same_name _ _ En) as [Te Ee]. assert (Hx : In x (wi_groups w)) by (rewrite Eg; apply in_or_app; right; left; reflexivity).
      assert (Px : public x = true).
      { destruct (public x) eqn:P; [reflexivity|]. pose proof (only_attributes_hidden glob e specs bs inc gs gs' c w He Hr Hi Cl x Hx P). congruence. }
      destruct (K2 x Hx Px) as (h & Hh & Sh). exists h. split; [exact Hh|]. split; [|exact (same_data_entity _ _ _ Sh Ee)].
      destruct Sh as [Sf _]. unfold same_fields in Sf. decompose [and] Sf. congruence.
    - left. exists v, m. rewrite <- Id. auto. }
  assert (Ms : g_type g = GMetric -> ConvertSpec.measured g).
  { intros T. destruct (Cg T) as (M & I & U). unfold ConvertSpec.measured.
    destruct (g_metric_name g), (g_instrument g), (g_unit g); try congruence.
    split; [eexists; reflexivity|split; eexists; reflexivity]. }
  assert (Nm : g_type g = GEvent -> exists n, g_name g = Some n).
  { intros T. specialize (Ng T). destruct (g_name g); [eauto|congruence]. }
  unfold ConvertSpec.convertible. destruct (g_type g) eqn:T; try exact I.
  all: split; [first [exact Bg|exact (Ms eq_refl)|exact (Nm eq_refl)]|first [exact Rg|exact At]].
Qed.
Print Assumptions C97_convert_partial.

(* ---- what does not hold ---- *)
Lemma pipe_refs : forall l, Permutation (or_refs sample_orders l) l.
Proof. intros l. apply Permutation_refl. Qed.
Lemma empty_known g : ~ known_group (sample_env []) g.
Proof. intros (s & roots & [[]|(u & X)] & _). discriminate X. Qed.
Ltac clean_v2 := eexists (V2 _), "a"; split; [reflexivity|]; split; [|exact I]; let x := fresh in let Hx := fresh in
  intros x Hx; vm_compute in Hx; repeat (destruct Hx as [<-|Hx]; [reflexivity|]); destruct Hx.
(* Nothing is reported, and yet the statistics and the conversion crash: a metric refines an
   attribute group, which no step checks. *)
Theorem C97_counts_refuted : exists specs r,
  clean_files specs /\ names_events specs /\ resolve_registry sample_glob sample_orders (sample_env []) specs [] false = Done r /\ rs_errors r = [] /\
  stats1 (schema_of "u" r []) = None /\
  ConvertModel.convert (fun _ => 0%N) (fun l => l) (fun u => u) (fun _ => true) (source_of "u" "u" r [] []) = ConvertModel.Panicked.
Proof.
  exists pipe_mistyped. eexists. split.
  - intros sp [<-|[<-|[]]]; [clean_v2|]. eexists (V1 _), "b". split; [reflexivity|]. split.
    + intros x Hx. vm_compute in Hx. destruct Hx as [<-|[<-|[]]]; reflexivity.
    + intros g [<-|[]]. split; reflexivity.
  - split.
    + intros g (sp & [<-|[<-|[]]] & Hg) V T; vm_compute in Hg;
        repeat (destruct Hg as [<-|Hg]; [vm_compute in T; discriminate T|]); destruct Hg.
    + split; [vm_compute; reflexivity|]. repeat split.
Qed.
Print Assumptions C97_counts_refuted.
(* An event of version 1 may have a prefix instead of a name; then it cannot be converted. *)
Theorem C97_convert_refuted : exists specs r,
  clean_files specs /\ refines_metrics (sample_env []) specs /\
  resolve_registry sample_glob sample_orders (sample_env []) specs [] false = Done r /\ rs_errors r = [] /\
  ConvertModel.convert (fun _ => 0%N) (fun l => l) (fun u => u) (fun _ => true) (source_of "u" "u" r [] []) = ConvertModel.Failed (ConvertModel.CEventName "boot").
Proof.
  exists pipe_unnamed. eexists. split.
  - intros sp [<-|[]]. eexists (V1 _), "b". split; [reflexivity|]. split.
    + intros x Hx. vm_compute in Hx. destruct Hx as [<-|[]]. reflexivity.
    + intros g [<-|[]]. split; reflexivity.
  - split; [intros g p (sp & [<-|[]] & [<-|[]]) V; discriminate V|].
    split; [vm_compute; reflexivity|]. split; reflexivity.
Qed.
Print Assumptions C97_convert_refuted.

(* ---- a concrete registry, with a dependency of either kind ---- *)
Example C97_nonvacuous : exists r,
  clean_files pipe_whole /\ refines_metrics pipe_env pipe_whole /\ names_events pipe_whole /\
  (forall g, known_group pipe_env g -> counted g /\ has_name g /\ says_base g) /\
  resolve_registry sample_glob sample_orders pipe_env pipe_whole [sample_block ["*"] ["*"]] false = Done r /\
  map (fun g => (g_id g, g_type g)) (rs_groups r) =
    [("cpu", GMetric); ("entity.disk", GEntity); ("entity.host", GEntity); ("event.boot", GEvent); ("hits.web", GMetric);
     ("metric.hits", GMetric); ("more", GAttributeGroup); ("node", GEntity); ("registry.a", GAttributeGroup)].
Proof.
  eexists. split; [|split; [|split; [|split; [|split; [vm_compute; reflexivity|reflexivity]]]]].
  - intros sp [<-|[<-|[]]]; [clean_v2|]. eexists (V1 _), "b". split; [reflexivity|]. split.
    + intros x Hx. vm_compute in Hx. destruct Hx as [<-|[<-|[]]]; reflexivity.
    + intros g [<-|[]]. split; reflexivity.
  - intros g p (sp & [<-|[<-|[]]] & Hg) V T X; vm_compute in Hg.
    + repeat (destruct Hg as [<-|Hg]; [try discriminate T; try discriminate X|]); [|destruct Hg].
      injection X as <-. split.
      * intros h (sp & [<-|[<-|[]]] & Hh) Ih; vm_compute in Hh; repeat (destruct Hh as [<-|Hh]; [try discriminate Ih; try reflexivity|]); destruct Hh.
      * intros d s [<-|[<-|[]]] Q; vm_compute in Q; discriminate Q.
    + destruct Hg as [<-|[]]. discriminate V.
  - intros g (sp & [<-|[<-|[]]] & Hg) V T; vm_compute in Hg;
      repeat (destruct Hg as [<-|Hg]; [try discriminate T; try discriminate|]); destruct Hg.
  - intros g (s & roots & [[X|[X|[]]]|(u & X)] & Hg); [discriminate X| |discriminate X].
    injection X as <- <-. destruct Hg as [<-|[]]. split; [discriminate|]. split; [discriminate|]. intros l L X. injection L as <-. exfalso. apply X. reflexivity.
Qed.
