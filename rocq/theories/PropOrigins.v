(* C72: an imported signal keeps the origin of every entity it is associated with. *)
From Coq Require Import String Ascii Bool Arith NArith Lia Permutation Sorted List.
Import ListNotations.
From Verif Require Import Base BaseProofs BaseProofs2 Json SemTypes Resolved Semver DefModel DefSpec ResolveModel ResolveSpec ResolveProofs RefProofs
  ExtProofs ImportModel ImportSpec ImportProofs AssocProofs PropAssoc.
Local Open Scope string_scope.

Lemma refs_iff (a : assoc entity_ref) r : In r (refs a) <-> refers a r.
Proof.
  revert a. fix IH 1. intros a. destruct a as [l|cs|cs]; cbn [refs].
  - clear IH. split; [intros [<-|[]]; constructor|intros H; inversion H; left; reflexivity].
  - assert (X : In r (concat (rev (map refs cs))) <-> exists c, In c cs /\ refers c r).
    { rewrite in_concat. split.
      - intros (x & Hx & Hr). apply in_rev in Hx. clear -IH Hx Hr. induction cs as [|c cs IHc]; [destruct Hx|]. destruct Hx as [<-|Hx].
        + exists c. split; [left; reflexivity|apply IH; exact Hr].
        + destruct (IHc Hx) as (c' & Hc & R). exists c'. split; [right; exact Hc|exact R].
      - intros (c & Hc & R). exists (refs c). split; [apply -> in_rev; apply in_map; exact Hc|]. clear -IH Hc R.
        induction cs as [|c' cs IHc]; [destruct Hc|]. destruct Hc as [<-|Hc]; [apply IH; exact R|apply IHc; exact Hc]. }
    rewrite X. clear IH X. split; [intros (c & Hc & R); econstructor; eassumption|intros H; inversion H; subst; eauto].
  - assert (X : In r (concat (rev (map refs cs))) <-> exists c, In c cs /\ refers c r).
    { rewrite in_concat. split.
      - intros (x & Hx & Hr). apply in_rev in Hx. clear -IH Hx Hr. induction cs as [|c cs IHc]; [destruct Hx|]. destruct Hx as [<-|Hx].
        + exists c. split; [left; reflexivity|apply IH; exact Hr].
        + destruct (IHc Hx) as (c' & Hc & R). exists c'. split; [right; exact Hc|exact R].
      - intros (c & Hc & R). exists (refs c). split; [apply -> in_rev; apply in_map; exact Hc|]. clear -IH Hc R.
        induction cs as [|c' cs IHc]; [destruct Hc|]. destruct Hc as [<-|Hc]; [apply IH; exact R|apply IHc; exact Hc]. }
    rewrite X. clear IH X. split; [intros (c & Hc & R); eapply rf_all; eassumption|intros H; inversion H; subst; eauto].
Qed.
Lemma ref_origin_iff e s r url : ref_origin e s r url <->
  match p2_source (er_provenance r) with
  | Some i => nth_error (s2_dependencies s) i
  | None => match lookup_entity2 s (er_type r) with Some (u, false) => Some u | _ => None end
  end = Some url.
Proof.
  unfold ref_origin. destruct (p2_source (er_provenance r)); [reflexivity|].
  rewrite <- (has_entity_iff e (D2 s) (er_type r) url false). cbn [lookup_entity].
  destruct (lookup_entity2 s (er_type r)) as [[u [|]]|]; split; intros H; try discriminate; inversion H; reflexivity.
Qed.
Lemma collect_in (l : list (string * string)) : forall acc k v,
  slookup k (fold_left (fun m kv => bt_insert (fst kv) (snd kv) m) l acc) = Some v -> In (k, v) l \/ slookup k acc = Some v.
Proof.
  induction l as [|[k1 v1] l IH]; intros acc k v H; cbn [fold_left] in H; [right; exact H|].
  destruct (IH _ _ _ H) as [X|X]; [left; right; exact X|]. rewrite bt_insert_lookup in X. cbn [fst snd] in X. destruct (String.eqb k k1) eqn:Q; [|right; exact X].
  apply String.eqb_eq in Q. injection X as ->. subst. left. left. reflexivity.
Qed.
Lemma collect_has (l : list (string * string)) : forall acc k,
  (exists v, In (k, v) l) \/ (exists v, slookup k acc = Some v) ->
  exists v, slookup k (fold_left (fun m kv => bt_insert (fst kv) (snd kv) m) l acc) = Some v.
Proof.
  induction l as [|[k1 v1] l IH]; intros acc k H; cbn [fold_left].
  - destruct H as [(v & [])|H]. exact H.
  - apply IH. destruct H as [(v & [X|X])|(v & X)].
    + injection X as <- <-. right. exists v1. rewrite bt_insert_lookup. cbn [fst snd]. rewrite String.eqb_refl. reflexivity.
    + left. exists v. exact X.
    + right. rewrite bt_insert_lookup. destruct (String.eqb k (fst (k1, v1))); eauto.
Qed.
Lemma origins2_ok e s x : origins_of e s x (origins2 s (associations_of x)).
Proof.
  unfold origins2, collect_map. set (f := fun r => option_map _ _). split.
  - intros n url H. apply collect_in in H. destruct H as [H|H]; [|discriminate]. apply in_somes in H. apply in_map_iff in H.
    destruct H as (r & Hr & Hin). apply in_flat_map in Hin. destruct Hin as (a & Ha & Hr'). apply refs_iff in Hr'. exists a, r.
    split; [exact Ha|]. split; [exact Hr'|]. unfold f in Hr. set (o := match p2_source (er_provenance r) with Some _ => _ | None => _ end) in Hr.
    destruct o as [u|] eqn:O; cbn [option_map] in Hr; [|discriminate]. injection Hr as -> ->. split; [reflexivity|]. apply ref_origin_iff. exact O.
  - intros a r url Ha Hr Ho. apply collect_has. left. exists url. apply in_somes. apply in_map_iff. exists r. split.
    + unfold f. apply ref_origin_iff in Ho. rewrite Ho. reflexivity.
    + apply in_flat_map. exists a. split; [exact Ha|]. apply refs_iff. exact Hr.
Qed.
Lemma signal_origins s v : In v (v2_signals s) ->
  exists x, signal_ok s v x /\ opt_get (v_origins v) [] = origins2 s (associations_of x).
Proof.
  unfold v2_signals. cbv zeta. rewrite !in_app_iff, !in_map_iff. intros [(m & <- & H)|[(m & <- & H)|[(m & <- & H)|[(m & <- & H)|(m & <- & H)]]]]; eexists.
  - split; [apply metric_ok; exact H|reflexivity].
  - split; [apply event_ok; exact H|reflexivity].
  - split; [apply entity_ok; exact H|reflexivity].
  - split; [apply span_ok; exact H|reflexivity].
  - split; [apply attr_group_ok; exact H|reflexivity].
Qed.
Lemma distinct_signals s : distinct_ids s -> NoDup (map v_id (v2_signals s)).
Proof.
  unfold distinct_ids, v2_signals. cbv zeta. rewrite !map_app, !map_map. auto.
Qed.
Lemma carries_id s x g : carries (D2 s) x g -> g_id g = id_of x.
Proof. destruct x; cbn [carries id_of]; intros H; try contradiction; apply H. Qed.
Lemma import2_origins glob e bs s vs : NoDup (map v_id vs) -> (forall v, In v vs -> In v (v2_signals s)) -> forall o c gs o' es c',
  import2 glob e bs s vs o c = Got (gs, o', es, c') ->
  (forall id, ~ In id (map v_id vs) -> slookup id o' = slookup id o) /\
  NoDup (map g_id gs) /\ incl (map g_id gs) (map v_id vs) /\
  (forall g, In g gs -> exists v rs, In v vs /\ g = v_group v rs /\
     slookup (v_id v) o' = match v_origins v with Some x => Some x | None => slookup (v_id v) o end).
Proof.
  induction vs as [|v vs IH]; intros Nd Hv o c gs o' es c' H; cbn [import2] in H.
  - inversion H; subst. split; [auto|]. split; [constructor|]. split; [apply incl_refl|]. intros ? [].
  - cbn [map] in Nd. inversion Nd as [|? ? Ni Nd']; subst.
    assert (Hv' : forall w, In w vs -> In w (v2_signals s)) by (intros w Hw; apply Hv; right; exact Hw).
    assert (Rest : forall c0 l es0 c1, import2 glob e bs s vs o c0 = Got (l, o', es0, c1) ->
      (forall id, ~ In id (map v_id (v :: vs)) -> slookup id o' = slookup id o) /\
      NoDup (map g_id l) /\ incl (map g_id l) (map v_id (v :: vs)) /\
      (forall g, In g l -> exists v0 rs, In v0 (v :: vs) /\ g = v_group v0 rs /\
         slookup (v_id v0) o' = match v_origins v0 with Some x => Some x | None => slookup (v_id v0) o end)).
    { intros c0 l es0 c1 X. destruct (IH Nd' Hv' _ _ _ _ _ _ X) as (A & B & C & D). split; [|split; [exact B|split]].
      - intros id Hid. apply A. intros Y. apply Hid. right. exact Y.
      - intros y Hy. right. apply C. exact Hy.
      - intros g Hg. destruct (D g Hg) as (w & rs & Hw & R). exists w, rs. split; [right; exact Hw|exact R]. }
    destruct (negb _); [eapply Rest; exact H|]. destruct (import_decision _ _ _ _).
    + destruct (intern2 e s (v_uses v) c) as [[rs c1]|er]; cbn [rr_bind fst snd] in H; [|discriminate].
      set (oo := match v_origins v with Some x => sinsert (v_id v) x o | None => o end) in H.
      destruct (import2 glob e bs s vs oo c1) as [[[[l1 o1] es1] c2]|er] eqn:I; cbn [rr_bind] in H; [|discriminate]. inversion H; subst.
      destruct (IH Nd' Hv' _ _ _ _ _ _ I) as (A & B & C & D).
      assert (Oo : forall id, id <> v_id v -> slookup id oo = slookup id o).
      { intros id Q. unfold oo. destruct (v_origins v); [|reflexivity]. rewrite slookup_sinsert. apply String.eqb_neq in Q. rewrite Q. reflexivity. }
      assert (Gid : forall rs0, g_id (v_group v rs0) = v_id v).
      { intros rs0. destruct (signals_sound s v (Hv v (or_introl eq_refl))) as (x & K). rewrite (so_id _ _ _ K). apply carries_id with (s := s). apply (so_group _ _ _ K). }
      split; [|split; [|split]].
      * intros id Hid. rewrite A by (intros Y; apply Hid; right; exact Y). apply Oo. intros ->. apply Hid. left. reflexivity.
      * cbn [map]. constructor; [|exact B]. rewrite Gid. intros Y. apply Ni. apply C. exact Y.
      * intros y [<-|Hy]; [rewrite Gid; left; reflexivity|right; apply C; exact Hy].
      * intros g [<-|Hg].
        -- exists v, rs. split; [left; reflexivity|]. split; [reflexivity|]. rewrite A by exact Ni. unfold oo. destruct (v_origins v); [|reflexivity].
           rewrite slookup_sinsert, String.eqb_refl. reflexivity.
        -- destruct (D g Hg) as (w & rs0 & Hw & -> & R). exists w, rs0. split; [right; exact Hw|]. split; [reflexivity|]. rewrite R.
           destruct (v_origins w); [reflexivity|]. apply Oo. intros Q. apply Ni. rewrite <- Q. apply in_map. exact Hw.
    + eapply Rest; exact H.
    + destruct (import2 glob e bs s vs o c) as [[[[l1 o1] es1] c2]|er] eqn:I; cbn [rr_bind] in H; [|discriminate]. inversion H; subst.
      eapply Rest; exact I.
Qed.
Lemma remove_lookup {V} k (m : list (string * V)) n : n <> k -> slookup n (remove_key k m) = slookup n m.
Proof.
  intros Q. unfold remove_key. induction m as [|[a v] m IH]; [reflexivity|]. cbn [filter fst]. rewrite slookup_cons.
  destruct (String.eqb k a) eqn:E; cbn [negb].
  - apply String.eqb_eq in E. subst a. apply String.eqb_neq in Q. rewrite Q. exact IH.
  - rewrite slookup_cons, IH. reflexivity.
Qed.
Lemma hand_out_origins url gs : forall o, NoDup (map g_id gs) -> forall i, In i (hand_out url o gs) ->
  In (im_group i) gs /\ im_origins i = opt_get (slookup (g_id (im_group i)) o) [].
Proof.
  induction gs as [|g gs IH]; intros o Nd i Hi; cbn [hand_out] in Hi; [destruct Hi|]. cbn [map] in Nd. inversion Nd as [|? ? Ni Nd']; subst.
  destruct Hi as [<-|Hi]; [split; [left; reflexivity|reflexivity]|]. destruct (IH _ Nd' i Hi) as (A & B). split; [right; exact A|].
  rewrite B. rewrite remove_lookup; [reflexivity|]. intros Q. apply Ni. rewrite <- Q. apply in_map. exact A.
Qed.
Lemma upgrade_all_one e u gs : one_version e -> forall c gs' c', upgrade_all e u gs c = Got (gs', c') -> gs' = gs.
Proof.
  intros One. induction gs as [|g gs IH]; intros c gs' c' H; cbn [upgrade_all] in H; [inversion H; reflexivity|].
  assert (U : upgrade_group e g u c = Got (None, c)).
  { unfold upgrade_group. destruct (ev_chosen e (ev_name e (origin_url g u))) as [ch|] eqn:C; [|reflexivity]. apply One in C. subst ch.
    rewrite String.eqb_refl. reflexivity. }
  rewrite U in H. cbn [rr_bind fst snd opt_get] in H. destruct (upgrade_all e u gs c) as [[gs2 c2]|er] eqn:I; cbn [rr_bind fst snd] in H; [|discriminate].
  inversion H; subst. f_equal. eapply IH. exact I.
Qed.

(* The origins carried by an imported signal are those of the references of its definition, provided
   the ids of the published signals are distinct across kinds and one version of each registry is in
   play.  Missing: see the refuted statements below. *)
Theorem C72_imported_partial : forall glob e bs s c l c', one_version e -> distinct_ids s -> cat_ok c ->
  import_one glob e bs (D2 s) c = Done (l, c') ->
  forall i, In i l -> exists x, holds (D2 s) x /\ carries (D2 s) x (im_group i) /\ origins_of e s x (im_origins i).
Proof.
  intros glob e bs s c l c' One Dis Hok H i Hi. cbn [import_one] in H. unfold import_v2 in H.
  destruct (import2 glob e bs s (v2_signals s) [] c) as [[[[gs o] es] c1]|err] eqn:I; [|discriminate].
  destruct es as [|er es]; [|discriminate]. destruct (upgrade_all e (s2_url s) gs c1) as [[gs' c2]|err] eqn:U; [|discriminate].
  apply (upgrade_all_one _ _ _ One) in U. subst gs'. inversion H; subst.
  destruct (import2_origins _ _ _ _ _ (distinct_signals s Dis) (fun v Hv => Hv) _ _ _ _ _ _ I) as (_ & B & _ & D).
  destruct (hand_out_origins _ _ _ B i Hi) as (Hg & Ho). destruct (D _ Hg) as (v & rs & Hv & Eg & L).
  destruct (signal_origins s v Hv) as (x & K & Ox). exists x. split; [apply (so_holds _ _ _ K)|]. split; [rewrite Eg; apply (so_group _ _ _ K)|].
  assert (Gid : g_id (im_group i) = v_id v).
  { rewrite Eg, (so_id _ _ _ K). apply carries_id with (s := s). apply (so_group _ _ _ K). }
  rewrite Ho, Gid, L. destruct (v_origins v) as [y|]; cbn [opt_get] in *.
  - rewrite Ox. apply origins2_ok.
  - cbn. rewrite Ox. apply origins2_ok.
Qed.

(* What is recorded for the registry is what its imported groups carry, provided their ids are
   distinct. *)
Theorem C72_recorded_partial : forall l i n url, NoDup (map (fun i => g_id (im_group i)) l) -> In i l ->
  (recorded_as (record_origins l) (g_id (im_group i)) n url <-> slookup n (im_origins i) = Some url).
Proof.
  intros l i n url Nd Hi. unfold record_origins.
  assert (X : forall l acc, NoDup (map (fun i => g_id (im_group i)) l) -> forall id,
     slookup id (fold_left (fun m i => match im_origins i with [] => m | o => bt_insert (g_id (im_group i)) o m end) l acc) =
     match find (fun i => String.eqb (g_id (im_group i)) id && negb (match im_origins i with [] => true | _ => false end)) l with
     | Some i => Some (im_origins i) | None => slookup id acc end).
  { clear. induction l as [|j l IH]; intros acc Nd id; [reflexivity|]. cbn [map] in Nd. inversion Nd as [|? ? Ni Nd']; subst. cbn [fold_left find].
    rewrite (IH _ Nd'). destruct (im_origins j) as [|p o] eqn:O; cbn [negb]; rewrite ?andb_false_r, ?andb_true_r; [reflexivity|].
    rewrite bt_insert_lookup. rewrite (String.eqb_sym id). destruct (String.eqb (g_id (im_group j)) id) eqn:Q; [|reflexivity].
    destruct (find _ l) as [k|] eqn:F; [|rewrite O; reflexivity]. exfalso. apply find_some in F. destruct F as (Hk & F). apply andb_prop in F.
    destruct F as [F _]. apply String.eqb_eq in F, Q. apply Ni. rewrite Q, <- F. apply (in_map (fun i => g_id (im_group i))). exact Hk. }
  unfold recorded_as. rewrite (X l [] Nd). set (P := fun j : imported => _).
  destruct (find P l) as [k|] eqn:F.
  - apply find_some in F. destruct F as (Hk & F). unfold P in F. apply andb_prop in F. destruct F as [F _]. apply String.eqb_eq in F.
    assert (k = i).
    { clear -Nd Hk Hi F. induction l as [|j l IH]; [destruct Hk|]. cbn [map] in Nd. inversion Nd as [|? ? Ni Nd']; subst.
      destruct Hk as [->|Hk], Hi as [->|Hi]; [reflexivity| | |apply IH; assumption].
      - exfalso. apply Ni. rewrite F. apply (in_map (fun i => g_id (im_group i))). exact Hi.
      - exfalso. apply Ni. rewrite <- F. apply (in_map (fun i => g_id (im_group i))). exact Hk. }
    subst k. split; [intros (om & E & H); injection E as <-; exact H|intros H; exists (im_origins i); auto].
  - split; [intros (om & E & _); discriminate|]. intros H. exfalso. pose proof (List.find_none _ _ F i Hi) as N. unfold P in N. rewrite String.eqb_refl in N.
    destruct (im_origins i); [discriminate H|discriminate N].
Qed.

(* A published metric and a published event may share a name.  The origins of one are then handed to
   the other, and resolution reports an entity as unresolved although its origin is published. *)
Definition clash72 : schema2 := sample_signals "https://a.io/schemas/1.0.0" "https://o.io/schemas/1.0.0"
  [sample_assoc_metric "a.x" "host"] [sample_assoc_event "a.x" "pod"].
Definition block72 : block :=
  {| bk_imports := {| im_metrics := Some ["a.x"]; im_events := Some ["a.x"]; im_entities := None; im_spans := None; im_attribute_groups := None |};
     bk_path := "acme.yaml" |}.
Theorem C72_imported_refuted : ~ (forall glob e bs s c l c', one_version e -> cat_ok c ->
  import_one glob e bs (D2 s) c = Done (l, c') ->
  forall i, In i l -> exists x, holds (D2 s) x /\ carries (D2 s) x (im_group i) /\ origins_of e s x (im_origins i)).
Proof.
  intros H. assert (One : one_version (sample_env [])) by (intros u c0 X; discriminate X).
  destruct (import_one sample_glob (sample_env []) [block72] (D2 clash72) empty_catalog) as [[l c']|es|] eqn:E; try (vm_compute in E; discriminate E).
  specialize (H _ _ _ _ _ _ _ One empty_ok E). vm_compute in E. inversion E as [[El Ec]]. subst l. clear E Ec.
  destruct (H _ (or_introl eq_refl)) as (x & Hx & Cx & Ox1 & Ox2). destruct x as [g|m|v|n|p|a]; cbn [holds] in Hx; try contradiction.
  - destruct Hx as [<-|[]]. destruct (Ox1 "pod" "https://o.io/schemas/1.0.0" eq_refl) as (a & r & Ha & Hr & Er & _).
    destruct Ha as [<-|[]]. inversion Hr; subst. discriminate Er.
  - destruct Hx as [<-|[]]. destruct Cx as (_ & Ct & _). discriminate Ct.
Qed.
Theorem C72_resolution_refuted : ~ (forall glob o e s specs bs x a r url es,
  ev_deps e = [D2 s] -> one_version e -> holds (D2 s) x -> wanted glob bs x -> ~ private x -> In a (associations_of x) -> refers a r -> ref_origin e s r url ->
  resolve_registry glob o e specs bs false = Failed es -> ~ In (XUnresolvedEntity (id_of x) (er_type r)) es).
Proof.
  intros H. set (o := {| or_leb := fun a b => str_leb (at_name a) (at_name b); or_refs := fun l => l; or_keys := fun l => l; or_attrs := fun l => l; or_signals := fun l => l |}).
  refine (H sample_glob o (sample_env [D2 clash72]) clash72 [] [block72] (DMetric (sample_assoc_metric "a.x" "host"))
            (ARef (sample_ref2 "host" (Some 0))) (sample_ref2 "host" (Some 0)) "https://o.io/schemas/1.0.0"
            [XUnresolvedEntity "a.x" "host"] eq_refl _ _ _ _ _ _ _ _ _).
  - intros u c0 X. discriminate X.
  - left. reflexivity.
  - exists FMetrics, "a.x". split; [constructor|]. split; [reflexivity|]. exists block72, "a.x". split; [left; reflexivity|].
    split; [econstructor; [reflexivity|left; reflexivity]|reflexivity].
  - intros (m & X & _). discriminate X.
  - left. reflexivity.
  - constructor.
  - reflexivity.
  - vm_compute. reflexivity.
  - left. reflexivity.
Qed.

(* Several versions of a registry in play: a signal is replaced by the one of the chosen version, and
   the origins are then looked for under the group id of that version.  Where it is another id, the
   origin published with either version is lost, and resolution reports the entity as unresolved. *)
Definition newer72 : schema1 :=
  let g := sample_resolved "metric.a.x" GMetric None None "https://a.io/schemas/1.1.0" [] in
  {| s1_url := "https://a.io/schemas/1.1.0";
     s1_groups := [{| g_id := g_id g; g_type := g_type g; g_brief := ""; g_note := ""; g_prefix := ""; g_extends := None; g_stability := Some SStable;
        g_deprecated := None; g_attributes := []; g_span_kind := None; g_events := []; g_metric_name := Some "a.x"; g_instrument := Some Counter;
        g_unit := Some "1"; g_name := None; g_lineage := g_lineage g; g_display_name := None; g_body := None; g_annotations := None;
        g_assocs := [ARef "host"]; g_visibility := None; g_is_v2 := false; g_span_name := None; g_level := None |}];
     s1_catalog := []; s1_dependencies := []; s1_manifest_version := None;
     s1_origins := [("metric.a.x", [("host", "https://o.io/schemas/1.0.0")])] |}.
Definition older72 : schema2 := sample_signals "https://a.io/schemas/1.0.0" "https://o.io/schemas/1.0.0"
  [sample_assoc_metric "a.x" "host"] [].
Definition versions72 : env :=
  {| ev_name := fun u => if String.prefix "https://a.io/" u then "https://a.io" else u;
     ev_semver := fun u => Some {| v_major := 1%N; v_minor := if String.eqb u "https://a.io/schemas/1.1.0" then 1%N else 0%N;
                                   v_patch := 0%N; v_pre := []; v_build := [] |};
     ev_parse := fun u => Some u;
     ev_chosen := fun n => if String.eqb n "https://a.io" then Some "https://a.io/schemas/1.1.0" else None;
     ev_cached := fun u => if String.eqb u "https://a.io/schemas/1.1.0" then Some (D1 newer72 []) else None;
     ev_deps := [D2 older72] |}.
Theorem C72_replaced_refuted : ~ (forall glob o e s specs bs x a r url es,
  ev_deps e = [D2 s] -> distinct_ids s -> holds (D2 s) x -> wanted glob bs x -> ~ private x -> In a (associations_of x) -> refers a r -> ref_origin e s r url ->
  resolve_registry glob o e specs bs false = Failed es -> forall g, ~ In (XUnresolvedEntity g (er_type r)) es).
Proof.
  intros H. set (o := {| or_leb := fun a b => str_leb (at_name a) (at_name b); or_refs := fun l => l; or_keys := fun l => l; or_attrs := fun l => l; or_signals := fun l => l |}).
  refine (H sample_glob o versions72 older72 [] [block72] (DMetric (sample_assoc_metric "a.x" "host"))
            (ARef (sample_ref2 "host" (Some 0))) (sample_ref2 "host" (Some 0)) "https://o.io/schemas/1.0.0"
            [XUnresolvedEntity "metric.a.x" "host"] eq_refl _ _ _ _ _ _ _ _ "metric.a.x" _).
  - unfold distinct_ids. cbn. repeat constructor; cbn; intuition discriminate.
  - left. reflexivity.
  - exists FMetrics, "a.x". split; [constructor|]. split; [reflexivity|]. exists block72, "a.x". split; [left; reflexivity|].
    split; [econstructor; [reflexivity|left; reflexivity]|reflexivity].
  - intros (m & X & _). discriminate X.
  - left. reflexivity.
  - constructor.
  - reflexivity.
  - vm_compute. reflexivity.
  - left. reflexivity.
Qed.

(* ---- a concrete case ---- *)
Definition fine72 : schema2 := sample_signals "https://a.io/schemas/1.0.0" "https://o.io/schemas/1.0.0"
  [sample_assoc_metric "a.x" "host"] [sample_assoc_event "a.y" "pod"].
Example C72_case : distinct_ids fine72 /\ exists i c',
  import_one sample_glob (sample_env []) [block72] (D2 fine72) empty_catalog = Done ([i], c') /\ im_origins i = [("host", "https://o.io/schemas/1.0.0")].
Proof.
  split.
  - unfold distinct_ids. cbn. repeat constructor; cbn; intuition discriminate.
  - eexists _, _. split; vm_compute; reflexivity.
Qed.

Print Assumptions C72_imported_partial.
Print Assumptions C72_recorded_partial.
Print Assumptions C72_imported_refuted.
Print Assumptions C72_resolution_refuted.
Print Assumptions C72_replaced_refuted.
