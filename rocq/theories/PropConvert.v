(* C41, C76, C77, C78: converting a resolved registry to version 2. *)
From Coq Require Import String Ascii Bool Arith ZArith NArith Lia Permutation Sorted List.
Import ListNotations.
From Verif Require Import Base BaseProofs BaseProofs2 Json SemTypes Resolved ResolveModel ConvertModel ConvertSpec ConvertProofs.
Local Open Scope string_scope.

(* ---------- C41: everything is kept, once ---------- *)
(* Every span, metric, event and entity that is a definition appears exactly once, in the order of
   the groups, with its fields, its attributes and its associations; so does every public
   attribute group. *)
Theorem C41_signals hash order name_of url_ok s out :
  (forall l, Permutation l (order l)) -> convert hash order name_of url_ok s = Converted out ->
  one_each (definition GSpan) (is_span s out) (so_groups s) (r2_spans (s2_registry out)) /\
  one_each (definition GMetric) (is_metric s out) (so_groups s) (r2_metrics (s2_registry out)) /\
  one_each (definition GEvent) (is_event s out) (so_groups s) (r2_events (s2_registry out)) /\
  one_each (definition GEntity) (is_entity s out) (so_groups s) (r2_entities (s2_registry out)) /\
  one_each (fun g => g_type g = GAttributeGroup /\ g_visibility g = Some Public) (is_group s out)
           (so_groups s) (r2_attribute_groups (s2_registry out)).
Proof.
  intros OP H. destruct (convert_parts hash order name_of url_ok s out H)
    as (es & p & Hc & Hf & He & Hs & U & Hu & Hd & Ha & Hg & Hsp & Hm & Hev & Hen & Rs & Rm & Re).
  destruct (signal_pass_ok hash order name_of OP s out Hc (so_groups s) p Hs) as (A1 & A2 & A3 & A4 & A5 & A6 & A7).
  destruct (entity_pass_ok hash order name_of s out es Hc He) as (B1 & B2).
  rewrite Hg, Hsp, Hm, Hev, Hen. auto.
Qed.
(* Every signal, definition or refinement, is listed exactly once among the refinements: a
   definition under its own name, a refinement under its id. *)
Theorem C41_refinements hash order name_of url_ok s out :
  (forall l, Permutation l (order l)) -> convert hash order name_of url_ok s = Converted out ->
  one_each (typed GSpan) (listed "span." sp2_type (is_span s out)) (so_groups s) (f2_spans (s2_refinements out)) /\
  one_each (typed GMetric) (listed "metric." me2_name (is_metric s out)) (so_groups s) (f2_metrics (s2_refinements out)) /\
  one_each (typed GEvent) (listed "event." ev2_name (is_event s out)) (so_groups s) (f2_events (s2_refinements out)) /\
  one_each (typed GEntity) (listed "entity." en2_type (is_entity s out)) (so_groups s) (f2_entities (s2_refinements out)).
Proof.
  intros OP H. destruct (convert_parts hash order name_of url_ok s out H)
    as (es & p & Hc & Hf & He & Hs & U & Hu & Hd & Ha & Hg & Hsp & Hm & Hev & Hen & Rs & Rm & Re).
  destruct (signal_pass_ok hash order name_of OP s out Hc (so_groups s) p Hs) as (A1 & A2 & A3 & A4 & A5 & A6 & A7).
  destruct (entity_pass_ok hash order name_of s out es Hc He) as (B1 & B2).
  rewrite Rs, Rm, Re, Hf. auto.
Qed.
(* The catalog holds every attribute of the registry, nothing else, each in one place, sorted by
   key, with the place it was declared; the url and the dependencies are unchanged. *)
Theorem C41_catalog hash order name_of url_ok s out :
  (forall l, Permutation l (order l)) -> convert hash order name_of url_ok s = Converted out ->
  (forall a, In a (so_catalog s) -> exists i, stands_for out a i) /\
  (forall a i j, stands_for out a i -> stands_for out a j -> i = j) /\
  (forall b, In b (s2_catalog out) -> exists a, In a (so_catalog s) /\ same_attribute a b) /\
  (forall b, In b (s2_catalog out) -> attr_declared name_of s (a2_key b) (a2_provenance b)) /\
  StronglySorted (fun a b => str_leb (a2_key a) (a2_key b) = true) (s2_catalog out) /\
  s2_url out = so_url s /\ s2_dependencies out = so_deps s.
Proof.
  intros OP H. destruct (convert_parts hash order name_of url_ok s out H)
    as (es & p & Hc & Hf & He & Hs & U & Hu & Hd & _).
  split.
  { intros a Ia. destruct (convert_ref_total hash order name_of OP s a Ia) as (i & Ei). exists i.
    exact (ref_stands hash order name_of s out Hc a i Ei). }
  split.
  { intros a i j (b & Hb & Sb) (c & Hcc & Sc). rewrite Hc in Hb, Hcc. exact (catalog_unique hash order name_of OP s a i j b c Hb Sb Hcc Sc). }
  split.
  { intros b Hb. rewrite Hc in Hb. apply (catalog_in hash order name_of OP) in Hb as (a & Ia & ->). exists a. split; [exact Ia | apply v2_same]. }
  split.
  { intros b Hb. rewrite Hc in Hb. apply (catalog_in hash order name_of OP) in Hb as (a & Ia & ->). cbn [attribute_v2 a2_key a2_provenance]. apply attr_provenance_ok. }
  split; [|auto]. rewrite Hc. unfold v2_catalog.
  assert (So := stable_sort_sorted (catalog_leb hash) (catalog_leb_total hash) (fun x y z => catalog_leb_trans hash x y z)
                 (order (nodup attribute2_eq_dec (map (attribute_v2 name_of s) (so_catalog s))))).
  assert (W : forall x y, le (catalog_leb hash) x y -> str_leb (a2_key x) (a2_key y) = true).
  { intros x y L. unfold le in L. apply catalog_leb_iff in L as [L|[L _]].
    - unfold str_leb. unfold str_lt in L. rewrite L. reflexivity.
    - rewrite L. apply str_leb_refl. }
  induction So as [|x l So IH Fa]; constructor; [exact IH|]. rewrite Forall_forall in *. intros y Hy. apply W. exact (Fa y Hy).
Qed.
(* The attributes of the registry are the definitions, each listed once. *)
Theorem C41_attributes hash order name_of url_ok s out :
  (forall l, Permutation l (order l)) -> convert hash order name_of url_ok s = Converted out ->
  StronglySorted lt (r2_attributes (s2_registry out)) /\
  (forall i, In i (r2_attributes (s2_registry out)) <-> exists a, defined s a /\ stands_for out a i) /\
  (* definitions that agree whenever they share a name give every key once *)
  ((forall a b x, defined s a -> defined s b -> at_name a = at_name b -> same_attribute a x -> same_attribute b x) ->
   forall i j a b, In i (r2_attributes (s2_registry out)) -> In j (r2_attributes (s2_registry out)) ->
     nth_error (s2_catalog out) i = Some a -> nth_error (s2_catalog out) j = Some b -> a2_key a = a2_key b -> i = j).
Proof.
  intros OP H. destruct (convert_parts hash order name_of url_ok s out H)
    as (es & p & Hc & Hf & He & Hs & U & Hu & Hd & Ha & _).
  rewrite Ha. split; [apply registry_attributes_sorted|].
  assert (RI := fun i => registry_attributes_in hash order name_of OP s out i Hc). split; [exact RI|].
  intros Ag i j a b Hi Hj Na Nb K. apply RI in Hi as (x & Dx & (x' & Nx & Sx)). apply RI in Hj as (y & Dy & (y' & Ny & Sy)).
  assert (x' = a) by congruence. assert (y' = b) by congruence. subst x' y'.
  assert (Sy' : same_attribute y a).
  { apply (Ag x y a Dx Dy); [|exact Sx]. destruct Sx as (E1 & _), Sy as (E2 & _). congruence. }
  rewrite Hc in Na, Nb. exact (catalog_unique hash order name_of OP s y i j a b Na Sy' Nb Sy).
Qed.
Print Assumptions C41_signals.
Print Assumptions C41_refinements.
Print Assumptions C41_catalog.
Print Assumptions C41_attributes.

Lemma id_perm : forall l : list attribute2, Permutation l ((fun x => x) l).
Proof. intros l. apply Permutation_refl. Qed.
Definition sample_name (u : string) : string := if String.eqb u "https://otel.test/schemas/1.0" then "otel.test" else "k8s.test".
(* the sample registry is converted; "host" and its refinement, "process", ... *)
Example C41_sample : exists out, convert (fun _ => 0%N) (fun l => l) sample_name (fun _ => true) sample_source = Converted out /\
  map sp2_type (r2_spans (s2_registry out)) = ["http.client"] /\
  map fst (f2_spans (s2_refinements out)) = ["http.client"; "http.client.acme"] /\
  map (fun p => (fst p, en2_type (snd p))) (f2_entities (s2_refinements out)) = [("host", "host"); ("host.acme", "host"); ("process", "process")] /\
  map a2_key (s2_catalog out) = ["host.id"; "url"] /\
  map (fun a => p2_source (a2_provenance a)) (s2_catalog out) = [Some 1; None] /\
  map (fun e => (map u_base (en2_identity e), map u_base (en2_description e))) (r2_entities (s2_registry out)) = [([0], [1]); ([], [])] /\
  map (fun x => map u_base (sp2_attributes x)) (r2_spans (s2_registry out)) = [[1; 1]] /\
  r2_attributes (s2_registry out) = [0; 1] /\
  map sp2_assocs (r2_spans (s2_registry out)) =
    [[AOneOf [ARef (entity_ref_local "host"); ARef {| er_type := "k8s.pod"; er_provenance := {| p2_source := Some 0; p2_path := "" |} |}];
      ARef (entity_ref_local "process")]].
Proof. eexists. split; [vm_compute; reflexivity|]. vm_compute. repeat split; reflexivity. Qed.

(* A signal can lose an attribute without an error: a number the catalog does not have is
   skipped for a span, an event, a metric and an attribute group. *)
Theorem C41_missing_attribute_refuted : exists s out, convert (fun _ => 0%N) (fun l => l) (fun u => u) (fun _ => true) s = Converted out /\
  exists g x, In g (so_groups s) /\ In x (r2_spans (s2_registry out)) /\ is_span s out g x /\
    length (sp2_attributes x) < length (g_attributes g).
Proof.
  assert (H : exists out, convert (fun _ => 0%N) (fun l => l) (fun u => u) (fun _ => true) sample_twice = Converted out).
  { eexists. vm_compute. reflexivity. }
  destruct H as (out & H). exists sample_twice, out. split; [exact H|].
  destruct (C41_signals _ _ _ _ _ _ id_perm H) as (S1 & _). vm_compute in H. injection H as <-.
  inversion S1 as [|? ? ? N _|g x l m P R S2]; subst.
  - exfalso. apply N. split; [reflexivity|]. intros (l & E & _). discriminate.
  - exists (sample_signal "span.a" GSpan None None [0; 7] [] None). eexists. split; [left; reflexivity|]. split; [left; reflexivity|].
    split; [exact R|]. cbn. lia.
Qed.
(* The registry can list a key twice, when two groups define it differently. *)
Theorem C41_key_twice_refuted : exists s out, convert (fun _ => 0%N) (fun l => l) (fun u => u) (fun _ => true) s = Converted out /\
  exists i j a b, i <> j /\ In i (r2_attributes (s2_registry out)) /\ In j (r2_attributes (s2_registry out)) /\
    nth_error (s2_catalog out) i = Some a /\ nth_error (s2_catalog out) j = Some b /\ a2_key a = a2_key b.
Proof.
  exists sample_twice. eexists. split; [vm_compute; reflexivity|].
  exists 0, 1. eexists. eexists. vm_compute. split; [discriminate|]. split; [left; reflexivity|]. split; [right; left; reflexivity|].
  split; [reflexivity|]. split; reflexivity.
Qed.
Print Assumptions C41_missing_attribute_refuted.
Print Assumptions C41_key_twice_refuted.

(* ---------- C76: when a registry can be converted ---------- *)
Theorem C76_success hash order name_of url_ok s : (forall l, Permutation l (order l)) ->
  (exists out, convert hash order name_of url_ok s = Converted out) <->
  url_ok (so_url s) = true /\ forall g, In g (so_groups s) -> convertible s g.
Proof. intros OP. exact (convert_total hash order name_of url_ok OP s). Qed.
(* the error names a group and what is wrong with it, or the url when no group is at fault *)
Theorem C76_reason hash order name_of url_ok s e : (forall l, Permutation l (order l)) ->
  convert hash order name_of url_ok s = Failed e ->
  (exists g, In g (so_groups s) /\ offends s g e) \/
  ((forall g, In g (so_groups s) -> convertible s g) /\ e = CInvalidUrl (so_url s) /\ url_ok (so_url s) = false).
Proof. intros OP. exact (convert_reason hash order name_of url_ok s e OP). Qed.
(* it panics exactly when a metric has no name, instrument or unit and nothing before it fails *)
Theorem C76_panic hash order name_of url_ok s : (forall l, Permutation l (order l)) ->
  convert hash order name_of url_ok s = Panicked <->
  (forall g, In g (so_groups s) -> g_type g = GEntity -> convertible s g) /\
  exists l1 g l2, so_groups s = app l1 (g :: l2) /\ (forall h, In h l1 -> convertible s h) /\ g_type g = GMetric /\ ~ measured g.
Proof. intros OP. exact (convert_panic hash order name_of url_ok OP s). Qed.
Print Assumptions C76_success.
Print Assumptions C76_reason.
Print Assumptions C76_panic.
Definition with_group (g : group) : source1 :=
  {| so_url := so_url sample_source; so_registry_url := so_registry_url sample_source; so_groups := app (so_groups sample_source) [g];
     so_origins := so_origins sample_source; so_catalog := so_catalog sample_source; so_roots := so_roots sample_source; so_deps := so_deps sample_source |}.
Example C76_sample :
  convert (fun _ => 0%N) (fun l => l) sample_name (fun _ => true) (with_group (sample_signal "metric.m" GMetric None None [] [] None)) = Panicked /\
  convert (fun _ => 0%N) (fun l => l) sample_name (fun _ => true) (with_group (sample_signal "event.e" GEvent None None [] [] None)) = Failed (CEventName "event.e") /\
  convert (fun _ => 0%N) (fun l => l) sample_name (fun _ => true) (with_group (sample_signal "span.s" GSpan None None [] [AAllOf [ARef "host"; ARef "disk"]] None)) = Failed (CAssociation "span.s" "disk") /\
  convert (fun _ => 0%N) (fun l => l) sample_name (fun _ => true) (with_group (sample_signal "entity.e" GEntity None None [0; 9] [] None)) = Failed (CAttributeNotFound "entity.e" 9) /\
  convert (fun _ => 0%N) (fun l => l) sample_name (fun _ => false) sample_source = Failed (CInvalidUrl "https://acme.test/schemas/1.0").
Proof. vm_compute. repeat split; reflexivity. Qed.

(* ---------- C77: the entity an association resolved to ---------- *)
(* Every association keeps its shape; every reference names the entity that was written, denotes the
   one declared in the recorded origin, and an entity of this schema when no origin is recorded. *)
Theorem C77_references_partial hash order name_of url_ok s out :
  (forall l, Permutation l (order l)) -> convert hash order name_of url_ok s = Converted out ->
  one_each (typed GSpan) (fun g p => Forall2 (same_shape (points s out (g_id g))) (g_assocs g) (sp2_assocs (snd p)))
           (so_groups s) (f2_spans (s2_refinements out)) /\
  one_each (typed GMetric) (fun g p => Forall2 (same_shape (points s out (g_id g))) (g_assocs g) (me2_assocs (snd p)))
           (so_groups s) (f2_metrics (s2_refinements out)) /\
  one_each (typed GEvent) (fun g p => Forall2 (same_shape (points s out (g_id g))) (g_assocs g) (ev2_assocs (snd p)))
           (so_groups s) (f2_events (s2_refinements out)).
Proof.
  intros OP H. destruct (C41_refinements _ _ _ _ _ _ OP H) as (A1 & A2 & A3 & _).
  assert (W : forall g l m, associated s out g l m -> Forall2 (same_shape (points s out (g_id g))) l m).
  { intros g l m F. unfold associated in F. induction F as [|x y l m Hxy F IH]; constructor; [|exact IH].
    exact (shape_weaken _ _ (refers_points s out (g_id g)) _ _ Hxy). }
  split; [|split].
  - apply (one_each_weaken _ _ _ _ _ (fun g p _ _ Q => W g _ _ (proj1 (proj2 (proj2 (proj2 (proj2 (proj1 Q))))))) A1).
  - apply (one_each_weaken _ _ _ _ _ (fun g p _ _ Q => W g _ _ (proj1 (proj2 (proj2 (proj2 (proj2 (proj1 Q))))))) A2).
  - apply (one_each_weaken _ _ _ _ _ (fun g p _ _ Q => W g _ _ (proj1 (proj2 (proj2 (proj1 Q))))) A3).
Qed.
(* An origin that is not a dependency leaves a reference that claims an entity this schema does not hold. *)
Theorem C77_unlisted_origin_refuted : exists s out, convert (fun _ => 0%N) (fun l => l) (fun u => u) (fun _ => true) s = Converted out /\
  exists x r, In x (r2_spans (s2_registry out)) /\ In (ARef r) (sp2_assocs x) /\
    p2_source (er_provenance r) = None /\ forall src, ~ holds out (er_type r) src.
Proof.
  exists sample_twice. eexists. split; [vm_compute; reflexivity|]. cbn [r2_spans s2_registry].
  eexists. exists {| er_type := "disk"; er_provenance := {| p2_source := None; p2_path := "" |} |}.
  split; [right; left; reflexivity|]. split; [left; reflexivity|]. split; [reflexivity|].
  intros src (l1 & e & l2 & E & _). cbn in E. destruct l1; discriminate.
Qed.
Print Assumptions C77_references_partial.
Print Assumptions C77_unlisted_origin_refuted.
Example C77_sample : origin sample_source "span.http.client" "process" "https://otel.test/schemas/1.0" /\
  In "https://otel.test/schemas/1.0" (so_deps sample_source) /\
  (forall u, ~ origin sample_source "span.http.client" "host" u).
Proof.
  split; [eexists; split; [reflexivity | vm_compute; reflexivity]|]. split; [right; left; reflexivity|].
  intros u (m & E1 & E2). vm_compute in E1. injection E1 as <-. vm_compute in E2. discriminate.
Qed.

(* ---------- C78: the order of a hash set does not show ---------- *)
Theorem C78_order_partial hash o1 o2 name_of url_ok s out :
  (forall l, Permutation l (o1 l)) -> (forall l, Permutation l (o2 l)) ->
  convert hash o1 name_of url_ok s = Converted out ->
  (forall a b, In a (s2_catalog out) -> In b (s2_catalog out) -> a2_key a = a2_key b -> hash a = hash b -> a = b) ->
  convert hash o2 name_of url_ok s = Converted out.
Proof.
  intros P1 P2 H Inj. destruct (convert_parts hash o1 name_of url_ok s out H) as (es & p & Hc & _).
  assert (E : v2_catalog hash o2 name_of s = v2_catalog hash o1 name_of s).
  2:{ rewrite <- H. unfold convert. rewrite E. reflexivity. }
  symmetry. rewrite Hc in Inj. revert Inj. clear -P1 P2. unfold v2_catalog. intros Inj.
  apply (sorted_perm_unique (catalog_leb hash)).
  - intros x y Hx Hy L1 L2. apply catalog_leb_iff in L1 as [L1|[K1 L1]]; apply catalog_leb_iff in L2 as [L2|[K2 L2]].
    + exfalso. exact (str_lt_irrefl _ (str_lt_trans _ _ _ L1 L2)).
    + exfalso. rewrite K2 in L1. exact (str_lt_irrefl _ L1).
    + exfalso. rewrite K1 in L2. exact (str_lt_irrefl _ L2).
    + apply (Inj x y Hx Hy K1). lia.
  - apply stable_sort_sorted; [apply catalog_leb_total | intros a b c; apply catalog_leb_trans].
  - apply stable_sort_sorted; [apply catalog_leb_total | intros a b c; apply catalog_leb_trans].
  - rewrite <- !stable_sort_perm. rewrite <- P1, <- P2. apply Permutation_refl.
Qed.
(* two attributes of one key whose hashes collide are numbered in the order of the set *)
Theorem C78_collision_refuted : exists hash s, convert hash (fun l => l) (fun u => u) (fun _ => true) s <>
  convert hash (@rev attribute2) (fun u => u) (fun _ => true) s.
Proof. exists (fun _ => 0%N), sample_twice. vm_compute. discriminate. Qed.
Print Assumptions C78_order_partial.
Print Assumptions C78_collision_refuted.
Example C78_sample : exists out, convert (fun a => if String.eqb (c_brief (a2_common a)) "one" then 1%N else 2%N)
    (fun l => l) (fun u => u) (fun _ => true) sample_twice = Converted out /\
  map (fun a => c_brief (a2_common a)) (s2_catalog out) = ["one"; "two"].
Proof. eexists. split; [vm_compute; reflexivity|]. vm_compute. reflexivity. Qed.
