(* What the view of a registry says about the registry. *)
From Coq Require Import String Ascii Bool Arith ZArith NArith Permutation Sorted List.
Import ListNotations.
From Verif Require Import Base Json SemTypes Resolved ConvertModel ConvertSpec ViewModel.
Local Open Scope string_scope.

(* [m] is [l] sorted by a text of its elements, equal ones in their order *)
Definition arranged {X} (key : X -> string) (l m : list X) : Prop :=
  Permutation l m /\ StronglySorted (fun a b => str_leb (key a) (key b) = true) m /\
  forall k, filter (fun x => String.eqb (key x) k) m = filter (fun x => String.eqb (key x) k) l.
(* the elements of [l] are shown by those of [m], which are sorted *)
Definition shown {X Y} (key : Y -> string) (R : X -> Y -> Prop) (l : list X) (m : list Y) : Prop :=
  exists k, Forall2 R l k /\ arranged key k m.

(* ---------- version 1 ---------- *)
Definition shows_group (cat : list attribute) (g : group) (v : vgroup) : Prop :=
  Forall2 (fun r a => nth_error cat r = Some a) (g_attributes g) (vg_attributes v) /\
  vg_id v = g_id g /\ vg_type v = g_type g /\ vg_brief v = g_brief g /\ vg_note v = g_note g /\ vg_prefix v = g_prefix g /\
  vg_extends v = g_extends g /\ vg_stability v = g_stability g /\ vg_deprecated v = g_deprecated g /\
  vg_span_kind v = g_span_kind g /\ vg_events v = g_events g /\ vg_metric_name v = g_metric_name g /\
  vg_instrument v = g_instrument g /\ vg_unit v = g_unit g /\ vg_level v = g_level g /\ vg_name v = g_name g /\
  vg_lineage v = g_lineage g /\ vg_display_name v = g_display_name g /\ vg_body v = g_body g /\
  vg_assocs v = g_assocs g /\ vg_annotations v = g_annotations g.
(* a refinement written in the version 2 format *)
Definition v2_refinement (g : group) : Prop := g_is_v2 g = true /\ exists base, extends g base.
(* a group that is shown uses an attribute the catalog does not have *)
Definition lacks (groups : list group) (cat : list attribute) (id : string) (r : nat) : Prop :=
  exists g, In g groups /\ ~ v2_refinement g /\ g_id g = id /\ In r (g_attributes g) /\ length cat <= r.

(* ---------- version 2 ---------- *)
Definition shows_provenance (deps : list string) (p : provenance2) (q : provenance_f) : Prop :=
  match p2_source p with None => pf_source q = None | Some i => pf_source q = nth_error deps i end /\
  ((p2_path p = "" /\ pf_path q = None) \/ (p2_path p <> "" /\ pf_path q = Some (p2_path p))).
Definition shows_attribute (deps : list string) (a : attribute2) (f : attribute_f) : Prop :=
  af_key f = a2_key a /\ af_type f = a2_type a /\ af_examples f = a2_examples a /\ af_common f = a2_common a /\
  shows_provenance deps (a2_provenance a) (af_provenance f).
Definition shows_use (s : schema2) (sampled : bool) (u : attr_use) (f : use_f) : Prop :=
  (exists a, nth_error (s2_catalog s) (u_base u) = Some a /\ shows_attribute (s2_dependencies s) a (uf_base f)) /\
  uf_req f = u_req u /\ uf_sampling f = (if sampled then u_sampling u else None).
Definition shows_ref (deps : list string) (r : entity_ref) (f : entity_ref_f) : Prop :=
  ef_type f = er_type r /\ shows_provenance deps (er_provenance r) (ef_provenance f).
Definition shows_assocs (s : schema2) : list (assoc entity_ref) -> list (assoc entity_ref_f) -> Prop :=
  Forall2 (same_shape (shows_ref (s2_dependencies s))).
Definition shows_metric (s : schema2) (m : metric2) (f : metric_f) : Prop :=
  mef_name f = me2_name m /\ mef_instrument f = me2_instrument m /\ mef_unit f = me2_unit m /\
  Forall2 (shows_use s false) (me2_attributes m) (mef_attributes f) /\ shows_assocs s (me2_assocs m) (mef_assocs f) /\
  mef_level f = me2_level m /\ mef_common f = me2_common m /\
  shows_provenance (s2_dependencies s) (me2_provenance m) (mef_provenance f).
Definition shows_span (s : schema2) (x : span2) (f : span_f) : Prop :=
  spf_type f = sp2_type x /\ spf_kind f = sp2_kind x /\ spf_name f = sp2_name x /\
  Forall2 (shows_use s true) (sp2_attributes x) (spf_attributes f) /\ shows_assocs s (sp2_assocs x) (spf_assocs f) /\
  spf_level f = sp2_level x /\ spf_common f = sp2_common x /\
  shows_provenance (s2_dependencies s) (sp2_provenance x) (spf_provenance f).
Definition shows_event (s : schema2) (x : event2) (f : event_f) : Prop :=
  evf_name f = ev2_name x /\
  Forall2 (shows_use s false) (ev2_attributes x) (evf_attributes f) /\ shows_assocs s (ev2_assocs x) (evf_assocs f) /\
  evf_level f = ev2_level x /\ evf_common f = ev2_common x /\
  shows_provenance (s2_dependencies s) (ev2_provenance x) (evf_provenance f).
Definition shows_entity (s : schema2) (x : entity2) (f : entity_f) : Prop :=
  enf_type f = en2_type x /\
  Forall2 (shows_use s false) (en2_identity x) (enf_identity f) /\
  Forall2 (shows_use s false) (en2_description x) (enf_description f) /\
  enf_level f = en2_level x /\ enf_common f = en2_common x /\
  shows_provenance (s2_dependencies s) (en2_provenance x) (enf_provenance f).
Definition shows_attribute_group (s : schema2) (x : attribute_group2) (f : group_f) : Prop :=
  agf_id f = ag2_id x /\ Forall2 (shows_use s false) (ag2_attributes x) (agf_attributes f) /\
  agf_common f = ag2_common x /\ shows_provenance (s2_dependencies s) (ag2_provenance x) (agf_provenance f).
(* a refinement is shown under its id *)
Definition with_id {X Y} (R : X -> Y -> Prop) (p : string * X) (q : string * Y) : Prop := fst q = fst p /\ R (snd p) (snd q).
(* the view shows everything the schema itself declares; attributes it lists but does not have are left out *)
Definition shows_own (s : schema2) (v : view) : Prop :=
  vw_url v = s2_url s /\
  (exists k, one_each (fun i => i < length (s2_catalog s))
               (fun i f => exists a, nth_error (s2_catalog s) i = Some a /\ shows_attribute (s2_dependencies s) a f)
               (r2_attributes (s2_registry s)) k /\ arranged af_key k (rf_attributes (vw_registry v))) /\
  Forall2 (shows_attribute_group s) (r2_attribute_groups (s2_registry s)) (rf_groups (vw_registry v)) /\
  shown mef_name (shows_metric s) (r2_metrics (s2_registry s)) (rf_metrics (vw_registry v)) /\
  shown spf_type (shows_span s) (r2_spans (s2_registry s)) (rf_spans (vw_registry v)) /\
  shown evf_name (shows_event s) (r2_events (s2_registry s)) (rf_events (vw_registry v)) /\
  shown enf_type (shows_entity s) (r2_entities (s2_registry s)) (rf_entities (vw_registry v)) /\
  shown fst (with_id (shows_metric s)) (f2_metrics (s2_refinements s)) (ff_metrics (vw_refinements v)) /\
  shown fst (with_id (shows_span s)) (f2_spans (s2_refinements s)) (ff_spans (vw_refinements v)) /\
  shown fst (with_id (shows_event s)) (f2_events (s2_refinements s)) (ff_events (vw_refinements v)) /\
  shown fst (with_id (shows_entity s)) (f2_entities (s2_refinements s)) (ff_entities (vw_refinements v)).

(* the version 2 schema that a dependency resolves to *)
Definition gives (conv1 : source1 -> conv schema2) (resolve : string -> resolution) (u : string) (s : schema2) : Prop :=
  exists b nfes, resolve u = Resolves b nfes /\
    match b with Bundle2 t => t = s | Bundle1 t => conv1 t = Converted s end.
(* the view shows the schema, and its dependencies show, in order, what the listed ones resolve to *)
Inductive shows (conv1 : source1 -> conv schema2) (resolve : string -> resolution) : schema2 -> view -> Prop :=
| shows_all s v : shows_own s v ->
    Forall2 (fun u d => exists t, gives conv1 resolve u t /\ shows conv1 resolve t d) (s2_dependencies s) (vw_deps v) ->
    shows conv1 resolve s v.
(* one schema is in the tree of dependencies of another *)
Inductive reaches (conv1 : source1 -> conv schema2) (resolve : string -> resolution) (s : schema2) : schema2 -> Prop :=
| reach_self : reaches conv1 resolve s s
| reach_dep t u w : reaches conv1 resolve s t -> In u (s2_dependencies t) -> gives conv1 resolve u w -> reaches conv1 resolve s w.

(* a signal, named in this way in an error, uses an attribute the catalog does not have *)
Definition dangling_in (s : schema2) (l : list attr_use) (r : nat) : Prop :=
  exists u, In u l /\ u_base u = r /\ length (s2_catalog s) <= r.
Definition dangling (s : schema2) (label : string) (r : nat) : Prop :=
  let d := dangling_in s in
  (exists m, In m (r2_metrics (s2_registry s)) /\ label = append "metric." (me2_name m) /\ d (me2_attributes m) r) \/
  (exists id m, In (id, m) (f2_metrics (s2_refinements s)) /\ label = append "metric." (me2_name m) /\ d (me2_attributes m) r) \/
  (exists x, In x (r2_spans (s2_registry s)) /\ label = append "span." (sp2_type x) /\ d (sp2_attributes x) r) \/
  (exists id x, In (id, x) (f2_spans (s2_refinements s)) /\ label = append "span." id /\ d (sp2_attributes x) r) \/
  (exists x, In x (r2_events (s2_registry s)) /\ label = append "event." (ev2_name x) /\ d (ev2_attributes x) r) \/
  (exists id x, In (id, x) (f2_events (s2_refinements s)) /\ label = append "event." id /\ d (ev2_attributes x) r) \/
  (exists x, In x (r2_entities (s2_registry s)) /\ label = append "entity." (en2_type x) /\
     (d (en2_identity x) r \/ d (en2_description x) r)) \/
  (exists id x, In (id, x) (f2_entities (s2_refinements s)) /\ label = append "entity." id /\
     (d (en2_identity x) r \/ d (en2_description x) r)) \/
  (exists x, In x (r2_attribute_groups (s2_registry s)) /\ label = append "attribute_group." (ag2_id x) /\ d (ag2_attributes x) r).
Definition sound (s : schema2) : Prop := forall label r, ~ dangling s label r.
(* why no view is made *)
Inductive reason (conv1 : source1 -> conv schema2) (resolve : string -> resolution) (s : schema2) : ferr -> Prop :=
| r_missing t l : reaches conv1 resolve s t -> l <> [] -> (forall label r, In (label, r) l <-> dangling t label r) ->
    reason conv1 resolve s (FMissing l)
| r_unresolved t u e : reaches conv1 resolve s t -> In u (s2_dependencies t) -> resolve u = Unresolved e ->
    reason conv1 resolve s (FResolver e)
| r_conversion t u x nfes e : reaches conv1 resolve s t -> In u (s2_dependencies t) -> resolve u = Resolves (Bundle1 x) nfes ->
    conv1 x = Failed e -> reason conv1 resolve s (FConversion e).
(* every dependency of every schema in the tree is given *)
Definition complete (conv1 : source1 -> conv schema2) (resolve : string -> resolution) (s : schema2) : Prop :=
  forall t u, reaches conv1 resolve s t -> In u (s2_dependencies t) -> exists w, gives conv1 resolve u w.
(* no endless chain of dependencies starts here *)
Inductive grounded (conv1 : source1 -> conv schema2) (resolve : string -> resolution) (s : schema2) : Prop :=
| is_grounded : (forall u t, In u (s2_dependencies s) -> gives conv1 resolve u t -> grounded conv1 resolve t) ->
    grounded conv1 resolve s.

(* how many registries the view holds *)
Fixpoint size (v : view) : nat := S (list_sum (map size (vw_deps v))).

(* the entity a view declares under a name: a definition first, else a refinement *)
Definition declares (v : view) (name : string) (e : entity_f) : Prop :=
  first (fun x => enf_type x = name) (rf_entities (vw_registry v)) e \/
  (none (fun x => enf_type x = name) (rf_entities (vw_registry v)) /\
   exists id, first (fun p => fst p = name) (ff_entities (vw_refinements v)) (id, e)).
(* the registry a reference points into: the view itself or one of its dependencies *)
Definition points_into (v : view) (r : entity_ref_f) (w : view) : Prop :=
  match pf_source (ef_provenance r) with
  | None => w = v
  | Some u => first (fun d => vw_url d = u) (vw_deps v) w
  end.
(* the reference appears in an association of a signal of the view *)
Definition associates (v : view) (r : entity_ref_f) : Prop :=
  (exists x c, In x (rf_metrics (vw_registry v)) /\ In c (mef_assocs x) /\ leaf r c) \/
  (exists x c, In x (rf_spans (vw_registry v)) /\ In c (spf_assocs x) /\ leaf r c) \/
  (exists x c, In x (rf_events (vw_registry v)) /\ In c (evf_assocs x) /\ leaf r c) \/
  (exists id x c, In (id, x) (ff_metrics (vw_refinements v)) /\ In c (mef_assocs x) /\ leaf r c) \/
  (exists id x c, In (id, x) (ff_spans (vw_refinements v)) /\ In c (spf_assocs x) /\ leaf r c) \/
  (exists id x c, In (id, x) (ff_events (vw_refinements v)) /\ In c (evf_assocs x) /\ leaf r c).

(* a provenance the schema records: of an attribute, a signal or a reference to an entity *)
Definition carries (s : schema2) (p : provenance2) : Prop :=
  let of_ref l := exists c r, In c l /\ leaf r c /\ er_provenance r = p in
  (exists a, In a (s2_catalog s) /\ a2_provenance a = p) \/
  (exists m, (In m (r2_metrics (s2_registry s)) \/ exists id, In (id, m) (f2_metrics (s2_refinements s))) /\ (me2_provenance m = p \/ of_ref (me2_assocs m))) \/
  (exists m, (In m (r2_spans (s2_registry s)) \/ exists id, In (id, m) (f2_spans (s2_refinements s))) /\ (sp2_provenance m = p \/ of_ref (sp2_assocs m))) \/
  (exists m, (In m (r2_events (s2_registry s)) \/ exists id, In (id, m) (f2_events (s2_refinements s))) /\ (ev2_provenance m = p \/ of_ref (ev2_assocs m))) \/
  (exists m, (In m (r2_entities (s2_registry s)) \/ exists id, In (id, m) (f2_entities (s2_refinements s))) /\ en2_provenance m = p) \/
  (exists m, In m (r2_attribute_groups (s2_registry s)) /\ ag2_provenance m = p).
(* every entity an association was resolved to is still declared where it came from *)
Definition traceable (conv1 : source1 -> conv schema2) (resolve : string -> resolution) (s : source1) : Prop :=
  (forall u t, In u (so_deps s) -> gives conv1 resolve u t -> s2_url t = u) /\
  forall gid name u, origin s gid name u -> In u (so_deps s) /\
    forall t, gives conv1 resolve u t -> exists e, In (name, e) (f2_entities (s2_refinements t)).

(* ---------- samples used by the concrete cases ---------- *)
Definition no_refinements : refinements2 := {| f2_spans := []; f2_metrics := []; f2_events := []; f2_entities := [] |}.
Definition bare_schema (url : string) (deps : list string) : schema2 :=
  {| s2_url := url; s2_catalog := [];
     s2_registry := {| r2_attributes := []; r2_attribute_groups := []; r2_spans := []; r2_metrics := []; r2_events := []; r2_entities := [] |};
     s2_refinements := no_refinements; s2_dependencies := deps |}.
(* a chain of registries: number [n] depends on all those before it, as the resolver lists them *)
Fixpoint mark (n : nat) : string := match n with 0 => "" | S k => append "x" (mark k) end.
Definition chain (n : nat) : schema2 := bare_schema (mark n) (map mark (seq 0 n)).
Definition chain_resolver (u : string) : resolution := Resolves (Bundle2 (chain (String.length u))) [].
(* a registry that lists itself as a dependency *)
Definition self_dependent : schema2 := bare_schema "a" ["a"].
Definition self_resolver (u : string) : resolution := Resolves (Bundle2 self_dependent) [].
(* a registry that lists an attribute it does not have, or one from a dependency it does not list *)
Definition sample_attr2 (key : string) (src : option nat) : attribute2 :=
  {| a2_key := key; a2_type := TPrim PString; a2_examples := None;
     a2_common := {| c_brief := ""; c_note := ""; c_stability := SStable; c_deprecated := None; c_annotations := [] |};
     a2_provenance := {| p2_source := src; p2_path := "" |} |}.
Definition listing (attrs : list nat) (cat : list attribute2) : schema2 :=
  {| s2_url := "a"; s2_catalog := cat;
     s2_registry := {| r2_attributes := attrs; r2_attribute_groups := []; r2_spans := []; r2_metrics := []; r2_events := []; r2_entities := [] |};
     s2_refinements := no_refinements; s2_dependencies := [] |}.
(* the dependencies of the sample registry of the conversion *)
Definition sample_entity2 (name : string) : entity2 :=
  {| en2_type := name; en2_identity := []; en2_description := []; en2_level := None;
     en2_common := {| c_brief := ""; c_note := ""; c_stability := SStable; c_deprecated := None; c_annotations := [] |};
     en2_provenance := {| p2_source := None; p2_path := "e.yaml" |} |}.
Definition declaring (url name : string) : schema2 :=
  {| s2_url := url; s2_catalog := [];
     s2_registry := {| r2_attributes := []; r2_attribute_groups := []; r2_spans := []; r2_metrics := []; r2_events := [];
                       r2_entities := [sample_entity2 name] |};
     s2_refinements := {| f2_spans := []; f2_metrics := []; f2_events := []; f2_entities := [(name, sample_entity2 name)] |};
     s2_dependencies := [] |}.
Definition declaring_resolver (u : string) : resolution :=
  Resolves (Bundle2 (declaring u (if String.eqb u "https://k8s.test/schemas/2.0" then "k8s.pod" else "process"))) [].
(* a registry whose metrics are listed out of order and use attributes 0 and, in one case, 3 *)
Definition sample_metric2 (name : string) (refs : list nat) : metric2 :=
  {| me2_name := name; me2_instrument := Counter; me2_unit := "1";
     me2_attributes := map (fun i => {| u_base := i; u_req := RRequired; u_sampling := None |}) refs;
     me2_assocs := []; me2_level := None;
     me2_common := {| c_brief := ""; c_note := ""; c_stability := SStable; c_deprecated := None; c_annotations := [] |};
     me2_provenance := {| p2_source := Some 0; p2_path := "m.yaml" |} |}.
Definition measuring (refs : list nat) : schema2 :=
  {| s2_url := "m"; s2_catalog := [sample_attr2 "k" (Some 0)];
     s2_registry := {| r2_attributes := [0]; r2_attribute_groups := []; r2_spans := [];
                       r2_metrics := [sample_metric2 "b" [0]; sample_metric2 "a" refs]; r2_events := []; r2_entities := [] |};
     s2_refinements := no_refinements; s2_dependencies := ["x"] |}.
