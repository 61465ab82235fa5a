(* C40: an import brings exactly the matching public definitions of the dependencies, each once. *)
From Coq Require Import String Ascii Bool Arith NArith Lia Permutation Sorted List.
Import ListNotations.
From Verif Require Import Base BaseProofs Json SemTypes Resolved Semver DefModel DefSpec ResolveModel ResolveSpec ResolveProofs RefProofs
  ImportModel ImportSpec ImportProofs.
Local Open Scope string_scope.

(* Every imported group is the copy of a definition some dependency holds, that an imports block
   asks for, and that is not private. *)
Theorem C40_only_wanted : forall glob e bs ds c l c', cat_ok c -> import_all glob e bs ds [] c = Done (l, c') ->
  forall i, In i l -> exists d x, In d ds /\ holds d x /\ wanted glob bs x /\ ~ private x /\ copy_of e d x (im_group i).
Proof.
  intros glob e bs ds c l c' Hok H i Hi. destruct (import_all_ok _ _ _ _ _ _ _ _ Hok H) as (_ & _ & _ & A & _).
  destruct (A i Hi) as [[]|(d & x & Hd & Hx & W & P & (G & _))]. exists d, x. auto.
Qed.

(* Every public definition asked for is imported: its copy is among the imported groups, or an
   imported group is the same definition reached another way. *)
Theorem C40_all_wanted : forall glob e bs ds c l c', cat_ok c -> import_all glob e bs ds [] c = Done (l, c') ->
  forall d x, In d ds -> holds d x -> wanted glob bs x -> ~ private x ->
  exists y, copy_of e d x (im_group y) /\ (In y l \/ exists i, In i l /\ twins i y).
Proof.
  intros glob e bs ds c l c' Hok H d x Hd Hx W P. destruct (import_all_ok _ _ _ _ _ _ _ _ Hok H) as (_ & _ & _ & _ & B & _).
  destruct (B d x Hd Hx W P) as (y & (G & _) & Hy). exists y. auto.
Qed.

(* No definition is imported twice, however many dependencies hold a copy of it. *)
Theorem C40_once : forall glob e bs ds c l c', import_all glob e bs ds [] c = Done (l, c') ->
  ForallOrdPairs (fun a b => ~ twins a b) l.
Proof. intros glob e bs ds c l c' H. eapply import_all_once; [exact H|constructor]. Qed.

(* Asking by name for a private definition fails the import. *)
Theorem C40_private : forall glob e bs ds c d x, cat_ok c -> In d ds -> holds d x -> private x -> wanted_by_name glob bs x ->
  exists es, import_all glob e bs ds [] c = Failed es.
Proof.
  intros glob e bs ds c d x Hok Hd Hx P W. destruct (import_all glob e bs ds [] c) as [[l c']|es|] eqn:E.
  - exfalso. destruct (import_all_ok _ _ _ _ _ _ _ _ Hok E) as (_ & _ & _ & _ & _ & C). exact (C d x Hd Hx P W).
  - eauto.
  - exfalso. clear -E. revert E. generalize (@nil imported) as kept. revert c.
    induction ds as [|d ds IH]; intros c kept E; cbn [import_all] in E; [discriminate|].
    destruct (import_one glob e bs d c) as [p|es|] eqn:I; cbn [run_bind] in E; [|discriminate|exact (import_one_stops _ _ _ _ _ I)].
    exact (IH _ _ E).
Qed.

(* A failed import says why: either private definitions were asked for by name, each reported, or
   an attribute of one dependency cannot be reconciled. *)
Theorem C40_failure : forall glob e bs ds c es, cat_ok c -> import_all glob e bs ds [] c = Failed es ->
  (exists err, es = [err] /\ (conflict_error err \/ exists r i, err = XBadAttributeRef r i)) \/
  (es <> [] /\ forall err, In err es -> exists d x, In d ds /\ holds d x /\ private x /\ wanted_by_name glob bs x /\ err = refused x).
Proof.
  intros glob e bs ds c es. generalize (@nil imported) as kept. revert c.
  induction ds as [|d ds IH]; intros c kept Hok H; cbn [import_all] in H; [discriminate|].
  destruct (import_one glob e bs d c) as [[l1 c1]|es1|] eqn:I; cbn [run_bind fst snd] in H; [| |discriminate].
  - destruct (import_one_ok _ _ _ _ _ _ _ Hok I) as (Hok1 & _). destruct (IH _ _ Hok1 H) as [X|(N & X)]; [left; exact X|right].
    split; [exact N|]. intros err He. destruct (X err He) as (d' & x & Hd & R). exists d', x. split; [right; exact Hd|exact R].
  - inversion H; subst. destruct (import_one_err _ _ _ _ _ _ Hok I) as [X|(N & X)]; [left; exact X|right].
    split; [exact N|]. intros err He. destruct (X err He) as (x & R). exists d, x. split; [left; reflexivity|exact R].
Qed.

(* A pattern an author wrote is reported as unmatched when no imported group of its heading goes by
   a name it matches, and only then; nothing else is reported. *)
Theorem C40_unmatched : forall glob bs l err,
  In err (unmatched_imports glob bs l) <->
  exists f p n b, err = XUnmatchedImport p n /\ written f n /\ In b bs /\ authored b /\ listed f (bk_imports b) p /\
    ~ exists i k, In i l /\ heading (g_type (im_group i)) f /\ answers (im_group i) k /\ glob p k = true.
Proof.
  intros glob bs l err.
  assert (M : forall f p, pattern_matched glob f l p = true <->
     exists i k, In i l /\ heading (g_type (im_group i)) f /\ answers (im_group i) k /\ glob p k = true).
  { intros f p. unfold pattern_matched. rewrite existsb_exists. split.
    - intros (i & Hi & H). destruct (field_of (g_type (im_group i))) as [f'|] eqn:F; [|discriminate]. apply andb_prop in H. destruct H as [H1 H2].
      apply field_eqb_iff in H1. subst f'. apply existsb_exists in H2. destruct H2 as (k & Hk & G). exists i, k. split; [exact Hi|].
      split; [apply heading_iff; exact F|]. split; [apply keys_iff; exact Hk|exact G].
    - intros (i & k & Hi & Hh & Ha & G). exists i. split; [exact Hi|]. apply heading_iff in Hh. rewrite Hh. apply andb_true_intro. split.
      + apply field_eqb_iff. reflexivity.
      + apply existsb_exists. exists k. split; [apply keys_iff; exact Ha|exact G]. }
  unfold unmatched_imports. rewrite in_flat_map. split.
  - intros (f & Hf & H). apply in_map_iff in H. destruct H as (p & <- & H). apply filter_In in H. destruct H as [Hp Hm].
    apply patterns_iff in Hp. destruct Hp as (b & Hb & Hp). apply explicit_iff in Hb. destruct Hb as [Hb Ha].
    exists f, p, (field_name f), b. split; [reflexivity|]. split; [destruct f; constructor|]. split; [exact Hb|]. split; [exact Ha|]. split; [exact Hp|].
    intros X. apply M in X. rewrite X in Hm. discriminate.
  - intros (f & p & n & b & -> & Hn & Hb & Ha & Hp & X). exists f. split; [unfold all_fields; destruct f; cbn; auto 6|]. apply in_map_iff.
    exists p. split; [destruct Hn; reflexivity|]. apply filter_In. split.
    + apply patterns_iff. exists b. split; [apply explicit_iff; auto|exact Hp].
    + destruct (pattern_matched glob f l p) eqn:Y; [|reflexivity]. apply M in Y. contradiction.
Qed.

(* With one version of each registry in play, an imported group has exactly the attributes of its
   definition, in order. *)
Theorem C40_attributes : forall glob e bs ds c l c', one_version e -> (forall d, In d ds -> closed_dependency d) ->
  cat_ok c -> import_all glob e bs ds [] c = Done (l, c') ->
  forall i, In i l -> exists d x attrs, In d ds /\ holds d x /\ copy_of e d x (im_group i) /\ attributes_on d x attrs /\
    Forall2 (denotes c') (g_attributes (im_group i)) attrs.
Proof.
  intros glob e bs ds c l c' One Cl Hok H i Hi. destruct (import_all_ok _ _ _ _ _ _ _ _ Hok H) as (_ & _ & _ & A & _).
  destruct (A i Hi) as [[]|(d & x & Hd & Hx & W & P & (G & At))]. destruct (At One (Cl d Hd)) as (attrs & A1 & A2). exists d, x, attrs. auto.
Qed.

(* The registry gains exactly the imported groups, after its own; the errors are the unmatched
   patterns. *)
Theorem C40_added : forall glob e bs gs c w, resolve_imports glob e bs gs c = Done w ->
  exists l us, import_all glob e bs (ev_deps e) [] c = Done (l, wi_catalog w) /\
    wi_groups w = app gs us /\ Forall2 (fun u i => ug_group u = im_group i /\ ug_attrs u = [] /\ ug_include u = []) us l /\
    wi_errors w = unmatched_imports glob bs l.
Proof.
  intros glob e bs gs c w H. unfold resolve_imports in H.
  destruct (import_all glob e bs (ev_deps e) [] c) as [[l c']|es|]; cbn [run_bind fst snd] in H; [|discriminate|discriminate].
  inversion H; subst w; cbn. exists l, (map (ugroup_of_import e) l). split; [reflexivity|]. split; [reflexivity|]. split; [|reflexivity].
  clear H. induction l as [|i l IH]; cbn [map]; constructor; [|exact IH]. split; [reflexivity|split; reflexivity].
Qed.

(* ---- a concrete case: two dependencies that both hold the entity host of a third registry ---- *)
Definition origin40 : string := "https://o.io/schemas/1.0.0".
Definition published40 : dependency := D2 (sample_published "https://a.io/schemas/1.0.0" [origin40] [sample_metric2 "a.m"] [sample_entity2 "host" (Some 0)] []).
Definition plain40 : dependency :=
  D1 (sample_schema1 "https://b.io/schemas/1.0.0"
        [sample_resolved "entity.host" GEntity (Some "host") None origin40 [0];
         sample_resolved "entity.zone" GEntity (Some "zone") None "https://b.io/schemas/1.0.0" [0];
         sample_resolved "entity.secret" GEntity (Some "secret") (Some sample_hidden) "https://b.io/schemas/1.0.0" []]
        [sample_attribute "host.id"]) [].
Example C40_case : exists i1 i2 i3 c', import_all sample_glob (sample_env []) [sample_block ["a.m"] ["host"; "zone"; "moon"]] [published40; plain40] [] empty_catalog
    = Done ([i1; i2; i3], c') /\
  map (fun i => g_id (im_group i)) [i1; i2; i3] = ["a.m"; "host"; "entity.zone"] /\
  Forall2 (denotes c') (g_attributes (im_group i3)) [sample_attribute "host.id"] /\
  unmatched_imports sample_glob [sample_block ["a.m"] ["host"; "zone"; "moon"]] [i1; i2; i3] = [XUnmatchedImport "moon" "entities"] /\
  one_version (sample_env []) /\ closed_dependency plain40.
Proof.
  eexists _, _, _, _. split; [vm_compute; reflexivity|]. split; [reflexivity|]. split; [|split; [reflexivity|split]].
  - cbn. constructor; [|constructor]. left. reflexivity.
  - intros u c H. discriminate H.
  - intros g r [<-|[<-|[<-|[]]]] Hr; cbn in Hr; try (destruct Hr as [<-|[]]; cbn; lia). destruct Hr.
Qed.
Example C40_private_case : holds plain40 (DGroup (sample_resolved "entity.secret" GEntity (Some "secret") (Some sample_hidden) "https://b.io/schemas/1.0.0" [])) /\
  import_all sample_glob (sample_env []) [sample_block [] ["secret"]] [plain40] [] empty_catalog = Failed [XExcluded "entity.secret" "entity" "imports"] /\
  exists l c', import_all sample_glob (sample_env []) [everything] [plain40] [] empty_catalog = Done (l, c') /\ length l = 2.
Proof.
  split; [right; right; left; reflexivity|]. split; [vm_compute; reflexivity|]. eexists _, _. split; vm_compute; reflexivity.
Qed.

(* A pattern may name a definition of a dependency and still be reported as unmatched: the copy it
   names was dropped in favour of the same definition under another id, and which copy stays depends
   on the order of the dependencies. *)
Theorem C40_unmatched_refuted : ~ (forall glob e bs ds c l c' p,
  cat_ok c -> import_all glob e bs ds [] c = Done (l, c') -> In (XUnmatchedImport p "entities") (unmatched_imports glob bs l) ->
  ~ exists d x k, In d ds /\ holds d x /\ kind_of x = GEntity /\ ~ private x /\ called x k /\ glob p k = true).
Proof.
  intros H. set (bs := [sample_block [] ["host"; "entity.host"]]).
  destruct (import_all sample_glob (sample_env []) bs [published40; plain40] [] empty_catalog) as [[l c']|es|] eqn:E.
  - refine (H sample_glob (sample_env []) bs [published40; plain40] empty_catalog l c' "entity.host" empty_ok E _ _).
    + vm_compute in E. inversion E; subst. vm_compute. left. reflexivity.
    + exists plain40, (DGroup (sample_resolved "entity.host" GEntity (Some "host") None origin40 [0])), "entity.host".
      split; [right; left; reflexivity|]. split; [left; reflexivity|]. split; [reflexivity|]. split; [|split; [|reflexivity]].
      * intros (m & X & _). discriminate X.
      * eapply an_id; [reflexivity|constructor].
  - vm_compute in E. discriminate E.
  - vm_compute in E. discriminate E.
Qed.
Theorem C40_unmatched_order_refuted : ~ (forall glob e bs ds ds' c l l' c1 c2,
  cat_ok c -> Permutation ds ds' -> import_all glob e bs ds [] c = Done (l, c1) -> import_all glob e bs ds' [] c = Done (l', c2) ->
  Permutation (unmatched_imports glob bs l) (unmatched_imports glob bs l')).
Proof.
  intros H. set (bs := [sample_block [] ["host"; "entity.host"]]).
  destruct (import_all sample_glob (sample_env []) bs [published40; plain40] [] empty_catalog) as [[l c1]|es|] eqn:E1; try (vm_compute in E1; discriminate E1).
  destruct (import_all sample_glob (sample_env []) bs [plain40; published40] [] empty_catalog) as [[l' c2]|es|] eqn:E2; try (vm_compute in E2; discriminate E2).
  pose proof (H _ _ _ _ _ _ _ _ _ _ empty_ok (perm_swap _ _ _) E1 E2) as P. apply Permutation_length in P.
  vm_compute in E1, E2. inversion E1; subst. inversion E2; subst. vm_compute in P. discriminate P.
Qed.

(* A refinement published by a dependency cannot be imported: the pattern that names it brings
   nothing. *)
Theorem C40_refinement_refuted : ~ (forall glob e bs s c l c' id m,
  cat_ok c -> In (id, m) (f2_metrics (s2_refinements s)) -> ~ hides (c_annotations (me2_common m)) ->
  asks_by_name glob bs FMetrics id -> import_all glob e bs [D2 s] [] c = Done (l, c') ->
  exists i, In i l /\ g_id (im_group i) = id).
Proof.
  intros H. set (s := sample_published "https://a.io/schemas/1.0.0" [] [sample_metric2 "a.m"] [] [("a.m.refined", sample_metric2 "a.m")]).
  set (bs := [sample_block ["a.m.refined"] []]).
  destruct (import_all sample_glob (sample_env []) bs [D2 s] [] empty_catalog) as [[l c']|es|] eqn:E; try (vm_compute in E; discriminate E).
  destruct (H sample_glob (sample_env []) bs s empty_catalog l c' "a.m.refined" (sample_metric2 "a.m") empty_ok) as (i & Hi & _).
  - left. reflexivity.
  - intros (m & X & _). discriminate X.
  - exists (sample_block ["a.m.refined"] []), "a.m.refined". split; [left; reflexivity|]. split; [discriminate|]. split; [|reflexivity].
    econstructor; [reflexivity|]. left. reflexivity.
  - exact E.
  - vm_compute in E. inversion E; subst. destruct Hi.
Qed.

(* A pattern that matches no definition of any dependency may go unreported: an imported copy can
   answer to more names than the definition it was made from. *)
Theorem C40_unreported_refuted : ~ (forall glob e bs ds c l c' b p,
  cat_ok c -> import_all glob e bs ds [] c = Done (l, c') -> In b bs -> authored b -> listed FMetrics (bk_imports b) p ->
  (forall d x k, In d ds -> holds d x -> heading (kind_of x) FMetrics -> called x k -> glob p k = false) ->
  In (XUnmatchedImport p "metrics") (unmatched_imports glob bs l)).
Proof.
  intros H. set (s := sample_published "https://a.io/schemas/1.0.0" [] [sample_metric2 "metric.m"] [] []).
  set (b := sample_block ["metric.m"; "m"] []).
  destruct (import_all sample_glob (sample_env []) [b] [D2 s] [] empty_catalog) as [[l c']|es|] eqn:E; try (vm_compute in E; discriminate E).
  assert (X : In (XUnmatchedImport "m" "metrics") (unmatched_imports sample_glob [b] l)).
  { apply (H sample_glob (sample_env []) [b] [D2 s] empty_catalog l c' b "m" empty_ok E).
    - left. reflexivity.
    - discriminate.
    - econstructor; [reflexivity|]. right. left. reflexivity.
    - intros d x k [<-|[]] Hx Hh Hc. destruct x; cbn in Hx; try contradiction. destruct Hx as [<-|[]]. cbn in Hc. subst k. reflexivity. }
  vm_compute in E. inversion E; subst. vm_compute in X. destruct X.
Qed.

(* A definition's own requirement level is lost when its attribute comes from a registry in use at a
   newer version: it gets the level the attribute has there, on whatever definition lists it first. *)
Definition levelled (n : string) (q : req_level) : attribute :=
  {| at_name := n; at_type := TPrim PString; at_brief := ""; at_examples := None; at_tag := None; at_req := q;
     at_sampling := None; at_note := ""; at_stability := None; at_deprecated := None; at_prefix := false; at_annotations := None; at_role := None |}.
Definition zone40 : group := sample_resolved "entity.zone" GEntity (Some "zone") None "b/1.0" [1].
Definition mixed40 : dependency :=
  D1 (sample_schema1 "b/1.0" [sample_resolved "entity.host" GEntity (Some "host") None "acme/1.0" [0]; zone40]
        [levelled "x" RRecommended; levelled "x" RRequired]) [].
Definition newer40 : dependency :=
  D1 (sample_schema1 "acme/1.2" [sample_resolved "entity.host" GEntity (Some "host") None "acme/1.2" [0]] [levelled "x" RRecommended]) [].
Definition env40 : env :=
  {| ev_name := fun u => if String.eqb u "b/1.0" then "b" else "acme";
     ev_semver := fun u => Some {| v_major := 1%N; v_minor := if String.eqb u "acme/1.2" then 2%N else 0%N; v_patch := 0%N; v_pre := []; v_build := [] |};
     ev_parse := fun u => Some u; ev_chosen := fun n => if String.eqb n "acme" then Some "acme/1.2" else None;
     ev_cached := fun u => if String.eqb u "acme/1.2" then Some newer40 else None; ev_deps := [mixed40] |}.
Theorem C40_level_refuted : exists glob e bs d g a a' i r c', closed_dependency d /\ holds d (DGroup g) /\ attributes_on d (DGroup g) [a] /\
  import_all glob e bs [d] [] empty_catalog = Done ([i], c') /\ g_id (im_group i) = g_id g /\
  g_attributes (im_group i) = [r] /\ denotes c' r a' /\ (forall b, denotes c' r b -> b = a') /\
  at_name a' = at_name a /\ at_req a = RRequired /\ at_req a' = RRecommended.
Proof.
  exists sample_glob, env40, [sample_block [] ["zone"]], mixed40, zone40, (levelled "x" RRequired), (levelled "x" RRecommended).
  eexists _, _, _. split; [intros g r [<-|[<-|[]]] [<-|[]]; cbn; lia|]. split; [right; left; reflexivity|].
  split; [constructor; [reflexivity|constructor]|]. split; [vm_compute; reflexivity|]. split; [reflexivity|]. split; [reflexivity|].
  split; [left; reflexivity|]. split; [intros b [X|[]]; exact (eq_sym (f_equal fst X))|]. split; [reflexivity|]. split; reflexivity.
Qed.
(* Two definitions of one dependency that use one attribute cannot be imported together if the
   dependency's version is no semantic version; each can be imported alone. *)
Theorem C40_unversioned_refuted : exists glob e b1 b2 b12 d l1 l2 c1 c2 u, closed_dependency d /\
  import_all glob e [b1] [d] [] empty_catalog = Done (l1, c1) /\ length l1 = 1 /\
  import_all glob e [b2] [d] [] empty_catalog = Done (l2, c2) /\ length l2 = 1 /\
  import_all glob e [b12] [d] [] empty_catalog = Failed [XAmbiguous "x" u u].
Proof.
  set (u := "https://acme/unknown").
  set (d := D1 (sample_schema1 u [sample_resolved "entity.host" GEntity (Some "host") None u [0]; sample_resolved "entity.zone" GEntity (Some "zone") None u [0]]
                  [levelled "x" RRecommended]) []).
  exists sample_glob, {| ev_name := fun _ => "acme"; ev_semver := fun _ => None; ev_parse := fun u => Some u; ev_chosen := fun _ => None; ev_cached := fun _ => None; ev_deps := [d] |},
    (sample_block [] ["host"]), (sample_block [] ["zone"]), (sample_block [] ["host"; "zone"]), d.
  eexists _, _, _, _, _. split; [intros g r [<-|[<-|[]]] [<-|[]]; cbn; lia|].
  split; [vm_compute; reflexivity|]. split; [reflexivity|]. split; [vm_compute; reflexivity|]. split; [reflexivity|]. vm_compute. reflexivity.
Qed.

Print Assumptions C40_only_wanted.
Print Assumptions C40_all_wanted.
Print Assumptions C40_once.
Print Assumptions C40_private.
Print Assumptions C40_failure.
Print Assumptions C40_unmatched.
Print Assumptions C40_attributes.
Print Assumptions C40_added.
Print Assumptions C40_unmatched_refuted.
Print Assumptions C40_unmatched_order_refuted.
Print Assumptions C40_refinement_refuted.
Print Assumptions C40_unreported_refuted.
Print Assumptions C40_level_refuted.
Print Assumptions C40_unversioned_refuted.
