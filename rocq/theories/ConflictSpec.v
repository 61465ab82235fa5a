(* Vocabulary for C37: which definition of an attribute the dependencies give, and which wins. *)
From Coq Require Import String Ascii Bool Arith NArith List Permutation.
Import ListNotations.
From Verif Require Import Base Json SemTypes Resolved Semver VersionSpec DefModel DefSpec ResolveModel ResolveSpec ImportModel ImportSpec UniqueSpec.
Local Open Scope string_scope.

(* the first element with a property *)
Definition first_with {A} (P : A -> Prop) (l : list A) (x : A) : Prop :=
  exists l1 l2, l = app l1 (x :: l2) /\ P x /\ forall y, In y l1 -> ~ P y.
(* where a group was declared *)
Definition declared_at (g : group) (u : string) : Prop := exists l, g_lineage g = Some l /\ pv_url (gl_provenance l) = u.
Definition urls_of (gs : list group) : list string :=
  flat_map (fun g => match g_lineage g with Some l => [pv_url (gl_provenance l)] | None => [] end) gs.
(* the registry that a resolved registry recorded as the source of an attribute: a dependency by
   name, or that of the group that defines it *)
Definition recorded (e : env) (s : schema1) (source u : string) : Prop :=
  (exists n, source = "v2_dependency." ++ n /\ first_with (fun u' => ev_name e u' = n) (app (s1_dependencies s) (urls_of (s1_groups s))) u) \/
  ((forall n, source <> "v2_dependency." ++ n) /\ exists g, first_with (fun g' => g_id g' = source) (s1_groups s) g /\ declared_at g u).
(* an attribute as it stands in a group of a resolved registry *)
Definition placed (s : schema1) (key : string) (g : group) (a : attribute) : Prop :=
  exists r, first_with (fun r' => exists a', nth_error (s1_catalog s) r' = Some a' /\ at_name a' = key) (g_attributes g) r /\
            nth_error (s1_catalog s) r = Some a.
(* the definition a dependency gives, with the registry it is from *)
Inductive gives (e : env) : dependency -> string -> attribute -> string -> Prop :=
| gives_root s roots key r u : slookup key roots = Some r -> ra_def r = true -> recorded e s (ra_source r) u ->
    gives e (D1 s roots) key (ra_attr r) u
| gives_own_root s roots key r u : slookup key roots = Some r -> ra_def r = true -> (forall u', ~ recorded e s (ra_source r) u') ->
    ev_parse e (s1_url s) = Some u -> gives e (D1 s roots) key (ra_attr r) u
| gives_placed s roots key g a u : slookup key roots = None -> first_with (fun g' => exists a', placed s key g' a') (s1_groups s) g ->
    placed s key g a -> declared_at g u -> gives e (D1 s roots) key a u
| gives_own_placed s roots key g a u : slookup key roots = None -> first_with (fun g' => exists a', placed s key g' a') (s1_groups s) g ->
    placed s key g a -> g_lineage g = None -> ev_parse e (s1_url s) = Some u -> gives e (D1 s roots) key a u
| gives_published s key r a : first_with (fun r' => exists a', nth_error (s2_catalog s) r' = Some a' /\ a2_key a' = key) (r2_attributes (s2_registry s)) r ->
    nth_error (s2_catalog s) r = Some a ->
    gives e (D2 s) key
      {| at_name := key; at_type := a2_type a; at_brief := c_brief (a2_common a);
         at_examples := a2_examples a; at_tag := None; at_req := RRequired; at_sampling := None;
         at_note := c_note (a2_common a); at_stability := Some (c_stability (a2_common a));
         at_deprecated := c_deprecated (a2_common a); at_prefix := false;
         at_annotations := Some (c_annotations (a2_common a)); at_role := None |}
      (match p2_source (a2_provenance a) with
       | Some i => match nth_error (s2_dependencies s) i with Some u => u | None => s2_url s end
       | None => s2_url s
       end).
(* the definition is not for the use of other registries *)
Definition hidden (a : attribute) : Prop :=
  exists ann m, at_annotations a = Some ann /\ slookup "dependency_resolution" ann = Some (JObj m) /\ slookup "exclude" m = Some (JBool true).
(* two registries of one name whose versions agree in the major number *)
Definition compatible (e : env) (u1 u2 : string) : Prop :=
  ev_name e u1 = ev_name e u2 /\
  exists v1 v2, ev_semver e u1 = Some v1 /\ ev_semver e u2 = Some v2 /\ v_major v1 = v_major v2.
Definition not_newer (e : env) (u1 u2 : string) : Prop :=
  exists v1 v2, ev_semver e u1 = Some v1 /\ ev_semver e u2 = Some v2 /\ ver_le v1 v2.
Definition defined_by (x : sourced) (a : attribute) (u : string) : Prop := ws_attr x = a /\ ws_source x = SDep u /\ ws_def x = true.
(* a dependency whose own url is needed but is no schema url *)
Definition unusable_url (e : env) (d : dependency) (key url : string) : Prop :=
  match d with
  | D1 s roots => url = s1_url s /\ ev_parse e url = None /\
      ((exists r, slookup key roots = Some r /\ ra_def r = true /\ forall u, ~ recorded e s (ra_source r) u) \/
       (slookup key roots = None /\ exists g a, first_with (fun g' => exists a', placed s key g' a') (s1_groups s) g /\ placed s key g a /\ g_lineage g = None))
  | D2 _ => False
  end.
(* two dependencies, at different places of the list, that give unhidden definitions of [key] no version rule decides between *)
Definition undecided (e : env) (key u1 u2 : string) : Prop :=
  exists l1 d l2 d' l3 a a', ev_deps e = app l1 (d :: app l2 (d' :: l3)) /\ gives e d key a u1 /\ gives e d' key a' u2 /\
    ~ hidden a /\ ~ hidden a' /\ ~ compatible e u1 u2.
(* one registry gives one definition, whichever dependency hands it on; urls of one registry that
   have one version are one url *)
Definition consistent (e : env) (key : string) : Prop :=
  forall d d' a a' u u', In d (ev_deps e) -> In d' (ev_deps e) -> gives e d key a u -> gives e d' key a' u' ->
    ev_name e u = ev_name e u' -> ev_semver e u = ev_semver e u' -> a = a' /\ u = u'.
(* outcomes that differ at most in which error or which hidden definition is met first *)
Definition alike (x y : rr (option sourced)) : Prop :=
  match x, y with
  | Bad _, Bad _ => True
  | Got None, Got None => True
  | Got (Some a), Got (Some b) => a = b \/ (hidden (ws_attr a) /\ hidden (ws_attr b))
  | _, _ => False
  end.
(* which of two definitions of one attribute is the better, whatever the order they are met in:
   one other registries may use, then one that is given as the definition (not as a refinement of
   it), then one of a dependency *)
Definition preferred (x y : sourced) : Prop :=
  (~ hidden (ws_attr x) /\ hidden (ws_attr y)) \/
  ((hidden (ws_attr x) <-> hidden (ws_attr y)) /\
   ((ws_def x = true /\ ws_def y = false) \/
    (ws_def x = ws_def y /\ exists u g, ws_source x = SDep u /\ ws_source y = SLocal g))).

(* ---------- for the examples ---------- *)
Definition sample_version (major minor : N) : version := {| v_major := major; v_minor := minor; v_patch := 0%N; v_pre := []; v_build := [] |}.
(* "acme/1.0", "acme/1.2" and "acme/2.0" are versions of one registry, "other" is another *)
Definition sample_versions (ds : list dependency) : env :=
  {| ev_name := fun u => if String.eqb u "other" then "other" else "acme";
     ev_semver := fun u => Some (if String.eqb u "acme/1.2" then sample_version 1 2 else if String.eqb u "acme/2.0" then sample_version 2 0 else sample_version 1 0);
     ev_parse := fun u => Some u; ev_chosen := fun _ => None; ev_cached := fun _ => None; ev_deps := ds |}.
Definition sample_noted (n note : string) (excluded : bool) : attribute :=
  {| at_name := n; at_type := TPrim PString; at_brief := ""; at_examples := None; at_tag := None; at_req := RRecommended;
     at_sampling := None; at_note := note; at_stability := None; at_deprecated := None; at_prefix := false;
     at_annotations := if excluded then Some sample_hidden else None; at_role := None |}.
Definition sample_giving (url id n note : string) (excluded : bool) : dependency :=
  let base := sample_resolved id GAttributeGroup None None url [0] in
  D1 (sample_schema1 url [base] [sample_noted n note excluded]) [(n, {| ra_attr := sample_noted n note excluded; ra_source := id; ra_def := true |})].
(* what the attributes of each definition of a registry say *)
Definition sample_texts (r : resolved) : list (string * list string) :=
  map (fun g => (g_id g, map (fun i => match nth_error (rs_catalog r) i with Some a => at_brief a ++ at_note a | None => "" end) (g_attributes g))) (rs_groups r).
Definition sample_extending (id parent : string) : group_spec := sample_spec id GSpan None (Some parent) [] [].
Definition sample_referring (id n : string) : group_spec := sample_spec id GSpan None None [] [sample_ref n None].
