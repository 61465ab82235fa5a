(* What is expected of loading a registry with its dependencies, stated on the graph of
   declarations and on the tree of files, without the loader's own functions. *)
From Coq Require Import String Ascii Bool Arith Lia Permutation Sorted NArith List.
From Verif Require Import Base Semver SemTypes ResultModel ResolveModel LoadModel.
Import ListNotations.
Local Open Scope string_scope.

Section Graph.
  Variable w : world.

  (* two schema URLs of one registry that can stand for one another: both versions are
     semantic versions and their major numbers agree *)
  Definition compatible (u1 u2 : string) : Prop :=
    w_name w u1 = w_name w u2 /\
    exists v1 v2, w_semver w u1 = Some v1 /\ w_semver w u2 = Some v2 /\ v_major v1 = v_major v2.

  (* [m] is a version of the same registry that is not lower than [u] *)
  Definition not_above (u m : string) : Prop :=
    w_name w u = w_name w m /\
    exists v v', w_semver w u = Some v /\ w_semver w m = Some v' /\ v_major v = v_major v' /\
                 ver_cmp v v' <> Gt.

  (* the URL chosen among those satisfying P for the registry it names *)
  Definition highest (P : string -> Prop) (m : string) : Prop :=
    P m /\ forall u, P u -> w_name w u = w_name w m -> u = m \/ not_above u m.

  (* [r], read from its own definition files, declares [r'] as a dependency *)
  Definition declares (r r' : repo) : Prop :=
    w_cached w (rp_url r) = None /\
    exists ds d warns, rp_content r = CDefinition ds /\ In d ds /\ w_fetch w d = inl (r', warns).

  (* the published schema of [r], which is not in the cache, depends on [us] *)
  Definition publishes (r : repo) (us : list string) : Prop :=
    w_cached w (rp_url r) = None /\ exists u, rp_content r = CPublished (inl (u, us)).

  (* [route main l r]: following declarations from [main] through the registries [l] one
     arrives at [r] *)
  Inductive route (main : repo) : list repo -> repo -> Prop :=
  | rt_here : route main [] main
  | rt_next l r r' : route main l r -> declares r r' -> route main (app l [r]) r'.

  Definition reached (main r : repo) : Prop := exists l, route main l r.

  (* the schema URLs met when loading [r] *)
  Inductive mentioned : repo -> string -> Prop :=
  | me_self r : mentioned r (rp_url r)
  | me_published r us u : publishes r us -> In u us -> mentioned r u
  | me_dependency r r' u : declares r r' -> mentioned r' u -> mentioned r u.

  (* [t] is [r] loaded with all it declares: a cached schema, a published schema, or its
     definition files together with every declared dependency, in the declared order *)
  Inductive loaded_as : repo -> loaded -> Prop :=
  | la_cached r t : w_cached w (rp_url r) = Some t -> loaded_as r t
  | la_published r u us : w_cached w (rp_url r) = None -> rp_content r = CPublished (inl (u, us)) ->
      loaded_as r (LResolved true u us)
  | la_plain r : w_cached w (rp_url r) = None -> rp_content r = CPlain -> loaded_as r (LDefined r [])
  | la_definition r ds ts : w_cached w (rp_url r) = None -> rp_content r = CDefinition ds ->
      loaded_all ds ts -> loaded_as r (LDefined r ts)
  with loaded_all : list decl -> list loaded -> Prop :=
  | ll_nil : loaded_all [] []
  | ll_cons d ds r warns t ts : w_fetch w d = inl (r, warns) -> loaded_as r t -> loaded_all ds ts ->
      loaded_all (d :: ds) (t :: ts).

  (* names along a route *)
  Definition names (l : list repo) : list string := map (fun r => w_name w (rp_url r)) l.

  (* two declarations of one registry in the manifest of [r], the first before the second *)
  Definition declared_twice (r : repo) (d1 d2 : decl) : Prop :=
    w_cached w (rp_url r) = None /\
    exists a b c, rp_content r = CDefinition (app a (d1 :: app b (d2 :: c))) /\
                  w_name w (dc_url d1) = w_name w (dc_url d2).

  (* the error says what is wrong between two URLs of one registry *)
  Definition conflict_between (e : rerr) (u1 u2 : string) : Prop :=
    w_name w u1 = w_name w u2 /\
    ((e = XBadSemver u1 /\ w_semver w u1 = None) \/
     (e = XBadSemver u2 /\ w_semver w u2 = None) \/
     (e = XIncompatible (w_name w u1) u1 u2 /\
      exists v1 v2, w_semver w u1 = Some v1 /\ w_semver w u2 = Some v2 /\ v_major v1 <> v_major v2)).

  (* why loading [main] may fail *)
  Definition explained (main : repo) (e : lerr) : Prop :=
    match e with
    | LDepth m =>
        exists l r, route main l r /\ length l = 10 /\ NoDup (names l) /\ m = rp_repr r
    | LCircular n c =>
        exists l r, route main l r /\ NoDup (names l) /\ n = w_name w (rp_url r) /\ In n (names l) /\
                    c = join " → " (app (names l) [n])
    | LConflict c =>
        (exists u1 u2, mentioned main u1 /\ mentioned main u2 /\ u1 <> u2 /\ conflict_between c u1 u2) \/
        (exists r d1 d2, reached main r /\ declared_twice r d1 d2 /\ conflict_between c (dc_url d1) (dc_url d2))
    | LUnversioned n =>
        exists r d1 d2, reached main r /\ declared_twice r d1 d2 /\ n = w_name w (dc_url d2) /\
          (w_version w (dc_url d1) = "unknown" \/ w_version w (dc_url d2) = "unknown")
    | e' =>
        (* the repository of a declaration, a published schema or the definition files of a
           reached registry cannot be read *)
        exists r, reached main r /\ w_cached w (rp_url r) = None /\
          ((exists ds d, rp_content r = CDefinition ds /\ In d ds /\ w_fetch w d = inr e') \/
           rp_content r = CPublished (inr e') \/
           (rp_files r = inr e' /\ forall s, rp_content r <> CPublished s))
    end.

  (* errors of reading repositories and files are none of the loader's own *)
  Definition reads_as_read (main : repo) : Prop :=
    forall r e, reached main r ->
      (rp_files r = inr e \/ rp_content r = CPublished (inr e) \/
       exists ds d, rp_content r = CDefinition ds /\ In d ds /\ w_fetch w d = inr e) ->
      match e with LFetch _ | LFiles _ | LSchema _ | LWarning _ => True | _ => False end.

  (* nothing prevents [main] from being loaded, apart from the shape of the graph *)
  Definition readable (main : repo) : Prop :=
    (forall r, reached main r -> w_cached w (rp_url r) = None ->
       (exists own, rp_files r = inl own) /\
       (forall e, rp_content r <> CPublished (inr e)) /\
       (forall ds d, rp_content r = CDefinition ds -> In d ds -> exists r' warns, w_fetch w d = inl (r', warns))) /\
    (forall u1 u2, mentioned main u1 -> mentioned main u2 -> u1 <> u2 -> w_name w u1 = w_name w u2 ->
       compatible u1 u2) /\
    (forall r d1 d2, reached main r -> declared_twice r d1 d2 ->
       w_version w (dc_url d1) <> "unknown" /\ w_version w (dc_url d2) <> "unknown" /\
       compatible (dc_url d1) (dc_url d2)).

  (* [u] is the URL of the last declaration of registry [n] *)
  Definition last_declared (ds : list decl) (n u : string) : Prop :=
    exists a d b, ds = app a (d :: b) /\ w_name w (dc_url d) = n /\ dc_url d = u /\
                  forall d', In d' b -> w_name w (dc_url d') <> n.
End Graph.

(* ---------- files ---------- *)
(* the file [n] lies under the directories [ds] below a directory holding [cs] *)
Inductive lies_in : list entry -> list string -> string -> Prop :=
| li_file cs n : In (EFile n) cs -> lies_in cs [] n
| li_dir cs d sub ds n : In (EDir d sub) cs -> lies_in sub ds n -> lies_in cs (d :: ds) n.

Definition starts_with_dot (n : string) : Prop := exists r, n = "." ++ r.

(* a definition file: a YAML name that is neither a manifest nor a schema draft *)
Definition definition_name (n : string) : Prop :=
  (exists stem, stem <> "" /\ (n = stem ++ ".yaml" \/ n = stem ++ ".yml")) /\
  n <> "schema-next.yaml" /\ n <> "manifest.yaml" /\ n <> "registry_manifest.yaml".

(* names as file systems have them *)
Definition plain_name (n : string) : Prop := n <> "" /\ forall a b, n <> a ++ "/" ++ b.
Inductive plain_entry : entry -> Prop :=
| pe_file n : plain_name n -> plain_entry (EFile n)
| pe_dir n cs : plain_name n -> Forall plain_entry cs -> plain_entry (EDir n cs).

(* the URLs of the resolved dependencies: their own and those of what they depend on *)
Definition visited (deps : list (option string * list string)) (u : string) : Prop :=
  exists d, In d deps /\ (fst d = Some u \/ In u (snd d)).

(* two URLs naming the same version of one registry are the same URL *)
Definition versions_identify (w : world) (P : string -> Prop) : Prop :=
  forall u u', P u -> P u' -> w_name w u = w_name w u' -> w_semver w u = w_semver w u' -> u = u'.
