(* What is expected of a resolver that keeps what it resolved, stated on the answers and on the
   registries outside, and the sample worlds. *)
From Coq Require Import String Bool Arith Lia Sorted List.
From Verif Require Import Base ResultModel CacheModel.
From Verif Require LoadModel.
Import ListNotations.
Local Open Scope string_scope.

(* the value of an answer and the warnings that come with it *)
Definition got {T} (a : wresult T cerr) (t : T) : Prop := a = WOk t \/ exists nfes, a = WOkNfe t nfes.
Definition warned {T} (a : wresult T cerr) (t : T) (ws : list cerr) : Prop :=
  (a = WOk t /\ ws = []) \/ a = WOkNfe t ws.

Section Trees.
  Variable w : world.
  (* [below x l]: x is l or a dependency of it, at any depth *)
  Inductive below (x : wloaded w) : wloaded w -> Prop :=
  | bl_here : below x x
  | bl_dep r files deps d : In d deps -> below x d -> below x (Unresolved r files deps).

  (* [x] is read for the URL [u] *)
  Definition names_url (x : wloaded w) (u : string) : Prop :=
    (exists r files deps, x = Unresolved r files deps /\ w_computed w r = Some u) \/
    (exists s, x = Resolved s /\ sc_url s = u).

  (* schemas known under their own URLs *)
  Definition keyed (known : string -> option (wschema w)) : Prop := forall u s, known u = Some s -> sc_url s = u.

  (* Loading one of the repositories [P] looks every URL up among the known schemas, finds published
     schemas that are what their manifest says, and does not go round in circles. *)
  Definition honest (P : w_repo w -> Prop) : Prop := forall known r l, P r -> keyed known -> got (w_load w known r) l ->
    (forall x, below x l -> forall r' files deps, x = Unresolved r' files deps ->
       forall u, w_computed w r' = Some u ->
         known u = None /\ forall d y, In d deps -> below y d -> ~ names_url y u) /\
    (forall s, below (Resolved s) l -> known (sc_url s) = None \/ known (sc_url s) = Some s).

  (* all registries are given by definition files: a resolved schema comes from the known ones *)
  Definition all_raw (P : w_repo w -> Prop) : Prop := forall known r l, P r -> keyed known -> got (w_load w known r) l ->
    forall s, below (Resolved s) l -> known (sc_url s) = Some s.

  (* [P] holds of every repository that a history may load: those found under URLs and those
     given in its calls *)
  Definition uses (xs : list (call w)) (P : w_repo w -> Prop) : Prop :=
    (forall url r nfes, w_open w url url = inl (r, nfes) -> P r) /\ forall r, In (Load r) xs -> P r.

  (* a repository and files that are read somewhere *)
  Definition read (r : w_repo w) (files : w_raw w) : Prop :=
    exists known r0 l deps, got (w_load w known r0) l /\ below (Unresolved r files deps) l.

  (* [u] is one of the registries that [ds] were built from *)
  Definition built_from (ds : list (wschema w)) (u : string) : Prop :=
    exists d, In d ds /\ (u = sc_url d \/ In u (sc_deps d)).

  (* a schema made by reading published schemas and by resolutions, and by nothing else *)
  Inductive made : wschema w -> Prop :=
  | mk_published r l known s :
      got (w_load w known r) l -> below (Resolved s) l -> (forall u x, known u = Some x -> sc_url x = u /\ made x) ->
      made s
  | mk_resolved r files ds known s :
      read r files -> Forall made ds -> (forall u x, known u = Some x -> sc_url x = u /\ made x) ->
      w_computed w r = Some (sc_url s) ->
      got (w_resolve w r files ds known) (sc_body s) ->
      StronglySorted (fun a b => str_cmp a b = Lt) (sc_deps s) ->
      (forall u, In u (sc_deps s) <-> built_from ds u) ->
      made s.
End Trees.

(* ---------- sample worlds ---------- *)
(* what a location holds: the URL in the manifest, the locations of the dependencies, the
   warnings of its resolution, and a text *)
Record place := mk_place { pl_url : string; pl_deps : list string; pl_warns : list cerr; pl_text : string }.
Definition body := list string.

(* a location that holds nothing is an empty registry *)
Definition at_place (ps : list (string * place)) (loc : string) : place :=
  match slookup loc ps with Some p => p | None => mk_place loc [] [] "" end.

Fixpoint sample_load (n : nat) (ps : list (string * place)) (known : string -> option (schema body)) (loc : string)
    : loaded string string body :=
  match known (pl_url (at_place ps loc)) with
  | Some s => Resolved s
  | None =>
    Unresolved loc (pl_text (at_place ps loc))
      match n with 0 => [] | S n' => map (sample_load n' ps known) (pl_deps (at_place ps loc)) end
  end.
(* a world of locations, in which no chain of dependencies is longer than three *)
Definition sample_world (ps : list (string * place)) : world :=
  {| w_body := body; w_repo := string; w_raw := string;
     w_open := fun _ path => match slookup path ps with Some p => inl (path, []) | None => inr (Outside path) end;
     w_computed := fun loc => Some (pl_url (at_place ps loc));
     w_load := fun known loc => WOk (sample_load 3 ps known loc);
     w_resolve := fun loc files ds _ => with_nfes (files :: flat_map (fun d => sc_body d) ds) (pl_warns (at_place ps loc)) |}.
Definition plain url deps text := mk_place url deps [] text.

(* the registry a depends on b, which depends on c *)
Definition w_chain := sample_world
  [("a", plain "a" ["b"] "A"); ("b", plain "b" ["c"] "B"); ("c", plain "c" [] "C")].
Definition no_overrides n := mk_config n [].
(* the location of a holds a manifest for b *)
Definition w_moved := sample_world [("a", plain "b" [] "A"); ("b", plain "b" [] "B")].
(* resolving a, or its dependency b, warns *)
Definition w_warn := sample_world
  [("a", mk_place "a" ["b"] [Outside "in a"] "A"); ("b", mk_place "b" [] [Outside "in b"] "B")].
(* a is overridden by p, which depends on b; b is overridden by q, which depends on a *)
Definition w_cycle := sample_world
  [("at a", plain "a" [] "A"); ("at b", plain "b" [] "B");
   ("p", plain "a" ["at b"] "P"); ("q", plain "b" ["at a"] "Q")].
Definition cycle_overrides n := mk_config n [("a", "p"); ("b", "q")].
(* [n] registries in places of their own, and one that depends on all of them *)
Fixpoint digits (n : nat) : string := match n with 0 => "" | S m => "i" ++ digits m end.
Definition w_many (n : nat) := sample_world
  (("main", plain "main" (map (fun i => "./" ++ digits i) (seq 0 n)) "M")
   :: map (fun i => ("./" ++ digits i, plain ("d" ++ digits i) [] (digits i))) (seq 0 n)).
(* the dependency b of a is overridden by a registry c *)
Definition w_other := sample_world
  [("a", plain "a" ["at b"] "A"); ("at b", plain "b" [] "B"); ("r", plain "c" [] "C")].
Definition other_override := mk_config 32 [("b", "r")].

(* ---------- the loader as LoadModel has it ---------- *)
Section FromLoader.
  Variable lw : LoadModel.world.
  Variable order : list (string * string) -> list (string * string).
  Variable extra : list LoadModel.decl.
  Variable B : Type.
  (* the rest of the schema published for a URL *)
  Variable published_body : string -> B.

  Definition with_known (known : string -> option (schema B)) : LoadModel.world :=
    {| LoadModel.w_name := LoadModel.w_name lw; LoadModel.w_version := LoadModel.w_version lw;
       LoadModel.w_semver := LoadModel.w_semver lw; LoadModel.w_fetch := LoadModel.w_fetch lw;
       LoadModel.w_cached := fun u =>
         match known u with Some s => Some (LoadModel.LResolved false u (sc_deps s)) | None => None end |}.
  Fixpoint tree_of (known : string -> option (schema B)) (t : LoadModel.loaded)
      : loaded LoadModel.repo LoadModel.repo B :=
    match t with
    | LoadModel.LDefined r ds => Unresolved r r (map (tree_of known) ds)
    | LoadModel.LResolved _ u us =>
        Resolved (match known u with Some s => s | None => mk_schema u us (published_body u) end)
    end.
  (* a registry is read as the loader reads it, everything else is left open *)
  Definition loader_world (open : string -> string -> (LoadModel.repo * list cerr) + cerr)
      (computed : LoadModel.repo -> option string)
      (resolve : LoadModel.repo -> LoadModel.repo -> list (schema B) -> (string -> option (schema B)) -> wresult B cerr)
      (say : LoadModel.lerr -> cerr) : world :=
    {| w_body := B; w_repo := LoadModel.repo; w_raw := LoadModel.repo; w_open := open; w_computed := computed;
       w_load := fun known r =>
         match LoadModel.load_registry (with_known known) order extra r with
         | LoadModel.Loaded t nfes _ => with_nfes (tree_of known t) (map say nfes)
         | LoadModel.LoadFailed e => WFatal (say e)
         end;
       w_resolve := resolve |}.
  (* a published schema has the URL of its manifest, and a registry without a manifest is asked
     for under the URL that is made of its name and version *)
  Definition truthful (computed : LoadModel.repo -> option string) (r : LoadModel.repo) : Prop :=
    (forall u us, LoadModel.rp_content r = LoadModel.CPublished (inl (u, us)) -> u = LoadModel.rp_url r) /\
    (forall u, computed r = Some u -> u = LoadModel.rp_url r).
End FromLoader.
