(* The resolver as a service: schemas requested by their URL, the cache of resolved schemas,
   and the resolution of the registries a registry depends on.
   Models crates/weaver_resolver/src/lib.rs 77-324, 363-604.
   Fetching, reading and the resolution of one registry given its dependencies are parameters:
   they are modelled in LoadModel and ResolveModel. *)
From Coq Require Import String Bool Arith Lia List.
From Verif Require Import Base ResultModel.
Import ListNotations.
Local Open Scope string_scope.

(* ---------- crate lru: the most recently used entry first ---------- *)
Section Lru.
  Context {V : Type}.
  (* used by forget: lib.rs 183-245 *)
  Definition lru := list (string * V).
  (* used by get: lib.rs 183-245 *)
  Definition forget (k : string) (c : lru) : lru := filter (fun e => negb (String.eqb (fst e) k)) c.
  (* LruCache::peek *)
  (* used by get: lib.rs 183-245 *)
  Fixpoint peek (c : lru) (k : string) : option V :=
    match c with
    | [] => None
    | (k', v) :: r => if String.eqb k' k then Some v else peek r k
    end.
  (* LruCache::get: a hit becomes the most recent *)
  (* used by resolve_dependency: lib.rs 183-245 *)
  Definition get (c : lru) (k : string) : lru * option V :=
    match peek c k with
    | Some v => ((k, v) :: forget k c, Some v)
    | None => (c, None)
    end.
  (* LruCache::put: the least recent entry goes when a new one does not fit *)
  (* used by keep: lib.rs 453-501 *)
  Definition put (capacity : nat) (c : lru) (k : string) (v : V) : lru :=
    firstn capacity ((k, v) :: forget k c).
End Lru.
Arguments lru V : clear implicits.

(* ---------- what is outside ---------- *)
(* ResolvedTelemetrySchema of either version: its URL, the URLs of all the registries it was built
   from, and the rest.  A schema URL is its text, without slashes at the end
   (schema_url.rs 28-72); the text of one reads back as itself. *)
Record schema (B : Type) := mk_schema { sc_url : string; sc_deps : list string; sc_body : B }.
Arguments mk_schema {B} sc_url sc_deps sc_body.
Arguments sc_url {B} s.
Arguments sc_deps {B} s.
Arguments sc_body {B} s.

(* loader.rs 27-46: LoadedSemconvRegistry; [repo] and [raw] are the repository and its files *)
Inductive loaded (Repo Raw B : Type) :=
| Unresolved (r : Repo) (files : Raw) (deps : list (loaded Repo Raw B))
| Resolved (s : schema B).
Arguments Unresolved {Repo Raw B} r files deps.
Arguments Resolved {Repo Raw B} s.

(* error.rs, as far as this phase makes them *)
(* used by world: lib.rs 401-420 *)
Inductive cerr :=
| FailToResolveSchemaUrl
| MismatchSchemaUrl (expected actual : string)
| Outside (text : string).

(* used by all_deps: lib.rs 401-420 *)
Record world := mk_world {
  w_body : Type;
  w_repo : Type;
  w_raw : Type;
  (* RegistryRepo::try_new_with_auth for a URL and a path *)
  w_open : string -> string -> (w_repo * list cerr) + cerr;
  (* lib.rs 199-206, 393-400: the URL of the manifest, or one made of name and version *)
  w_computed : w_repo -> option string;
  (* load_semconv_repository_with_cache: given what is in the cache *)
  w_load : (string -> option (schema w_body)) -> w_repo -> wresult (loaded w_repo w_raw w_body) cerr;
  (* resolve_registry_with_dependencies: given the dependencies and what is in the cache *)
  w_resolve : w_repo -> w_raw -> list (schema w_body) -> (string -> option (schema w_body))
              -> wresult w_body cerr }.
Notation wschema w := (schema (w_body w)).
Notation wloaded w := (loaded (w_repo w) (w_raw w) (w_body w)).

(* lib.rs 77-98: WeaverResolverConfig; an override is the path that replaces the one given by
   the URL *)
Record config := mk_config { cf_capacity : nat; cf_overrides : list (string * string) }.

(* BTreeSet::insert *)
(* used by all_deps: lib.rs 401-420 *)
Fixpoint set_insert (x : string) (l : list string) : list string :=
  match l with
  | [] => [x]
  | y :: r => match str_cmp x y with
              | Lt => x :: l
              | Eq => l
              | Gt => y :: set_insert x r
              end
  end.
(* lib.rs 401-420: every registry this schema was built from, direct and transitive *)
Definition all_deps {B} (ds : list (schema B)) : list string :=
  fold_left (fun acc d => fold_left (fun acc u => set_insert u acc) (sc_deps d) (set_insert (sc_url d) acc)) ds [].

Section Resolver.
  Variable w : world.
  Variable cf : config.
  Notation cache := (lru (wschema w)).
  Notation "'res' A" := (wresult A cerr) (at level 10).

  (* lib.rs 453-501, the last step of resolve_loaded: the schema goes in the cache under its
     own URL *)
  Definition keep (c : cache) (s : wschema w) : cache := put (cf_capacity cf) c (sc_url s) s.

  (* lib.rs 192-209: under which URL a loaded dependency is looked for *)
  Definition loaded_url (l : wloaded w) : option string :=
    match l with
    | Unresolved r _ _ => w_computed w r
    | Resolved s => Some (sc_url s)
    end.

  (* lib.rs 372-391: the results of the dependencies; their non-fatal errors are collected, and
     not used afterwards *)
  Fixpoint dep_values (rs : list (res (wschema w))) : list (wschema w) + cerr :=
    match rs with
    | [] => inl []
    | WFatal e :: _ => inr e
    | (WOk d | WOkNfe d _) :: r => match dep_values r with inl ds => inl (d :: ds) | inr e => inr e end
    end.

  (* [rec] resolves what was loaded; None stands for a computation that does not end *)
  Section Steps.
    Variable rec : cache -> wloaded w -> option (cache * res (wschema w)).

    (* lib.rs 183-245: resolve_dependency *)
    Definition resolve_dependency (c : cache) (l : wloaded w) : option (cache * res (wschema w)) :=
      match loaded_url l with
      | None => Some (c, WFatal FailToResolveSchemaUrl)
      | Some u =>
        match get c u with
        | (c1, Some s) => Some (c1, WOk s)
        | (c1, None) =>
          match slookup u (cf_overrides cf) with
          | Some path =>
            match w_open w u path with
            | inr e => Some (c1, WFatal e)
            | inl (r, _) =>
              match w_load w (peek c1) r with
              | WFatal e => Some (c1, WFatal e)
              | WOk l' | WOkNfe l' _ => rec c1 l'
              end
            end
          | None => rec c1 l
          end
        end
      end.

    (* lib.rs 373-377: all of them, whatever the results *)
    Fixpoint resolve_dependencies (c : cache) (ls : list (wloaded w))
        : option (cache * list (res (wschema w))) :=
      match ls with
      | [] => Some (c, [])
      | l :: r =>
        match resolve_dependency c l with
        | None => None
        | Some (c1, x) => match resolve_dependencies c1 r with
                          | None => None
                          | Some (c2, xs) => Some (c2, x :: xs)
                          end
        end
      end.

    (* lib.rs 363-450: resolve_registry_internal *)
    Definition resolve_registry (c : cache) (r : w_repo w) (files : w_raw w) (deps : list (wloaded w))
        : option (cache * res (wschema w)) :=
      match resolve_dependencies c deps with
      | None => None
      | Some (c1, rs) =>
        Some (c1, match dep_values rs with
                  | inr e => WFatal e
                  | inl ds =>
                    match w_computed w r with
                    | None => WFatal FailToResolveSchemaUrl
                    | Some u =>
                      match w_resolve w r files ds (peek c1) with
                      | WOk b => WOk (mk_schema u (all_deps ds) b)
                      | WOkNfe b nfes => WOkNfe (mk_schema u (all_deps ds) b) nfes
                      | WFatal e => WFatal e
                      end
                    end
                  end)
      end.
  End Steps.

  (* lib.rs 453-501: resolve_loaded; [fuel] bounds the recursion *)
  Fixpoint resolve_loaded (fuel : nat) (c : cache) (l : wloaded w) : option (cache * res (wschema w)) :=
    match fuel with
    | 0 => None
    | S n =>
      match l with
      | Resolved s => Some (keep c s, WOk s)
      | Unresolved r files deps =>
        match resolve_registry (resolve_loaded n) c r files deps with
        | None => None
        | Some (c1, WOk s) => Some (keep c1 s, WOk s)
        | Some (c1, WOkNfe s nfes) => Some (keep c1 s, WOkNfe s nfes)
        | Some (c1, WFatal e) => Some (c1, WFatal e)
        end
      end
    end.

  (* lib.rs 569-604: load_and_resolve_schema with a visitor that lets everything pass *)
  Definition load_and_resolve (fuel : nat) (c : cache) (r : w_repo w) : option (cache * res (wschema w)) :=
    let go l nfes :=
      match resolve_loaded fuel c l with
      | None => None
      | Some (c1, WOk s) => Some (c1, with_nfes s nfes)
      | Some (c1, WOkNfe s more) => Some (c1, WOkNfe s (app nfes more))
      | Some (c1, WFatal e) => Some (c1, WFatal e)
      end in
    match w_load w (peek c) r with
    | WFatal e => Some (c, WFatal e)
    | WOk l => go l []
    | WOkNfe l nfes => go l nfes
    end.

  (* lib.rs 512-566: resolve_schema.  Without an override the place is the URL itself
     (registry_repo.rs 88-102). *)
  Definition place_of (url : string) : string :=
    match slookup url (cf_overrides cf) with Some p => p | None => url end.
  (* as above: lib.rs 512-566, registry_repo.rs 88-102 *)
  Definition resolve_schema (fuel : nat) (c : cache) (url : string) : option (cache * res (wschema w)) :=
    match get c url with
    | (c1, Some s) => Some (c1, WOk s)
    | (c1, None) =>
      match w_open w url (place_of url) with
      | inr e => Some (c1, WFatal e)
      | inl (r, nfes) =>
        let finish c2 s more :=
          if String.eqb (sc_url s) url then Some (put (cf_capacity cf) c2 url s, WOkNfe s (app nfes more))
          else Some (c2, WFatal (MismatchSchemaUrl url (sc_url s))) in
        match load_and_resolve fuel c1 r with
        | None => None
        | Some (c2, WOk s) => finish c2 s []
        | Some (c2, WOkNfe s more) => finish c2 s more
        | Some (c2, WFatal e) => Some (c2, WFatal e)
        end
      end
    end.

  (* the calls a client makes, one after the other, on one resolver *)
  (* a client of crates/weaver_resolver/src/lib.rs 510-565 and 571-600 *)
  Inductive call := Request (url : string) | Load (r : w_repo w).
  (* a client of crates/weaver_resolver/src/lib.rs 510-565 and 571-600 *)
  Definition answer (fuel : nat) (c : cache) (x : call) : option (cache * res (wschema w)) :=
    match x with
    | Request url => resolve_schema fuel c url
    | Load r => load_and_resolve fuel c r
    end.
  (* a client of crates/weaver_resolver/src/lib.rs 510-565 and 571-600 *)
  Fixpoint answers (fuel : nat) (c : cache) (xs : list call) : option (cache * list (res (wschema w))) :=
    match xs with
    | [] => Some (c, [])
    | x :: r => match answer fuel c x with
                | None => None
                | Some (c1, a) => match answers fuel c1 r with
                                  | None => None
                                  | Some (c2, rest) => Some (c2, a :: rest)
                                  end
                end
    end.
End Resolver.
Arguments Request {w} url.
Arguments Load {w} r.
