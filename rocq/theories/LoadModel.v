(* Loading a registry with the registries it depends on, and the choice between several
   versions of one registry.
   Models crates/weaver_resolver/src/loader.rs 24-548, the version bookkeeping of
   crates/weaver_resolver/src/lib.rs 329-361 and what they use of
   crates/weaver_semconv/src/registry_repo.rs and manifest.rs.
   Fetching (network, archives, git) and YAML reading are parameters: [w_fetch] is what
   RegistryRepo::try_new_dependency_with_auth returns, the contents of a repository are
   data.  Schema URLs are strings; their name, version text and parsed semantic version
   are functions of the string (UrlModel.v models them). *)
From Coq Require Import String Ascii Bool Arith Lia Permutation Sorted NArith List.
From Verif Require Import Base Semver SemTypes ResultModel ResolveModel Str.
Import ListNotations.
Local Open Scope string_scope.

(* manifest.rs 92-110: Dependency.  The path is opaque. *)
Record decl := { dc_url : string; dc_path : option string }.

(* crates/weaver_resolver/src/error.rs, the errors of this phase *)
(* used by content: registry_repo.rs 58-80, registry_repo.rs 170-205 *)
Inductive lerr :=
| LDepth (registry : string)
| LCircular (registry chain : string)
| LConflict (e : rerr)
| LUnversioned (name : string)
| LFetch (m : string)
| LFiles (m : string)
| LSchema (m : string)
| LWarning (m : string)
| LUpgraded (name requested selected : string).

(* what a repository holds besides its definition files: registry_repo.rs 58-80 and
   170-205.
   CPlain: no manifest.  CDefinition: a manifest without usable resolved_registry_uri,
   with its dependencies.  CPublished: a manifest with one; the resolved schema found
   there (its URL and its dependencies), or the error of reading it. *)
Inductive content :=
| CPlain
| CDefinition (deps : list decl)
| CPublished (schema : string * list string + lerr).

(* registry_repo.rs 63-77; rp_files is what reading the definition files reports
   (loader.rs 421-534, see load_files below): warnings, or the fatal error *)
Record repo := {
  rp_url : string; rp_repr : string; rp_content : content; rp_files : list lerr + lerr
}.

(* loader.rs 27-46: LoadedSemconvRegistry, without the specifications *)
Inductive loaded :=
| LDefined (r : repo) (deps : list loaded)
| LResolved (v2 : bool) (url : string) (deps : list string).

(* everything outside the loader *)
(* used by is_versioned: manifest.rs 112-125 *)
Record world := {
  w_name : string -> string;                (* schema_url.rs 81-84 *)
  w_version : string -> string;             (* schema_url.rs 87-90 *)
  w_semver : string -> option version;      (* schema_url.rs 108-115 *)
  w_fetch : decl -> (repo * list lerr) + lerr;
  w_cached : string -> option loaded        (* loader.rs 225-230 *)
}.

(* loader.rs 24-25 *)
Definition max_dependency_depth : nat := 10.

(* manifest.rs 112-125 *)
Definition is_versioned (w : world) (d : decl) : bool :=
  negb (String.eqb (w_version w (dc_url d)) "unknown").

(* loader.rs 536-548 *)
Definition check_version_compatibility (w : world) (prev d : decl) : option lerr :=
  if negb (is_versioned w prev) || negb (is_versioned w d) then Some (LUnversioned (w_name w (dc_url d)))
  else match latest_major (w_name w) (w_semver w) (dc_url prev) (dc_url d) with
       | Got _ => None
       | Bad e => Some (LConflict e)
       end.

(* loader.rs 268-280 and 308-325: one version registered for a name *)
Definition register (w : world) (chosen : list (string * string)) (url : string)
  : list (string * string) + lerr :=
  match slookup (w_name w url) chosen with
  | None => inl (sinsert (w_name w url) url chosen)
  | Some prev =>
    if String.eqb prev url then inl chosen
    else match latest_major (w_name w) (w_semver w) prev url with
         | Got c => inl (sinsert (w_name w url) c chosen)
         | Bad e => inr (LConflict e)
         end
  end.
(* as above: loader.rs 268-280, loader.rs 308-325 *)
Fixpoint register_all (w : world) (chosen : list (string * string)) (urls : list string)
  : list (string * string) + lerr :=
  match urls with
  | [] => inl chosen
  | u :: r => match register w chosen u with
              | inl chosen' => register_all w chosen' r
              | inr e => inr e
              end
  end.

(* what a call returns: the registry with the non-fatal errors and the versions chosen so
   far, or the fatal error *)
(* used by load_deps: loader.rs 332-378 *)
Inductive load_result :=
| Loaded (t : loaded) (nfes : list lerr) (chosen : list (string * string))
| LoadFailed (e : lerr).
(* used by load_deps: loader.rs 332-378 *)
Inductive deps_result :=
| DLoaded (ts : list loaded) (nfes : list lerr) (chosen : list (string * string))
| DFailed (e : lerr).

(* loader.rs 332-378: the loop over the declared dependencies; [seen] is the HashMap
   seen_dependencies *)
Fixpoint load_deps (w : world) (rec : repo -> list (string * string) -> load_result)
  (ds : list decl) (seen : list (string * decl)) (chosen : list (string * string)) : deps_result :=
  match ds with
  | [] => DLoaded [] [] chosen
  | d :: r =>
    let n := w_name w (dc_url d) in
    let bad := match slookup n seen with
               | Some prev => check_version_compatibility w prev d
               | None => None
               end in
    let seen' := match slookup n seen with Some _ => seen | None => sinsert n d seen end in
    match bad with
    | Some e => DFailed e
    | None =>
      match w_fetch w d with
      | inr e => DFailed e
      | inl (dr, warns) =>
        match rec dr chosen with
        | LoadFailed e => DFailed e
        | Loaded t nfes chosen' =>
          match load_deps w rec r seen' chosen' with
          | DFailed e => DFailed e
          | DLoaded ts nfes' chosen'' => DLoaded (t :: ts) (app warns (app nfes nfes')) chosen''
          end
        end
      end
    end
  end.

(* loader.rs 383-384 and 391: load_definition_repository, its result extended with the
   non-fatal errors of the dependencies *)
Definition load_own (r : repo) (ts : list loaded) (nfes : list lerr) (chosen : list (string * string))
  : load_result :=
  match rp_files r with
  | inl own => Loaded (LDefined r ts) (app own nfes) chosen
  | inr e => LoadFailed e
  end.

(* loader.rs 234-395.  The mutable dependency chain is an argument: it is pushed and popped
   around the recursive calls; visited_registries is only written, and left out. *)
Fixpoint load (w : world) (depth : nat) (chain : list string) (r : repo)
  (chosen : list (string * string)) : load_result :=
  match depth with
  | O => LoadFailed (LDepth (rp_repr r))
  | S depth' =>
    let n := w_name w (rp_url r) in
    if str_mem n chain then LoadFailed (LCircular n (join " → " (app chain [n])))
    else
      match register w chosen (rp_url r) with
      | inr e => LoadFailed e
      | inl chosen1 =>
        match w_cached w (rp_url r) with
        | Some t => Loaded t [] chosen1
        | None =>
          match rp_content r with
          | CPlain => load_own r [] [] chosen1
          | CPublished (inr e) => LoadFailed e
          | CPublished (inl (u, us)) =>
            match register_all w chosen1 us with
            | inl chosen2 => Loaded (LResolved true u us) [] chosen2
            | inr e => LoadFailed e
            end
          | CDefinition ds =>
            match load_deps w (load w depth' (app chain [n])) ds [] chosen1 with
            | DFailed e => LoadFailed e
            | DLoaded ts nfes chosen2 => load_own r ts nfes chosen2
            end
          end
        end
      end
  end.

(* loader.rs 182-191: main_dependencies *)
Definition manifest_deps (r : repo) : list decl :=
  match rp_content r with CDefinition ds => ds | _ => [] end.
(* as above: loader.rs 182-191 *)
Definition main_dependencies (w : world) (ds : list decl) : list (string * string) :=
  fold_left (fun m d => sinsert (w_name w (dc_url d)) (dc_url d) m) ds [].

(* loader.rs 204-218: the upgrade warnings, over the HashMap in iteration order *)
Fixpoint upgrade_warnings (w : world) (mains chosen : list (string * string)) : list lerr :=
  match mains with
  | [] => []
  | (n, main) :: r =>
    match slookup n chosen with
    | Some sel =>
      if String.eqb sel main then upgrade_warnings w r chosen
      else LUpgraded n (w_version w main) (w_version w sel) :: upgrade_warnings w r chosen
    | None => upgrade_warnings w r chosen
    end
  end.

(* loader.rs 175-223: load_semconv_repository_with_cache; [order] is the iteration order of
   the HashMap main_dependencies.  A publication manifest lists dependencies too: they are
   [extra]. *)
Definition load_registry (w : world) (order : list (string * string) -> list (string * string))
  (extra : list decl) (r : repo) : load_result :=
  match load w max_dependency_depth [] r [] with
  | LoadFailed e => LoadFailed e
  | Loaded t nfes chosen =>
    let ds := match rp_content r with CPublished _ => extra | _ => manifest_deps r end in
    Loaded t (app nfes (upgrade_warnings w (order (main_dependencies w ds)) chosen)) chosen
  end.

(* lib.rs 329-338: collect_chosen_versions_from_url *)
Definition collect_url (w : world) (chosen : list (string * string)) (url : string) : list (string * string) :=
  match slookup (w_name w url) chosen with
  | None => sinsert (w_name w url) url chosen
  | Some existing =>
    match latest_major (w_name w) (w_semver w) existing url with
    | Got c => sinsert (w_name w url) c chosen
    | Bad _ => chosen
    end
  end.
(* lib.rs 340-361 and 430-433: over the resolved dependencies, each given by its URL (None
   when a V1 schema's URL does not parse) and the URLs of its own dependencies *)
Definition collect_chosen (w : world) (deps : list (option string * list string)) : list (string * string) :=
  fold_left (fun m d =>
    fold_left (collect_url w) (snd d) (match fst d with Some u => collect_url w m u | None => m end)) deps [].

(* ---------- the definition files of a registry: loader.rs 421-534 ---------- *)
(* an entry of the file system as walkdir yields it; symbolic links are resolved *)
(* used by entry_name: loader.rs 450-458 *)
Inductive entry :=
| EFile (name : string)
| EDir (name : string) (children : list entry).
(* used by walk: loader.rs 450-458 *)
Definition entry_name (e : entry) : string := match e with EFile n => n | EDir n _ => n end.

(* 427-433 *)
Definition hidden (n : string) : bool := starts_with "." n.
(* std::path::Path::extension on a file name: after the last '.', none when that is the
   first character or there is none *)
(* used by extension: loader.rs 434-443 *)
Fixpoint last_dot (s : string) : option string :=
  match s with
  | EmptyString => None
  | String c r => match last_dot r with
                  | Some e => Some e
                  | None => if Ascii.eqb c "."%char then Some r else None
                  end
  end.
(* used by is_semconv_name: loader.rs 434-443 *)
Definition extension (n : string) : string :=
  match n with
  | EmptyString => ""
  | String _ r => opt_get (last_dot r) ""
  end.
(* 434-443 *)
Definition is_semconv_name (n : string) : bool :=
  (String.eqb (extension n) "yaml" || String.eqb (extension n) "yml")
  && negb (String.eqb n "schema-next.yaml")
  && negb (String.eqb n "manifest.yaml")
  && negb (String.eqb n "registry_manifest.yaml").

(* str::ends_with of the separator *)
(* used by join_path: loader.rs 450-458 *)
Fixpoint ends_slash (s : string) : bool :=
  match s with
  | EmptyString => false
  | String c EmptyString => is_slash c
  | String _ r => ends_slash r
  end.
(* Path::join as walkdir uses it *)
(* used by walk: loader.rs 450-458 *)
Definition join_path (dir n : string) : string :=
  if String.eqb dir "" then n
  else if ends_slash dir then (dir ++ n) else (dir ++ "/" ++ n).

(* 450-458: the paths of the semantic convention files below an entry, [path] being the path
   of the entry itself; an entry whose name is hidden is not descended into.  The order in
   which par_bridge hands them out is arbitrary. *)
Fixpoint walk (path : string) (e : entry) : list string :=
  if hidden (entry_name e) then []
  else match e with
       | EFile n => if is_semconv_name n then [path] else []
       | EDir _ cs => flat_map (fun c => walk (join_path path (entry_name c)) c) cs
       end.

(* walkdir: the file name of the root is the last component of the path, or the whole path
   when that is empty, "." or "..": [root_name]; std Path::file_name ignores trailing
   slashes and "." components after the last name *)
(* used by root_name: loader.rs 448-500 *)
Definition path_file_name (p : string) : option string :=
  match filter (fun c => negb (String.eqb c "" || String.eqb c ".")) (rev (split_char "/"%char p)) with
  | [] => None
  | c :: _ => if String.eqb c ".." then None else Some c
  end.
(* used by definition_files: loader.rs 448-500 *)
Definition root_name (p : string) : string := opt_get (path_file_name p) p.

(* 466-480: the path reported as provenance of a file; None is the panic of slicing beyond
   the end (the panic inside a multi-byte character is left out) *)
Definition provenance_path (repr local path : string) : option string :=
  if ends_slash repr then
    match slice_from (String.length local) path with
    | Some rel => Some (repr ++ rel) | None => None end
  else
    match slice_from (S (String.length local)) path with
    | Some rel => Some (repr ++ "/" ++ rel) | None => None end.

(* 448-500: the files read under the root [local] *)
Definition definition_files (local : string) (cs : list entry) : list string :=
  walk local (EDir (root_name local) cs).

(* 502-512: the results, in the order they were collected: the first fatal error, or all
   specifications and all non-fatal errors *)
Fixpoint gather {S E} (rs : list (wresult S E)) : (list S * list E) + E :=
  match rs with
  | [] => inl ([], [])
  | WOk t :: r => match gather r with inl (ss, es) => inl (t :: ss, es) | inr e => inr e end
  | WOkNfe t n :: r => match gather r with inl (ss, es) => inl (t :: ss, app n es) | inr e => inr e end
  | WFatal e :: _ => inr e
  end.
