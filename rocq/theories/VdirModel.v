(* Registry path strings, archive unpacking and authenticated downloads.
   Models crates/weaver_common/src/vdir.rs and crates/weaver_common/src/http_auth.rs.
   Strings are byte strings: every character the code tests for is ASCII, so
   working on UTF-8 bytes gives the same answers.  Network, git and file system
   access are not modelled; what they return enters as parameters. *)
From Coq Require Import String Ascii Bool Arith Lia List.
Import ListNotations.
From Verif Require Import Base SemTypes Json.
Local Open Scope string_scope.
Local Open Scope list_scope.

(* ------------------------------------------------------------------ *)
(* Parsing: REGISTRY_REGEX, vdir.rs 309-312
     ^(?P<source>.+?)(?:@(?P<refspec>.+?))?(?:\[(?P<sub_folder>.+?)])?$
   transcribed as a backtracking matcher, which is what leftmost-first
   semantics prescribes.  [.] does not match a line feed. *)

Definition newline : ascii := "010"%char.

(* [.+?] followed by the continuation [k]: the shortest non-empty match for
   which the rest matches *)
(* used by match_sub: vdir.rs 465-515 *)
Fixpoint lazy_plus {K} (k : string -> option K) (r : string) : option (string * K) :=
  match r with
  | EmptyString => None
  | String c r' =>
    if Ascii.eqb c newline then None
    else match k r' with
         | Some x => Some (String c EmptyString, x)
         | None => match lazy_plus k r' with
                   | Some (m, x) => Some (String c m, x)
                   | None => None
                   end
         end
  end.

(* the closing bracket and the end of the text *)
(* used by match_sub: vdir.rs 465-515 *)
Definition match_close (r : string) : option unit :=
  if String.eqb r "]" then Some tt else None.

(* (?:\[(?P<sub_folder>.+?)])?$ *)
(* used by match_tail: vdir.rs 465-515 *)
Definition match_sub (r : string) : option (option string) :=
  match (match r with
         | String c r' =>
           if Ascii.eqb c "["%char then lazy_plus match_close r' else None
         | EmptyString => None
         end) with
  | Some (sub, _) => Some (Some sub)
  | None => if String.eqb r "" then Some None else None
  end.

(* (?:@(?P<refspec>.+?))? and what follows *)
(* used by captures: vdir.rs 465-515 *)
Definition match_tail (r : string) : option (option string * option string) :=
  match (match r with
         | String c r' =>
           if Ascii.eqb c "@"%char then lazy_plus match_sub r' else None
         | EmptyString => None
         end) with
  | Some (ref, sub) => Some (Some ref, sub)
  | None => match match_sub r with
            | Some sub => Some (None, sub)
            | None => None
            end
  end.

(* used by parse_vdir: vdir.rs 465-515 *)
Definition captures (s : string) : option (string * (option string * option string)) :=
  lazy_plus match_tail s.

(* vdir.rs 328-367: enum VirtualDirectoryPath *)
Inductive vdir_path :=
| LocalFolder (path : string)
| LocalArchive (path : string) (sub_folder : option string)
| RemoteArchive (url : string) (sub_folder : option string)
| GitRepo (url : string) (refspec sub_folder : option string)
| RemoteFile (url : string).

(* str::ends_with *)
(* used by is_archive: vdir.rs 482-513 *)
Fixpoint ends_with (suf s : string) : bool :=
  String.eqb s suf ||
  match s with
  | EmptyString => false
  | String _ s' => ends_with suf s'
  end.

(* used by classify: vdir.rs 482-513 *)
Definition is_archive (s : string) : bool := ends_with ".zip" s || ends_with ".tar.gz" s.
(* used by classify: vdir.rs 482-513 *)
Definition is_http (s : string) : bool := starts_with "http://" s || starts_with "https://" s.

(* vdir.rs 482-513, the classification part of from_str *)
Definition classify (source : string) (refspec sub_folder : option string) : vdir_path :=
  if is_http source then
    if is_archive source then RemoteArchive source sub_folder
    else if ends_with ".git" source || is_some refspec || is_some sub_folder
    then GitRepo source refspec sub_folder
    else RemoteFile source
  else if is_archive source then LocalArchive source sub_folder
  else LocalFolder source.

(* vdir.rs 465-515: from_str; None is Error::InvalidRegistryPath *)
Definition parse_vdir (s : string) : option vdir_path :=
  match captures s with
  | Some (source, (refspec, sub_folder)) => Some (classify source refspec sub_folder)
  | None => None
  end.

(* vdir.rs 518-550: Display *)
Definition show_vdir (v : vdir_path) : string :=
  match v with
  | LocalFolder path => path
  | LocalArchive path (Some sub) => (path ++ "[" ++ sub ++ "]")%string
  | LocalArchive path None => path
  | RemoteArchive url (Some sub) => (url ++ "[" ++ sub ++ "]")%string
  | RemoteArchive url None => url
  | GitRepo url (Some ref) (Some sub) => (url ++ "@" ++ ref ++ "[" ++ sub ++ "]")%string
  | GitRepo url (Some ref) None => (url ++ "@" ++ ref)%string
  | GitRepo url None (Some sub) => (url ++ "[" ++ sub ++ "]")%string
  | GitRepo url None None => url
  | RemoteFile url => url
  end.

(* vdir.rs 371-378 *)
Definition map_option (opt : option string) (f : string -> string) : option string :=
  let result := f (opt_get opt "") in
  if String.eqb result "" then None else Some result.

(* vdir.rs 389-411 *)
Definition map_sub_folder (v : vdir_path) (f : string -> string) : vdir_path :=
  match v with
  | LocalFolder path => LocalFolder (f path)
  | LocalArchive path sub => LocalArchive path (map_option sub f)
  | RemoteArchive url sub => RemoteArchive url (map_option sub f)
  | GitRepo url ref sub => GitRepo url ref (map_option sub f)
  | RemoteFile url => RemoteFile (f url)
  end.

(* VirtualDirectory::vdir_path, vdir.rs 1115-1119: re-parses the text kept when
   the directory was created; None is the panic of expect *)
Definition reparse (v : vdir_path) : option vdir_path := parse_vdir (show_vdir v).

(* ------------------------------------------------------------------ *)
(* Archive unpacking *)

(* std::path::Component on Unix *)
(* used by seg_component: vdir.rs 863-899 *)
Inductive component :=
| RootDir
| CurDir
| ParentDir
| Normal (name : string).

(* Path::components on Unix: split at '/', a leading '/' is RootDir, empty
   segments and '.' are dropped, except a leading '.' which is CurDir *)
(* used by components: vdir.rs 863-899 *)
Fixpoint split_slash (s : string) : list string :=
  match s with
  | EmptyString => [EmptyString]
  | String c s' =>
    if Ascii.eqb c "/"%char then EmptyString :: split_slash s'
    else match split_slash s' with
         | [] => [String c EmptyString]
         | h :: t => String c h :: t
         end
  end.

(* used by components: vdir.rs 863-899 *)
Definition seg_component (seg : string) : list component :=
  if String.eqb seg "" then []
  else if String.eqb seg "." then []
  else if String.eqb seg ".." then [ParentDir]
  else [Normal seg].

(* used by unpack_tar: vdir.rs 863-899 *)
Definition components (s : string) : list component :=
  match split_slash s with
  | [] => []
  | first :: rest =>
    (if starts_with "/" s then [RootDir]
     else if String.eqb first "." then [CurDir]
     else seg_component first)
    ++ flat_map seg_component rest
  end.

(* str::trim().is_empty(): only white space.  Simplified to ASCII white space. *)
(* used by blank: vdir.rs 976-1001 *)
Definition is_space (c : ascii) : bool :=
  let n := nat_of_ascii c in
  Nat.eqb n 32 || (Nat.leb 9 n && Nat.leb n 13).

(* used by path_to_unpack: vdir.rs 976-1001 *)
Fixpoint blank (s : string) : bool :=
  match s with
  | EmptyString => true
  | String c s' => is_space c && blank s'
  end.

(* Component::as_os_str *)
(* used by path_to_unpack: vdir.rs 976-1001 *)
Definition os_str (c : component) : string :=
  match c with
  | RootDir => "/" | CurDir => "." | ParentDir => ".." | Normal n => n
  end.

(* vdir.rs 976-1001: path_to_unpack.  The result is the list of components
   joined onto the target directory; None means the entry is skipped. *)
Definition path_to_unpack (entry : list component) (sub_folder : option string)
  : option (list component) :=
  let cs := tl entry in
  match sub_folder with
  | Some sub =>
    if negb (blank sub) then
      match cs with
      | c :: cs' => if negb (String.eqb (os_str c) sub) then None else Some cs'
      | [] => Some []
      end
    else Some cs
  | None => Some cs
  end.

(* vdir.rs 863-899: unpack_tar_gz writes each kept entry at its path; [entry.unpack]
   does not check where the path leads.  The result lists, per entry of the
   archive, the components under the target directory that are written. *)
Definition unpack_tar (entries : list string) (sub_folder : option string)
  : list (string * list component) :=
  flat_map (fun e => match path_to_unpack (components e) sub_folder with
                     | Some cs => [(e, cs)]
                     | None => []
                     end) entries.

(* ------------------------------------------------------------------ *)
(* HTTP authentication *)

(* http_auth.rs 21-34 *)
Inductive token_source :=
| Token (t : string)
| TokenEnv (name : string)
| TokenCommand (argv : list string).

(* http_auth.rs 36-45 *)
Record auth_rule := mk_rule {
  ar_prefix : string;
  ar_name : option string;
  ar_source : token_source }.

(* http_auth.rs 77-85: rules.sort_by_key(|b| Reverse(b.url_prefix.len())), stable *)
Definition auth_new (rules : list auth_rule) : list auth_rule :=
  stable_sort (fun a b => Nat.leb (String.length (ar_prefix b)) (String.length (ar_prefix a))) rules.

(* http_auth.rs 98-105: the first rule whose prefix matches *)
Definition auth_match (rules : list auth_rule) (url : string) : option auth_rule :=
  find (fun r => starts_with (ar_prefix r) url) rules.

(* the helper-command cache: argv -> (token, fetched_at) *)
(* used by run_command_cached: http_auth.rs 115-145 *)
Definition argv_eqb (a b : list string) : bool :=
  if list_eq_dec String.string_dec a b then true else false.

(* used by run_command_cached: http_auth.rs 115-145 *)
Definition cmd_cache := list (list string * (string * nat)).

(* Outside world at one instant: environment variables and what running a
   command would print (None when it fails or prints nothing). Times are
   milliseconds. *)
(* used by run_command_cached: http_auth.rs 115-145 *)
Record world := mk_world {
  w_now : nat;
  w_env : string -> option string;
  w_run : list string -> option string }.

(* http_auth.rs 49: COMMAND_CACHE_TTL *)
Definition cache_ttl : nat := 30 * 1000.

(* http_auth.rs 115-145: run_command_cached *)
Definition run_command_cached (w : world) (cache : cmd_cache) (argv : list string)
  : option string * cmd_cache :=
  match argv with
  | [] => (None, cache)
  | _ =>
    match lookup argv_eqb argv cache with
    | Some (tok, at_) =>
      if Nat.ltb (w_now w - at_) cache_ttl then (Some tok, cache)
      else match w_run w argv with
           | None => (None, cache)
           | Some tok' => (Some tok', insert argv_eqb argv (tok', w_now w) cache)
           end
    | None =>
      match w_run w argv with
      | None => (None, cache)
      | Some tok' => (Some tok', insert argv_eqb argv (tok', w_now w) cache)
      end
    end
  end.

(* http_auth.rs 107-113: materialize *)
Definition materialize (w : world) (cache : cmd_cache) (r : auth_rule)
  : option string * cmd_cache :=
  match ar_source r with
  | Token t => (Some t, cache)
  | TokenEnv name =>
    (match w_env w name with
     | Some t => if String.eqb t "" then None else Some t
     | None => None
     end, cache)
  | TokenCommand argv => run_command_cached w cache argv
  end.

(* http_auth.rs 98-105: resolve *)
Definition auth_resolve (w : world) (rules : list auth_rule) (cache : cmd_cache) (url : string)
  : option string * cmd_cache :=
  match auth_match rules url with
  | Some r => materialize w cache r
  | None => (None, cache)
  end.

(* ------------------------------------------------------------------ *)
(* Downloads *)

(* str::splitn(n, '/') *)
(* used by parse_github_release_url: vdir.rs 245-252 *)
Fixpoint splitn_slash (n : nat) (s : string) : list string :=
  match n with
  | 0 => []
  | 1 => [s]
  | S n' =>
    (fix go (acc : string) (r : string) : list string :=
       match r with
       | EmptyString => [acc]
       | String c r' =>
         if Ascii.eqb c "/"%char then acc :: splitn_slash n' r'
         else go (acc ++ String c EmptyString)%string r'
       end) EmptyString s
  end.

(* vdir.rs 245-252: parse_github_release_url *)
Definition parse_github_release_url (url : string)
  : option (string * string * string * string) :=
  match strip_prefix "https://github.com/" url with
  | Some rest =>
    match splitn_slash 6 rest with
    | [owner; repo; rel; dl; tag; file] =>
      if String.eqb rel "releases" && String.eqb dl "download"
      then Some (owner, repo, tag, file) else None
    | _ => None
    end
  | None => None
  end.

(* vdir.rs 255-282: find_asset_url on the list of (name, url) of the assets of the
   release; either may be missing *)
Definition find_asset_url (assets : list (option string * option string)) (filename : string)
  : option string :=
  match find (fun a => match fst a with Some n => String.eqb n filename | None => false end) assets with
  | Some (_, url) => url
  | None => None
  end.

(* One HTTP request: the address it goes to and the bearer token it carries. *)
(* used by download_requests: vdir.rs 136-240 *)
Record request := mk_request { rq_url : string; rq_token : option string }.

(* vdir.rs 136-240: download_to_file for one URL, without the release cache
   (every release is fetched).  [api] is what the GitHub API answers for a release:
   the assets, or None when the request fails.  Both requests carry the token
   resolved for the URL the user gave. *)
Definition download_requests (w : world) (rules : list auth_rule) (cache : cmd_cache)
  (api : string -> option (list (option string * option string))) (url : string)
  : list request * cmd_cache :=
  match parse_github_release_url url with
  | None =>
    let '(tok, cache') := auth_resolve w rules cache url in
    ([mk_request url tok], cache')
  | Some (owner, repo, tag, file) =>
    let api_url := ("https://api.github.com/repos/" ++ owner ++ "/" ++ repo
                    ++ "/releases/tags/" ++ tag)%string in
    let '(tok, cache1) := auth_resolve w rules cache url in
    match api api_url with
    | None => ([mk_request api_url tok], cache1)
    | Some assets =>
      match find_asset_url assets file with
      | None => ([mk_request api_url tok], cache1)
      | Some asset_url =>
        let '(tok2, cache2) := auth_resolve w rules cache1 url in
        ([mk_request api_url tok; mk_request asset_url tok2], cache2)
      end
    end
  end.
