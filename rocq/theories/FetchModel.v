(* What the helper command of a credential prints, what a session of downloads asks
   for when the answers of the GitHub API are kept, and where a downloaded file is
   put.  Models crates/weaver_common/src/http_auth.rs 147-171 and
   crates/weaver_common/src/vdir.rs 136-282 and 1070-1099. *)
From Coq Require Import String Ascii Bool Arith List.
Import ListNotations.
From Verif Require Import Base SemTypes Str CodeModel VdirModel UrlModel.
Local Open Scope string_scope.
Local Open Scope list_scope.

(* ------------------------------------------------------------------ *)
(* The helper command *)

(* used by run_token_command: http_auth.rs 147-171: std::process::Output.  Simplified:
   the output is text (String::from_utf8_lossy leaves it as it is). *)
Record run_output := mk_output { ro_success : bool; ro_stdout : string }.

(* http_auth.rs 147-171: run_token_command.  [start] is what happens when the program is
   started with its arguments: None when it cannot be started. *)
Definition run_token_command (start : string -> list string -> option run_output)
  (argv : list string) : option string :=
  match argv with
  | [] => None
  | program :: rest =>
    match start program rest with
    | None => None
    | Some o =>
      if negb (ro_success o) then None
      else
        match lines (ro_stdout o) with
        | [] => None
        | l :: _ =>
          let first_line := trim_ws l in
          if String.eqb first_line "" then None else Some first_line
        end
    end
  end.

(* ------------------------------------------------------------------ *)
(* Downloads *)

(* used by normalize_github_url: vdir.rs 255-282: the JSON of a release: None when
   "assets" is not an array; of each asset its "name" and "url" when they are texts *)
Definition release := option (list (option string * option string)).

(* used by normalize_github_url: vdir.rs 176-177: GITHUB_RELEASE_CACHE *)
Definition release_cache := list (string * release).

(* used by download: one call: the world at that moment, what the GitHub API answers
   (None when the request fails or the answer is not JSON) and the URL the user gave *)
Record step := mk_step {
  st_world : world;
  st_api : string -> option release;
  st_url : string }.

(* used by download: the caches of the process: http_auth.rs 60-70, vdir.rs 176-177 *)
Record state := mk_state { s_commands : cmd_cache; s_releases : release_cache }.

(* vdir.rs 205: let cache_key = format!("{owner}/{repo}/{tag}") *)
Definition cache_key (owner repo tag : string) : string := owner ++ "/" ++ repo ++ "/" ++ tag.

(* vdir.rs 215: the address asked for a release; api_base is the one of 186-188 *)
Definition api_url (owner repo tag : string) : string :=
  "https://api.github.com" ++ "/repos/" ++ owner ++ "/" ++ repo ++ "/releases/tags/" ++ tag.

(* vdir.rs 255-282: find_asset_url *)
Definition asset_of (r : release) (file : string) : option string :=
  match r with
  | None => None
  | Some assets => find_asset_url assets file
  end.

(* vdir.rs 186-242: normalize_github_url: the requests made, the address found (None on
   an error) and the caches afterwards *)
Definition normalize_github_url (rules : list auth_rule) (s : state) (st : step)
  : list request * option string * state :=
  match parse_github_release_url (st_url st) with
  | None => ([], Some (st_url st), s)
  | Some (owner, repo, tag, file) =>
    match lookup String.eqb (cache_key owner repo tag) (s_releases s) with
    | Some r => ([], asset_of r file, s)
    | None =>
      let '(tok, cmds) := auth_resolve (st_world st) rules (s_commands s) (st_url st) in
      let rq := mk_request (api_url owner repo tag) tok in
      match st_api st (api_url owner repo tag) with
      | None => ([rq], None, mk_state cmds (s_releases s))
      | Some r =>
        ([rq], asset_of r file,
         mk_state cmds (insert String.eqb (cache_key owner repo tag) r (s_releases s)))
      end
    end
  end.

(* vdir.rs 151-171: download_to_file: the requests made, the address whose body is
   written to the file (None on an error before) and the caches afterwards *)
Definition download (rules : list auth_rule) (s : state) (st : step)
  : list request * option string * state :=
  match normalize_github_url rules s st with
  | (rqs, None, s') => (rqs, None, s')
  | (rqs, Some url, s') =>
    let '(tok, cmds) := auth_resolve (st_world st) rules (s_commands s') (st_url st) in
    (rqs ++ [mk_request url tok], Some url, mk_state cmds (s_releases s'))
  end.

(* the downloads of one process, one after the other: 613-653 calls them in turn *)
Fixpoint session (rules : list auth_rule) (s : state) (steps : list step)
  : list (step * list request * option string) :=
  match steps with
  | [] => []
  | st :: r =>
    let '(rqs, got, s') := download rules s st in
    (st, rqs, got) :: session rules s' r
  end.

(* used by session: vdir.rs 176-177, http_auth.rs 66-70: the state of a new process *)
Definition new_process : state := mk_state [] [].

(* vdir.rs 1084-1092: the name of the file.  [url_parse] is Url::parse, see UrlModel;
   None is the error of a text that is no URL *)
Definition file_name (url_parse : string -> option parsed_url) (url : string) : option string :=
  match url_parse url with
  | None => None
  | Some p =>
    Some (match path_segments p with
          | None => "downloaded_file"
          | Some segs =>
            match rev segs with
            | [] => "downloaded_file"
            | name :: _ => if String.eqb name "" then "downloaded_file" else name
            end
          end)
  end.

(* vdir.rs 1070-1099: try_from_remote_file: the requests made, the path relative to the
   temporary directory and the address its content comes from *)
Definition remote_file (url_parse : string -> option parsed_url) (rules : list auth_rule)
  (s : state) (st : step) : list request * option (string * string) * state :=
  match file_name url_parse (st_url st) with
  | None => ([], None, s)
  | Some name =>
    match download rules s st with
    | (rqs, None, s') => (rqs, None, s')
    | (rqs, Some from, s') => (rqs, Some (name, from), s')
    end
  end.
