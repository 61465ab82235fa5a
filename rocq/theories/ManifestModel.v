(* Registry manifests and the package command.
   Models crates/weaver_semconv/src/manifest.rs, resolved_registry_uri and
   find_manifest_path of crates/weaver_semconv/src/registry_repo.rs and
   src/registry/package.rs.
   YAML text is a parameter: a manifest enters as the value the YAML library reads
   (a scalar where a text is expected is taken to be a text), and leaves as the
   value it is given to write. *)
From Coq Require Import String Ascii Bool Arith List.
Import ListNotations.
From Verif Require Import Base SemTypes Json Str UrlModel ResultModel.
From Verif Require VdirModel LoadModel.
Local Open Scope string_scope.

Notation vdir_path := VdirModel.vdir_path.

(* manifest.rs: struct Dependency *)
(* crates/weaver_semconv/src/manifest.rs 94-111 *)
Record dependency := mk_dependency {
  dep_url : schema_url;
  dep_path : option vdir_path }.

(* manifest.rs: struct DefinitionRegistryManifest; the deserialisation warnings
   travel beside it *)
(* used by manifest: crates/weaver_semconv/src/registry_repo.rs 173-175 *)
Record definition := mk_definition {
  df_url : schema_url;
  df_description : option string;
  df_dependencies : list dependency;
  df_stability : stability }.

(* manifest.rs: struct PublicationRegistryManifest; its file_format field always
   holds the constant below *)
(* used by manifest: crates/weaver_semconv/src/registry_repo.rs 173-175 *)
Record publication := mk_publication {
  pb_url : schema_url;
  pb_description : option string;
  pb_dependencies : list dependency;
  pb_stability : stability;
  pb_uri : string }.

(* manifest.rs: enum RegistryManifest *)
(* crates/weaver_semconv/src/registry_repo.rs 173-175 *)
Inductive manifest :=
| MDefinition (d : definition)
| MPublication (p : publication).

(* manifest.rs: const PUBLICATION_MANIFEST_FILE_FORMAT *)
(* used by into_manifest: crates/weaver_semconv/src/manifest.rs 192-290 *)
Definition publication_format : string := "manifest/2.0".
(* manifest.rs: const UNKNOWN_VERSION *)
(* used by parse_dependency: crates/weaver_semconv/src/manifest.rs 139-166 *)
Definition unknown_version : string := "unknown".

(* the texts of the deprecation warnings, manifest.rs into_manifest *)
(* used by mwarning: crates/weaver_semconv/src/manifest.rs 311-362 *)
Inductive deprecation := DepSchemaUri | DepBaseUrl.

(* what a manifest file makes weaver warn about, manifest.rs try_from_file *)
(* used by try_from_file: crates/weaver_semconv/src/manifest.rs 311-362 *)
Inductive mwarning :=
| WLegacyName
| WDeprecatedSyntax (d : deprecation).

(* the String errors of parse_dependency; the texts of the YAML library are not kept *)
(* used by merror: crates/weaver_semconv/src/manifest.rs 192-290 *)
Inductive dep_error :=
| DepNoUrl (name : option string)
| DepInvalid
| DepBadName.

(* Error::RegistryManifestNotFound, InvalidRegistryManifest and
   InvalidPublicationManifest, by their cause *)
(* used by into_manifest: crates/weaver_semconv/src/manifest.rs 192-290 *)
Inductive merror :=
| MNotFound
| MUnreadable
| MPubNoUrl
| MPubDependency (e : dep_error)
| MPubNoUri
| MUnknownFormat (f : string)
| MNoIdentity
| MBadIdentity
| MDependency (e : dep_error).

(* manifest.rs: struct RawManifestFields *)
(* used by read_raw: crates/weaver_semconv/src/manifest.rs 311-362 *)
Record raw := mk_raw {
  rw_format : option string;
  rw_url : option schema_url;
  rw_description : option string;
  rw_version : option string;
  rw_base : option string;
  rw_dependencies : list json;
  rw_stability : stability;
  rw_uri : option string;
  rw_old_uri : option string }.

(* Iterator::collect::<Result<Vec<_>, _>>: the first error wins *)
(* used by into_manifest: crates/weaver_semconv/src/manifest.rs 192-290 *)
Fixpoint collect_all {A B E} (f : A -> result B E) (l : list A) : result (list B) E :=
  match l with
  | [] => ROk []
  | a :: r =>
    match f a with
    | RErr e => RErr e
    | ROk b => match collect_all f r with
               | RErr e => RErr e
               | ROk bs => ROk (b :: bs)
               end
    end
  end.

(* serde: an Option<String> field; the outer None is a type error *)
(* used by read_raw: crates/weaver_semconv/src/manifest.rs 311-362 *)
Definition opt_text (m : list (string * json)) (k : string) : option (option string) :=
  match slookup k m with
  | None | Some JNull => Some None
  | Some (JStr s) => Some (Some s)
  | Some _ => None
  end.

(* serde_yaml::Value::get with a text key: only mappings have keys *)
(* used by parse_dependency: crates/weaver_semconv/src/manifest.rs 139-166 *)
Definition value_get (v : json) (k : string) : option json :=
  match v with
  | JObj m => slookup k m
  | _ => None
  end.

(* stability.rs 10-30: the names serde reads *)
Definition read_stability (s : string) : option stability :=
  if String.eqb s "deprecated" then Some SDeprecated
  else if String.eqb s "stable" then Some SStable
  else if String.eqb s "development" then Some SDevelopment
  else if String.eqb s "experimental" then Some SDevelopment
  else if String.eqb s "alpha" then Some SAlpha
  else if String.eqb s "beta" then Some SBeta
  else if String.eqb s "release_candidate" then Some SRc
  else None.

(* stability.rs 10-30: the names serde writes *)
Definition show_stability (s : stability) : string :=
  match s with
  | SDeprecated => "deprecated"
  | SStable => "stable"
  | SDevelopment => "development"
  | SAlpha => "alpha"
  | SBeta => "beta"
  | SRc => "release_candidate"
  end.

Section Manifest.
  Variable url_parse : string -> option parsed_url.

  (* schema_url.rs 159-168: Deserialize for SchemaUrl *)
  Definition read_url (s : string) : option schema_url :=
    match schema_url_new url_parse s with Ok u => Some u | Err _ => None end.

  (* derive(Deserialize) for RawManifestFields: unknown fields are ignored, missing
     ones are None or their default.  Simplified: a mapping has each key once; a
     null list or stability is an error. *)
  (* used by try_from_file: crates/weaver_semconv/src/manifest.rs 311-362 *)
  Definition read_raw (v : json) : option raw :=
    match v with
    | JObj m =>
      match opt_text m "file_format", opt_text m "schema_url", opt_text m "description",
            opt_text m "semconv_version", opt_text m "schema_base_url",
            opt_text m "resolved_registry_uri", opt_text m "resolved_schema_uri" with
      | Some fmt, Some url, Some desc, Some ver, Some base, Some uri, Some old =>
        match (match url with
               | None => Some None
               | Some s => option_map Some (read_url s)
               end),
              (match slookup "dependencies" m with
               | None => Some []
               | Some (JArr l) => Some l
               | Some _ => None
               end),
              (match slookup "stability" m with
               | None => Some SDevelopment
               | Some (JStr s) => read_stability s
               | Some _ => None
               end) with
        | Some u, Some deps, Some st => Some (mk_raw fmt u desc ver base deps st uri old)
        | _, _, _ => None
        end
      | _, _, _, _, _, _, _ => None
      end
    | _ => None
    end.

  (* manifest.rs: from_value::<Dependency> on a mapping that has schema_url *)
  (* used by parse_dependency: crates/weaver_semconv/src/manifest.rs 139-166 *)
  Definition dependency_of_value (m : list (string * json)) : option dependency :=
    match slookup "schema_url" m with
    | Some (JStr s) =>
      match read_url s with
      | None => None
      | Some u =>
        match slookup "registry_path" m with
        | None | Some JNull => Some (mk_dependency u None)
        | Some (JStr p) =>
          match VdirModel.parse_vdir p with
          | Some path => Some (mk_dependency u (Some path))
          | None => None
          end
        | Some _ => None
        end
      end
    | _ => None
    end.

  (* manifest.rs: from_value::<NamedDependency>, deny_unknown_fields *)
  (* used by parse_dependency: crates/weaver_semconv/src/manifest.rs 139-166 *)
  Definition named_of_value (m : list (string * json)) : option (string * vdir_path) :=
    if forallb (fun kv => String.eqb (fst kv) "name" || String.eqb (fst kv) "registry_path") m
    then match slookup "name" m, slookup "registry_path" m with
         | Some (JStr n), Some (JStr p) =>
           option_map (fun path => (n, path)) (VdirModel.parse_vdir p)
         | _, _ => None
         end
    else None.

  (* manifest.rs: parse_dependency *)
  (* crates/weaver_semconv/src/manifest.rs 139-166 *)
  Definition parse_dependency (strict : bool) (v : json) : result dependency dep_error :=
    match value_get v "schema_url" with
    | Some _ =>
      match (match v with JObj m => dependency_of_value m | _ => None end) with
      | Some d => ROk d
      | None => RErr DepInvalid
      end
    | None =>
      let name := match value_get v "name" with Some (JStr n) => Some n | _ => None end in
      if strict || negb (is_some name) then RErr (DepNoUrl name)
      else match (match v with JObj m => named_of_value m | _ => None end) with
           | None => RErr DepInvalid
           | Some (n, p) =>
             match try_from_name_version url_parse n unknown_version with
             | Ok u => ROk (mk_dependency u (Some p))
             | Err _ => RErr DepBadName
             end
           end
    end.

  (* manifest.rs: RawManifestFields::into_manifest *)
  (* crates/weaver_semconv/src/manifest.rs 192-290 *)
  Definition into_manifest (r : raw) : result (manifest * list deprecation) merror :=
    if match rw_format r with Some f => String.eqb f publication_format | None => false end then
      match rw_url r with
      | None => RErr MPubNoUrl
      | Some u =>
        match collect_all (parse_dependency true) (rw_dependencies r) with
        | RErr e => RErr (MPubDependency e)
        | ROk deps =>
          match rw_uri r, rw_old_uri r with
          | Some v, _ =>
            ROk (MPublication (mk_publication u (rw_description r) deps (rw_stability r) v), [])
          | None, Some v =>
            ROk (MPublication (mk_publication u (rw_description r) deps (rw_stability r) v),
                 [DepSchemaUri])
          | None, None => RErr MPubNoUri
          end
        end
      end
    else
      match rw_format r with
      | Some f => RErr (MUnknownFormat f)
      | None =>
        let is_v1 := negb (is_some (rw_url r)) in
        match (match rw_url r with
               | Some u => ROk (u, [])
               | None =>
                 match rw_base r with
                 | None => RErr MNoIdentity
                 | Some base =>
                   match rw_version r with
                   | None => RErr MNoIdentity
                   | Some version =>
                     match try_from_name_version url_parse base version with
                     | Ok u => ROk (u, [DepBaseUrl])
                     | Err _ => RErr MBadIdentity
                     end
                   end
                 end
               end) with
        | RErr e => RErr e
        | ROk (u, ws) =>
          match collect_all (parse_dependency (negb is_v1)) (rw_dependencies r) with
          | RErr e => RErr (MDependency e)
          | ROk deps =>
            ROk (MDefinition (mk_definition u (rw_description r) deps (rw_stability r)), ws)
          end
        end
      end.

  (* manifest.rs: RegistryManifest::try_from_file.  [content] is what is at the
     path: None when nothing exists there, otherwise the YAML value, if the file
     can be opened and is YAML; [name] is the file name. *)
  (* crates/weaver_semconv/src/manifest.rs 311-362 *)
  Definition try_from_file (name : string) (content : option (option json))
    : result (manifest * list mwarning) merror :=
    match content with
    | None => RErr MNotFound
    | Some v =>
      match (match v with Some j => read_raw j | None => None end) with
      | None => RErr MUnreadable
      | Some r =>
        match into_manifest r with
        | RErr e => RErr e
        | ROk (m, ws) =>
          ROk (m, app (if String.eqb name "registry_manifest.yaml" then [WLegacyName] else [])
                      (map WDeprecatedSyntax ws))
        end
      end
    end.

  (* manifest.rs: Dependency::is_versioned; a slice out of range (a panic) cannot
     happen for accepted URLs and counts as versioned here *)
  (* crates/weaver_semconv/src/manifest.rs 123-125 *)
  Definition is_versioned (d : dependency) : bool :=
    match su_get_version (dep_url d) with
    | Some v => negb (String.eqb v unknown_version)
    | None => true
    end.

  (* manifest.rs: PublicationRegistryManifest::try_from_registry_manifest; the error
     is Error::UnversionedDependencyInPublication *)
  (* used by package: package.rs 68-155 *)
  Definition publish (d : definition) (uri : string) : result publication dependency :=
    match collect_all
            (fun dp => if negb (is_versioned dp) then RErr dp
                       else ROk (mk_dependency (dep_url dp) None)) (df_dependencies d) with
    | RErr e => RErr e
    | ROk deps =>
      ROk (mk_publication (df_url d) (df_description d) deps (df_stability d) uri)
    end.

  (* derive(Serialize) for Dependency *)
  (* used by publication_value: package.rs 68-155 *)
  Definition dependency_value (d : dependency) : json :=
    JObj (app [("schema_url", JStr (su_url (dep_url d)))]
              (match dep_path d with
               | Some p => [("registry_path", JStr (VdirModel.show_vdir p))]
               | None => []
               end)).

  (* derive(Serialize) for PublicationRegistryManifest, in field order *)
  (* used by package: package.rs 68-155 *)
  Definition publication_value (p : publication) : json :=
    JObj (app [("file_format", JStr publication_format); ("schema_url", JStr (su_url (pb_url p)))]
         (app (match pb_description p with Some s => [("description", JStr s)] | None => [] end)
         (app (match pb_dependencies p with
               | [] => []
               | ds => [("dependencies", JArr (map dependency_value ds))]
               end)
              [("stability", JStr (show_stability (pb_stability p)));
               ("resolved_registry_uri", JStr (pb_uri p))]))).
End Manifest.

(* ------------------------------------------------------------------ *)
(* Where the resolved registry of a publication is looked for *)

(* Path::parent on Unix.  Simplified: "." segments are not dropped. *)
(* used by resolved_uri: registry_repo.rs 170-205 *)
Definition path_parent (s : string) : option string :=
  let t := trim_end is_slash s in
  if String.eqb t "" then None
  else match rfind_char "/"%char t with
       | None => Some ""
       | Some i =>
         let d := trim_end is_slash (str_take i t) in
         Some (if String.eqb d "" then "/" else d)
       end.

(* weaver_common lib.rs: enum PathType *)
(* used by resolved_uri: registry_repo.rs 170-205 *)
Inductive path_type := PUrl | PRelative | PAbsolute | PWeaver.

(* registry_repo.rs 170-205: resolved_registry_uri.  [kind] is get_path_type (it
   depends on the URL parser), [was_file] says that the registry path is the
   manifest file itself, [vdir] is the path the registry was opened with.  The outer
   None is the panic of vdir_path(). *)
Definition resolved_uri (kind : string -> path_type) (was_file : bool) (vdir : vdir_path)
    (m : option manifest) : option (option vdir_path) :=
  match m with
  | None | Some (MDefinition _) => Some None
  | Some (MPublication p) =>
    match kind (pb_uri p) with
    | PRelative =>
      match VdirModel.reparse vdir with
      | None => None
      | Some v =>
        Some (Some (VdirModel.map_sub_folder v (fun path =>
          if was_file then
            match path_parent path with
            | Some parent => parent ++ "/" ++ pb_uri p
            | None => ""
            end
          else path ++ "/" ++ pb_uri p)))
      end
    | _ => Some (VdirModel.parse_vdir (pb_uri p))
    end
  end.

(* registry_repo.rs 24-50: find_manifest_path; [is_file] and [exists_] look at the
   disk *)
Definition find_manifest (is_file exists_ : string -> bool) (join : string -> string -> string)
    (path : string) : option string :=
  if is_file path then Some path
  else if exists_ (join path "manifest.yaml") then Some (join path "manifest.yaml")
  else if exists_ (join path "registry_manifest.yaml") then Some (join path "registry_manifest.yaml")
  else None.

(* Path::join for the sub-folder of a git clone, vdir.rs 751: an absolute path
   replaces the directory *)
Definition clone_path (clone sub : string) : string :=
  if starts_with "/" sub then sub
  else if match trim_end is_slash clone with t => String.eqb t clone end then clone ++ "/" ++ sub
  else clone ++ sub.

(* ------------------------------------------------------------------ *)
(* The package command *)

(* what the command does to the disk *)
(* used by write_chunks: package.rs 55-65 *)
Inductive fs_op :=
| Mkdir (dir : string)
| CreateFile (file : string)
| AppendTo (file bytes : string).

(* the contents of the files *)
(* the effect of the std::fs calls of src/registry/package.rs 50-160 *)
Definition disk := string -> option string.

(* the effect of the std::fs calls of src/registry/package.rs 50-160 *)
Definition apply_op (d : disk) (o : fs_op) : disk :=
  match o with
  | Mkdir _ => d
  | CreateFile f => fun g => if String.eqb g f then Some "" else d g
  | AppendTo f b => fun g => if String.eqb g f then option_map (fun c => c ++ b) (d f) else d g
  end.

(* the effect of the std::fs calls of src/registry/package.rs 50-160 *)
Definition run_ops (ops : list fs_op) (d : disk) : disk := fold_left apply_op ops d.

Section Package.
  Variables (R E : Type).
  (* does the next operation succeed, given those done so far?  A failed one leaves
     the disk as it was (simplified). *)
  Variable io : list fs_op -> fs_op -> bool.
  (* how a text goes through the BufWriter: what is written while it is serialised,
     and what is left in the buffer when the writer is dropped *)
  Variable buffered : string -> list string * string.
  (* serde_yaml::to_writer *)
  Variable yaml_text : json -> string.

  (* used by package: package.rs 68-155 *)
  Inductive pkg_error :=
  | PNoUri
  | PNotV2
  | PRepo (e : E)
  | PNoManifest
  | PIsPublication (u : schema_url)
  | PResolve (e : E)
  | PConvert (e : E)
  | PPolicy (e : E)
  | PFindings (ds : list (diag E))
  | PDir
  | PUnversioned (d : dependency)
  | PWrite (file : string).

  (* what the command is run on: its options, what RegistryRepo::try_new gives
     (the manifest and the warnings), what load_and_resolve_repo gives, how the
     result becomes a V2 schema (identity, or try_into) and its YAML value, and the
     findings of the policies *)
  (* used by in_output: package.rs 68-155 *)
  Record job := mk_job {
    jb_uri : option string;
    jb_v2 : bool;
    jb_output : string;
    jb_repo : result (option manifest * list (diag E)) E;
    jb_resolved : result (R * list (diag E)) E;
    jb_as_v2 : R -> result json E;
    jb_policies : json -> result (list (diag E)) E }.

  (* the writes of the BufWriter that are checked *)
  (* used by write_yaml: package.rs 55-65 *)
  Fixpoint write_chunks (f : string) (cs : list string) (done : list fs_op) : bool * list fs_op :=
    match cs with
    | [] => (true, done)
    | c :: r =>
      if io done (AppendTo f c) then write_chunks f r (app done [AppendTo f c]) else (false, done)
    end.

  (* package.rs 55-65: write_yaml.  The BufWriter is owned by to_writer, which drops
     it without flushing it, and drop ignores errors.  (Taken from the documentation
     of std; that the YAML library does not flush is assumed.) *)
  Definition write_yaml (f text : string) (done : list fs_op) : bool * list fs_op :=
    if io done (CreateFile f) then
      let '(ok, done') := write_chunks f (fst (buffered text)) (app done [CreateFile f]) in
      if ok then
        let last := AppendTo f (snd (buffered text)) in
        (true, if io done' last then app done' [last] else done')
      else (false, done')
    else (false, done).

  (* Path::join *)
  (* used by package: package.rs 68-155 *)
  Definition in_output (j : job) (name : string) : string := LoadModel.join_path (jb_output j) name.

  (* package.rs 68-155: command; the result carries the warnings of the exit
     directives, the list is what has been done to the disk *)
  Definition package (j : job) : result (list (diag E)) pkg_error * list fs_op :=
    match jb_uri j with
    | None => (RErr PNoUri, [])
    | Some uri =>
    if negb (jb_v2 j) then (RErr PNotV2, []) else
    match jb_repo j with
    | RErr e => (RErr (PRepo e), [])
    | ROk (None, _) => (RErr PNoManifest, [])
    | ROk (Some (MPublication p), _) => (RErr (PIsPublication (pb_url p)), [])
    | ROk (Some (MDefinition d), ds1) =>
    match jb_resolved j with
    | RErr e => (RErr (PResolve e), [])
    | ROk (r, ds2) =>
    match jb_as_v2 j r with
    | RErr e => (RErr (PConvert e), [])
    | ROk schema =>
    match jb_policies j schema with
    | RErr e => (RErr (PPolicy e), [])
    | ROk ds3 =>
    let ds := app ds1 (app ds2 ds3) in
    if has_error ds then (RErr (PFindings ds), []) else
    if negb (io [] (Mkdir (jb_output j))) then (RErr PDir, []) else
    let done := [Mkdir (jb_output j)] in
    match publish d uri with
    | RErr dep => (RErr (PUnversioned dep), done)
    | ROk pub =>
      let '(ok1, done1) := write_yaml (in_output j "resolved.yaml") (yaml_text schema) done in
      if negb ok1 then (RErr (PWrite (in_output j "resolved.yaml")), done1) else
      let '(ok2, done2) := write_yaml (in_output j "manifest.yaml") (yaml_text (publication_value pub)) done1 in
      if negb ok2 then (RErr (PWrite (in_output j "manifest.yaml")), done2)
      else (ROk ds, done2)
    end end end end end end.
End Package.
Arguments mk_job {R E}.
Arguments jb_uri {R E}. Arguments jb_v2 {R E}. Arguments jb_output {R E}.
Arguments jb_repo {R E}. Arguments jb_resolved {R E}. Arguments jb_as_v2 {R E}.
Arguments jb_policies {R E}.
Arguments PNoUri {E}. Arguments PNotV2 {E}. Arguments PRepo {E} e. Arguments PNoManifest {E}.
Arguments PIsPublication {E} u. Arguments PResolve {E} e. Arguments PConvert {E} e.
Arguments PPolicy {E} e. Arguments PFindings {E} ds. Arguments PDir {E}.
Arguments PUnversioned {E} d. Arguments PWrite {E} file.
Arguments package {R E}. Arguments in_output {R E}.
