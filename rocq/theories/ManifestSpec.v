(* Vocabulary for the properties of manifests and packages. *)
From Coq Require Import String Ascii Bool Arith List.
Import ListNotations.
From Verif Require Import Base SemTypes Json Str UrlModel ResultModel ManifestModel.
From Verif Require VdirModel LoadModel UrlSpec.
Local Open Scope string_scope.

Section Says.
  Variable url_parse : string -> option parsed_url.

  (* the text is that of the schema URL *)
  Definition url_text (s : string) (u : schema_url) : Prop := schema_url_new url_parse s = Ok u.

  (* name and version together make the schema URL *)
  Definition url_of (name version : string) (u : schema_url) : Prop :=
    try_from_name_version url_parse name version = Ok u.

  (* the key is not in the mapping, or holds nothing *)
  Definition no_text (m : list (string * json)) (k : string) : Prop :=
    slookup k m = None \/ slookup k m = Some JNull.

  (* what one entry of the list of dependencies declares *)
  Inductive declares : json -> dependency -> Prop :=
  | by_url m s u :
      slookup "schema_url" m = Some (JStr s) -> url_text s u -> no_text m "registry_path" ->
      declares (JObj m) (mk_dependency u None)
  | by_url_at m s u p v :
      slookup "schema_url" m = Some (JStr s) -> url_text s u ->
      slookup "registry_path" m = Some (JStr p) -> VdirModel.parse_vdir p = Some v ->
      declares (JObj m) (mk_dependency u (Some v)).

  (* the same, for an entry that gives a name only *)
  Inductive declares_name : json -> dependency -> Prop :=
  | by_name m n p v u :
      slookup "schema_url" m = None ->
      slookup "name" m = Some (JStr n) ->
      slookup "registry_path" m = Some (JStr p) -> VdirModel.parse_vdir p = Some v ->
      (forall k x, In (k, x) m -> k = "name" \/ k = "registry_path") ->
      url_of n "unknown" u ->
      declares_name (JObj m) (mk_dependency u (Some v)).

  (* an entry without schema_url *)
  Definition gives_no_url (v : json) : Prop :=
    forall m, v = JObj m -> slookup "schema_url" m = None.

  (* the identity a definition manifest declares, and the warnings it costs *)
  Inductive identity (r : raw) : schema_url -> list deprecation -> Prop :=
  | id_url u : rw_url r = Some u -> identity r u []
  | id_base b v u : rw_url r = None -> rw_base r = Some b -> rw_version r = Some v ->
      url_of b v u -> identity r u [DepBaseUrl].

  (* where a publication says its resolved registry is *)
  Inductive location (r : raw) : string -> list deprecation -> Prop :=
  | loc_new v : rw_uri r = Some v -> location r v []
  | loc_old v : rw_uri r = None -> rw_old_uri r = Some v -> location r v [DepSchemaUri].

  (* what a manifest says, and the deprecated syntax it uses *)
  Inductive says (r : raw) : manifest -> list deprecation -> Prop :=
  | says_publication u deps uri ws :
      rw_format r = Some "manifest/2.0" -> rw_url r = Some u ->
      Forall2 declares (rw_dependencies r) deps -> location r uri ws ->
      says r (MPublication (mk_publication u (rw_description r) deps (rw_stability r) uri)) ws
  | says_definition u deps ws :
      rw_format r = None -> identity r u ws ->
      Forall2 (fun v d => declares v d \/ (rw_url r = None /\ declares_name v d))
              (rw_dependencies r) deps ->
      says r (MDefinition (mk_definition u (rw_description r) deps (rw_stability r))) ws.

  (* why an entry cannot be used *)
  Inductive bad_entry (named_ok : bool) (v : json) : dep_error -> Prop :=
  | bad_no_name :
      gives_no_url v -> (forall m n, v = JObj m -> slookup "name" m <> Some (JStr n)) ->
      bad_entry named_ok v (DepNoUrl None)
  | bad_name_only m n :
      v = JObj m -> slookup "schema_url" m = None -> slookup "name" m = Some (JStr n) ->
      named_ok = false -> bad_entry named_ok v (DepNoUrl (Some n))
  | bad_url m x :
      v = JObj m -> slookup "schema_url" m = Some x -> (forall d, ~ declares v d) ->
      bad_entry named_ok v DepInvalid
  | bad_fields m n :
      v = JObj m -> slookup "schema_url" m = None -> slookup "name" m = Some (JStr n) ->
      named_ok = true ->
      ~ (exists p w, slookup "registry_path" m = Some (JStr p) /\ VdirModel.parse_vdir p = Some w /\
                     (forall k y, In (k, y) m -> k = "name" \/ k = "registry_path")) ->
      bad_entry named_ok v DepInvalid
  | bad_name m n :
      v = JObj m -> slookup "schema_url" m = None -> slookup "name" m = Some (JStr n) ->
      named_ok = true -> (forall u, ~ url_of n "unknown" u) ->
      (exists p w, slookup "registry_path" m = Some (JStr p) /\ VdirModel.parse_vdir p = Some w /\
                   (forall k y, In (k, y) m -> k = "name" \/ k = "registry_path")) ->
      bad_entry named_ok v DepBadName.

  (* why a manifest is refused; of the entries it is the first bad one that counts *)
  Definition first_bad (named_ok : bool) (vs : list json) (e : dep_error) : Prop :=
    exists good v rest, vs = app good (v :: rest) /\
      (forall w, In w good -> exists d, declares w d \/ (named_ok = true /\ declares_name w d)) /\
      bad_entry named_ok v e.

  Inductive refused (r : raw) : merror -> Prop :=
  | ref_pub_url : rw_format r = Some "manifest/2.0" -> rw_url r = None -> refused r MPubNoUrl
  | ref_pub_dep u e : rw_format r = Some "manifest/2.0" -> rw_url r = Some u ->
      first_bad false (rw_dependencies r) e -> refused r (MPubDependency e)
  | ref_pub_uri u : rw_format r = Some "manifest/2.0" -> rw_url r = Some u ->
      (forall v, In v (rw_dependencies r) -> exists d, declares v d) ->
      rw_uri r = None -> rw_old_uri r = None -> refused r MPubNoUri
  | ref_format f : rw_format r = Some f -> f <> "manifest/2.0" -> refused r (MUnknownFormat f)
  | ref_identity : rw_format r = None -> rw_url r = None ->
      rw_base r = None \/ rw_version r = None -> refused r MNoIdentity
  | ref_bad_identity b v : rw_format r = None -> rw_url r = None ->
      rw_base r = Some b -> rw_version r = Some v -> (forall u, ~ url_of b v u) ->
      refused r MBadIdentity
  | ref_dep u ws e : rw_format r = None -> identity r u ws ->
      first_bad (negb (is_some (rw_url r))) (rw_dependencies r) e -> refused r (MDependency e).

  (* the version part of the URL is "unknown" *)
  Definition unversioned (d : dependency) : Prop :=
    su_get_version (dep_url d) = Some "unknown".

  (* the URL was accepted by weaver *)
  Definition accepted (u : schema_url) : Prop := exists s, url_text s u.
End Says.

(* ------------------------------------------------------------------ *)
(* Packaging *)

Section Packaging.
  Variables (R E : Type).

  (* a finding that fails the command *)
  Definition failing (d : diag E) : Prop :=
    dm_severity d <> Some SevWarning /\ dm_severity d <> Some SevAdvice.

  (* the parts of a job that packages: the definition manifest, the URI, the schema
     and everything reported on the way *)
  Definition packages (j : job R E) (d : definition) (uri : string) (schema : json)
      (ds : list (diag E)) : Prop :=
    jb_uri j = Some uri /\ jb_v2 j = true /\
    exists ds1 r ds2 ds3,
      jb_repo j = ROk (Some (MDefinition d), ds1) /\
      jb_resolved j = ROk (r, ds2) /\ jb_as_v2 j r = ROk schema /\
      jb_policies j schema = ROk ds3 /\ ds = app ds1 (app ds2 ds3) /\
      (forall x, In x ds -> ~ failing x) /\
      (forall x, In x (df_dependencies d) -> ~ unversioned x).

  (* the disk never refuses *)
  Definition reliable (io : list fs_op -> fs_op -> bool) : Prop := forall h o, io h o = true.

  (* the BufWriter loses nothing *)
  Definition lossless (buffered : string -> list string * string) : Prop :=
    forall s, String.concat "" (fst (buffered s)) ++ snd (buffered s) = s.

  (* what a file holds after a write that was not refused: all of the text, or, since the
     last flush is not looked at, all of it but what was still in the buffer *)
  Definition holds (buffered : string -> list string * string) (c : option string) (t : string) : Prop :=
    exists rest, t = String.concat "" (fst (buffered t)) ++ rest /\
      (c = Some t \/ c = Some (String.concat "" (fst (buffered t)))).

  (* the publication manifest a definition manifest becomes *)
  Definition published (d : definition) (uri : string) : publication :=
    mk_publication (df_url d) (df_description d)
      (map (fun x => mk_dependency (dep_url x) None) (df_dependencies d))
      (df_stability d) uri.
End Packaging.
Arguments failing {E}. Arguments packages {R E}.

(* sample: a registry with a versioned dependency and one given by name *)
Definition sample_url (s : string) : schema_url :=
  match schema_url_new UrlSpec.simple_parser s with
  | Ok u => u
  | Err _ => mk_schema_url "" (0, 0) (0, 0)
  end.
Definition acme : schema_url := sample_url "https://acme.com/schemas/1.0.0".
Definition otel : schema_url := sample_url "https://opentelemetry.io/schemas/1.37.0".
Definition sample_v1 : raw :=
  mk_raw None None (Some "Acme") (Some "1.0.0") (Some "https://acme.com/schemas/")
    [JObj [("name", JStr "opentelemetry.io/schemas"); ("registry_path", JStr "../otel")];
     JObj [("schema_url", JStr "https://opentelemetry.io/schemas/1.37.0/")]]
    SStable None None.
Definition sample_definition : definition :=
  mk_definition acme (Some "Acme")
    [mk_dependency otel (Some (VdirModel.LocalFolder "../otel"))] SStable.
Definition sample_unversioned : definition :=
  mk_definition acme None
    [mk_dependency (sample_url "https://opentelemetry.io/schemas/unknown") None] SStable.
Definition sample_job (d : definition) : job unit string :=
  mk_job (Some "resolved.yaml") true "out" (ROk (Some (MDefinition d), []))
    (ROk (tt, [])) (fun _ => ROk (JStr "schema")) (fun _ => ROk []).
(* one write of two bytes while serialising, the rest when the writer is dropped *)
Definition sample_buffer (s : string) : list string * string := ([str_take 2 s], str_drop 2 s).
(* a text for every value that occurs below *)
Definition sample_text (v : json) : string :=
  match v with
  | JStr s => s
  | JObj (_ :: (_, JStr u) :: _) => "manifest " ++ u
  | _ => "other"
  end.
(* the URI of a package is a path relative to its manifest *)
Definition sample_kind (s : string) : path_type :=
  if starts_with "http" s then PUrl else if starts_with "/" s then PAbsolute else PRelative.

(* the text at a key of a manifest, if there is one *)
Definition holds_text (m : list (string * json)) (k : string) (o : option string) : Prop :=
  (o = None /\ no_text m k) \/ (exists s, o = Some s /\ slookup k m = Some (JStr s)).

(* the names of the stability levels *)
Inductive stability_name : string -> stability -> Prop :=
| nm_deprecated : stability_name "deprecated" SDeprecated
| nm_stable : stability_name "stable" SStable
| nm_development : stability_name "development" SDevelopment
| nm_experimental : stability_name "experimental" SDevelopment
| nm_alpha : stability_name "alpha" SAlpha
| nm_beta : stability_name "beta" SBeta
| nm_rc : stability_name "release_candidate" SRc.
