(* Policies: the findings a rego policy states, the policy engine, the stages a registry is
   checked at, and the commands `registry check` and `registry generate` as far as they
   report findings.  Models crates/weaver_checker/src/finding.rs,
   crates/weaver_checker/src/lib.rs, src/weaver.rs, src/registry/check.rs,
   src/registry/generate.rs and crates/weaver_live_check/src/advice/rego_advisor.rs.
   The rego interpreter (crate regorus) is a parameter: see [rego].  Texts of errors are left
   out, the file or path an error names is kept. *)
From Coq Require Import String Ascii Bool Arith Lia List.
Import ListNotations.
From Verif Require Import Base Json ResultModel.
From Verif Require Str LoadModel VdirModel LiveModel.
Local Open Scope string_scope.

(* ---------- findings: crates/weaver_checker/src/finding.rs ---------- *)
Notation finding := LiveModel.finding.
Notation level := LiveModel.level.
(* used by new_semconv_attribute: finding.rs 45-66 *)
Definition mk_finding (id : string) (c : option json) (m : string) (l : level)
    (st sn : option string) : finding :=
  {| LiveModel.f_id := id; LiveModel.f_context := c; LiveModel.f_message := m;
     LiveModel.f_level := l; LiveModel.f_signal_type := st; LiveModel.f_signal_name := sn |}.

(* why a value is not read as a finding *)
(* used by take_fields: finding.rs 69-76, finding.rs 91-178 *)
Inductive ferr :=
| FNotObject
| FField (key : string)      (* the value under this key has the wrong type *)
| FMissing (key : string)    (* missing_field *)
| FKind.                     (* unknown `type` *)

(* serde: a String out of a JSON value *)
(* used by take_field: finding.rs 107-127 *)
Definition read_text (v : json) : option string := match v with JStr s => Some s | _ => None end.
(* finding.rs 262-275, the derived snake_case names; serde reads a unit variant from its
   name or from an object of that one name and null *)
Definition level_of_name (s : string) : option level :=
  if String.eqb s "information" then Some LiveModel.Information
  else if String.eqb s "improvement" then Some LiveModel.Improvement
  else if String.eqb s "violation" then Some LiveModel.Violation
  else None.
(* as above: finding.rs 262-275 *)
Definition read_level (v : json) : option level :=
  match v with
  | JStr s => level_of_name s
  | JObj [(s, JNull)] => level_of_name s
  | _ => None
  end.

(* finding.rs 95-105: the locals of visit_map *)
Record fields := mk_fields {
  fi_type : option string; fi_id : option string; fi_category : option string;
  fi_group : option string; fi_attr : option string; fi_advice_type : option string;
  fi_message : option string; fi_level : option level; fi_context : option json;
  fi_signal_type : option string; fi_signal_name : option string }.
(* as above: finding.rs 95-105 *)
Definition no_fields : fields :=
  mk_fields None None None None None None None None None None None.

(* finding.rs 107-127: one turn of the loop; an unknown key is skipped *)
Definition take_field (b : fields) (key : string) (v : json) : option fields :=
  let '(mk_fields t i c g a at_ m l x st sn) := b in
  if String.eqb key "type" then
    match read_text v with Some s => Some (mk_fields (Some s) i c g a at_ m l x st sn) | None => None end
  else if String.eqb key "id" then
    match read_text v with Some s => Some (mk_fields t (Some s) c g a at_ m l x st sn) | None => None end
  else if String.eqb key "category" then
    match read_text v with Some s => Some (mk_fields t i (Some s) g a at_ m l x st sn) | None => None end
  else if String.eqb key "group" then
    match read_text v with Some s => Some (mk_fields t i c (Some s) a at_ m l x st sn) | None => None end
  else if String.eqb key "attr" then
    match read_text v with Some s => Some (mk_fields t i c g (Some s) at_ m l x st sn) | None => None end
  else if String.eqb key "advice_type" then
    match read_text v with Some s => Some (mk_fields t i c g a (Some s) m l x st sn) | None => None end
  else if String.eqb key "message" then
    match read_text v with Some s => Some (mk_fields t i c g a at_ (Some s) l x st sn) | None => None end
  else if String.eqb key "advice_level" then
    match read_level v with Some s => Some (mk_fields t i c g a at_ m (Some s) x st sn) | None => None end
  else if String.eqb key "level" then
    match read_level v with Some s => Some (mk_fields t i c g a at_ m (Some s) x st sn) | None => None end
  else if String.eqb key "advice_context" then Some (mk_fields t i c g a at_ m l (Some v) st sn)
  else if String.eqb key "context" then Some (mk_fields t i c g a at_ m l (Some v) st sn)
  else if String.eqb key "signal_type" then
    match read_text v with Some s => Some (mk_fields t i c g a at_ m l x (Some s) sn) | None => None end
  else if String.eqb key "signal_name" then
    match read_text v with Some s => Some (mk_fields t i c g a at_ m l x st (Some s)) | None => None end
  else Some b.

(* used by read_finding: finding.rs 69-76, finding.rs 91-178 *)
Fixpoint take_fields (b : fields) (m : list (string * json)) : result fields ferr :=
  match m with
  | [] => ROk b
  | (k, v) :: r => match take_field b k v with
                   | Some b' => take_fields b' r
                   | None => RErr (FField k)
                   end
  end.

(* finding.rs 45-66: new_semconv_attribute *)
Definition new_semconv_attribute (id category group attr : string) : finding :=
  mk_finding "semconv_attribute"
    (Some (JObj [("attr", JStr attr); ("category", JStr category); ("group", JStr group); ("id", JStr id)]))
    ("id=" ++ id ++ ", category=" ++ category ++ ", group=" ++ group ++ ", attr=" ++ attr)
    LiveModel.Violation None None.

(* finding.rs 128-178: the kind of the finding decides which fields it needs; they are asked
   for in the order written there *)
Definition need {A} (o : option A) (key : string) (k : A -> result finding ferr) : result finding ferr :=
  match o with Some a => k a | None => RErr (FMissing key) end.
(* as above: finding.rs 128-178 *)
Definition build_finding (b : fields) : result finding ferr :=
  match fi_type b with
  | Some t =>
    if String.eqb t "semconv_attribute" then
      need (fi_id b) "id" (fun i => need (fi_category b) "category" (fun c =>
      need (fi_group b) "group" (fun g => need (fi_attr b) "attr" (fun a =>
        ROk (new_semconv_attribute i c g a)))))
    else if String.eqb t "advice" then
      need (fi_level b) "advice_level" (fun l => need (fi_advice_type b) "advice_type" (fun i =>
      need (fi_message b) "message" (fun m =>
        ROk (mk_finding i (fi_context b) m l (fi_signal_type b) (fi_signal_name b)))))
    else RErr FKind
  | None =>
      need (fi_id b) "id" (fun i => need (fi_level b) "level" (fun l =>
      need (fi_message b) "message" (fun m =>
        ROk (mk_finding i (fi_context b) m l (fi_signal_type b) (fi_signal_name b)))))
  end.

(* finding.rs 69-76, 91-178; serde_json::from_value hands the entries over in the order of
   the map *)
Definition read_finding (v : json) : result finding ferr :=
  match v with
  | JObj m => match take_fields no_fields m with
              | ROk b => build_finding b
              | RErr e => RErr e
              end
  | _ => RErr FNotObject
  end.

(* lib.rs 586-590: from_value::<Vec<PolicyFinding>>; the first value that is not read fails
   the whole *)
Fixpoint read_each (vs : list json) : result (list finding) ferr :=
  match vs with
  | [] => ROk []
  | v :: r => match read_finding v with
              | RErr e => RErr e
              | ROk f => match read_each r with
                         | RErr e => RErr e
                         | ROk fs => ROk (f :: fs)
                         end
              end
  end.
(* as above: lib.rs 586-590 *)
Definition read_findings (v : json) : result (list finding) ferr :=
  match v with JArr vs => read_each vs | _ => RErr FNotObject end.

(* finding.rs 13-43: the derived Serialize; `tag = "type"` on a struct writes the name of the
   struct under "type", and None is written as null.  In the order of the map's keys. *)
Definition write_opt {A} (w : A -> json) (o : option A) : json := match o with Some a => w a | None => JNull end.
(* as above: finding.rs 13-43 *)
Definition level_name (l : level) : string :=
  match l with
  | LiveModel.Information => "information"
  | LiveModel.Improvement => "improvement"
  | LiveModel.Violation => "violation"
  end.
(* as above: finding.rs 13-43 *)
Definition write_finding (f : finding) : json :=
  JObj [("context", write_opt (fun c => c) (LiveModel.f_context f));
        ("id", JStr (LiveModel.f_id f));
        ("level", JStr (level_name (LiveModel.f_level f)));
        ("message", JStr (LiveModel.f_message f));
        ("signal_name", write_opt JStr (LiveModel.f_signal_name f));
        ("signal_type", write_opt JStr (LiveModel.f_signal_type f));
        ("type", JStr "PolicyFinding")].

(* ---------- the engine: crates/weaver_checker/src/lib.rs ---------- *)
(* lib.rs 144-156 *)
Inductive stage := BeforeResolution | AfterResolution | ComparisonAfterResolution | LiveCheckAdvice.
(* lib.rs 158-177 *)
Definition stage_name (s : stage) : string :=
  match s with
  | BeforeResolution => "before_resolution"
  | AfterResolution => "after_resolution"
  | ComparisonAfterResolution => "comparison_after_resolution"
  | LiveCheckAdvice => "live_check_advice"
  end.

(* lib.rs 31-113; the texts are left out *)
Inductive ckerr :=
| InvalidPolicyFile (file : string)
| UnsupportedPolicyPath (path : string)
| AccessDenied (path : string)
| InvalidGlobPattern (pattern : string)
| InvalidData (path : string)
| InvalidInput
| ViolationEvaluationError
| PolicyViolation (provenance : string) (violation : finding)
| CompoundError (errors : list ckerr).

(* lib.rs 115-127 *)
Definition compound (errors : list ckerr) : ckerr :=
  CompoundError (flat_map (fun e => match e with CompoundError l => l | e => [e] end) errors).
(* weaver_common/src/error.rs 29-39 *)
Definition handle_errors (errors : list ckerr) : result unit ckerr :=
  match errors with [] => ROk tt | [e] => RErr e | es => RErr (compound es) end.

(* where the text of a policy comes from: compiled into the program, or a file *)
(* used by rego: lib.rs 180-191 *)
Inductive source := Builtin (path : string) | File (path : string).

(* The interpreter of rego (crate regorus), a parameter.  [ri_add] parses and adds the policy
   of a source and answers the package it declares ("data." and the name) or refuses;
   [ri_data] merges a data document or refuses, [ri_input] sets the input, [ri_eval] evaluates
   a rule.  Any of them may change the interpreter. *)
(* used by engine: lib.rs 180-191 *)
Record rego := mk_rego {
  ri_state : Type;
  ri_new : ri_state;
  ri_add : ri_state -> source -> ri_state * option string;
  ri_data : ri_state -> json -> ri_state * bool;
  ri_input : ri_state -> json -> ri_state;
  ri_eval : ri_state -> string -> ri_state * option json }.

(* lib.rs 180-191; the coverage report is left out *)
Record engine (R : rego) := mk_engine {
  en_state : ri_state R;
  en_count : nat;
  en_packages : list string }.
Arguments mk_engine {R} en_state en_count en_packages.
Arguments en_state {R} e.
Arguments en_count {R} e.
Arguments en_packages {R} e.

(* used by init_policy_engine: weaver.rs 619-646 *)
Definition new_engine (R : rego) : engine R := mk_engine (ri_new R) 0 [].

(* HashSet::insert *)
(* used by add_policy: lib.rs 215-234, lib.rs 412-435 *)
Definition set_add (x : string) (l : list string) : list string := if str_mem x l then l else x :: l.

(* lib.rs 215-234 and 412-435: add_policy, add_policy_from_file *)
Definition add_policy {R} (e : engine R) (src : source) : engine R * result string ckerr :=
  let path := match src with Builtin p | File p => p end in
  match ri_add R (en_state e) src with
  | (s, Some package) =>
    (mk_engine s (S (en_count e)) (set_add package (en_packages e)), ROk package)
  | (s, None) => (mk_engine s (en_count e) (en_packages e), RErr (InvalidPolicyFile path))
  end.

(* what the file system holds below a directory; a directory that cannot be listed has no
   children to yield *)
(* used by node_name: lib.rs 463-467 *)
Inductive node :=
| NFile (name : string)
| NDir (name : string) (children : option (list node)).
(* used by walk: lib.rs 463-467 *)
Definition node_name (n : node) : string := match n with NFile s => s | NDir s _ => s end.

(* lib.rs 623-632: is_hidden; the entries below the root *)
Definition is_hidden (name : string) : bool := starts_with "." name.
(* walkdir, lib.rs 463-467: every entry with its path, the directory before what is in it, not
   descending into hidden ones; failures to list are dropped by `flatten` *)
Fixpoint walk (path : string) (n : node) : list string :=
  path :: match n with
          | NFile _ => []
          | NDir _ None => []
          | NDir _ (Some cs) =>
            (fix below (cs : list node) : list string :=
               match cs with
               | [] => []
               | c :: r => (if is_hidden (node_name c) then []
                            else walk (LoadModel.join_path path (node_name c)) c) ++ below r
               end) cs
          end%list.

(* lib.rs 453-461: the glob "*.rego", whose star also matches '/', against the whole path *)
Definition is_policy_file (path : string) : bool := VdirModel.ends_with ".rego" path.

(* lib.rs 463-479 *)
Fixpoint add_policy_files {R} (e : engine R) (paths : list string) : engine R * nat * list ckerr :=
  match paths with
  | [] => (e, 0, [])
  | p :: r =>
    if is_policy_file p then
      match add_policy e (File p) with
      | (e', ROk _) => let '(e2, n, es) := add_policy_files e' r in (e2, S n, es)
      | (e', RErr x) => let '(e2, n, es) := add_policy_files e' r in (e2, n, x :: es)
      end
    else add_policy_files e r
  end.
(* lib.rs 444-482: add_policies; [root] is None when the path does not exist *)
Definition add_policies {R} (e : engine R) (path : string) (root : option node)
    : engine R * result nat ckerr :=
  let '(e', n, es) := add_policy_files e (match root with Some t => walk path t | None => [] end) in
  (e', match handle_errors es with ROk _ => ROk n | RErr x => RErr x end).

(* lib.rs 245-271: add_policy_from_file_or_dir.  [stat] is what metadata answers: nothing, a
   file, a directory or something else (a device, a socket). *)
Inductive stat := StatFile | StatDir (tree : node) | StatOther.
(* crates/weaver_checker/src/lib.rs 247-271 *)
Definition add_policy_from_file_or_dir {R} (e : engine R) (path : string) (st : option stat)
    : engine R * result unit ckerr :=
  match st with
  | None => (e, RErr (AccessDenied path))
  | Some StatFile =>
    let '(e', r) := add_policy e (File path) in
    (e', match r with ROk _ => ROk tt | RErr x => RErr x end)
  | Some (StatDir t) =>
    let '(e', r) := add_policies e path (Some t) in
    (e', match r with ROk _ => ROk tt | RErr x => RErr x end)
  | Some StatOther => (e, RErr (UnsupportedPolicyPath path))
  end.

(* lib.rs 501-512: add_data; a value that cannot be serialised is None *)
Definition add_data {R} (e : engine R) (doc : option json) : engine R * result unit ckerr :=
  match doc with
  | None => (e, RErr (InvalidData ""))
  | Some d => match ri_data R (en_state e) d with
              | (s, true) => (mk_engine s (en_count e) (en_packages e), ROk tt)
              | (s, false) => (mk_engine s (en_count e) (en_packages e), RErr (InvalidData ""))
              end
  end.
(* lib.rs 527-538 *)
Definition set_input {R} (e : engine R) (input : option json) : engine R * result unit ckerr :=
  match input with
  | None => (e, RErr InvalidInput)
  | Some i => (mk_engine (ri_input R (en_state e) i) (en_count e) (en_packages e), ROk tt)
  end.

(* used by deny_of: lib.rs 527-538 *)
Definition package_of (s : stage) : string := "data." ++ stage_name s.
(* as above: lib.rs 527-538 *)
Definition deny_of (s : stage) : string := package_of s ++ ".deny".
(* lib.rs 545-547 *)
Definition has_stage {R} (e : engine R) (s : stage) : bool := str_mem (package_of s) (en_packages e).

(* lib.rs 549-593: check *)
Definition check {R} (e : engine R) (s : stage) : engine R * result (list finding) ckerr :=
  if negb (str_mem (package_of s) (en_packages e)) then (e, ROk [])
  else match ri_eval R (en_state e) (deny_of s) with
       | (st, v) =>
         (mk_engine st (en_count e) (en_packages e),
          match v with
          | None => RErr ViolationEvaluationError
          | Some v => match read_findings v with
                      | ROk fs => ROk fs
                      | RErr _ => RErr ViolationEvaluationError
                      end
          end)
       end.

(* ---------- the driver: src/weaver.rs ---------- *)
(* weaver.rs 747-754 *)
Fixpoint add_all_data {R} (e : engine R) (file : string) (docs : list (option json))
    : engine R * list ckerr :=
  match docs with
  | [] => (e, [])
  | d :: r =>
    match add_data e d with
    | (e', ROk _) => add_all_data e' file r
    | (e', RErr _) => let '(e2, es) := add_all_data e' file r in (e2, InvalidPolicyFile file :: es)
    end
  end.

(* weaver.rs 702-741: check_policy_stage.  Every caller passes a clone of the engine, so the
   engine it leaves behind is not returned. *)
Definition check_policy_stage {R} (e : engine R) (s : stage) (file : string) (input : option json)
    (docs : list (option json)) : wresult unit ckerr :=
  let '(e1, errs) := add_all_data e file docs in
  let more :=
    match set_input e1 input with
    | (e2, ROk _) =>
      match check e2 s with
      | (_, ROk fs) => map (PolicyViolation file) fs
      | (_, RErr _) => [InvalidPolicyFile file]
      end
    | (_, RErr _) => [InvalidPolicyFile file]
    end in
  with_nfes tt (app errs more).

(* weaver.rs 688-700: joining the results in order *)
Fixpoint join_results (rs : list (wresult unit ckerr)) (nfes : list ckerr) : wresult unit ckerr :=
  match rs with
  | [] => with_nfes tt nfes
  | WOk _ :: r => join_results r nfes
  | WOkNfe _ es :: r => join_results r (app nfes es)
  | WFatal e :: _ => WFatal e
  end.
(* weaver.rs 659-691: check_policy.  The files are checked in parallel on clones of the
   engine and the results collected in the order of the files, so the schedule does not
   show. *)
Definition check_policy {R} (e : engine R) (specs : list (string * option json)) : wresult unit ckerr :=
  join_results (map (fun sp => check_policy_stage e BeforeResolution (fst sp) (snd sp) []) specs) [].

(* the errors of the commands; those of loading, resolving and viewing are kept as their
   text and severity *)
(* used by werr_severity: weaver.rs 548-571, weaver.rs 782-789, lib.rs 31-113 *)
Inductive werr :=
| WChecker (e : ckerr)
| WOther (text : string) (s : option severity)
| IncompatibleRegistries
| V2FlagMissing
| BeforeResolutionUnsupported.
(* weaver.rs 548-571, 782-789; lib.rs 31-113 declares no severity *)
Definition werr_severity (e : werr) : option severity :=
  match e with
  | WChecker _ => None
  | WOther _ s => s
  | IncompatibleRegistries => None
  | V2FlagMissing => Some SevWarning
  | BeforeResolutionUnsupported => Some SevWarning
  end.

(* weaver_resolver: LoadedSemconvRegistry; the files with their provenance and what they
   serialise to *)
(* used by registry: weaver.rs 619-646 *)
Inductive loaded :=
| Unresolved (specs : list (string * option json))
| LoadedV1
| LoadedV2.
(* weaver_resolver: WeaverResolvedSchema *)
(* used by registry: weaver.rs 619-646 *)
Inductive bundle := BundleV1 | BundleV2.

(* A registry as the driver sees it: the outcomes of opening, loading, resolving, converting
   and viewing it, and the policies in its directory.  These stages are modelled elsewhere
   (LoadModel, ResolveModel, ConvertModel, ViewModel); here they are given. *)
(* used by init_policy_engine: weaver.rs 619-646 *)
Record registry := mk_registry {
  rg_name : string;                              (* registry_path_repr *)
  rg_open : result (list werr) werr;             (* RegistryRepo::try_new_with_auth and its nfes *)
  rg_dir : string;                               (* registry_repo.path() *)
  rg_tree : option node;
  rg_load : wresult loaded werr;
  rg_resolve : wresult bundle werr;
  rg_view1 : result (option json) werr;          (* ResolvedRegistry::try_from_resolved_registry *)
  rg_convert : result unit werr;                 (* v1 to v2 *)
  rg_view2 : wresult (option json) werr }.       (* ForgeResolvedRegistry *)

(* weaver_config: EffectivePolicyConfig and the v2 flag; a policy path with what is there *)
(* used by prepare_policy_engine: weaver.rs 574-604 *)
Record settings := mk_settings {
  st_v2 : bool;
  st_skip_policies : bool;
  st_policies : list (result (string * option stat) werr) }.

(* weaver.rs 585-589: the first policy directory that cannot be fetched fails the command *)
Fixpoint fetch_all (l : list (result (string * option stat) werr)) : result (list (string * option stat)) werr :=
  match l with
  | [] => ROk []
  | RErr e :: _ => RErr e
  | ROk p :: r => match fetch_all r with ROk ps => ROk (p :: ps) | RErr e => RErr e end
  end.
(* weaver.rs 640-643 *)
Fixpoint add_user_policies {R} (e : engine R) (ps : list (string * option stat)) : result (engine R) ckerr :=
  match ps with
  | [] => ROk e
  | (p, st) :: r => match add_policy_from_file_or_dir e p st with
                    | (e', ROk _) => add_user_policies e' r
                    | (_, RErr x) => RErr x
                    end
  end.
(* weaver.rs 619-646: init_policy_engine *)
Definition init_policy_engine {R} (g : registry) (ps : list (string * option stat)) : result (engine R) ckerr :=
  match add_policy (new_engine R) (Builtin "defaults/rego/semconv.rego") with
  | (_, RErr x) => RErr x
  | (e1, ROk _) =>
    match add_policies e1 (rg_dir g) (rg_tree g) with
    | (_, RErr x) => RErr x
    | (e2, ROk _) => add_user_policies e2 ps
    end
  end.
(* weaver.rs 574-604: prepare_policy_engine *)
Definition prepare_policy_engine {R} (c : settings) (g : registry) : result (option (engine R)) werr :=
  if st_skip_policies c then ROk None
  else match fetch_all (st_policies c) with
       | RErr x => RErr x
       | ROk ps => match init_policy_engine g ps with
                   | ROk e => ROk (Some e)
                   | RErr x => RErr (WChecker x)
                   end
       end.

(* weaver.rs 215-221, 252-257, 352-357 *)
Record resolved (R : rego) := mk_resolved {
  rs_bundle : bundle;
  rs_view : option json;        (* the template schema, serialised *)
  rs_name : string;
  rs_engine : option (engine R) }.
Arguments mk_resolved {R} rs_bundle rs_view rs_name rs_engine.
Arguments rs_bundle {R} r.
Arguments rs_view {R} r.
Arguments rs_name {R} r.
Arguments rs_engine {R} r.

Notation diags := (list (diag werr)).

Section Driver.
  Variable R : rego.
  Variable future : bool.     (* --future: FUTURE_MODE *)

  (* used by visit: weaver.rs 34-47 *)
  Definition dnew (e : werr) : diag werr := diag_new werr_severity future e.

  (* weaver.rs 34-47: the visitor, which looks at unresolved registries only *)
  Definition visit (e : engine R) (l : loaded) (ds : diags) : result diags ckerr :=
    match l with
    | Unresolved specs =>
      match check_policy e specs with
      | WOk _ => ROk ds
      | WOkNfe _ es => ROk (app ds (map (fun x => dnew (WChecker x)) es))
      | WFatal x => RErr x
      end
    | _ => ROk ds
    end.

  (* weaver_resolver/src/lib.rs 569-604: load_and_resolve_schema with a visitor.  The result
     of a visitor that stops the loading is kept apart. *)
  Definition load_and_resolve_schema (g : registry) (visitor : loaded -> diags -> result diags ckerr)
      (ds : diags) : (wresult bundle werr + ckerr) * diags :=
    let go l nfes :=
      match visitor l ds with
      | RErr x => (inr x, ds)
      | ROk ds' =>
        (inl (match rg_resolve g with
              | WOk b => match nfes with [] => WOk b | _ => WOkNfe b nfes end
              | WOkNfe b more => WOkNfe b (app nfes more)
              | WFatal e => WFatal e
              end), ds')
      end in
    match rg_load g with
    | WOk l => go l []
    | WOkNfe l nfes => go l nfes
    | WFatal e => (inl (WFatal e), ds)
    end.

  (* weaver.rs 88-211: load_and_resolve_repo *)
  Definition load_and_resolve_repo (c : settings) (g : registry) (ds : diags)
      : result (resolved R) werr * diags :=
    match prepare_policy_engine c g with
    | RErr x => (RErr x, ds)
    | ROk pe =>
      let '(res, ds1) :=
        match st_v2 c, pe with
        | false, Some e => load_and_resolve_schema g (visit e) ds
        | v2, _ =>
          let ds0 := if v2 then match pe with
                                | Some e => if has_stage e BeforeResolution
                                            then app ds [dnew BeforeResolutionUnsupported] else ds
                                | None => ds
                                end
                     else ds in
          load_and_resolve_schema g (fun _ d => ROk d) ds0
        end in
      let view2 b d :=
        match rg_view2 g with
        | WOk v => (ROk (mk_resolved b v (rg_name g) pe), d)
        | WOkNfe v nfes => (ROk (mk_resolved b v (rg_name g) pe), app d (map dnew nfes))
        | WFatal x => (RErr x, d)
        end in
      let continue b ds2 :=
        match b with
        | BundleV1 =>
          if st_v2 c then
            match rg_convert g with
            | RErr x => (RErr x, ds2)
            | ROk _ => view2 BundleV2 ds2
            end
          else match rg_view1 g with
               | RErr x => (RErr x, ds2)
               | ROk v => (ROk (mk_resolved BundleV1 v (rg_name g) pe), ds2)
               end
        | BundleV2 =>
          view2 BundleV2 (if st_v2 c then ds2 else app ds2 [dnew V2FlagMissing])
        end in
      match res with
      | inr x => (RErr (WChecker x), ds1)
      | inl (WOk b) => continue b ds1
      | inl (WOkNfe b nfes) => continue b (app ds1 (map dnew nfes))
      | inl (WFatal x) => (RErr x, ds1)
      end
    end.

  (* weaver.rs 73-85: load_and_resolve_main *)
  Definition load_and_resolve_main (c : settings) (g : registry) (ds : diags)
      : result (resolved R) werr * diags :=
    match rg_open g with
    | RErr x => (RErr x, ds)
    | ROk nfes => load_and_resolve_repo c g (app ds (map dnew nfes))
    end.

  (* weaver.rs 277-303, 376-402: check_after_resolution_policy of either version *)
  Definition capture (r : wresult unit ckerr) (ds : diags) : result unit werr * diags :=
    match r with
    | WOk _ => (ROk tt, ds)
    | WOkNfe _ es => (ROk tt, app ds (map (fun x => dnew (WChecker x)) es))
    | WFatal x => (RErr (WChecker x), ds)
    end.
  (* as above: weaver.rs 277-303, weaver.rs 376-402 *)
  Definition check_after_resolution (r : resolved R) (ds : diags) : result unit werr * diags :=
    match rs_engine r with
    | Some e => capture (check_policy_stage e AfterResolution (rs_name r) (rs_view r) []) ds
    | None => (ROk tt, ds)
    end.
  (* weaver.rs 226-236, 306-334, 405-433 *)
  Definition check_comparison (r b : resolved R) (ds : diags) : result unit werr * diags :=
    match rs_bundle r, rs_bundle b with
    | BundleV1, BundleV1 | BundleV2, BundleV2 =>
      match rs_engine r with
      | Some e =>
        capture (check_policy_stage e ComparisonAfterResolution (rs_name r) (rs_view r) [rs_view b]) ds
      | None => (ROk tt, ds)
      end
    | _, _ => (RErr IncompatibleRegistries, ds)
    end.

  (* src/registry/check.rs 42-83: the command `registry check` *)
  Definition registry_check (c : settings) (main : registry) (baseline : option registry)
      : result (exit_directives werr) diags :=
    match load_and_resolve_main c main [] with
    | (RErr x, _) => RErr [dnew x]
    | (ROk r, ds) =>
      let base :=
        match baseline with
        | None => ROk None
        | Some b =>
          match rg_open b with
          | RErr x => RErr [dnew x]
          | ROk _ => match load_and_resolve_repo c b [] with
                     | (RErr x, _) => RErr [dnew x]
                     | (ROk rb, _) => ROk (Some rb)
                     end
          end
        end in
      match base with
      | RErr x => RErr x
      | ROk base =>
        match check_after_resolution r ds with
        | (RErr x, _) => RErr [dnew x]
        | (ROk _, ds2) =>
          match base with
          | None => match ds2 with [] => ROk (mk_exit 0 None) | _ => RErr ds2 end
          | Some rb =>
            match check_comparison r rb ds2 with
            | (RErr x, _) => RErr [dnew x]
            | (ROk _, ds3) => match ds3 with [] => ROk (mk_exit 0 None) | _ => RErr ds3 end
            end
          end
        end
      end
    end.

  (* src/registry/generate.rs 93-158: the command `registry generate`.  [templates] is the
     outcome of reading parameters, templates and their configuration, [generate] of writing
     the artifacts from the view (ForgeModel); the second component says whether artifacts were
     generated. *)
  Definition registry_generate (c : settings) (g : registry) (templates : result unit werr)
      (generate : option json -> result unit werr) : result (exit_directives werr) diags * bool :=
    match load_and_resolve_main c g [] with
    | (RErr x, _) => (RErr [dnew x], false)
    | (ROk r, ds) =>
      match templates with
      | RErr x => (RErr [dnew x], false)
      | ROk _ =>
        match check_after_resolution r ds with
        | (RErr x, _) => (RErr [dnew x], false)
        | (ROk _, ds2) =>
          match generate (rs_view r) with
          | RErr x => (RErr [dnew x], true)
          | ROk _ => (match ds2 with [] => ROk (mk_exit 0 None) | _ => RErr ds2 end, true)
          end
        end
      end
    end.
End Driver.

(* ---------- advice of policies: weaver_live_check/src/advice/rego_advisor.rs ---------- *)
(* rego_advisor.rs 84-102, 115-149: one call of the advisor, which keeps its engine between
   calls; the input is the serialised sample with its context.  Emission of the findings is
   left out. *)
Definition rego_advise {R} (e : engine R) (input : option json) (signal : LiveModel.sample)
    : engine R * result (list finding) ckerr :=
  match set_input e input with
  | (e1, RErr x) => (e1, RErr x)
  | (e1, ROk _) =>
    match check e1 LiveCheckAdvice with
    | (e2, RErr x) => (e2, RErr x)
    | (e2, ROk fs) =>
      (e2, ROk (map (fun f => mk_finding (LiveModel.f_id f) (LiveModel.f_context f) (LiveModel.f_message f)
                                (LiveModel.f_level f)
                                (match LiveModel.f_signal_type f with
                                 | None => LiveModel.signal_type signal | t => t end)
                                (match LiveModel.f_signal_name f with
                                 | None => LiveModel.signal_name signal | n => n end)) fs))
    end
  end.

(* ---------- data documents: crates/weaver_checker/src/lib.rs 274-395, 596-621 ---------- *)
(* Component::as_os_str *)
(* used by split_components: lib.rs 596-621 *)
Definition wild (s : string) : bool := contains "*" s || contains "?" s || contains "[" s.
(* lib.rs 596-621: split_glob; the base is kept as its components *)
Fixpoint split_components (cs : list VdirModel.component) (found : bool)
    : list VdirModel.component * list string :=
  match cs with
  | [] => ([], [])
  | c :: r =>
    let s := VdirModel.os_str c in
    if found || wild s then
      let '(base, rest) := split_components r true in (base, s :: rest)
    else let '(base, rest) := split_components r found in (c :: base, rest)
  end.
(* crates/weaver_checker/src/lib.rs 599-624 *)
Definition split_glob (pattern : string) : list VdirModel.component * string :=
  let '(base, rest) := split_components (VdirModel.components pattern) false in
  (base, match rest with [] => "" | _ => join "/" rest end).

(* std::path::Path::file_stem of a file name *)
(* used by add_data_file: lib.rs 332-395 *)
Definition file_stem (n : string) : string :=
  match LoadModel.extension n with
  | "" => if VdirModel.ends_with "." n && negb (String.eqb n ".") && negb (String.eqb n "..")
          then Str.str_take (String.length n - 1) n else n
  | ext => Str.str_take (String.length n - S (String.length ext)) n
  end.

(* what a file below the base holds: its text read as JSON or as YAML; None when it cannot be
   read at all *)
(* used by add_data_file: lib.rs 332-395 *)
Record data_file := mk_data_file {
  df_dir : list string;                  (* the directories from the root to the file *)
  df_name : string;
  df_readable : bool;
  df_json : option json;
  df_yaml : option json }.

(* lib.rs 383-392 *)
Definition wrap (keys : list string) (v : json) : json :=
  fold_right (fun k acc => JObj [(k, acc)]) v keys.

(* lib.rs 332-395: add_data_file_from_dir; [below] is the directory part of the path relative
   to the root *)
Definition add_data_file {R} (e : engine R) (below : list string) (f : data_file) : engine R * option ckerr :=
  if negb (df_readable f) then (e, Some (AccessDenied (df_name f)))
  else
    let parsed :=
      if String.eqb (LoadModel.extension (df_name f)) "json" then Some (df_json f)
      else if String.eqb (LoadModel.extension (df_name f)) "yaml"
              || String.eqb (LoadModel.extension (df_name f)) "yml" then Some (df_yaml f)
      else None in
    match parsed with
    | None => (e, None)
    | Some None => (e, Some (InvalidData (df_name f)))
    | Some (Some v) =>
      match add_data e (Some (wrap (app below [file_stem (df_name f)]) v)) with
      | (e', ROk _) => (e', None)
      | (e', RErr x) => (e', Some x)
      end
    end.

(* an entry that walkdir yields: a file or a failure to list a directory *)
(* used by add_data_files: lib.rs 304-329 *)
Inductive found := FoundFile (f : data_file) | FoundError.

(* lib.rs 304-329: the loop over the entries below [base] *)
Fixpoint add_data_files {R} (e : engine R) (base : string) (matches : list string -> string -> bool)
    (l : list found) : engine R * list ckerr :=
  match l with
  | [] => (e, [])
  | FoundError :: r =>
    let '(e', es) := add_data_files e base matches r in (e', AccessDenied base :: es)
  | FoundFile f :: r =>
    if matches (df_dir f) (df_name f) then
      match add_data_file e (df_dir f) f with
      | (e1, None) => add_data_files e1 base matches r
      | (e1, Some x) => let '(e', es) := add_data_files e1 base matches r in (e', x :: es)
      end
    else add_data_files e base matches r
  end.

(* what is at the base path: a file or a directory with the files walkdir finds below it that
   are not hidden *)
(* used by add_data_from: lib.rs 275-330 *)
Inductive base_stat := BaseFile (f : data_file) | BaseDir (l : list found).

(* lib.rs 275-330: add_data_from_file_or_dir.  [stat_of] is the file system; [glob] compiles a
   pattern (crate globset), whose matcher is asked for the path relative to the base. *)
Definition add_data_from {R} (e : engine R)
    (stat_of : list VdirModel.component -> option base_stat)
    (glob : string -> option (list string -> string -> bool)) (pattern : string)
    : engine R * result unit ckerr :=
  let '(base0, rest) := split_glob pattern in
  let base := match base0 with [] => [VdirModel.CurDir] | _ => base0 end in
  let shown := join "/" (map VdirModel.os_str base) in
  match stat_of base with
  | None => (e, RErr (AccessDenied shown))
  | Some st =>
    let walk_with pat :=
      match glob pat with
      | None => (e, RErr (InvalidGlobPattern pat))
      | Some m =>
        (* a file as the base is the only entry, with the empty path relative to itself *)
        let '(e', es) := match st with
                         | BaseDir l => add_data_files e shown m l
                         | BaseFile f =>
                           if m [] "" then
                             let '(e', x) := add_data_file e [] f in
                             (e', match x with None => [] | Some x => [x] end)
                           else (e, [])
                         end in
        (e', match handle_errors es with ROk _ => ROk tt | RErr x => RErr x end)
      end in
    match rest, st with
    | "", BaseFile f =>
      let '(e', x) := add_data_file e [] f in
      (e', match x with None => ROk tt | Some x => RErr x end)
    | "", BaseDir _ => walk_with "**/*"
    | _, _ => walk_with rest
    end
  end.
