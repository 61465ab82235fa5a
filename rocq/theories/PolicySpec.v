(* What C85 to C87 say: findings that a policy states, the stages at which policies are
   asked, and where data documents are put.  Independent of the functions of PolicyModel. *)
From Coq Require Import String Ascii Bool Arith Lia List.
Import ListNotations.
From Verif Require Import Base Json ResultModel PolicyModel.
From Verif Require LoadModel VdirModel LiveModel.
Local Open Scope string_scope.

(* ---------- C85: findings ---------- *)
(* the value of the last entry whose key is one of [ks] *)
Definition lastly (ks : list string) (m : list (string * json)) (v : json) : Prop :=
  exists pre k post, m = app pre ((k, v) :: post) /\ In k ks
    /\ forall k', In k' (map fst post) -> ~ In k' ks.
Definition absent (ks : list string) (m : list (string * json)) : Prop :=
  forall k, In k (map fst m) -> ~ In k ks.

(* how a policy writes a level *)
Definition names_level (v : json) (l : LiveModel.level) : Prop :=
  exists n, (v = JStr n \/ v = JObj [(n, JNull)])
    /\ (n = "information" /\ l = LiveModel.Information
        \/ n = "improvement" /\ l = LiveModel.Improvement
        \/ n = "violation" /\ l = LiveModel.Violation).

Definition text_keys : list string :=
  ["type"; "id"; "category"; "group"; "attr"; "advice_type"; "message"; "signal_type"; "signal_name"].
Definition level_keys : list string := ["advice_level"; "level"].
Definition context_keys : list string := ["advice_context"; "context"].

(* every field that has a meaning has the type it should have *)
Definition fits (k : string) (v : json) : Prop :=
  (In k text_keys -> exists s, v = JStr s) /\ (In k level_keys -> exists l, names_level v l).
Definition legible (m : list (string * json)) : Prop := forall k v, In (k, v) m -> fits k v.

Definition text (m : list (string * json)) (k s : string) : Prop := lastly [k] m (JStr s).
Definition of_level (m : list (string * json)) (l : LiveModel.level) : Prop :=
  exists v, lastly level_keys m v /\ names_level v l.
(* an optional field is what the object says, and missing when it says nothing *)
Definition maybe_text (m : list (string * json)) (k : string) (o : option string) : Prop :=
  match o with Some s => text m k s | None => absent [k] m end.
Definition maybe_context (m : list (string * json)) (o : option json) : Prop :=
  match o with Some v => lastly context_keys m v | None => absent context_keys m end.

(* the three ways to state a finding *)
Inductive states (m : list (string * json)) : LiveModel.finding -> Prop :=
| states_attribute i c g a :
    text m "type" "semconv_attribute" ->
    text m "id" i -> text m "category" c -> text m "group" g -> text m "attr" a ->
    states m {| LiveModel.f_id := "semconv_attribute";
                LiveModel.f_context := Some (JObj [("attr", JStr a); ("category", JStr c);
                                                   ("group", JStr g); ("id", JStr i)]);
                LiveModel.f_message := "id=" ++ i ++ ", category=" ++ c ++ ", group=" ++ g ++ ", attr=" ++ a;
                LiveModel.f_level := LiveModel.Violation;
                LiveModel.f_signal_type := None; LiveModel.f_signal_name := None |}
| states_advice f :
    text m "type" "advice" ->
    text m "advice_type" (LiveModel.f_id f) -> text m "message" (LiveModel.f_message f) ->
    of_level m (LiveModel.f_level f) -> maybe_context m (LiveModel.f_context f) ->
    maybe_text m "signal_type" (LiveModel.f_signal_type f) ->
    maybe_text m "signal_name" (LiveModel.f_signal_name f) ->
    states m f
| states_finding f :
    absent ["type"] m ->
    text m "id" (LiveModel.f_id f) -> text m "message" (LiveModel.f_message f) ->
    of_level m (LiveModel.f_level f) -> maybe_context m (LiveModel.f_context f) ->
    maybe_text m "signal_type" (LiveModel.f_signal_type f) ->
    maybe_text m "signal_name" (LiveModel.f_signal_name f) ->
    states m f.

(* a value is read as a finding *)
Definition read_as (v : json) (f : LiveModel.finding) : Prop :=
  exists m, v = JObj m /\ legible m /\ states m f.

(* what each kind of finding needs, in the order in which it is asked for, with the keys that
   supply it *)
Inductive kind := KAttribute | KAdvice | KFinding.
Definition of_kind (m : list (string * json)) (k : kind) : Prop :=
  match k with
  | KAttribute => text m "type" "semconv_attribute"
  | KAdvice => text m "type" "advice"
  | KFinding => absent ["type"] m
  end.
Definition needs (k : kind) : list (string * list string) :=
  match k with
  | KAttribute => [("id", ["id"]); ("category", ["category"]); ("group", ["group"]); ("attr", ["attr"])]
  | KAdvice => [("advice_level", level_keys); ("advice_type", ["advice_type"]); ("message", ["message"])]
  | KFinding => [("id", ["id"]); ("level", level_keys); ("message", ["message"])]
  end.
Definition first_missing (m : list (string * json)) (l : list (string * list string)) (k : string) : Prop :=
  exists done ks rest, l = app done ((k, ks) :: rest)
    /\ (forall d, In d done -> ~ absent (snd d) m) /\ absent ks m.

Inductive refused : json -> ferr -> Prop :=
| refused_shape v : (forall m, v <> JObj m) -> refused v FNotObject
| refused_field m pre k v post :
    m = app pre ((k, v) :: post) -> legible pre -> ~ fits k v -> refused (JObj m) (FField k)
| refused_missing m kd k :
    legible m -> of_kind m kd -> first_missing m (needs kd) k -> refused (JObj m) (FMissing k)
| refused_kind m t :
    legible m -> text m "type" t -> t <> "semconv_attribute" -> t <> "advice" ->
    refused (JObj m) FKind.

(* a way to state any finding: the fields that are there, under their own names *)
Definition level_word (l : LiveModel.level) : string :=
  match l with
  | LiveModel.Information => "information"
  | LiveModel.Improvement => "improvement"
  | LiveModel.Violation => "violation"
  end.
Definition given {A} (k : string) (w : A -> json) (o : option A) : list (string * json) :=
  match o with Some a => [(k, w a)] | None => [] end.
Definition stated (f : LiveModel.finding) : json :=
  JObj (app (given "context" (fun c => c) (LiveModel.f_context f))
       (app [("id", JStr (LiveModel.f_id f)); ("level", JStr (level_word (LiveModel.f_level f)));
             ("message", JStr (LiveModel.f_message f))]
       (app (given "signal_name" JStr (LiveModel.f_signal_name f))
            (given "signal_type" JStr (LiveModel.f_signal_type f))))).

(* ---------- C86: stages ---------- *)
Definition package (s : stage) : string :=
  match s with
  | BeforeResolution => "data.before_resolution"
  | AfterResolution => "data.after_resolution"
  | ComparisonAfterResolution => "data.comparison_after_resolution"
  | LiveCheckAdvice => "data.live_check_advice"
  end.
Definition rule (s : stage) : string :=
  match s with
  | BeforeResolution => "data.before_resolution.deny"
  | AfterResolution => "data.after_resolution.deny"
  | ComparisonAfterResolution => "data.comparison_after_resolution.deny"
  | LiveCheckAdvice => "data.live_check_advice.deny"
  end.
(* some policy declares the package of the stage *)
Definition in_use {R} (e : engine R) (s : stage) : Prop := In (package s) (en_packages e).

(* the interpreter after it was offered data documents, and how many it refused *)
Fixpoint offered (R : rego) (s : ri_state R) (docs : list (option json)) : ri_state R * nat :=
  match docs with
  | [] => (s, 0)
  | None :: r => let '(s', n) := offered R s r in (s', S n)
  | Some d :: r =>
    let '(s1, ok) := ri_data R s d in
    let '(s', n) := offered R s1 r in (s', if ok then n else S n)
  end.
(* what the interpreter answers for the rule of a stage, given documents and an input *)
Definition answer {R} (e : engine R) (s : stage) (input : json) (docs : list (option json)) : option json :=
  snd (ri_eval R (ri_input R (fst (offered R (en_state e) docs)) input) (rule s)).

(* the answer is a list of findings *)
Definition findings_in (a : option json) (fs : list LiveModel.finding) : Prop :=
  exists vs, a = Some (JArr vs) /\ Forall2 read_as vs fs.

(* the errors reported for one document checked at one stage *)
Definition reported {R} (e : engine R) (s : stage) (file : string) (input : option json)
    (docs : list (option json)) (errs : list ckerr) : Prop :=
  exists late, errs = app (repeat (InvalidPolicyFile file) (snd (offered R (en_state e) docs))) late
    /\ ((input = None /\ late = [InvalidPolicyFile file])
        \/ (exists i, input = Some i /\ ~ in_use e s /\ late = [])
        \/ (exists i fs, input = Some i /\ in_use e s /\ findings_in (answer e s i docs) fs
              /\ late = map (PolicyViolation file) fs)
        \/ (exists i, input = Some i /\ in_use e s
              /\ (forall fs, ~ findings_in (answer e s i docs) fs)
              /\ late = [InvalidPolicyFile file])).

(* the same for the files of a registry *)
Definition reported_each {R} (e : engine R) (specs : list (string * option json)) (errs : list ckerr) : Prop :=
  exists ess, Forall2 (fun sp es => reported e BeforeResolution (fst sp) (snd sp) [] es) specs ess
    /\ errs = concat ess.

(* nothing to report is a plain success *)
Definition with_errors {E} (r : wresult unit E) (errs : list E) : Prop :=
  (errs = [] /\ r = WOk tt) \/ (errs <> [] /\ r = WOkNfe tt errs).

(* -- which policies the engine holds -- *)
(* the entries below a path that walking finds: the path itself, and what is below it
   without passing a hidden name *)
Inductive seen : string -> node -> string -> Prop :=
| seen_here p n : seen p n p
| seen_below p d cs c q :
    In c cs -> (forall r, node_name c <> "." ++ r) ->
    seen (LoadModel.join_path p (node_name c)) c q ->
    seen p (NDir d (Some cs)) q.
Definition rego_named (p : string) : Prop := exists q, p = q ++ ".rego".

(* the policies of a check: the built-in one, those in the directory of the registry, and
   those the user names, a file or the rego files of a directory *)
Inductive policy_source (g : registry) (ps : list (string * option stat)) : source -> Prop :=
| source_builtin : policy_source g ps (Builtin "defaults/rego/semconv.rego")
| source_registry t p :
    rg_tree g = Some t -> seen (rg_dir g) t p -> rego_named p -> policy_source g ps (File p)
| source_file p : In (p, Some StatFile) ps -> policy_source g ps (File p)
| source_dir d t p :
    In (d, Some (StatDir t)) ps -> seen d t p -> rego_named p -> policy_source g ps (File p).

(* the package of a policy is a matter of its text *)
Definition declares_package (R : rego) (pkg : source -> option string) : Prop :=
  forall s src, snd (ri_add R s src) = pkg src.

(* -- commands -- *)
Definition nfes_of {T E} (r : wresult T E) : list E :=
  match r with WOkNfe _ es => es | _ => [] end.
Definition value_of {T E} (r : wresult T E) : option T :=
  match r with WOk t | WOkNfe t _ => Some t | WFatal _ => None end.

(* A registry that opens, loads, resolves and can be viewed under the settings; [b] is the
   version in which it is used and [v] the view that policies get *)
Inductive usable (c : settings) (g : registry) : bundle -> option json -> Prop :=
| usable_v1 l v :
    value_of (rg_load g) = Some l -> value_of (rg_resolve g) = Some BundleV1 ->
    st_v2 c = false -> rg_view1 g = ROk v -> usable c g BundleV1 v
| usable_converted l v :
    value_of (rg_load g) = Some l -> value_of (rg_resolve g) = Some BundleV1 ->
    st_v2 c = true -> rg_convert g = ROk tt -> value_of (rg_view2 g) = Some v -> usable c g BundleV2 v
| usable_v2 l v :
    value_of (rg_load g) = Some l -> value_of (rg_resolve g) = Some BundleV2 ->
    value_of (rg_view2 g) = Some v -> usable c g BundleV2 v.

(* A registry that stops the command, at the first step that fails, with the error of that step *)
Inductive stops (R : rego) (c : settings) (g : registry) : werr -> Prop :=
| stops_open x : rg_open g = RErr x -> stops R c g x
| stops_policies nfes x :
    rg_open g = ROk nfes -> prepare_policy_engine (R := R) c g = RErr x -> stops R c g x
| stops_load nfes pe x :
    rg_open g = ROk nfes -> prepare_policy_engine (R := R) c g = ROk pe -> rg_load g = WFatal x -> stops R c g x
| stops_resolve nfes pe l x :
    rg_open g = ROk nfes -> prepare_policy_engine (R := R) c g = ROk pe -> value_of (rg_load g) = Some l ->
    rg_resolve g = WFatal x -> stops R c g x
| stops_view1 nfes pe l x :
    rg_open g = ROk nfes -> prepare_policy_engine (R := R) c g = ROk pe -> value_of (rg_load g) = Some l ->
    value_of (rg_resolve g) = Some BundleV1 -> st_v2 c = false -> rg_view1 g = RErr x -> stops R c g x
| stops_convert nfes pe l x :
    rg_open g = ROk nfes -> prepare_policy_engine (R := R) c g = ROk pe -> value_of (rg_load g) = Some l ->
    value_of (rg_resolve g) = Some BundleV1 -> st_v2 c = true -> rg_convert g = RErr x -> stops R c g x
| stops_view2_converted nfes pe l x :
    rg_open g = ROk nfes -> prepare_policy_engine (R := R) c g = ROk pe -> value_of (rg_load g) = Some l ->
    value_of (rg_resolve g) = Some BundleV1 -> st_v2 c = true -> rg_convert g = ROk tt ->
    rg_view2 g = WFatal x -> stops R c g x
| stops_view2 nfes pe l x :
    rg_open g = ROk nfes -> prepare_policy_engine (R := R) c g = ROk pe -> value_of (rg_load g) = Some l ->
    value_of (rg_resolve g) = Some BundleV2 -> rg_view2 g = WFatal x -> stops R c g x.

(* the messages of loading a usable registry: [pe] is the policy engine *)
Definition before_messages {R} (c : settings) (g : registry) (pe : option (engine R)) (ms : list werr) : Prop :=
  match pe with
  | None => ms = []
  | Some e =>
    if st_v2 c then
      (in_use e BeforeResolution /\ ms = [BeforeResolutionUnsupported])
      \/ (~ in_use e BeforeResolution /\ ms = [])
    else match value_of (rg_load g) with
         | Some (Unresolved specs) => exists errs, reported_each e specs errs /\ ms = map WChecker errs
         | _ => ms = []
         end
  end.
Definition flag_messages (c : settings) (g : registry) : list werr :=
  match value_of (rg_resolve g) with
  | Some BundleV2 => if st_v2 c then [] else [V2FlagMissing]
  | _ => []
  end.
Definition view_messages (b : bundle) (g : registry) : list werr :=
  match b with BundleV1 => [] | BundleV2 => nfes_of (rg_view2 g) end.
Definition loading_messages {R} (c : settings) (g : registry) (b : bundle) (pe : option (engine R))
    (ms : list werr) : Prop :=
  exists before, before_messages c g pe before
    /\ ms = app before (app (nfes_of (rg_load g)) (app (nfes_of (rg_resolve g))
             (app (flag_messages c g) (view_messages b g)))).

(* the messages of a later stage *)
Definition stage_messages {R} (pe : option (engine R)) (s : stage) (name : string) (v : option json)
    (docs : list (option json)) (ms : list werr) : Prop :=
  match pe with
  | None => ms = []
  | Some e => exists errs, reported e s name v docs errs /\ ms = map WChecker errs
  end.

(* the outcome of a command that gathered messages *)
Definition verdict (future : bool) (ms : list werr) : result (exit_directives werr) (list (diag werr)) :=
  match ms with
  | [] => ROk (mk_exit 0 None)
  | _ => RErr (map (fun m => mk_diag m (if future then Some SevError
                                        else match m with
                                             | WOther _ s => s
                                             | V2FlagMissing | BeforeResolutionUnsupported => Some SevWarning
                                             | _ => None
                                             end)) ms)
  end.
(* the exit code of the process, when the messages can be rendered *)
Definition exit_code (r : result (exit_directives werr) (list (diag werr))) : nat :=
  ed_code (process_diagnostics (fun _ => true) r).

(* ---------- C87: data documents ---------- *)
(* a path split at its first component with a wildcard *)
Definition wildcard (s : string) : Prop :=
  exists a c b, s = a ++ c ++ b /\ (c = "*" \/ c = "?" \/ c = "[").
Definition shown_as (c : VdirModel.component) : string :=
  match c with
  | VdirModel.RootDir => "/" | VdirModel.CurDir => "." | VdirModel.ParentDir => ".."
  | VdirModel.Normal n => n
  end.

(* a document nested under names *)
Inductive nested : list string -> json -> json -> Prop :=
| nested_here v : nested [] v v
| nested_under k ks v d : nested ks v d -> nested (k :: ks) v (JObj [(k, d)]).

(* the name of a data file: a stem and one of the extensions *)
Inductive format := AsJson | AsYaml.
Inductive data_name : string -> string -> format -> Prop :=
| name_json s : s <> "" -> data_name (s ++ ".json") s AsJson
| name_yaml s : s <> "" -> data_name (s ++ ".yaml") s AsYaml
| name_yml s : s <> "" -> data_name (s ++ ".yml") s AsYaml.
Definition content (f : data_file) (fm : format) : option json :=
  match fm with AsJson => df_json f | AsYaml => df_yaml f end.

(* the document of a file, below the directories [dirs] *)
Definition document (dirs : list string) (f : data_file) (d : json) : Prop :=
  exists stem fm v, data_name (df_name f) stem fm /\ content f fm = Some v
    /\ nested (app dirs [stem]) v d.
Definition not_data (f : data_file) : Prop := forall s fm, ~ data_name (df_name f) s fm.

(* one file offered to the interpreter *)
Inductive offers (R : rego) (dirs : list string) (f : data_file)
  : ri_state R -> ri_state R -> option ckerr -> Prop :=
| offers_unreadable s : df_readable f = false -> offers R dirs f s s (Some (AccessDenied (df_name f)))
| offers_skipped s : df_readable f = true -> not_data f -> offers R dirs f s s None
| offers_invalid s st fm :
    df_readable f = true -> data_name (df_name f) st fm -> content f fm = None ->
    offers R dirs f s s (Some (InvalidData (df_name f)))
| offers_document s d :
    df_readable f = true -> document dirs f d -> snd (ri_data R s d) = true ->
    offers R dirs f s (fst (ri_data R s d)) None
| offers_conflict s d :
    df_readable f = true -> document dirs f d -> snd (ri_data R s d) = false ->
    offers R dirs f s (fst (ri_data R s d)) (Some (InvalidData "")).
Definition noted (o : option ckerr) : list ckerr := match o with Some x => [x] | None => [] end.

(* all files found: each that matches is offered, in turn, and no error stops the others *)
Inductive offers_all (R : rego) (base : string) (m : list string -> string -> bool)
  : list found -> ri_state R -> ri_state R -> list ckerr -> Prop :=
| all_none s : offers_all R base m [] s s []
| all_unlisted l s s' es :
    offers_all R base m l s s' es -> offers_all R base m (FoundError :: l) s s' (AccessDenied base :: es)
| all_unmatched f l s s' es :
    m (df_dir f) (df_name f) = false -> offers_all R base m l s s' es ->
    offers_all R base m (FoundFile f :: l) s s' es
| all_matched f l s s1 s' x es :
    m (df_dir f) (df_name f) = true -> offers R (df_dir f) f s s1 x ->
    offers_all R base m l s1 s' es ->
    offers_all R base m (FoundFile f :: l) s s' (app (noted x) es).

(* several errors are one compound error, whose parts are no longer compound *)
Definition collected (es : list ckerr) (r : result unit ckerr) : Prop :=
  (es = [] /\ r = ROk tt)
  \/ (exists x, es = [x] /\ r = RErr x)
  \/ (2 <= length es /\ r = RErr (CompoundError es)).
Definition plain (x : ckerr) : Prop := forall l, x <> CompoundError l.

(* ---------- samples ---------- *)
(* an interpreter whose every rule answers with the input *)
Definition echo_package (src : source) : option string :=
  match src with
  | Builtin _ => Some "data.defaults"
  | File p =>
    if String.eqb p "/r/after.rego" then Some "data.after_resolution"
    else if String.eqb p "/r/before.rego" then Some "data.before_resolution"
    else if String.eqb p "/p/compare.rego" then Some "data.comparison_after_resolution"
    else None
  end.
Definition echo : rego :=
  mk_rego (option json) None (fun s src => (s, echo_package src)) (fun s _ => (s, true))
    (fun _ i => Some i) (fun s _ => (s, s)).
Definition note : LiveModel.finding := mk_finding "naming" None "a note" LiveModel.Information None None.
Definition note_doc : json :=
  JObj [("id", JStr "naming"); ("level", JStr "information"); ("message", JStr "a note")].
Definition quiet : settings := mk_settings false false [ROk ("/p/compare.rego", Some StatFile)].
Definition holding (t : list node) (l : wresult loaded werr) (r : wresult bundle werr) (v : json) : registry :=
  mk_registry "reg" (ROk []) "/r" (Some (NDir "r" (Some t))) l r (ROk (Some v)) (ROk tt) (WOk (Some v)).
