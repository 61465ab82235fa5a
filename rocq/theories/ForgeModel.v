(* Template configuration, template loading and artifact generation.
   Models crates/weaver_forge/src/{config,file_loader,lib,jq,output_processor}.rs and
   generate_params of src/registry/generate.rs.
   The YAML reader, the jq and Jinja engines, glob matching and path canonicalisation are
   parameters. *)
From Coq Require Import String Ascii Bool Arith List.
Import ListNotations.
From Verif Require Import Base Json SemTypes Str OtelModel VdirModel.
Local Open Scope string_scope.

(* YAML values are JSON values here *)
(* crates/weaver_forge/src/config.rs 116-120 *)
Definition params := list (string * json).

(* config.rs 243-256 *)
Record tsyntax := {
  ts_block_start : option string; ts_block_end : option string;
  ts_variable_start : option string; ts_variable_end : option string;
  ts_comment_start : option string; ts_comment_end : option string
}.

(* config.rs 288-298 *)
Record wsc := { ws_trim_blocks : option bool; ws_lstrip_blocks : option bool; ws_keep_newline : option bool }.

(* config.rs 134-141 *)
Inductive amode := Single | Each.

(* config.rs 171-217; the glob is its text *)
Record tconf := {
  tc_template : string; tc_filter : string; tc_mode : amode; tc_params : option params;
  tc_file_name : option string; tc_escape : string; tc_when : option string
}.

(* config.rs 43-79.  Comment formats are kept as JSON values. *)
Record fconf := {
  fc_type_mapping : option (list (string * string));
  fc_text_maps : option (list (string * list (string * string)));
  fc_syntax : tsyntax;
  fc_ws : wsc;
  fc_comment_formats : option (list (string * json));
  fc_default_comment : option string;
  fc_params : option params;
  fc_templates : option (list tconf);
  fc_acronyms : option (list string)
}.

(* config.rs 476-499 *)
Definition fconf_default : fconf :=
  {| fc_type_mapping := None; fc_text_maps := None;
     fc_syntax := {| ts_block_start := Some "{%"; ts_block_end := Some "%}";
                     ts_variable_start := Some "{{"; ts_variable_end := Some "}}";
                     ts_comment_start := Some "{#"; ts_comment_end := Some "#}" |};
     fc_ws := {| ws_trim_blocks := None; ws_lstrip_blocks := None; ws_keep_newline := None |};
     fc_comment_formats := None; fc_default_comment := None; fc_params := None;
     fc_templates := None; fc_acronyms := None |}.

(* if child.f.is_some() { self.f = child.f } *)
(* used by syntax_override: config.rs 258-283 *)
Definition over {A} (self child : option A) : option A := match child with Some _ => child | None => self end.

(* config.rs 258-283 *)
Definition syntax_override (s o : tsyntax) : tsyntax :=
  {| ts_block_start := over (ts_block_start s) (ts_block_start o);
     ts_block_end := over (ts_block_end s) (ts_block_end o);
     ts_variable_start := over (ts_variable_start s) (ts_variable_start o);
     ts_variable_end := over (ts_variable_end s) (ts_variable_end o);
     ts_comment_start := over (ts_comment_start s) (ts_comment_start o);
     ts_comment_end := over (ts_comment_end s) (ts_comment_end o) |}.

(* config.rs 300-315 *)
Definition ws_override (s o : wsc) : wsc :=
  {| ws_trim_blocks := over (ws_trim_blocks s) (ws_trim_blocks o);
     ws_lstrip_blocks := over (ws_lstrip_blocks s) (ws_lstrip_blocks o);
     ws_keep_newline := over (ws_keep_newline s) (ws_keep_newline o) |}.

(* BTreeMap::remove *)
(* used by override_param: config.rs 660-681 *)
Definition p_remove (k : string) (m : params) : params := filter (fun e => negb (String.eqb (fst e) k)) m.

(* config.rs 660-681: one parameter of the overriding file *)
Definition override_param (self : option params) (kv : string * json) : option params :=
  let '(key, value) := kv in
  match value with
  | JNull => match self with Some m => Some (p_remove key m) | None => None end
  | _ => Some (bt_insert key value (opt_get self []))
  end.

(* used by override_with: config.rs 630-681 *)
Definition override_params (self : option params) (child : option params) : option params :=
  match child with
  | None => self
  | Some ps => fold_left override_param ps self
  end.

(* config.rs 630-681 *)
Definition override_with (self child : fconf) : fconf :=
  {| fc_type_mapping := over (fc_type_mapping self) (fc_type_mapping child);
     fc_text_maps := over (fc_text_maps self) (fc_text_maps child);
     fc_syntax := syntax_override (fc_syntax self) (fc_syntax child);
     fc_ws := ws_override (fc_ws self) (fc_ws child);
     fc_comment_formats := over (fc_comment_formats self) (fc_comment_formats child);
     fc_default_comment := over (fc_default_comment self) (fc_default_comment child);
     fc_params := override_params (fc_params self) (fc_params child);
     fc_templates := over (fc_templates self) (fc_templates child);
     fc_acronyms := over (fc_acronyms self) (fc_acronyms child) |}.

(* fs::read_to_string: no such file, a file that cannot be read as text, or its text *)
(* used by resolve_from: crates/weaver_forge/src/config.rs 547-569 *)
Inductive fread := FMissing | FBad | FText (s : string).

Section Resolve.
  (* serde_yaml::from_str::<WeaverConfig> *)
  Variable parse : string -> res fconf.

  (* config.rs 547-569: the contents of the files, lowest precedence first *)
  Fixpoint resolve_into (config : fconf) (contents : list string) : res fconf :=
    match contents with
    | [] => Ok config
    | c :: r =>
      match parse c with
      | Err e => Err e
      | Ok child => resolve_into (override_with config child) r
      end
    end.
  (* crates/weaver_forge/src/config.rs 547-569 *)
  Definition resolve_from (contents : list string) : res fconf :=
    match contents with [] => Ok fconf_default | _ => resolve_into fconf_default contents end.

  (* The file system: a directory is the list of its names from the root. *)
  Variable read : list string -> fread.

  (* if let Ok(content) = try_from_path(..) *)
  (* used by climb: config.rs 571-600 *)
  Definition readable (r : fread) : list string := match r with FText s => [s] | _ => [] end.

  (* path.join("weaver.yaml") for the directory and all its parents, nearest first; the
     argument is the directory with its innermost name first *)
  (* used by collect_from_path: config.rs 571-600 *)
  Fixpoint climb (rdir : list string) : list string :=
    app (readable (read (app (rev rdir) ["weaver.yaml"])))
        (match rdir with [] => [] | _ :: parent => climb parent end).

  (* config.rs 571-600 *)
  Definition collect_from_path (dir : list string) (home : option (list string)) : list string :=
    rev (app (climb (rev dir))
             (match home with
              | Some h => readable (read (app h [".weaver"; "weaver.yaml"]))
              | None => []
              end)).

  (* config.rs 505-509 *)
  Definition try_from_path (dir : list string) (home : option (list string)) : res fconf :=
    resolve_from (collect_from_path dir home).

  (* config.rs 516-523 *)
  Fixpoint read_all (files : list (list string)) : res (list string) :=
    match files with
    | [] => Ok []
    | f :: r =>
      match read f with
      | FMissing | FBad => Err "cannot read"
      | FText c => match read_all r with Ok cs => Ok (c :: cs) | Err e => Err e end
      end
    end.
  (* crates/weaver_forge/src/config.rs 516-522 *)
  Definition try_from_config_files (files : list (list string)) : res fconf :=
    match read_all files with Ok cs => resolve_from cs | Err e => Err e end.
End Resolve.

(* config.rs 693-703: one acronym of the project file.  Case is ASCII case. *)
Fixpoint merge_acronym (merged : list string) (a : string) : list string :=
  match merged with
  | [] => [a]
  | e :: r => if String.eqb (lower e) (lower a) then a :: r else e :: merge_acronym r a
  end.

(* config.rs 688-704 *)
Definition merge_acronyms (self incoming : option (list string)) : option (list string) :=
  match incoming with
  | None => self
  | Some l => Some (fold_left merge_acronym l (opt_get self []))
  end.

(* config.rs 711-718 *)
Definition merge_text_maps (self incoming : option (list (string * list (string * string))))
  : option (list (string * list (string * string))) :=
  match incoming with
  | None => self
  | Some l => Some (fold_left (fun m e => sinsert (fst e) (snd e) m) l (opt_get self []))
  end.

(* ** Parameters *)

(* src/registry/generate.rs 80-92; [yaml] reads a value *)
Definition parse_key_val (yaml : string -> res json) (s : string) : res (string * json) :=
  match split_once "="%char s with
  | None => Err "A valid parameter definition is `--param <name>=<yaml-value>`"
  | Some (k, v) => match yaml v with Ok j => Ok (k, j) | Err e => Err e end
  end.

(* generate.rs 186-213: the file's parameters, then the ones of the command line in order *)
Definition generate_params (file : params) (direct : option (list (string * json))) : params :=
  match direct with
  | None => file
  | Some l => fold_left (fun m e => sinsert (fst e) (snd e) m) l file
  end.

(* lib.rs 223-247: the parameters of one template *)
Definition template_params (cli : params) (file_level : option params) (own : option params) : params :=
  let p := opt_get own [] in
  let p := fold_left (fun m e => bt_insert (fst e) (snd e) m) cli p in
  match file_level with
  | None => p
  | Some top =>
    fold_left (fun m e => if has_key String.eqb (fst e) m then m else bt_insert (fst e) (snd e) m) top p
  end.

(* lib.rs 300-315: the parameters of a snippet *)
Definition snippet_params (cli : params) (file_level : option params) : params :=
  fold_left (fun m e => bt_insert (fst e) (snd e) m) cli (opt_get file_level []).

(* lib.rs 644-668: all parameters are also available as one parameter named params *)
Definition init_params (p : params) : res params :=
  if has_key String.eqb "params" p then Err "The parameter `params` is a reserved parameter name"
  else Ok (bt_insert "params" (JObj p) p).

(* ** Loading *)

(* Path::starts_with on canonical paths: component-wise *)
(* used by safe_join: file_loader.rs 229-259 *)
Fixpoint path_prefix (root p : list string) : bool :=
  match root, p with
  | [], _ => true
  | a :: r, b :: q => String.eqb a b && path_prefix r q
  | _ :: _, [] => false
  end.

Section Loader.
  (* canonicalize: the canonical absolute path, if it exists.  Paths are texts; PathBuf::push
     of an absolute path replaces the path. *)
  Variable canonicalize : string -> option (list string).
  (* read_to_string on a canonical path *)
  Variable read_file : list string -> fread.

  (* used by safe_join: file_loader.rs 229-259 *)
  Definition push (root sub : string) : string :=
    match sub with
    | String "/"%char _ => sub
    | _ => root ++ "/" ++ sub
    end.

  (* file_loader.rs 229-259 *)
  Definition safe_join (root sub : string) : option (list string) :=
    match canonicalize root with
    | None => None
    | Some r =>
      match canonicalize (push root sub) with
      | None => None
      | Some p => if path_prefix r p then Some p else None
      end
    end.

  (* file_loader.rs 207-224: nothing, an error, or the file read and its content *)
  Definition load_file (root file : string) : res (option (list string * string)) :=
    match safe_join root file with
    | None => Ok None
    | Some p =>
      match read_file p with
      | FText c => Ok (Some (p, c))
      | FMissing => Ok None
      | FBad => Err "cannot read"
      end
    end.
End Loader.

(* include_dir: a directory compiled into the program *)
(* used by collect_files: crates/weaver_forge/src/file_loader.rs 117-127 *)
Inductive enode := EFile (name content : string) | EDir (name : string) (entries : list enode).

(* file_loader.rs 112-124: collect_files.  The path of every file is stripped of the path of
   the directory that contains it. *)
Fixpoint strip_path (dir p : list string) : option (list string) :=
  match dir, p with
  | [], _ => Some p
  | a :: d, b :: q => if String.eqb a b then strip_path d q else None
  | _ :: _, [] => None
  end.
(* crates/weaver_forge/src/file_loader.rs 117-127 *)
Fixpoint collect_files (dir_path : list string) (n : enode) : list (list string) :=
  match n with
  | EFile name _ =>
    match strip_path dir_path (app dir_path [name]) with Some p => [p] | None => [] end
  | EDir name entries => flat_map (collect_files (app dir_path [name])) entries
  end.

(* the files listed for the target directory with the given path and entries *)
(* crates/weaver_forge/src/file_loader.rs 116-137 *)
Definition embedded_all_files (dir_path : list string) (entries : list enode) : list (list string) :=
  flat_map (collect_files dir_path) entries.

(* include_dir's get_file: the file with this full path *)
(* used by embedded_load: file_loader.rs 133-153 *)
Fixpoint get_file (dir_path : list string) (n : enode) (p : list string) : option string :=
  match n with
  | EFile name content =>
    if list_eq_dec string_dec (app dir_path [name]) p then Some content else None
  | EDir name entries =>
    (fix go (l : list enode) : option string :=
       match l with
       | [] => None
       | x :: r => match get_file (app dir_path [name]) x p with Some c => Some c | None => go r end
       end) entries
  end.
(* used by embedded_load: file_loader.rs 133-153 *)
Fixpoint first_some {A B} (f : A -> option B) (l : list A) : option B :=
  match l with [] => None | x :: r => match f x with Some b => Some b | None => first_some f r end end.

(* file_loader.rs 133-153, without local templates *)
Definition embedded_load (target : list string) (entries : list enode) (file : list string) : option string :=
  first_some (fun n => get_file target n (app target file)) entries.

(* ** Generation *)

(* used by ostate: output_processor.rs 281-308, output_processor.rs 372-414 *)
Definition fs := list (string * string). (* path text -> content *)

(* fs::write *)
(* crates/weaver_forge/src/lib.rs 857-886 *)
Definition write (st : fs) (w : string * string) : fs := sinsert (fst w) (snd w) st.

Section Generate.
  (* jq: the stream of results, or an error *)
  Variable jq : json -> string -> params -> res (list json).
  (* Jinja: text and final file name of a template file for a context *)
  Variable render : json -> params -> string -> option string -> string -> res (string * string).
  (* does the glob of a template configuration match a template file *)
  Variable matches : string -> string -> bool.

  (* jq.rs 41-150: a single result is returned as it is, else the array of results *)
  Definition execute_jq (ctx : json) (expr : string) (p : params) : res json :=
    match jq ctx expr p with
    | Err e => Err e
    | Ok [v] => Ok v
    | Ok vs => Ok (JArr vs)
    end.

  (* lib.rs 471-499 *)
  Definition evaluate_when (t : tconf) (ctx : json) (p : params) : res bool :=
    match tc_when t with
    | None => Ok true
    | Some w =>
      match execute_jq ctx w p with
      | Err e => Err e
      | Ok (JBool b) => Ok b
      | Ok _ => Err "WhenClauseNotBoolean"
      end
    end.

  (* What a piece of work does: write a file, or fail *)
  (* used by evaluate_template: lib.rs 746-773, lib.rs 857-886 *)
  Inductive work := Write (path content : string) | Fail (e : string).

  (* lib.rs 746-773 and 857-886: PathBuf::join replaces when the name is absolute *)
  Definition evaluate_template (out_dir : string) (t : tconf) (file : string) (p : params) (item : json) : work :=
    match render item p file (tc_file_name t) (tc_escape t) with
    | Err e => Fail e
    | Ok (content, name) => Write (push out_dir name) content
    end.

  (* lib.rs 501-613: the pieces of work of one template configuration and one file *)
  Definition items (mode : amode) (v : json) : list json :=
    match mode with
    | Single => match v with JNull | JArr [] => [] | _ => [v] end
    | Each => match v with JArr vs => vs | _ => [v] end
    end.
  (* crates/weaver_forge/src/lib.rs 498-543 *)
  Definition process_template (out_dir : string) (ctx : json) (file : string) (t : tconf) : list work :=
    match init_params (opt_get (tc_params t) []) with
    | Err e => [Fail e]
    | Ok p =>
      match evaluate_when t ctx p with
      | Err e => [Fail e]
      | Ok false => []
      | Ok true =>
        match execute_jq ctx (tc_filter t) p with
        | Err e => [Fail e]
        | Ok v => map (evaluate_template out_dir t file p) (items (tc_mode t) v)
        end
      end
    end.

  (* lib.rs 423-459: all pieces of work, for every file and every matching configuration *)
  Definition all_work (out_dir : string) (ctx : json) (files : list string) (ts : list tconf) : list work :=
    flat_map (fun f => flat_map (process_template out_dir ctx f) (filter (fun t => matches (tc_template t) f) ts)) files.

  (* They run in parallel: a run executes them in some order. *)
  (* crates/weaver_forge/src/lib.rs 423-459 *)
  Definition execute (sched : list work) (st : fs) : fs * list string :=
    fold_left (fun acc w =>
      match w with
      | Write p c => (write (fst acc) (p, c), snd acc)
      | Fail e => (fst acc, app (snd acc) [e])
      end) sched (st, []).

  (* handle_errors: the command succeeds when there is no error *)
  (* crates/weaver_forge/src/lib.rs 423-459 *)
  Definition succeeded (r : fs * list string) : bool := match snd r with [] => true | _ => false end.

  (* lib.rs 249-275: a configured template that matches no file is an error *)
  Definition unmatched (files : list string) (ts : list tconf) : list tconf :=
    filter (fun t => negb (existsb (matches (tc_template t)) files)) ts.
End Generate.

(* ** Output of reports: output_processor.rs *)

(* used by extension: crates/weaver_forge/src/output_processor.rs 78-84 *)
Inductive bformat := BJson | BYaml | BJsonl.
(* used by generate_report: output_processor.rs 281-308, output_processor.rs 372-414 *)
Inductive target := TStdout | TStderr | TFile (p : string) | TDir (p : string).

(* crates/weaver_forge/src/output_processor.rs 78-84 *)
Definition extension (f : bformat) : string :=
  match f with BJson => "json" | BYaml => "yaml" | BJsonl => "jsonl" end.

(* The state of a processor with a built-in format: whether its file is open.  [ser] is the
   serialiser.  Returns the new state, file system and the text printed. *)
Section Output.
  Variable ser : bformat -> json -> string.

  (* used by generate_report: output_processor.rs 281-308, output_processor.rs 372-414 *)
  Definition nl1 : string := String "010"%char "".

  (* used by generate_report: output_processor.rs 281-308, output_processor.rs 372-414 *)
  Record ostate := { os_open : option string; os_fs : fs; os_printed : string }.

  (* output_processor.rs 281-308, 372-414 *)
  Definition generate_report (fmt : bformat) (prefix : string) (tgt : target) (st : ostate) (data : json) : ostate :=
    let st1 := match os_open st with
               | Some _ => st
               | None =>
                 match tgt with
                 | TFile p => {| os_open := Some p; os_fs := sinsert p "" (os_fs st); os_printed := os_printed st |}
                 | TDir p => let f := push p (prefix ++ "." ++ extension fmt) in
                             {| os_open := Some f; os_fs := sinsert f "" (os_fs st); os_printed := os_printed st |}
                 | _ => st
                 end
               end in
    let content := ser fmt data in
    match os_open st1 with
    | None => {| os_open := None; os_fs := os_fs st1; os_printed := os_printed st1 ++ content ++ nl1 |}
    | Some f =>
      let line := match fmt with BJsonl => content ++ nl1 | _ => content end in
      {| os_open := Some f;
         os_fs := sinsert f (opt_get (slookup f (os_fs st1)) "" ++ line) (os_fs st1);
         os_printed := os_printed st1 |}
    end.
End Output.
