(* The attribute and derive macros of the commands, crates/weaver_macros/src/weaver_command.rs:
   from the annotated fields of a command to the code that fills its settings and to the lines
   added to its help.  The generated code is modelled by what it does on a configuration value;
   tokens, spans and compile errors are not (a statement on a field that does not exist does not
   compile and gives None here).  The lists the macro makes for a test of the developers
   (excluded_args, config_only_fields, field_mappings) are not modelled. *)
From Coq Require Import String Ascii Bool Arith ZArith List.
Import ListNotations.
From Verif Require Import Base Str.
Local Open Scope string_scope.

(* syn::Type as far as it is looked at *)
(* used by field: weaver_command.rs 75-82 *)
Inductive rty := TName (n : string) | TOption (t : rty) | TVec (t : rty).
(* the arguments of #[config(..)] and #[config_only(..)] *)
(* used by fattr: weaver_command.rs 75-82 *)
Inductive meta := MDefault (s : string) | MPath (s : string) | MOptional | MUnknown.
(* used by fattr: weaver_command.rs 75-82 *)
Inductive shared := SRegistry | SPolicy | SDiagnostic.
(* the attributes of a field; of #[shared(..)] the kind it names, if it names one *)
(* used by field: weaver_command.rs 75-82 *)
Inductive fattr := FDoc (s : string) | FShared (k : option shared) | FConfig (args : list meta) | FConfigOnly (args : list meta) | FOther.
(* used by command: weaver_command.rs 75-82 *)
Record field := { fl_name : string; fl_type : rty; fl_attrs : list fattr }.

(* a configuration: the fields of a struct, or one value *)
(* used by command: weaver_command.rs 75-82 *)
Inductive value :=
| VText (s : string) | VPath (s : string) | VAddr (s : string) | VBool (b : bool) | VInt (t : string) (n : Z) | VFloat (t : string) (n : N)
| VOwned (s : string) | VNone | VSome (v : value) | VList (l : list value) | VStruct (l : list (string * value)).

(* weaver_command.rs 75-82: no_policy, config_type with the Default of that type *)
Record command := {
  cm_section : string;
  cm_no_policy : bool;
  cm_external : option value;
  cm_fields : list field }.

(* weaver_command.rs 88-96 *)
Record annotation := { an_default : option string; an_config_only : bool; an_path : option string; an_optional : bool }.
(* as above: weaver_command.rs 88-96 *)
Inductive kind := KShared (k : shared) | KConfig (a : annotation) | KCliOnly.

(* weaver_command.rs 283-317 *)
Definition parse_config_annotation (args : list meta) (config_only : bool) : annotation :=
  fold_left (fun a m => match m with
                        | MDefault s => {| an_default := Some s; an_config_only := an_config_only a; an_path := an_path a; an_optional := an_optional a |}
                        | MPath s => {| an_default := an_default a; an_config_only := an_config_only a; an_path := Some s; an_optional := an_optional a |}
                        | MOptional => {| an_default := an_default a; an_config_only := an_config_only a; an_path := an_path a; an_optional := true |}
                        | MUnknown => a
                        end) args {| an_default := None; an_config_only := config_only; an_path := None; an_optional := false |}.
(* weaver_command.rs 247-281 *)
Fixpoint classify (attrs : list fattr) : kind :=
  match attrs with
  | [] => KCliOnly
  | FShared (Some k) :: _ => KShared k
  | FConfig args :: _ => KConfig (parse_config_annotation args false)
  | FConfigOnly args :: _ => KConfig (parse_config_annotation args true)
  | _ :: rest => classify rest
  end.

(* ---------- help ---------- *)
(* weaver_command.rs 63-72 *)
Fixpoint field_config_default (attrs : list fattr) : option string :=
  match attrs with
  | [] => None
  | FConfig args :: _ => an_default (parse_config_annotation args false)
  | _ :: rest => field_config_default rest
  end.
(* weaver_command.rs 40-47: after the last documentation, or first *)
Fixpoint rposition (p : fattr -> bool) (l : list fattr) : option nat :=
  match l with
  | [] => None
  | a :: r => match rposition p r with Some i => Some (S i) | None => if p a then Some 0 else None end
  end.
(* as above: weaver_command.rs 40-47 *)
Definition insert_at {A} (i : nat) (x : A) (l : list A) : list A := List.app (firstn i l) (x :: skipn i l).
(* as above: weaver_command.rs 40-47 *)
Definition is_doc (a : fattr) : bool := match a with FDoc _ => true | _ => false end.
(* weaver_command.rs 21-58 *)
Definition inject_default_docs (f : field) : field :=
  match field_config_default (fl_attrs f) with
  | None => f
  | Some d =>
    let pos := match rposition is_doc (fl_attrs f) with Some i => i + 1 | None => 0 end in
    {| fl_name := fl_name f; fl_type := fl_type f; fl_attrs := insert_at pos (FDoc ("[default: " ++ d ++ "]")) (fl_attrs f) |}
  end.
(* what clap shows of a field: its documentation *)
(* what clap derives from the attributes of crates/weaver_macros/src/weaver_command.rs 88-96 *)
Definition help_lines (f : field) : list string :=
  flat_map (fun a => match a with FDoc s => [s] | _ => [] end) (fl_attrs f).

(* ---------- types and defaults ---------- *)
(* weaver_command.rs 725-737, 740-746 *)
Definition extract_option_inner (t : rty) : option rty := match t with TOption i => Some i | _ => None end.
(* as above: weaver_command.rs 725-737, weaver_command.rs 740-746 *)
Definition option_inner (t : rty) : rty := match extract_option_inner t with Some i => i | None => t end.
(* crates/weaver_macros/src/weaver_command.rs 744-750 *)
Definition last_type_segment (t : rty) : string := match t with TName n => n | TOption _ => "Option" | TVec _ => "Vec" end.
(* weaver_command.rs 352-362 *)
Definition config_field_type (t : rty) (a : annotation) : rty :=
  match an_default a with Some _ => option_inner t | None => t end.

(* str::parse of the integer types: an optional sign, then at least one digit *)
(* used by parse_digits: weaver_command.rs 399-476 *)
Definition digit_of (c : ascii) : option Z :=
  let n := nat_of_ascii c in if Nat.leb 48 n && Nat.leb n 57 then Some (Z.of_nat (n - 48)) else None.
(* used by parse_number: weaver_command.rs 399-476 *)
Fixpoint parse_digits (acc : Z) (s : string) : option Z :=
  match s with
  | EmptyString => Some acc
  | String c r => match digit_of c with Some d => parse_digits (10 * acc + d)%Z r | None => None end
  end.
(* used by parse_int: weaver_command.rs 399-476 *)
Definition parse_number (s : string) : option Z :=
  match s with EmptyString => None | _ => parse_digits 0%Z s end.
(* used by default_value: weaver_command.rs 399-476 *)
Definition parse_int (signed : bool) (lo hi : Z) (s : string) : option Z :=
  let n := match s with
           | String c r =>
             if Ascii.eqb c "+" then parse_number r
             else if Ascii.eqb c "-" then (if signed then option_map Z.opp (parse_number r) else None)
             else parse_number s
           | EmptyString => None
           end in
  match n with Some z => if (lo <=? z)%Z && (z <=? hi)%Z then Some z else None | None => None end.
(* the bounds of an integer type; usize is 64 bits wide *)
Definition int_type (n : string) : option (bool * Z * Z) :=
  if String.eqb n "u8" then Some (false, 0%Z, 255%Z)
  else if String.eqb n "u16" then Some (false, 0%Z, 65535%Z)
  else if String.eqb n "u32" then Some (false, 0%Z, 4294967295%Z)
  else if String.eqb n "u64" then Some (false, 0%Z, 18446744073709551615%Z)
  else if String.eqb n "usize" then Some (false, 0%Z, 18446744073709551615%Z)
  else if String.eqb n "i8" then Some (true, (-128)%Z, 127%Z)
  else if String.eqb n "i16" then Some (true, (-32768)%Z, 32767%Z)
  else if String.eqb n "i32" then Some (true, (-2147483648)%Z, 2147483647%Z)
  else if String.eqb n "i64" then Some (true, (-9223372036854775808)%Z, 9223372036854775807%Z)
  else None.

Section Macro.
  (* SocketAddr and the floating point types read their texts with the standard library *)
  Variable addr_ok : string -> bool.
  Variable float_parse : string -> string -> option N.

  (* weaver_command.rs 399-476: the value of the generated expression, None when it panics *)
  Definition default_value (t : rty) (d : option string) : option value :=
    match d with
    | None => Some VNone
    | Some s =>
      let n := last_type_segment t in
      if String.eqb n "String" then Some (VText s)
      else if String.eqb n "PathBuf" then Some (VPath s)
      else if String.eqb n "SocketAddr" then if addr_ok s then Some (VAddr s) else None
      else if String.eqb n "bool" then Some (VBool (String.eqb s "true"))
      else match int_type n with
           | Some (signed, lo, hi) => Some (VInt n (match parse_int signed lo hi s with Some z => z | None => 0%Z end))
           | None =>
             if String.eqb n "f32" || String.eqb n "f64" then Some (VFloat n (match float_parse n s with Some x => x | None => 0%N end))
             else Some (VOwned s)
           end
    end.
  (* weaver_command.rs 320-349, 366-396: the fields of the generated struct with their types, and
     its Default *)
  Fixpoint config_fields (fs : list field) : list (string * rty * annotation) :=
    match fs with
    | [] => []
    | f :: r => match classify (fl_attrs f) with
                | KConfig a => match an_path a with
                               | Some _ => config_fields r
                               | None => (fl_name f, fl_type f, a) :: config_fields r
                               end
                | _ => config_fields r
                end
    end.
  (* as above: weaver_command.rs 320-349, weaver_command.rs 366-396 *)
  Definition generated_struct (fs : list field) : list (string * rty) :=
    map (fun x => match x with (n, t, a) => (n, config_field_type t a) end) (config_fields fs).
  (* as above: weaver_command.rs 320-349, weaver_command.rs 366-396 *)
  Fixpoint default_fields (l : list (string * rty * annotation)) : option (list (string * value)) :=
    match l with
    | [] => Some []
    | (n, t, a) :: r =>
      match default_value (option_inner t) (an_default a), default_fields r with
      | Some v, Some vs => Some ((n, v) :: vs)
      | _, _ => None
      end
    end.
  (* as above: weaver_command.rs 320-349, weaver_command.rs 366-396 *)
  Definition default_config (c : command) : option value :=
    match cm_external c with
    | Some v => Some v
    | None => option_map VStruct (default_fields (config_fields (cm_fields c)))
    end.

  (* ---------- overrides ---------- *)
  (* `config.a.b = v` *)
  (* used by override_if_set: weaver_config/src/overrides.rs 163-175 *)
  Fixpoint set_path (p : list string) (x v : value) : option value :=
    match p with
    | [] => Some x
    | k :: r =>
      match v with
      | VStruct l => match slookup k l with
                     | Some w => match set_path r x w with
                                 | Some w' => Some (VStruct (map (fun kv => if String.eqb (fst kv) k then (fst kv, w') else kv) l))
                                 | None => None
                                 end
                     | None => None
                     end
      | _ => None
      end
    end.
  (* weaver_config/src/overrides.rs 163-175 *)
  Definition override_if_set (p : list string) (src : option value) (optional : bool) (c : value) : option value :=
    match src with
    | Some v => set_path p (if optional then VSome v else v) c
    | None => Some c
    end.
  (* weaver_command.rs 570-609: the statement of one field *)
  Definition override_stmt (f : field) : option (list string * bool) :=
    match classify (fl_attrs f) with
    | KConfig a =>
      match an_path a with
      | Some path => Some (split_char "." path, an_optional a)
      | None => match an_default a with
                | Some _ => Some ([fl_name f], false)
                | None => Some ([fl_name f], true)
                end
      end
    | _ => None
    end.
  (* the generated apply_overrides; cli is what the user passed *)
  (* crates/weaver_macros/src/weaver_command.rs 560-600, 667-671 *)
  Definition apply_overrides (c : command) (cli : string -> option value) (cfg : value) : option value :=
    fold_left (fun acc f => match acc, override_stmt f with
                            | Some v, Some (p, optional) => override_if_set p (cli (fl_name f)) optional v
                            | _, _ => acc
                            end) (cm_fields c) (Some cfg).
  (* weaver_command.rs 611-651: whose apply_to the generated method calls *)
  Definition shared_method (k : shared) (c : command) : option string :=
    fold_left (fun acc f => match classify (fl_attrs f), k with
                            | KShared SRegistry, SRegistry | KShared SPolicy, SPolicy | KShared SDiagnostic, SDiagnostic => Some (fl_name f)
                            | _, _ => acc
                            end) (cm_fields c) None.
  (* as above: weaver_command.rs 611-651 *)
  Definition uses_policy (c : command) : bool := negb (cm_no_policy c).
End Macro.

(* ---------- the commands of weaver ---------- *)
(* used by cfg_default: src/serve/mod.rs 25-52 *)
Definition opt (n : string) : rty := TOption (TName n).
(* used by shared_registry: src/serve/mod.rs 25-52 *)
Definition fld (n : string) (t : rty) (attrs : list fattr) : field := {| fl_name := n; fl_type := t; fl_attrs := attrs |}.
(* used by serve_command: src/serve/mod.rs 25-52 *)
Definition shared_registry := fld "registry" (TName "RegistryArgs") [FOther; FShared (Some SRegistry)].
(* used by serve_command: src/serve/mod.rs 25-52 *)
Definition shared_policy := fld "policy" (TName "PolicyArgs") [FOther; FShared (Some SPolicy)].
(* used by serve_command: src/serve/mod.rs 25-52 *)
Definition shared_diagnostic := fld "diagnostic" (TName "DiagnosticArgs") [FOther; FShared (Some SDiagnostic)].
(* used by serve_command: src/serve/mod.rs 25-52 *)
Definition cfg_default (n ty d : string) : field := fld n (opt ty) [FDoc n; FOther; FConfig [MDefault d]].
(* used by serve_command: src/serve/mod.rs 25-52 *)
Definition cfg_plain (n ty : string) : field := fld n (opt ty) [FDoc n; FOther; FConfig []].
(* used by live_check_command: src/registry/live_check.rs 81-197 *)
Definition cfg_path (n ty p : string) : field := fld n (opt ty) [FDoc n; FOther; FConfig [MPath p]].
(* used by update_markdown_command: src/registry/update_markdown.rs 38-92 *)
Definition cli_only (n : string) (t : rty) : field := fld n t [FDoc n; FOther].
(* used by serve_command: src/serve/mod.rs 25-52 *)
Definition cmd (s : string) (no_policy : bool) (fs : list field) : command :=
  {| cm_section := s; cm_no_policy := no_policy; cm_external := None; cm_fields := fs |}.

(* src/serve/mod.rs 25-52 *)
Definition serve_command := cmd "serve" false
  [shared_registry; shared_policy; cfg_default "bind" "SocketAddr" "127.0.0.1:8080"; cfg_plain "cors_origins" "String"; shared_diagnostic].
(* src/registry/stats.rs 23-51 *)
Definition stats_command := cmd "stats" true
  [shared_registry; cfg_default "format" "String" "text"; cfg_default "templates" "PathBuf" "stats_templates"; cfg_plain "output" "PathBuf"; shared_diagnostic].
(* src/registry/emit.rs 20-47 *)
Definition emit_command := cmd "emit" false
  [shared_registry; shared_policy; shared_diagnostic; cfg_default "stdout" "bool" "false"; cfg_default "endpoint" "String" "http://localhost:4317"].
(* src/registry/mcp.rs 23-57 *)
Definition mcp_command := cmd "mcp" true
  [shared_registry; shared_diagnostic; cfg_plain "advice_policies" "PathBuf"; cfg_plain "advice_preprocessor" "PathBuf"; cfg_plain "advice_data" "String";
   cfg_default "namespace_separator" "String" "."].
(* src/registry/update_markdown.rs 38-92 *)
Definition update_markdown_command := cmd "update-markdown" true
  [fld "markdown_dir" (opt "String") [FDoc "markdown_dir"; FConfigOnly []]; shared_registry; cfg_default "dry_run" "bool" "false";
   cfg_plain "attribute_registry_base_url" "String"; cli_only "param" (TOption (TVec (TName "(String, Value)"))); cli_only "params" (opt "PathBuf");
   cfg_default "templates" "String" "templates"; cfg_plain "target" "String"; shared_diagnostic].
(* src/registry/package.rs 25-52 *)
Definition package_command := cmd "package" false
  [shared_registry; cfg_default "output" "PathBuf" "output"; cfg_plain "resolved_registry_uri" "String"; shared_policy; shared_diagnostic].
(* src/registry/generate.rs 27-75 *)
Definition generate_command := cmd "generate" false
  [fld "target" (opt "String") [FDoc "target"; FConfigOnly [MDefault ""]]; fld "output" (opt "PathBuf") [FDoc "output"; FConfigOnly [MDefault "output"]];
   cfg_default "templates" "String" "templates"; cli_only "config" (TOption (TVec (TName "PathBuf"))); cli_only "param" (TOption (TVec (TName "(String, Value)")));
   cli_only "params" (opt "PathBuf"); shared_registry; shared_policy; cli_only "future" (TName "bool"); shared_diagnostic].
(* src/registry/infer.rs 32-64 *)
Definition infer_command := cmd "infer" true
  [shared_diagnostic; cfg_default "output" "PathBuf" "./inferred-registry/"; cfg_default "grpc_address" "String" "0.0.0.0"; cfg_default "grpc_port" "u16" "4317";
   cfg_default "admin_port" "u16" "8080"; cfg_default "inactivity_timeout" "u64" "60"].
(* src/registry/diff.rs 24-56 *)
Definition diff_command := cmd "diff" true
  [shared_registry; cli_only "baseline_registry" (TName "VirtualDirectoryPath"); cfg_default "format" "String" "ansi"; cfg_default "templates" "PathBuf" "diff_templates";
   cfg_plain "output" "PathBuf"; shared_diagnostic].
(* src/registry/check.rs 18-38 *)
Definition check_command := cmd "check" false
  [shared_registry; cli_only "baseline_registry" (opt "VirtualDirectoryPath"); shared_policy; shared_diagnostic].
(* weaver_config/src/live_check.rs 137-208; fail_on is an enum, kept as the text it is read from *)
Definition live_check_default : value :=
  VStruct [("finding_filters", VList []); ("finding_level_overrides", VList []); ("input_source", VText "otlp"); ("input_format", VText "json");
           ("format", VText "ansi"); ("templates", VPath "live_check_templates"); ("no_stream", VBool false); ("no_stats", VBool false);
           ("fail_on", VOwned "violation"); ("output", VNone); ("advice_policies", VNone); ("advice_data", VNone); ("advice_preprocessor", VNone);
           ("otlp", VStruct [("grpc_address", VText "0.0.0.0"); ("grpc_port", VInt "u16" 4317); ("admin_port", VInt "u16" 4320); ("inactivity_timeout", VInt "u64" 10)]);
           ("emit", VStruct [("otlp_logs", VBool false); ("otlp_logs_endpoint", VText "http://localhost:4317"); ("otlp_logs_stdout", VBool false)])].
(* src/registry/live_check.rs 81-197 *)
Definition live_check_command : command :=
  {| cm_section := "live-check"; cm_no_policy := false; cm_external := Some live_check_default;
     cm_fields :=
       [shared_registry; shared_policy; shared_diagnostic; cfg_default "input_source" "String" "otlp"; cfg_default "input_format" "String" "json";
        cfg_default "format" "String" "ansi"; cfg_default "templates" "PathBuf" "live_check_templates"; cfg_default "no_stream" "bool" "false";
        cfg_default "no_stats" "bool" "false"; cfg_default "fail_on" "FailOnLevel" "violation"; cfg_plain "output" "PathBuf";
        cfg_path "otlp_grpc_address" "String" "otlp.grpc_address"; cfg_path "otlp_grpc_port" "u16" "otlp.grpc_port"; cfg_path "emit_otlp_logs" "bool" "emit.otlp_logs";
        cfg_path "otlp_logs_endpoint" "String" "emit.otlp_logs_endpoint"; cfg_path "otlp_logs_stdout" "bool" "emit.otlp_logs_stdout";
        cfg_path "admin_port" "u16" "otlp.admin_port"; cfg_path "inactivity_timeout" "u64" "otlp.inactivity_timeout";
        cfg_plain "advice_policies" "PathBuf"; cfg_plain "advice_data" "String"; cfg_plain "advice_preprocessor" "PathBuf"] |}.
(* as above: src/registry/live_check.rs 81-197 *)
Definition commands : list command :=
  [serve_command; stats_command; emit_command; mcp_command; update_markdown_command; package_command; generate_command; infer_command; diff_command;
   check_command; live_check_command].
