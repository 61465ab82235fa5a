(* Layered configuration: defaults, then .weaver.toml, then the command line.
   Models crates/weaver_config/src/{effective,lib,overrides}.rs, load_config and
   resolve_weaver_config of src/registry/mod.rs and DiagnosticArgs of src/main.rs.
   TOML parsing is not modelled: a configuration file is the record of what it sets,
   a command section the list of its raw values with a decoder per field. *)
From Coq Require Import String Ascii Bool Arith List.
Import ListNotations.
From Verif Require Import Base SemTypes Str VdirModel UrlModel.
Local Open Scope string_scope.
Local Open Scope list_scope.

(* weaver_config/src/registry.rs 16-28 *)
Record registry_config := mk_registry_config {
  rc_path : option string;
  rc_follow_symlinks : option bool;
  rc_include_unreferenced : option bool;
  rc_v2 : option bool }.

(* weaver_config/src/registry.rs 31-41 *)
Record policy_config := mk_policy_config {
  pc_paths : option (list string);
  pc_skip : option bool;
  pc_display : option bool }.

(* weaver_config/src/registry.rs 44-54 *)
Record diagnostics_config := mk_diagnostics_config {
  dc_format : option string;
  dc_template : option string;
  dc_stdout : option bool }.

(* effective.rs 31-40 *)
Record eff_registry := mk_eff_registry {
  er_registry : vdir_path;
  er_follow_symlinks : bool;
  er_include_unreferenced : bool;
  er_v2 : bool }.

(* effective.rs 76-85 *)
Record eff_policy := mk_eff_policy {
  ep_policies : list vdir_path;
  ep_skip : bool;
  ep_display : bool }.

(* effective.rs 113-121 *)
Record eff_diagnostic := mk_eff_diagnostic {
  ed_format : string;
  ed_template : string;
  ed_stdout : bool }.

(* effective.rs 17-18 *)
Definition DEFAULT_REGISTRY : string :=
  "https://github.com/open-telemetry/semantic-conventions.git[model]".

(* effective.rs 42-53; the expect cannot fail, see default_registry_parses *)
Definition eff_registry_default : eff_registry :=
  mk_eff_registry
    (match parse_vdir DEFAULT_REGISTRY with Some v => v | None => LocalFolder "" end)
    false false false.

(* effective.rs 57-73: layer_config *)
Definition layer_registry (e : eff_registry) (cfg : registry_config) : eff_registry :=
  mk_eff_registry
    (match rc_path cfg with
     | Some path => match parse_vdir path with Some parsed => parsed | None => er_registry e end
     | None => er_registry e
     end)
    (match rc_follow_symlinks cfg with Some v => v | None => er_follow_symlinks e end)
    (match rc_include_unreferenced cfg with Some v => v | None => er_include_unreferenced e end)
    (match rc_v2 cfg with Some v => v | None => er_v2 e end).

(* effective.rs 75: derived Default *)
Definition eff_policy_default : eff_policy := mk_eff_policy [] false false.

(* effective.rs 90-95 *)
Definition policy_skip_all : eff_policy := mk_eff_policy [] true false.

(* used by layer_policy: effective.rs 98-108 *)
Fixpoint filter_map {A B} (f : A -> option B) (l : list A) : list B :=
  match l with
  | [] => []
  | x :: r => match f x with Some y => y :: filter_map f r | None => filter_map f r end
  end.

(* effective.rs 98-108 *)
Definition layer_policy (e : eff_policy) (cfg : policy_config) : eff_policy :=
  mk_eff_policy
    (match pc_paths cfg with Some paths => filter_map parse_vdir paths | None => ep_policies e end)
    (match pc_skip cfg with Some v => v | None => ep_skip e end)
    (match pc_display cfg with Some v => v | None => ep_display e end).

(* effective.rs 123-131 *)
Definition eff_diagnostic_default : eff_diagnostic :=
  mk_eff_diagnostic "ansi" "diagnostic_templates" false.

(* effective.rs 135-146 *)
Definition layer_diagnostic (e : eff_diagnostic) (cfg : diagnostics_config) : eff_diagnostic :=
  mk_eff_diagnostic
    (match dc_format cfg with Some v => v | None => ed_format e end)
    (match dc_template cfg with Some v => v | None => ed_template e end)
    (match dc_stdout cfg with Some v => v | None => ed_stdout e end).

Section Load.
  Variable url_parse : string -> option parsed_url.
  (* The values of a command's settings and of its raw TOML section. *)
  Variables (val raw : Type).

  (* effective.rs 159-181: one entry of [resolve.schema_url_overrides] at a time; the
     map is keyed by the text of the schema URL *)
  Definition layer_resolve (e : list (string * vdir_path)) (cfg : list (string * string))
    : list (string * vdir_path) :=
    fold_left (fun acc kv =>
      match schema_url_new url_parse (fst kv) with
      | Err _ => acc
      | Ok u => match parse_vdir (snd kv) with
                | None => acc
                | Some p => bt_insert (su_url u) p acc
                end
      end) cfg e.

  (* The settings of one command: per field its default (fields without a default are
     optional and start unset), and the decoder of its TOML value. *)
  (* used by command_config: lib.rs 73-78 *)
  Record command_spec := mk_command_spec {
    cs_section : string;
    cs_default : list (string * option val);
    cs_decode : string -> raw -> option val;
    cs_uses_policy : bool }.

  (* weaver_config/src/lib.rs 47-66 *)
  Record weaver_config := mk_weaver_config {
    wc_registry : registry_config;
    wc_policy : policy_config;
    wc_diagnostics : diagnostics_config;
    wc_resolve : list (string * string);
    wc_commands : list (string * list (string * raw)) }.

  (* serde deserialisation of a section with #[serde(default)]: every known field
     that is present must decode, absent fields keep their default, unknown fields
     are ignored *)
  (* used by command_config: lib.rs 73-78 *)
  Fixpoint decode_section (decode : string -> raw -> option val)
    (defaults : list (string * option val)) (section : list (string * raw))
    : option (list (string * option val)) :=
    match defaults with
    | [] => Some []
    | (f, d) :: rest =>
      match decode_section decode rest section with
      | None => None
      | Some l =>
        match slookup f section with
        | None => Some ((f, d) :: l)
        | Some r => match decode f r with
                    | Some v => Some ((f, Some v) :: l)
                    | None => None
                    end
        end
      end
    end.

  (* lib.rs 73-78: command_config, unwrap_or_default *)
  Definition command_config (cs : command_spec) (wc : weaver_config) : list (string * option val) :=
    match slookup (cs_section cs) (wc_commands wc) with
    | None => cs_default cs
    | Some section =>
      match decode_section (cs_decode cs) (cs_default cs) section with
      | Some c => c
      | None => cs_default cs
      end
    end.

  (* weaver_macros: the derived apply_overrides is one override_if_set! per field
     (overrides.rs 163-175) *)
  Definition apply_overrides (cli : list (string * val)) (c : list (string * option val))
    : list (string * option val) :=
    map (fun fd => match slookup (fst fd) cli with
                   | Some v => (fst fd, Some v)
                   | None => fd
                   end) c.

  (* src/registry/mod.rs 179-196, 245-256 and main.rs 33-47: what the user passed *)
  Record cli_args := mk_cli_args {
    ca_registry : option vdir_path;
    ca_follow_symlinks : option bool;
    ca_include_unreferenced : option bool;
    ca_v2 : option bool;
    ca_policies : option (list vdir_path);
    ca_skip_policies : option bool;
    ca_display : option bool;
    ca_format : option string;
    ca_template : option string;
    ca_stdout : option bool;
    ca_command : list (string * val) }.

  (* src/registry/mod.rs 221-234: RegistryArgs::apply_to *)
  Definition apply_registry (a : cli_args) (e : eff_registry) : eff_registry :=
    mk_eff_registry
      (match ca_registry a with Some v => v | None => er_registry e end)
      (match ca_follow_symlinks a with Some v => v | None => er_follow_symlinks e end)
      (match ca_include_unreferenced a with Some v => v | None => er_include_unreferenced e end)
      (match ca_v2 a with Some v => v | None => er_v2 e end).

  (* src/registry/mod.rs 270-280: PolicyArgs::apply_to *)
  Definition apply_policy (a : cli_args) (e : eff_policy) : eff_policy :=
    mk_eff_policy
      (match ca_policies a with Some v => v | None => ep_policies e end)
      (match ca_skip_policies a with Some v => v | None => ep_skip e end)
      (match ca_display a with Some v => v | None => ep_display e end).

  (* src/main.rs 59-69: DiagnosticArgs::apply_to *)
  Definition apply_diagnostic (a : cli_args) (e : eff_diagnostic) : eff_diagnostic :=
    mk_eff_diagnostic
      (match ca_format a with Some v => v | None => ed_format e end)
      (match ca_template a with Some v => v | None => ed_template e end)
      (match ca_stdout a with Some v => v | None => ed_stdout e end).

  (* src/main.rs 72-82: to_effective *)
  Definition to_effective (a : cli_args) (cfg : option weaver_config) : eff_diagnostic :=
    apply_diagnostic a
      (match cfg with
       | Some wc => layer_diagnostic eff_diagnostic_default (wc_diagnostics wc)
       | None => eff_diagnostic_default
       end).

  (* overrides.rs 20-30 *)
  Record loaded := mk_loaded {
    ld_config : list (string * option val);
    ld_registry : eff_registry;
    ld_policy : eff_policy;
    ld_resolve : list (string * vdir_path) }.

  (* src/registry/mod.rs 335-375: load_config *)
  Definition load_config (cs : command_spec) (a : cli_args) (cfg : option weaver_config) : loaded :=
    let config := apply_overrides (ca_command a)
      (match cfg with Some wc => command_config cs wc | None => cs_default cs end) in
    let registry := apply_registry a
      (match cfg with
       | Some wc => layer_registry eff_registry_default (wc_registry wc)
       | None => eff_registry_default
       end) in
    let policy :=
      if cs_uses_policy cs then
        apply_policy a
          (match cfg with
           | Some wc => layer_policy eff_policy_default (wc_policy wc)
           | None => eff_policy_default
           end)
      else policy_skip_all in
    let resolve :=
      match cfg with Some wc => layer_resolve [] (wc_resolve wc) | None => [] end in
    mk_loaded config registry policy resolve.

  (* ---------------------------------------------------------------- *)
  (* Finding the file *)

  (* lib.rs 85-96: discover.  A directory is the list of its names from the
     innermost outwards; [is_file d] says whether d contains a .weaver.toml file. *)
  Fixpoint discover (is_file : list string -> bool) (current : list string) : option (list string) :=
    if is_file current then Some current
    else match current with
         | [] => None
         | _ :: parent => discover is_file parent
         end.

  (* lib.rs 103-112, 122-130 and src/registry/mod.rs 289-324: resolve_weaver_config.
     [read p] is the file's content when it can be read and parsed.  The current
     directory is assumed available. *)
  Definition resolve_weaver_config (is_file : list string -> bool)
    (load_explicit : string -> res weaver_config) (load_dir : list string -> res weaver_config)
    (explicit_path : option string) (cwd : list string) : res (option weaver_config) :=
    match explicit_path with
    | Some path => match load_explicit path with Ok wc => Ok (Some wc) | Err e => Err e end
    | None =>
      match discover is_file cwd with
      | Some d => match load_dir d with Ok wc => Ok (Some wc) | Err e => Err e end
      | None => Ok None
      end
    end.
End Load.
Arguments mk_command_spec {val raw} _ _ _ _.
Arguments mk_weaver_config {raw} _ _ _ _ _.
Arguments wc_registry {raw} _.
Arguments wc_policy {raw} _.
Arguments wc_diagnostics {raw} _.
Arguments wc_resolve {raw} _.
Arguments wc_commands {raw} _.
Arguments cs_section {val raw} _.
Arguments cs_default {val raw} _.
Arguments cs_decode {val raw} _ _ _.
Arguments cs_uses_policy {val raw} _.
Arguments mk_cli_args {val} _ _ _ _ _ _ _ _ _ _ _.
Arguments ca_registry {val} _.
Arguments ca_follow_symlinks {val} _.
Arguments ca_include_unreferenced {val} _.
Arguments ca_v2 {val} _.
Arguments ca_policies {val} _.
Arguments ca_skip_policies {val} _.
Arguments ca_display {val} _.
Arguments ca_format {val} _.
Arguments ca_template {val} _.
Arguments ca_stdout {val} _.
Arguments ca_command {val} _.
Arguments ld_config {val} _.
Arguments ld_registry {val} _.
Arguments ld_policy {val} _.
Arguments ld_resolve {val} _.
Arguments load_config url_parse {val raw} cs a cfg.
Arguments to_effective {val raw} a cfg.
Arguments command_config {val raw} cs wc.
Arguments apply_overrides {val} cli c.
Arguments resolve_weaver_config {raw} is_file load_explicit load_dir explicit_path cwd.
