(* The check that published JSON schemas stay compatible: crates/xtask/src/schema_compat.rs.
   The network, git and the runs of weaver are parameters: what is read at the tag and what is generated now. *)
From Coq Require Import String Ascii Bool Arith NArith List.
Import ListNotations.
From Verif Require Import Base Json SemTypes Str CacheModel.
From Verif Require ServeModel.
Local Open Scope string_scope.

(* serde_json: Value::get by a key, as_str, as_object *)
(* used by defs_of: crates/xtask/src/schema_compat.rs 160-170 *)
Definition jget (k : string) (v : json) : option json := match v with JObj m => slookup k m | _ => None end.
(* used by collect_paths: crates/xtask/src/schema_compat.rs 118-158 *)
Definition as_str (v : json) : option string := match v with JStr s => Some s | _ => None end.
(* used by defs_of: crates/xtask/src/schema_compat.rs 160-170 *)
Definition as_object (v : json) : option (list (string * json)) := match v with JObj m => Some m | _ => None end.
(* used by collect_paths: crates/xtask/src/schema_compat.rs 118-158 *)
Definition obind {A B} (o : option A) (f : A -> option B) : option B := match o with Some a => f a | None => None end.

(* 127-130: a reference without its prefix *)
Definition strip_prefix (p s : string) : option string :=
  if starts_with p s then Some (substring (String.length p) (String.length s - String.length p) s) else None.
(* as above: crates/xtask/src/schema_compat.rs 127-130 *)
Definition ref_name (r : string) : string := match strip_prefix "#/$defs/" r with Some n => n | None => r end.
(* as above: crates/xtask/src/schema_compat.rs 127-130 *)
Definition mem (s : string) (l : list string) : bool := existsb (String.eqb s) l.
(* 145-149 *)
Definition field_path (prefix field : string) : string := if String.eqb prefix "" then field else prefix ++ "." ++ field.

(* 118-158: collect_paths. [d] bounds the references that are open at a time: they are different names of [defs].
   The three searches in an object by key are one pass over its entries, each key occurs once in a map. *)
Fixpoint collect_paths (defs : list (string * json)) (d : nat) : json -> string -> list string -> list string :=
  fix walk (node : json) (prefix : string) (visited : list string) {struct node} : list string :=
    match node with
    | JObj m =>
      match obind (slookup "$ref" m) as_str with
      | Some r =>
        let name := ref_name r in
        if mem name visited then []
        else match slookup name defs, d with
             | Some resolved, S d' => collect_paths defs d' resolved prefix (name :: visited)
             | _, _ => []
             end
      | None =>
        flat_map (fun kv : string * json => let (k, v) := kv in
          if mem k ["anyOf"; "oneOf"; "allOf"] then
            match v with JArr l => flat_map (fun sub => walk sub prefix visited) l | _ => [] end
          else if String.eqb k "properties" then
            match v with
            | JObj ps => flat_map (fun fc : string * json => let (field, child) := fc in
                let path := field_path prefix field in path :: walk child path visited) ps
            | _ => []
            end
          else if String.eqb k "items" then walk v (prefix ++ "[]") visited
          else []) m
      end
    | _ => []
    end.
(* 160-170: schema_paths *)
Definition defs_of (schema : json) : list (string * json) :=
  match obind (jget "$defs" schema) as_object with Some m => m | None => [] end.
(* crates/xtask/src/schema_compat.rs 165-175 *)
Definition schema_paths (schema : json) : list string :=
  let defs := defs_of schema in
  fold_left (fun acc p => set_insert p acc) (collect_paths defs (List.length defs) schema "" []) [].

(* 172-181: file_format_const *)
Definition format_const (schema : json) : option string :=
  obind (obind (obind (jget "properties" schema) (jget "file_format")) (jget "const")) as_str.
(* crates/xtask/src/schema_compat.rs 178-186 *)
Definition file_format_const (schema : json) : string := match format_const schema with Some s => s | None => "unknown" end.
(* 183-197: schema_version *)
Definition parse_u64 (s : string) : option nat := match ServeModel.read_usize s with Ok n => Some n | Err _ => None end.
(* crates/xtask/src/schema_compat.rs 189-201 *)
Definition schema_version (schema : json) : option (nat * nat) :=
  obind (format_const schema) (fun s =>
  obind (nth_error (split_char "/" s) 1) (fun v =>
  let parts := split_char "." v in
  obind (obind (nth_error parts 0) parse_u64) (fun major =>
  obind (obind (nth_error parts 1) parse_u64) (fun minor => Some (major, minor))))).

(* 218-241: one schema; the paths removed and added that are not covered by the versions *)
Definition ver_leb (a b : nat * nat) : bool := Nat.ltb (fst a) (fst b) || (Nat.eqb (fst a) (fst b) && Nat.leb (snd a) (snd b)).
(* as above: crates/xtask/src/schema_compat.rs 218-241 *)
Definition difference (a b : list string) : list string := filter (fun p => negb (mem p b)) a.
(* as above: crates/xtask/src/schema_compat.rs 218-241 *)
Definition compare_schemas (baseline current : json) : list string * list string :=
  let current_ver := match schema_version current with Some v => v | None => (0, 0) end in
  let baseline_ver := match schema_version baseline with Some v => v | None => current_ver end in
  let baseline_paths := schema_paths baseline in
  let current_paths := schema_paths current in
  (filter (fun _ => Nat.eqb (fst current_ver) (fst baseline_ver)) (difference baseline_paths current_paths),
   filter (fun _ => ver_leb current_ver baseline_ver) (difference current_paths baseline_paths)).

(* 199-291: run, from the tag on. A check is the argument for weaver, the path of the file and a name. *)
Definition check := (string * string * string)%type.
(* as above: crates/xtask/src/schema_compat.rs 199-291 *)
Record failure := { fl_name : string; fl_baseline : string; fl_current : string; fl_removed : list string; fl_added : list string }.
Section Run.
  Variable at_tag : string -> res json.
  Variable generate : string -> res json.
  (* as above: crates/xtask/src/schema_compat.rs 199-291 *)
  Fixpoint run_checks (failures : list failure) (checks : list check) : res (list failure) :=
    match checks with
    | [] => Ok failures
    | (arg, path, name) :: r =>
      let* baseline := at_tag path in
      let* current := generate arg in
      let (removed, added) := compare_schemas baseline current in
      match removed, added with
      | [], [] => run_checks failures r
      | _, _ => run_checks (app failures [{| fl_name := name; fl_baseline := file_format_const baseline; fl_current := file_format_const current;
                                             fl_removed := removed; fl_added := added |}]) r
      end
    end.
  (* 243-290: passes without failures only; the message lists them *)
  Definition run (checks : list check) : res unit :=
    let* failures := run_checks [] checks in
    match failures with [] => Ok tt | _ => Err "Schema compatibility check failed" end.
End Run.
(* 22-37: the checks, all of them in comments *)
Definition CHECKS : list check := [].
