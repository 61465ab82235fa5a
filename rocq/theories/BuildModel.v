(* The build scripts.  Models crates/weaver_codegen_test/build.rs 89-216 (the module tree made
   of the generated files) and build.rs 34-89 (the check of the user interface). *)
From Coq Require Import String Ascii Bool Arith Permutation List.
Import ListNotations.
From Verif Require Import Base SemTypes Str CodeModel DownModel.
Local Open Scope string_scope.
Local Open Scope list_scope.

(* weaver_codegen_test/build.rs 161-165: Module.  Simplified: the name of a module is always
   the key it is kept under. *)
Inductive module := Mod (content : string) (subs : list (string * module)).

(* used by create_single_generated_rs_file: 97-159: a file found below the directory: the
   directories that lead to it, its stem, its extension and its text.  Which files there are
   and in which order (WalkDir does not sort) is the input. *)
Record file := mk_file {
  fi_parents : list string;
  fi_stem : string;
  fi_extension : option string;
  fi_text : string }.

(* weaver_codegen_test/build.rs 185-216: add_modules *)
Fixpoint add_modules (m : module) (parents : list string) (name content : string)
  {struct parents} : module :=
  match m with
  | Mod c subs =>
    match parents with
    | p :: ps =>
      let sub := match lookup String.eqb p subs with Some s => s | None => Mod "" [] end in
      Mod c (insert String.eqb p (add_modules sub ps name content) subs)
    | [] =>
      if String.eqb name "mod" || String.eqb name "lib"
      then Mod content subs
      else Mod c (insert String.eqb name (Mod content []) subs)
    end
  end.

(* weaver_codegen_test/build.rs 103-109 and 126-129: the files that are taken *)
Definition taken (f : file) : bool :=
  match fi_extension f with Some e => String.eqb e "rs" | None => false end
  && contains "DO NOT EDIT, THIS FILE HAS BEEN GENERATED BY WEAVER" (fi_text f)
  && negb (String.eqb (fi_stem f) "generated").

(* weaver_codegen_test/build.rs 131-141: the text a file contributes *)
Definition nested_text (text : string) : string :=
  join (String lf "")
    (filter (fun l => negb (starts_with "pub mod" l)) (lines (replace_from 0 "//!" "//" text))).

(* weaver_codegen_test/build.rs 90-150: the tree of all files *)
Definition module_tree (files : list file) : module :=
  fold_left (fun m f => if taken f then add_modules m (fi_parents f) (fi_stem f) (nested_text (fi_text f)) else m)
    files (Mod "" []).

(* used by generates: weaver_codegen_test/build.rs 174-179: one sub-module in the text *)
Definition sub_text (name text : string) : string :=
  "/// Generated module" ++ String lf "pub mod " ++ name ++ " {" ++ String lf "" ++ text ++ String lf "}" ++ String lf "".

(* weaver_codegen_test/build.rs 169-181: generate.  The sub-modules come in the order of a
   HashMap, which may be any. *)
Inductive generates : module -> string -> Prop :=
| generates_mod c subs subs' texts :
    Permutation subs subs' ->
    Forall2 (fun s t => generates (snd s) t) subs' texts ->
    generates (Mod c subs)
      (c ++ String.concat "" (map (fun p => sub_text (fst (fst p)) (snd p)) (combine subs' texts)))%string.

(* ------------------------------------------------------------------ *)
(* The user interface *)

(* used by is_ui_stale: build.rs 34-71: what is found below the directory: whether the two
   directories are there, the times of last change (None when they cannot be read) and those
   of the entries below src *)
Record ui_dir := mk_ui {
  ui_dist : bool;
  ui_modules : bool;
  ui_index : option nat;
  ui_lock : option nat;
  ui_package : option nat;
  ui_sources : list (option nat) }.

(* build.rs 66-70: the loop over the sources: Err when a time cannot be read *)
Fixpoint newer_source (last : nat) (l : list (option nat)) : res bool :=
  match l with
  | [] => Ok false
  | None :: _ => Err "io"
  | Some t :: r => if Nat.ltb last t then Ok true else newer_source last r
  end.

(* build.rs 50-71: is_ui_stale *)
Definition is_ui_stale (d : ui_dir) : res bool :=
  if negb (ui_dist d) then Ok true
  else if negb (ui_modules d) then Ok true
  else match ui_index d with
       | None => Err "io"
       | Some last =>
         match ui_lock d with
         | None => Err "io"
         | Some lock => if Nat.ltb last lock then Ok true else newer_source last (ui_sources d)
         end
       end.

(* build.rs 40-48: is_package_lock_stale *)
Definition is_package_lock_stale (d : ui_dir) : res bool :=
  match ui_lock d with
  | None => Err "io"
  | Some lock =>
    match ui_package d with
    | None => Err "io"
    | Some package => Ok (Nat.ltb lock package)
    end
  end.

(* used by check_ui: build.rs 73-89: the warnings *)
Inductive ui_warning := RunBuild | RunInstall.

(* build.rs 73-89: check_ui: the warning printed, if any; Err fails the build *)
Definition check_ui (d : ui_dir) : res (option ui_warning) :=
  match is_ui_stale d with
  | Err e => Err e
  | Ok true => Ok (Some RunBuild)
  | Ok false =>
    match is_package_lock_stale d with
    | Err e => Err e
    | Ok true => Ok (Some RunInstall)
    | Ok false => Ok None
    end
  end.
