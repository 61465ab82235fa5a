(* The templates of diagnostics: `weaver diagnostic init` (src/diagnostic/init.rs) and the loader that uses what it
   wrote (crates/weaver_forge/src/file_loader.rs, through print_diagnostics of src/main.rs 212-230).

   The disk is the one of ArchiveModel: what is below the current directory, by the names that lead there; links,
   permissions and a full disk are not modelled.  The directory compiled into the program is the one of ForgeModel.
   The directory given on the command line is a list of names below the current directory: one with `..` or from
   the root is not modelled. *)
From Coq Require Import String Ascii Bool Arith List.
From Verif Require Import Base SemTypes ArchiveModel.
From Verif Require VdirModel.
From Verif Require ForgeModel.
Import ListNotations.
Open Scope string_scope.

(* std::fs::write: the directory has to be there, a file is replaced, a directory is in the way *)
(* used by extract_entry: src/diagnostic/init.rs 63-66 *)
Definition write_file (t : tree) (p : list string) (c : string) : option tree :=
  match node_at t (removelast p) with
  | Some NDir => match node_at t p with Some NDir => None | _ => Some (put t p (NFile c)) end
  | _ => None
  end.

(* include_dir's Dir::extract, called in src/diagnostic/init.rs 61, for one entry of a directory with the path
   [dir]: the disk afterwards, and whether there was no error.  The first error ends it. *)
(* src/diagnostic/init.rs 61 *)
Fixpoint extract_entry (base dir : list string) (n : ForgeModel.enode) (t : tree) : tree * bool :=
  match n with
  | ForgeModel.EFile name c =>
    match write_file t (base ++ dir ++ [name])%list c with Some t' => (t', true) | None => (t, false) end
  | ForgeModel.EDir name entries =>
    match make_dirs t [] (base ++ dir ++ [name])%list with
    | None => (t, false)
    | Some t1 =>
      (fix all (l : list ForgeModel.enode) (t : tree) : tree * bool :=
         match l with
         | [] => (t, true)
         | x :: r => match extract_entry base (dir ++ [name])%list x t with
                     | (t', true) => all r t'
                     | (t', false) => (t', false)
                     end
         end) entries t1
    end
  end.

(* Path::starts_with: the components of the argument come first *)
(* used by extract: src/diagnostic/init.rs 58 *)
Definition path_starts_with (name target : string) : bool :=
  match VdirModel.components target with
  | [] => true
  | [VdirModel.Normal n] => String.eqb n name
  | _ => false
  end.

(* src/diagnostic/init.rs 51-71: extract.  A directory at the top is taken if it starts with the target, a file at
   the top always *)
Fixpoint extract (base : list string) (target : string) (entries : list ForgeModel.enode) (t : tree) : tree * bool :=
  match entries with
  | [] => (t, true)
  | n :: r =>
    let taken := match n with
                 | ForgeModel.EDir name _ => path_starts_with name target
                 | ForgeModel.EFile _ _ => true
                 end in
    match (if taken then extract_entry base [] n t else (t, true)) with
    | (t', true) => extract base target r t'
    | (t', false) => (t', false)
    end
  end.

(* src/diagnostic/init.rs 31-47: the disk afterwards and the exit code or the error *)
Definition init_command (entries : list ForgeModel.enode) (base : list string) (target : string) (t : tree) :
  tree * res nat :=
  match extract base target entries t with
  | (t', true) => (t', Ok 0)
  | (t', false) => (t', Err "InitDiagnosticError")
  end.

(* crates/weaver_forge/src/file_loader.rs 52-56 and 158-160: where the templates come from *)
(* crates/weaver_forge/src/file_loader.rs 52-56 *)
Inductive loader :=
| Local (dir : list string)
| Embedded (target : string) (entries : list ForgeModel.enode).

(* include_dir's get_dir for one name *)
(* used by new_loader: crates/weaver_forge/src/file_loader.rs 83-90 *)
Fixpoint get_dir (entries : list ForgeModel.enode) (name : string) : option (list ForgeModel.enode) :=
  match entries with
  | [] => None
  | ForgeModel.EDir n es :: r => if String.eqb n name then Some es else get_dir r name
  | ForgeModel.EFile _ _ :: r => get_dir r name
  end.

(* crates/weaver_forge/src/file_loader.rs 64-102: EmbeddedFileLoader::try_new for a target that is one name.  The
   local directory has no links, so safe_join (164-171) accepts what exists. *)
Definition new_loader (entries : list ForgeModel.enode) (t : tree) (local : list string) (target : string) : res loader :=
  match node_at t (local ++ [target])%list with
  | Some _ => Ok (Local (local ++ [target])%list)
  | None =>
    match get_dir entries target with
    | Some es => Ok (Embedded target es)
    | None => Err "TargetNotSupported"
    end
  end.

(* crates/weaver_forge/src/file_loader.rs 133-153 and 207-224: load_file for a file given by its names.  A name
   that is not there is nothing, a directory cannot be read. *)
(* crates/weaver_forge/src/file_loader.rs 207-224 *)
Definition load (l : loader) (t : tree) (file : list string) : res (option string) :=
  match l with
  | Local dir =>
    match node_at t (dir ++ file)%list with
    | Some (NFile c) => Ok (Some c)
    | Some NDir => Err "FileLoaderError"
    | None => Ok None
    end
  | Embedded target entries => Ok (ForgeModel.embedded_load [target] entries file)
  end.

(* what remains of a path below a directory *)
(* used by local_files: crates/weaver_forge/src/file_loader.rs 186-202 *)
Fixpoint below (dir p : list string) : option (list string) :=
  match dir, p with
  | [], _ => Some p
  | a :: d, b :: q => if String.eqb a b then below d q else None
  | _ :: _, [] => None
  end.

(* crates/weaver_forge/src/file_loader.rs 186-202: FileSystemFileLoader::all_files.  The order of walkdir is not
   modelled *)
(* crates/weaver_forge/src/file_loader.rs 186-202 *)
Definition local_files (t : tree) (dir : list string) : list (list string) :=
  nodup (list_eq_dec string_dec)
    (flat_map (fun e => match below dir (fst e), node_at t (fst e) with
                        | Some p, Some (NFile _) => [p]
                        | _, _ => []
                        end) t).

(* crates/weaver_forge/src/file_loader.rs 116-137: EmbeddedFileLoader::all_files *)
Definition list_files (l : loader) (t : tree) : list (list string) :=
  match l with
  | Local dir => local_files t dir
  | Embedded target entries => ForgeModel.embedded_all_files [target] entries
  end.
