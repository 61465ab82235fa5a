(* The task that runs the weaver of the working tree against the checks of the repositories that use it:
   crates/xtask/src/downstream.rs.

   Simplifications:
   - reading and parsing downstream-check.yaml is not modelled: a configuration is given;
   - git is the function [wo_remote] from a remote url and a ref to the tree fetched; "git init" and "git
     remote add" always succeed; "reset --hard" and "clean -fdx" leave exactly the tree fetched;
   - what a check does is the function [wo_run] of that tree, the directory, the command and the binary
     handed over in the environment; the waiting is modelled apart ([wait_from]);
   - the lines printed and the summary written for GitHub are not modelled. *)
From Coq Require Import String Ascii Bool Arith NArith List.
Import ListNotations.
From Verif Require Import Base Str.
From Verif Require SearchModel.
Local Open Scope string_scope.

(* downstream.rs 113-127: Check *)
Record check := { ck_name : string; ck_dir : string; ck_run : string; ck_minutes : option nat }.
(* 52-60: Repo *)
Record repo := { rp_url : string; rp_checks : list check }.
(* 19-26 *)
Definition default_ref : string := "main".
(* as above: downstream.rs 19-26 *)
Definition default_minutes : nat := 20.

(* 102-111: split_ref *)
Definition is_at (c : ascii) : bool := Ascii.eqb c "@"%char.
(* crates/xtask/src/downstream.rs 104-111 *)
Definition split_ref (s : string) : string * option string :=
  match rfind_char "@"%char s with
  | Some i => if any_char is_slash (str_drop i s) then (s, None) else (str_take i s, Some (str_drop (S i) s))
  | None => (s, None)
  end.
(* 92-100: normalize_url; str::trim_start_matches removes the pattern as often as it is there *)
Fixpoint trim_start_str (fuel : nat) (p s : string) : string :=
  match fuel with
  | 0 => s
  | S f => match strip_prefix p s with Some r => trim_start_str f p r | None => s end
  end.
(* as above: downstream.rs 92-100 *)
Definition trim_end_str (p s : string) : string := SearchModel.trim_end_matches (String.length s) p s.
(* crates/xtask/src/downstream.rs 93-100 *)
Definition normalize_url (url : string) : string :=
  let a := trim_start_str (String.length url) "https://" url in
  let b := trim_start_str (String.length a) "http://" a in
  trim_end is_slash (trim_end_str ".git" (trim_end is_slash b)).
(* 63-69: Repo::clone_url, Repo::git_ref *)
Definition clone_url (r : repo) : string := fst (split_ref (rp_url r)).
(* crates/xtask/src/downstream.rs 67-69 *)
Definition git_ref (r : repo) : string := match snd (split_ref (rp_url r)) with Some g => g | None => default_ref end.
(* 36-50, 71-78: IMAGE_ONLY_REPOS, Repo::weaver; true is WeaverKind::Image *)
Definition image_only_repos : list string := ["github.com/open-telemetry/semantic-conventions"].
(* as above: downstream.rs 36-50, downstream.rs 71-78 *)
Definition uses_image (r : repo) : bool :=
  existsb (fun i => String.eqb (normalize_url i) (normalize_url (clone_url r))) image_only_repos.

(* 81-84: shell_quote *)
Fixpoint escape_quotes (s : string) : string :=
  match s with
  | EmptyString => ""
  | String c r => if Ascii.eqb c "'"%char then "'\''" ++ escape_quotes r else String c (escape_quotes r)
  end.
(* crates/xtask/src/downstream.rs 82-84 *)
Definition shell_quote (v : string) : string := "'" ++ escape_quotes v ++ "'".
(* str::replace; [skip] is what is left of the match found *)
(* used by command_of: downstream.rs 220-263 *)
Fixpoint replace_from (skip : nat) (pat by_ s : string) : string :=
  match s with
  | EmptyString => ""
  | String c r =>
    match skip with
    | S k => replace_from k pat by_ r
    | 0 => if starts_with pat s then by_ ++ replace_from (String.length pat - 1) pat by_ r
           else String c (replace_from 0 pat by_ r)
    end
  end.
(* used by run_all: downstream.rs 220-263 *)
Definition command_of (weaver : string) (c : check) : string := replace_from 0 "{weaver}" (shell_quote weaver) (ck_run c).

(* 155-180: Selection; dir_name takes the last two segments *)
Record selection := { se_repo : repo; se_ref : string }.
(* as above: downstream.rs 155-180 *)
Definition se_id (s : selection) : string := clone_url (se_repo s) ++ "@" ++ se_ref s.
(* crates/xtask/src/downstream.rs 169-179 *)
Definition dir_name (s : selection) : string :=
  let parts := firstn 2 (rev (split_char "/"%char (trim_end_str ".git" (clone_url (se_repo s))))) in
  join "_" (rev parts).

(* 268-290: select *)
Definition select (cfg : list repo) (arg : string) : option selection :=
  let '(url, g) := split_ref arg in
  match find (fun r => String.eqb (normalize_url (clone_url r)) (normalize_url url)) cfg with
  | Some r => Some {| se_repo := r; se_ref := match g with Some g => g | None => git_ref r end |}
  | None => None
  end.
(* as above: downstream.rs 268-290 *)
Fixpoint select_all (cfg : list repo) (args : list string) : option (list selection) :=
  match args with
  | [] => Some []
  | a :: r => match select cfg a with
              | Some s => option_map (cons s) (select_all cfg r)
              | None => None
              end
  end.
(* 192-206: what is selected *)
Definition selected (cfg : list repo) (args : list string) : option (list selection) :=
  match args with
  | [] => Some (map (fun r => {| se_repo := r; se_ref := git_ref r |}) cfg)
  | _ => select_all cfg args
  end.

(* how the process of a check ended *)
(* used by world: downstream.rs 293-328 *)
Inductive ended := Exited (code : nat) | Signalled | NotStarted | TimedOut.
(* the world outside; [wo_binary] and [wo_image] are what 293-328 build or take from WEAVER_BIN and
   WEAVER_IMAGE, None where the build fails *)
Record world := {
  wo_remote : string -> string -> option string;
  wo_binary : option string;
  wo_image : option string;
  wo_run : string -> string -> string -> option string -> ended
}.
(* the checkouts that exist, by directory, with the url of their remote "origin" *)
(* used by checkout: downstream.rs 330-368 *)
Definition disk := list (string * string).

(* 330-368: checkout: the tree, None where the fetch fails *)
Definition checkout (w : world) (d : disk) (s : selection) : disk * option string :=
  match slookup (dir_name s) d with
  | Some origin => (d, wo_remote w origin (se_ref s))
  | None => (sinsert (dir_name s) (clone_url (se_repo s)) d, wo_remote w (clone_url (se_repo s)) (se_ref s))
  end.

(* 149-154: Outcome *)
Record outcome := { oc_repo : string; oc_check : string; oc_ok : bool; oc_end : option ended }.
(* 370-443: run_check *)
Definition run_check (w : world) (tree : string) (s : selection) (c : check) (command : string) (bin : option string) : outcome :=
  let e := wo_run w tree (ck_dir c) command bin in
  {| oc_repo := se_id s; oc_check := ck_name c;
     oc_ok := match e with Exited 0 => true | _ => false end; oc_end := Some e |}.

(* 220-263: the loop over the selected repos; None is "internal error" *)
Fixpoint run_all (w : world) (bin image : option string) (d : disk) (l : list selection) : option (list outcome) :=
  match l with
  | [] => Some []
  | s :: r =>
    let '(d', t) := checkout w d s in
    match t with
    | None => option_map (cons {| oc_repo := se_id s; oc_check := "checkout"; oc_ok := false; oc_end := None |}) (run_all w bin image d' r)
    | Some tree =>
      let img := uses_image (se_repo s) in
      match (if img then image else bin) with
      | None => None
      | Some weaver =>
        option_map (app (map (fun c => run_check w tree s c (command_of weaver c) (if img then None else bin)) (rp_checks (se_repo s))))
                   (run_all w bin image d' r)
      end
    end
  end.

(* used by run: downstream.rs 182-266, downstream.rs 485-508 *)
Inductive verdict := Passed (l : list outcome) | SomeFailed (l : list outcome) | Unknown | NoBuild | Internal.
(* 182-266, 485-508: run and report *)
Definition run (w : world) (d : disk) (cfg : list repo) (args : list string) : verdict :=
  match selected cfg args with
  | None => Unknown
  | Some l =>
    let needs_binary := existsb (fun s => negb (uses_image (se_repo s))) l in
    let needs_image := existsb (fun s => uses_image (se_repo s)) l in
    match (if needs_binary then option_map Some (wo_binary w) else Some None) with
    | None => NoBuild
    | Some bin =>
      match (if needs_image then option_map Some (wo_image w) else Some None) with
      | None => NoBuild
      | Some image =>
        match run_all w bin image d l with
        | None => Internal
        | Some os => if existsb (fun o => negb (oc_ok o)) os then SomeFailed os else Passed os
        end
      end
    end
  end.

(* 397-403: the search path of a check; Path::parent for a path without repeated or trailing separators *)
Definition parent (path : string) : option string :=
  match rfind_char "/"%char path with
  | None => if String.eqb path "" then None else Some ""
  | Some 0 => if String.eqb path "/" then None else Some "/"
  | Some i => Some (str_take i path)
  end.
(* as above: downstream.rs 397-403 *)
Definition search_path (bin : option string) (inherited : string) : string :=
  match bin with
  | Some b => match parent b with Some p => p ++ ":" ++ inherited | None => inherited end
  | None => inherited
  end.

(* 445-464: wait_with_timeout; the k-th round looks at the process at [look k] and at the
   clock at [clock k]; [finish] is when the process ends, None never; None is still waiting *)
Definition limit_of (c : check) : nat := match ck_minutes c with Some m => m * 60 | None => default_minutes * 60 end.
(* as above: downstream.rs 445-464 *)
Fixpoint wait_from (look clock : nat -> nat) (finish : option nat) (deadline fuel k : nat) : option bool :=
  match fuel with
  | 0 => None
  | S f =>
    if match finish with Some t => Nat.leb t (look k) | None => false end then Some true
    else if Nat.leb deadline (clock k) then Some false
    else wait_from look clock finish deadline f (S k)
  end.
