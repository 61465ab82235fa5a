(* Vocabulary for template configuration and artifact generation. *)
From Coq Require Import String Ascii Bool Arith List.
Import ListNotations.
From Verif Require Import Base Json SemTypes Str VdirModel VdirSpec ForgeModel.
Local Open Scope string_scope.
Local Open Scope list_scope.

(* the last value set in a list of optional values *)
Inductive last_set {A} : list (option A) -> option A -> Prop :=
| last_none l : Forall (fun o => o = None) l -> last_set l None
| last_some before x after : Forall (fun o => o = None) after -> last_set (before ++ Some x :: after) (Some x).

(* the values a list of files gives to a parameter, in order *)
Definition mentions (k : string) (cs : list fconf) : list json :=
  flat_map (fun c => match fc_params c with
                     | Some m => match slookup k m with Some v => [v] | None => [] end
                     | None => [] end) cs.

(* the value a parameter ends up with: the last one given, none if that is null *)
Inductive final_param : list json -> option json -> Prop :=
| fp_none : final_param [] None
| fp_null before : final_param (before ++ [JNull]) None
| fp_value before v : v <> JNull -> final_param (before ++ [v]) (Some v).

(* no key occurs twice: true of every map *)
Definition is_map {V} (m : list (string * V)) : Prop := NoDup (map fst m).
Definition map_params (c : fconf) : Prop := match fc_params c with Some m => is_map m | None => True end.

(* first of two optional values *)
Definition orelse {A} (a b : option A) : option A := match a with Some _ => a | None => b end.

Definition texts_of (r : fread) : list string := match r with FText s => [s] | _ => [] end.

(* which results of a filter a template is applied to *)
Inductive applied : amode -> list json -> list json -> Prop :=
| ap_each_array xs : applied Each [JArr xs] xs
| ap_each_stream vs : (forall xs, vs <> [JArr xs]) -> applied Each vs vs
| ap_single_one v : v <> JNull -> v <> JArr [] -> applied Single [v] [v]
| ap_single_null : applied Single [JNull] []
| ap_single_empty : applied Single [JArr []] []
| ap_single_none : applied Single [] []
| ap_single_many v w vs : applied Single (v :: w :: vs) [JArr (v :: w :: vs)].

(* the paths and contents of the files of an embedded directory, relative to it *)
Fixpoint files_below (n : enode) : list (list string * string) :=
  match n with
  | EFile name c => [([name], c)]
  | EDir name l => map (fun pc => (name :: fst pc, snd pc)) (flat_map files_below l)
  end.

Definition is_file (n : enode) : Prop := exists name c, n = EFile name c.

(* a relative path text without ".." *)
Definition plain_name (name : string) : Prop :=
  ~ In RootDir (components name) /\ ~ In ParentDir (components name).

(* the file a report goes to, if any *)
Definition report_path (fmt : bformat) (prefix : string) (tgt : target) : option string :=
  match tgt with TFile p => Some p | TDir d => Some (push d (prefix ++ match fmt with BJson => ".json" | BYaml => ".yaml" | BJsonl => ".jsonl" end)%string) | _ => None end.

(* what a report adds to its file *)
Definition line_of (ser : bformat -> json -> string) (fmt : bformat) (d : json) : string :=
  match fmt with BJsonl => (ser fmt d ++ String "010"%char "")%string | _ => ser fmt d end.

(* no two pieces of work write different contents to one path *)
Definition no_conflict (ws : list work) : Prop :=
  forall p c c', In (Write p c) ws -> In (Write p c') ws -> c = c'.
