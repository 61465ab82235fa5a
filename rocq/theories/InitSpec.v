(* What initialising the diagnostic templates should do, without the model's functions.  The files of a directory
   compiled into the program are those of ForgeSpec.files_below. *)
From Coq Require Import String Ascii List.
From Verif Require Import ArchiveModel.
From Verif Require ForgeModel ForgeSpec.
Import ListNotations.
Open Scope string_scope.

(* a name of a file or directory *)
Definition simple_name (n : string) : Prop :=
  n <> "" /\ n <> "." /\ n <> ".." /\ forall a b, n <> (a ++ String "/"%char b)%string.

(* the target asks for the directory of that name: it is the name, or nothing at all *)
Definition asked (target name : string) : Prop := target = "" \/ target = name.

(* the path of a template on disk and its content *)
Definition template (entries : list ForgeModel.enode) (base : list string) (target : string)
  (q : list string) (c : string) : Prop :=
  exists name es p, In (ForgeModel.EDir name es) entries /\ asked target name /\
    In (p, c) (flat_map ForgeSpec.files_below es) /\ q = (base ++ name :: p)%list.

(* the directories of a directory compiled into the program, itself included *)
Inductive directory_of : ForgeModel.enode -> list string -> Prop :=
| dir_here : forall n es, directory_of (ForgeModel.EDir n es) [n]
| dir_below : forall n es x p, In x es -> directory_of x p -> directory_of (ForgeModel.EDir n es) (n :: p).

(* the directories that are needed on disk: those of the templates and those on the way to them *)
Definition needed (entries : list ForgeModel.enode) (base : list string) (target : string) (q : list string) : Prop :=
  q <> [] /\
  exists name es p rest, In (ForgeModel.EDir name es) entries /\ asked target name /\
    directory_of (ForgeModel.EDir name es) p /\ (base ++ p)%list = (q ++ rest)%list.

(* every entry has a name of its own in its directory *)
Inductive own_names : list ForgeModel.enode -> Prop :=
| own : forall l,
    NoDup (map (fun n => match n with ForgeModel.EFile x _ => x | ForgeModel.EDir x _ => x end) l) ->
    (forall n es, In (ForgeModel.EDir n es) l -> own_names es) ->
    own_names l.

(* only directories at the top, as in defaults/diagnostic_templates *)
Definition tops_are_directories (entries : list ForgeModel.enode) : Prop :=
  forall e, In e entries -> exists name es, e = ForgeModel.EDir name es /\ simple_name name.

(* a sample: defaults/diagnostic_templates *)
Definition defaults : list ForgeModel.enode :=
  [ForgeModel.EDir "ansi" [ForgeModel.EFile "errors.txt.j2" "ansi errors"; ForgeModel.EFile "weaver.yaml" "ansi config"];
   ForgeModel.EDir "json" [ForgeModel.EFile "errors.json.j2" "json errors"; ForgeModel.EFile "weaver.yaml" "json config";
                           ForgeModel.EDir "lib" [ForgeModel.EFile "macros.j2" "macros"]]].
