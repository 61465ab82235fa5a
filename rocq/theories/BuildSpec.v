(* Vocabulary for the build scripts. *)
From Coq Require Import String Ascii Bool Arith List.
Import ListNotations.
From Verif Require Import Base SemTypes CodeSpec BuildModel.
Local Open Scope string_scope.
Local Open Scope list_scope.

(* a Rust file of Weaver's, other than the one to be written *)
Definition wanted (f : file) : Prop :=
  fi_extension f = Some "rs" /\
  (exists a b, fi_text f = (a ++ "DO NOT EDIT, THIS FILE HAS BEEN GENERATED BY WEAVER" ++ b)%string) /\
  fi_stem f <> "generated".

(* a file that speaks for its directory, as in Rust *)
Definition speaks_for_directory (f : file) : Prop := fi_stem f = "mod" \/ fi_stem f = "lib".

(* the module a file stands for: [stands_for f path] *)
Definition stands_for (f : file) (path : list string) : Prop :=
  (speaks_for_directory f /\ path = fi_parents f) \/
  (~ speaks_for_directory f /\ path = fi_parents f ++ [fi_stem f]).

(* comments for the enclosing module become plain comments *)
Inductive undoc : string -> string -> Prop :=
| undoc_nil : undoc "" ""
| undoc_doc s t : undoc s t -> undoc ("//!" ++ s) ("//" ++ t)
| undoc_other c s t : (forall r, String c s <> ("//!" ++ r)%string) -> undoc s t -> undoc (String c s) (String c t).

(* a line that declares a module *)
Definition declares (l : string) : Prop := exists r, l = ("pub mod" ++ r)%string.

(* the lines that do not, in order *)
Inductive without_declarations : list string -> list string -> Prop :=
| wd_nil : without_declarations [] []
| wd_drop l ls ks : declares l -> without_declarations ls ks -> without_declarations (l :: ls) ks
| wd_keep l ls ks : ~ declares l -> without_declarations ls ks -> without_declarations (l :: ls) (l :: ks).

(* the text a file contributes *)
Definition contribution (text c : string) : Prop :=
  exists t ls ks, undoc text t /\ reads_as t ls /\ without_declarations ls ks /\ c = join (String newline "") ks.

(* [c] is in [text] inside the modules of [path], and starts the innermost of them *)
Fixpoint wrapped (path : list string) (c text : string) : Prop :=
  match path with
  | [] => exists rest, text = (c ++ rest)%string
  | p :: ps => exists a inner b,
      text = (a ++ "pub mod " ++ p ++ " {" ++ String newline inner ++ String newline "}" ++ b)%string /\ wrapped ps c inner
  end.

(* everything about the user interface can be read *)
Definition readable (d : ui_dir) : Prop :=
  ui_index d <> None /\ ui_lock d <> None /\ ui_package d <> None /\ ~ In None (ui_sources d).

(* it has not been built, or something it is built from is newer *)
Definition outdated (d : ui_dir) : Prop :=
  ui_dist d = false \/ ui_modules d = false \/
  exists built t, ui_index d = Some built /\ built < t /\ (ui_lock d = Some t \/ In (Some t) (ui_sources d)).
Definition lock_outdated (d : ui_dir) : Prop :=
  exists lock package, ui_lock d = Some lock /\ ui_package d = Some package /\ lock < package.
