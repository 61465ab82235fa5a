(* Vocabulary for the rendering of templates. *)
From Coq Require Import String Ascii Bool Arith List.
Import ListNotations.
From Verif Require Import Base Json SemTypes ForgeModel RenderModel.
Local Open Scope string_scope.

(* the file name of a path *)
Definition base_name (path b : string) : Prop :=
  (forall x y, b <> x ++ "/" ++ y) /\ (path = b \/ exists d, path = d ++ "/" ++ b).

(* [n] is [b] without its endings `.j2` *)
Fixpoint endings (k : nat) : string := match k with 0 => "" | S j => ".j2" ++ endings j end.
Definition without_endings (b n : string) : Prop :=
  (exists k, b = n ++ endings k) /\ forall r, n <> r ++ ".j2".

(* the calls that set the name of the file, and what to *)
Definition sets (c : call) (n : string) : Prop := ca_method c = "set_file_name" /\ ca_args c = [JStr n].

(* the last of the names, or the first one given *)
Fixpoint last_of (start : string) (names : list string) : string :=
  match names with [] => start | n :: r => last_of n r end.

(* the same template without a name for its files *)
Definition nameless (t : tconf) : tconf :=
  {| tc_template := tc_template t; tc_filter := tc_filter t; tc_mode := tc_mode t; tc_params := tc_params t;
     tc_file_name := None; tc_escape := tc_escape t; tc_when := tc_when t |}.

(* the files a generation writes: paths and texts *)
Definition writes (ws : list work) (l : list (string * string)) : Prop := ws = map (fun x => Write (fst x) (snd x)) l.
Definition text_of (l : list (string * string)) : string := String.concat "" (map snd l).
