(* Vocabulary for the sender of exported findings. *)
From Coq Require Import String Ascii Bool Arith List.
Import ListNotations.
From Verif Require Import Base DetectModel.
Local Open Scope string_scope.

(* [x] is one of the entries of a text separated by commas *)
Inductive entry : string -> string -> Prop :=
| entry_only x : (forall a b, x <> a ++ "," ++ b) -> entry x x
| entry_first x r : (forall a b, x <> a ++ "," ++ b) -> entry (x ++ "," ++ r) x
| entry_later y r x : (forall a b, y <> a ++ "," ++ b) -> entry r x -> entry (y ++ "," ++ r) x.

(* the user names the service *)
Definition named_by_user (e : environment) : Prop :=
  (exists n, env_service_name e = Some n) \/
  (exists attrs v, env_attributes e = Some attrs /\ entry attrs ("service.name=" ++ v)).
