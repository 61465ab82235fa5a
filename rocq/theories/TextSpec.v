(** Specification vocabulary for text input of live check (C96). *)
From Coq Require Import String Ascii Bool Arith List.
From Verif Require Import Base Json SemTypes LiveModel LiveSpec CodeSpec.
Import ListNotations.
Local Open Scope string_scope.

(** The text has no equals sign. *)
Fixpoint no_equals (s : string) : Prop :=
  match s with EmptyString => True | String c r => c <> "="%char /\ no_equals r end.

(** The value of an attribute: the JSON value the text stands for, or else the text. *)
Definition value_of (parse : string -> option json) (t : string) (j : json) : Prop :=
  parse t = Some j \/ parse t = None /\ j = JStr t.

(** A line with a name, or with a name, an equals sign and a value; white space around each
    of them does not count. *)
Inductive says (parse : string -> option json) : string -> sattr -> Prop :=
| says_name l n : trimmed l n -> n <> "" -> no_equals n ->
    says parse l {| sa_name := n; sa_value := None; sa_type := None; sa_result := None |}
| says_pair a b n t j ty :
    no_equals a -> trimmed a n -> trimmed b t -> value_of parse t j ->
    (forall p, ty = Some p <-> has_type j p) ->
    says parse (a ++ "=" ++ b) {| sa_name := n; sa_value := Some j; sa_type := ty; sa_result := None |}.

(** The samples of some lines: one attribute for each line that is not blank. *)
Inductive attributes_of (parse : string -> option json) : list string -> list sample -> Prop :=
| ao_nil : attributes_of parse [] []
| ao_blank l ls out : blank l -> attributes_of parse ls out -> attributes_of parse (l :: ls) out
| ao_line l a ls out : says parse l a -> attributes_of parse ls out -> attributes_of parse (l :: ls) (SmpAttribute a :: out).
