(* Vocabulary for C126: pages of the attribute registry and Prometheus names in templates. *)
From Coq Require Import String Ascii Bool Arith NArith List.
Import ListNotations.
From Verif Require Import Base CaseModel CaseSpec PromModel OtelSpec PageModel.
Local Open Scope string_scope.

(* the id of a group of the attribute registry in the namespace [ns] *)
Definition in_namespace (id ns : string) : Prop :=
  ~ has_dot ns /\ (id = "registry." ++ ns \/ exists rest, id = "registry." ++ ns ++ "." ++ rest).

(* what a template gives for an argument: nothing (or none), or a value *)
Definition left_out (kw : kwargs) (k : string) : Prop :=
  (forall v, ~ In (k, v) kw) \/ In (k, ANone) kw.
Definition given (kw : kwargs) (k : string) (v : argument) : Prop := In (k, v) kw /\ v <> ANone.
(* an argument is given at most once *)
Definition once (kw : kwargs) : Prop := NoDup (map fst kw).

(* the words of the documentation for the four strategies *)
Inductive called : string -> strategy -> Prop :=
| ca_none : called "NoTranslation" NoTranslation
| ca_escape : called "UnderscoreEscapingWithoutSuffixes" EscapeNoSuffix
| ca_suffix : called "NoUTF8EscapingWithSuffixes" NoEscapeSuffix
| ca_both : called "UnderscoreEscapingWithSuffixes" EscapeSuffix.
(* the strategy that is asked for, the expansion that is asked for *)
Definition asked (kw : kwargs) (st : option strategy) : Prop :=
  match st with
  | None => left_out kw "translation_strategy"
  | Some s => exists w, given kw "translation_strategy" (AStr w) /\ called w s
  end.
Definition expanded (kw : kwargs) (b : bool) : Prop :=
  given kw "expand_summary_and_histogram" (ABool b) \/
  (b = false /\ left_out kw "expand_summary_and_histogram").
Definition described (m : metric) (n : PromModel.name) (unit instrument : string) : Prop :=
  m = Metric (Some n) (Some unit) (Some instrument).
(* the first field that is no string *)
Definition unread (m : metric) (f : failure) : Prop :=
  (m_name m = None /\ f = NoString "metric_name") \/
  (m_name m <> None /\ m_unit m = None /\ f = NoString "unit") \/
  (m_name m <> None /\ m_unit m <> None /\ m_instrument m = None /\ f = NoString "instrument").
