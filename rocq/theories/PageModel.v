(* Template filters that read their arguments: the title and the file of a page of the attribute registry,
   and the Prometheus names of a metric.  Models crates/weaver_forge/src/extensions/otel.rs 102-134, 229-302.
   Simplified: of a template value only the three fields are kept, each a string or not (a field that is absent
   is undefined and so no string); of an error the text is replaced by its kind. *)
From Coq Require Import String Ascii Bool Arith NArith List.
Import ListNotations.
From Verif Require Import Base Str CaseModel PromModel.
Local Open Scope string_scope.

(* otel.rs 106-115 *)
Definition attribute_registry_title (input : string) : option string :=
  match split_char "."%char input with
  | first :: second :: _ => if String.eqb first "registry" then Some (convert TitleCase second) else None
  | _ => None
  end.

(* otel.rs 121-133 *)
Definition attribute_registry_file (input : string) : option string :=
  match split_char "."%char input with
  | first :: second :: _ =>
    if String.eqb first "registry" then Some ("attributes-registry/" ++ convert KebabCase second ++ ".md") else None
  | _ => None
  end.

(* minijinja: the value of a keyword argument (used by prom_names: otel.rs 242-266) *)
Inductive argument := AStr (s : string) | ABool (b : bool) | ANone | AOther.
(* used by prom_names: otel.rs 242-266 *)
Definition kwargs := list (string * argument).
(* used by prom_names: otel.rs 242-266.  The fields of the metric given to the filter *)
Record metric := Metric { m_name : option PromModel.name; m_unit : option string; m_instrument : option string }.
(* used by prom_names: otel.rs 242-283.  The errors, by kind *)
Inductive failure := BadArgument (key : string) | UnknownStrategy (s : string) | StrategyRequired | NoString (key : string).
(* used by prom_names: otel.rs 242-266 *)
Inductive answer (A : Type) := Done (a : A) | Fail (f : failure).
Arguments Done {A} a.
Arguments Fail {A} f.
(* the operator ? (used by prom_names: otel.rs 242-266) *)
Definition andthen {A B} (x : answer A) (f : A -> answer B) : answer B :=
  match x with Done a => f a | Fail e => Fail e end.

(* minijinja Kwargs::get::<Option<&str>>: absent and none are None (used at otel.rs 243-246, 270-272) *)
Definition get_str (k : string) (kw : kwargs) : answer (option string) :=
  match lookup String.eqb k kw with
  | None | Some ANone => Done None
  | Some (AStr s) => Done (Some s)
  | Some _ => Fail (BadArgument k)
  end.
(* minijinja Kwargs::get::<Option<bool>> (used at otel.rs 247-249) *)
Definition get_bool (k : string) (kw : kwargs) : answer (option bool) :=
  match lookup String.eqb k kw with
  | None | Some ANone => Done None
  | Some (ABool b) => Done (Some b)
  | Some _ => Fail (BadArgument k)
  end.

(* otel.rs 229-240 *)
Definition parse_translation_strategy (s : string) : answer strategy :=
  if String.eqb s "NoTranslation" then Done NoTranslation
  else if String.eqb s "UnderscoreEscapingWithoutSuffixes" then Done EscapeNoSuffix
  else if String.eqb s "NoUTF8EscapingWithSuffixes" then Done NoEscapeSuffix
  else if String.eqb s "UnderscoreEscapingWithSuffixes" then Done EscapeSuffix
  else Fail (UnknownStrategy s).

(* otel.rs 285-293 *)
Definition get_attr {A} (field : option A) (key : string) : answer A :=
  match field with Some s => Done s | None => Fail (NoString key) end.

(* otel.rs 295-302 *)
Definition prom_unit (input : metric) : answer string :=
  andthen (get_attr (m_unit input) "unit") (fun u =>
  Done (match get_prom_units u with Some w => w | None => u end)).

Section Filters.
  (* char::is_alphanumeric, as in PromModel *)
  Variable alnum : N -> bool.

  (* otel.rs 242-266 *)
  Definition prom_names (input : metric) (kw : kwargs) : answer (list PromModel.name) :=
    andthen (get_str "translation_strategy" kw) (fun given =>
    andthen (match given with
             | None => Done None
             | Some s => andthen (parse_translation_strategy s) (fun st => Done (Some st))
             end) (fun st =>
    andthen (get_bool "expand_summary_and_histogram" kw) (fun expand =>
    andthen (get_attr (m_name input) "metric_name") (fun n =>
    andthen (get_attr (m_unit input) "unit") (fun u =>
    andthen (get_attr (m_instrument input) "instrument") (fun i =>
    Done (get_names alnum n u i st (match expand with Some b => b | None => false end)))))))).

  (* otel.rs 268-283 *)
  Definition prom_name (input : metric) (kw : kwargs) : answer PromModel.name :=
    andthen (get_str "translation_strategy" kw) (fun given =>
    andthen (match given with None => Fail StrategyRequired | Some s => Done s end) (fun s =>
    andthen (parse_translation_strategy s) (fun st =>
    andthen (get_attr (m_name input) "metric_name") (fun n =>
    andthen (get_attr (m_unit input) "unit") (fun u =>
    andthen (get_attr (m_instrument input) "instrument") (fun i =>
    Done (get_name alnum n u i st))))))).
End Filters.
