(* The case conversions of the templates: crates/weaver_forge/src/config.rs 399-473 (CaseConvention::convert),
   crates/weaver_forge/src/extensions/case.rs and the constants of extensions/otel.rs 186-219.
   The library that does them (convert_case 0.11) is modelled as well: words are cut at an underscore, a
   hyphen or a space, between a small and a capital letter, and before the last capital of a run that a
   small letter follows.  The boundaries with digits are removed and the ones that are added are there
   already.  Simplified: letters are those of ASCII. *)
From Coq Require Import String Ascii Bool Arith List.
Import ListNotations.
From Verif Require Import Base Str.
From Verif Require OtelModel.
Local Open Scope string_scope.

(* used by convert: crates/weaver_forge/src/config.rs 400-472 *)
Inductive convention := LowerCase | UpperCase | TitleCase | PascalCase | CamelCase | SnakeCase | ScreamingSnakeCase | KebabCase | ScreamingKebabCase.

(* char::to_ascii_uppercase, str::to_uppercase *)
(* used by upper: crates/weaver_forge/src/config.rs 400-472 *)
Definition upper_char (c : ascii) : ascii := if is_lower c then ascii_of_nat (nat_of_ascii c - 32) else c.
(* used by convert: crates/weaver_forge/src/config.rs 400-472 *)
Fixpoint upper (s : string) : string := match s with EmptyString => "" | String c r => String (upper_char c) (upper r) end.
(* used by capital: crates/weaver_forge/src/config.rs 400-472 *)
Definition lower : string -> string := OtelModel.lower.
(* convert_case: the words of a text *)
(* used by cut: crates/weaver_forge/src/config.rs 400-472 *)
Definition is_delimiter (c : ascii) : bool := Ascii.eqb c "_" || Ascii.eqb c "-" || Ascii.eqb c " ".
(* used by cut: crates/weaver_forge/src/config.rs 400-472 *)
Definition boundary (c : ascii) (r : string) : bool :=
  match r with
  | EmptyString => false
  | String d r' =>
    (is_lower c && is_upper d) ||
    (is_upper c && is_upper d && match r' with String e _ => is_lower e | EmptyString => false end)
  end.
(* used by split_words: crates/weaver_forge/src/config.rs 400-472 *)
Fixpoint cut (word s : string) : list string :=
  match s with
  | EmptyString => [word]
  | String c r =>
    if is_delimiter c then word :: cut "" r
    else if boundary c r then (word ++ String c "") :: cut "" r
    else cut (word ++ String c "") r
  end.
(* used by convert: crates/weaver_forge/src/config.rs 400-472 *)
Definition split_words (s : string) : list string := filter (fun w => negb (String.eqb w "")) (cut "" s).
(* convert_case: Pattern::Lowercase, Uppercase, Capital and Camel *)
(* used by camel: crates/weaver_forge/src/config.rs 400-472 *)
Definition capital (w : string) : string :=
  match w with EmptyString => "" | String c r => String (upper_char c) (lower r) end.
(* used by convert: crates/weaver_forge/src/config.rs 400-472 *)
Definition camel (l : list string) : list string :=
  match l with [] => [] | w :: r => lower w :: map capital r end.
(* 399-473 *)
Definition replace_char (c : ascii) (by_ : string) : string -> string :=
  fix go (s : string) : string :=
    match s with EmptyString => "" | String d r => if Ascii.eqb d c then by_ ++ go r else String d (go r) end.
(* crates/weaver_forge/src/config.rs 400-472 *)
Definition convert (k : convention) (text : string) : string :=
  let words := split_words (replace_char "." "_" text) in
  match k with
  | LowerCase => join " " (map lower words)
  | UpperCase => join " " (map upper words)
  | TitleCase => join " " (map capital words)
  | PascalCase => join "" (map capital words)
  | CamelCase => join "" (camel words)
  | SnakeCase => join "_" (map lower words)
  | ScreamingSnakeCase => join "_" (map upper words)
  | KebabCase => join "-" (map lower words)
  | ScreamingKebabCase => join "-" (map upper words)
  end.
(* otel.rs 186-219: kebab_case_const, pascal_case_const, ... *)
Definition convert_const (k : convention) (input : string) : string := convert k (replace_char "_" "" input).
(* case.rs 88-102: capitalize_first *)
Definition capitalize_first (input : string) : string :=
  match input with EmptyString => "" | String c r => String (upper_char c) r end.
