(* What a user expects of the comment filters, independent of how they are computed. *)
From Coq Require Import String Ascii Bool Arith NArith List.
Import ListNotations.
From Verif Require Import Base SemTypes.
Local Open Scope string_scope.

Definition newline : ascii := "010"%char.

(* The text [s] is the lines [ls] (none of which contains a newline) separated by newlines. *)
Definition has_newline (s : string) : Prop := exists a b, s = a ++ String newline b.

Inductive text_of : list string -> string -> Prop :=
| text_one x : ~ has_newline x -> text_of [x] x
| text_cons x ls s : ~ has_newline x -> text_of ls s -> text_of (x :: ls) (x ++ String newline s).

(* The lines a reader sees: newline or carriage-return newline end a line, and a final
   line terminator does not start another line. *)
Definition return_ : ascii := "013"%char.
Inductive reads_as : string -> list string -> Prop :=
| reads_nil : reads_as "" []
| reads_last x : x <> "" -> ~ has_newline x -> reads_as x [x]
| reads_lf x s ls : ~ has_newline x -> (forall a, x <> a ++ String return_ "") -> reads_as s ls ->
    reads_as (x ++ String newline s) (x :: ls)
| reads_crlf x s ls : ~ has_newline x -> reads_as s ls ->
    reads_as (x ++ String return_ (String newline s)) (x :: ls).

(* white space *)
Definition white (c : ascii) : Prop := In (nat_of_ascii c) [32; 9; 10; 11; 12; 13].
Inductive blank : string -> Prop :=
| blank_nil : blank ""
| blank_cons c s : white c -> blank s -> blank (String c s).

(* [a] is [b] except for white space at the end *)
Definition same_but_end (a b : string) : Prop :=
  exists c u v, a = c ++ u /\ b = c ++ v /\ blank u /\ blank v.

(* A comment with header, footer, prefix and indentation: an optional header, one line per
   line of text, an optional footer.  When there is no header the first line is not
   indented (the template already wrote its indentation). *)
Definition layout (header indent prefix footer : string) (hs ls : list string) : list string :=
  let indented := fun l => indent ++ prefix ++ l in
  let head := match header with EmptyString => nil | _ => hs end in
  let body := match header, ls with
              | EmptyString, x :: r => (prefix ++ x) :: map indented r
              | _, _ => map indented ls
              end in
  let foot := match footer with EmptyString => nil | _ => cons (indent ++ footer) nil end in
  app head (app body foot).

Inductive is_repeat (c : ascii) : nat -> string -> Prop :=
| rep_0 : is_repeat c 0 ""
| rep_S n s : is_repeat c n s -> is_repeat c (S n) (String c s).

(* A keyword argument overrides the configured value, which overrides the empty text. *)
Definition chosen (arg configured : option string) : string :=
  match arg, configured with
  | Some a, _ => a
  | None, Some c => c
  | None, None => ""
  end.

Definition ends_in (P : ascii -> Prop) (s : string) : Prop := exists a c, s = a ++ String c "" /\ P c.
Definition starts_in (P : ascii -> Prop) (s : string) : Prop := exists c a, s = String c a /\ P c.

(* [t] is [s] without the white space around it *)
Definition trimmed (s t : string) : Prop :=
  exists u v, s = u ++ t ++ v /\ blank u /\ blank v /\ ~ starts_in white t /\ ~ ends_in white t.

Definition dot : ascii := "."%char.

(* [t] is [s] without the dots at its end *)
Definition undotted (s t : string) : Prop :=
  exists n d, s = t ++ d /\ is_repeat dot n d /\ ~ ends_in (eq dot) t.

(* [t] is [s] with a dot at its end, unless it is empty *)
Definition dotted (s t : string) : Prop :=
  (s = "" /\ t = "") \/ (ends_in (eq dot) s /\ t = s) \/
  (s <> "" /\ ~ ends_in (eq dot) s /\ t = s ++ ".").

(* The text handed to the renderer, given the three switches *)
Definition normalised (trim remove enforce : bool) (s t : string) : Prop :=
  exists s1 s2,
    (if trim then trimmed s s1 else s1 = s) /\
    (if remove then undotted s1 s2 else s2 = s1) /\
    (if enforce then dotted s2 t else t = s2).
