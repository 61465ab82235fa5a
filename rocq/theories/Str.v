(* Rust str functions on byte strings (library code, not weaver code). Offsets are
   byte offsets. *)
From Coq Require Import String Ascii Bool Arith List.
Import ListNotations.
From Verif Require Import Base.
Local Open Scope string_scope.

(* &s[n..] without its panic *)
Fixpoint str_drop (n : nat) (s : string) : string :=
  match n, s with
  | 0, _ => s
  | S n', String _ s' => str_drop n' s'
  | S _, EmptyString => EmptyString
  end.

(* &s[..n] without its panic *)
Fixpoint str_take (n : nat) (s : string) : string :=
  match n, s with
  | 0, _ => EmptyString
  | S n', String c s' => String c (str_take n' s')
  | S _, EmptyString => EmptyString
  end.

(* &s[a..b]; None is the panic of an invalid range.  Panics at non-boundaries of
   UTF-8 are not modelled. *)
Definition slice (a b : nat) (s : string) : option string :=
  if Nat.leb a b && Nat.leb b (String.length s) then Some (str_take (b - a) (str_drop a s)) else None.

(* &s[a..] *)
Definition slice_from (a : nat) (s : string) : option string :=
  if Nat.leb a (String.length s) then Some (str_drop a s) else None.

(* s.find(|c| p c) *)
Fixpoint find_char (p : ascii -> bool) (s : string) : option nat :=
  match s with
  | EmptyString => None
  | String c s' => if p c then Some 0 else option_map S (find_char p s')
  end.

(* s.find(needle) *)
Fixpoint find_str (needle s : string) : option nat :=
  if starts_with needle s then Some 0
  else match s with
       | EmptyString => None
       | String _ s' => option_map S (find_str needle s')
       end.

(* s.rfind(c) *)
Fixpoint rfind_char (c : ascii) (s : string) : option nat :=
  match s with
  | EmptyString => None
  | String d s' =>
    match rfind_char c s' with
    | Some i => Some (S i)
    | None => if Ascii.eqb d c then Some 0 else None
    end
  end.

(* s.trim_end_matches(p) *)
Fixpoint trim_end (p : ascii -> bool) (s : string) : string :=
  match s with
  | EmptyString => EmptyString
  | String c s' =>
    match trim_end p s' with
    | EmptyString => if p c then EmptyString else String c EmptyString
    | t => String c t
    end
  end.

(* s.trim_start_matches(p) *)
Fixpoint trim_start (p : ascii -> bool) (s : string) : string :=
  match s with
  | EmptyString => EmptyString
  | String c s' => if p c then trim_start p s' else s
  end.

(* s.split(c) *)
Fixpoint split_char (c : ascii) (s : string) : list string :=
  match s with
  | EmptyString => [EmptyString]
  | String d s' =>
    if Ascii.eqb d c then EmptyString :: split_char c s'
    else match split_char c s' with
         | [] => [String d EmptyString]
         | h :: t => String d h :: t
         end
  end.

(* s.chars().all(p) *)
Fixpoint all_chars (p : ascii -> bool) (s : string) : bool :=
  match s with
  | EmptyString => true
  | String c s' => p c && all_chars p s'
  end.

(* s.chars().any(p) *)
Fixpoint any_char (p : ascii -> bool) (s : string) : bool :=
  match s with
  | EmptyString => false
  | String c s' => p c || any_char p s'
  end.

(* character classes *)
Definition is_digit (c : ascii) : bool :=
  let n := nat_of_ascii c in Nat.leb 48 n && Nat.leb n 57.
(* char::is_ascii_lowercase *)
Definition is_lower (c : ascii) : bool :=
  let n := nat_of_ascii c in Nat.leb 97 n && Nat.leb n 122.
(* char::is_ascii_uppercase *)
Definition is_upper (c : ascii) : bool :=
  let n := nat_of_ascii c in Nat.leb 65 n && Nat.leb n 90.
(* char::is_ascii_alphanumeric *)
Definition is_ascii_alnum (c : ascii) : bool := is_digit c || is_lower c || is_upper c.
(* char::is_ascii *)
Definition is_ascii (c : ascii) : bool := Nat.ltb (nat_of_ascii c) 128.
(* c == '/' *)
Definition is_slash (c : ascii) : bool := Ascii.eqb c "/"%char.
(* char::is_whitespace on ASCII *)
Definition is_white (c : ascii) : bool :=
  let n := nat_of_ascii c in Nat.eqb n 32 || (Nat.leb 9 n && Nat.leb n 13).
