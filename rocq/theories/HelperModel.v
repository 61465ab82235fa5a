(* Helper filters of the templates: crates/weaver_forge/src/extensions/util.rs 30-105 and 165-186,
   print_member_value of extensions/otel.rs 449-474 and extensions/ansi.rs.
   A value of the template engine is undefined or has a JSON form; the characters of a text are its bytes.
   How a value that is no text is printed ([show]) and written as YAML are parameters. *)
From Coq Require Import String Ascii Bool Arith NArith ZArith DecimalString List.
Import ListNotations.
From Verif Require Import Base Json SemTypes Str.
From Verif Require ServeModel.
Local Open Scope string_scope.

Section Helpers.
  Variable show : json -> string.
  (* as above: crates/weaver_forge/src/extensions/util.rs 30-105, crates/weaver_forge/src/extensions/util.rs 165-186, extensions/otel.rs 449-474 *)
  Definition text (v : json) : string := match v with JStr s => s | _ => show v end.
  (* util.rs 32-43: concat_if; an undefined argument is None, and so is an undefined result *)
  Fixpoint concat_from (result : string) (args : list (option json)) : option string :=
    match args with
    | [] => Some result
    | None :: _ => None
    | Some v :: r => concat_from (result ++ text v) r
    end.
  (* crates/weaver_forge/src/extensions/util.rs 33-42 *)
  Definition concat_if : list (option json) -> option string := concat_from "".
End Helpers.

(* minijinja: Value::try_iter *)
(* used by try_iter: util.rs 45-55 *)
Fixpoint letters (s : string) : list json := match s with EmptyString => [] | String c r => JStr (String c "") :: letters r end.
(* used by flatten_items: util.rs 45-55 *)
Definition try_iter (v : json) : res (list json) :=
  match v with
  | JNull => Ok []
  | JStr s => Ok (letters s)
  | JArr l => Ok l
  | JObj m => Ok (map (fun kv => JStr (fst kv)) m)
  | JBool _ | JNum _ => Err "is not iterable"
  end.
(* util.rs 45-55: flatten *)
Fixpoint flatten_items (result : list json) (l : list json) : res (list json) :=
  match l with
  | [] => Ok result
  | x :: r => match try_iter x with Ok i => flatten_items (app result i) r | Err e => Err e end
  end.
(* crates/weaver_forge/src/extensions/util.rs 46-54 *)
Definition flatten (v : json) : res (list json) :=
  match try_iter v with Ok l => flatten_items [] l | Err e => Err e end.

(* util.rs 57-86: numsort, on a map; a key is an integer or has a text *)
Inductive mkey := KInt (z : Z) | KText (s : string).
(* as above: util.rs 57-86 *)
Definition in_i64 (z : Z) : bool := Z.leb (- 2 ^ 63) z && Z.ltb z (2 ^ 63).
(* i64::from_str *)
(* used by parse_num: crates/weaver_forge/src/extensions/util.rs 59-62 *)
Definition parse_i64 (s : string) : option Z :=
  let '(neg, d) := match s with String "-" r => (true, r) | String "+" r => (false, r) | _ => (false, s) end in
  if String.eqb d "" then None
  else match ServeModel.read_digits 0 d with
       | Some n => let z := if neg : bool then (- Z.of_N n)%Z else Z.of_N n in if in_i64 z then Some z else None
       | None => None
       end.
(* crates/weaver_forge/src/extensions/util.rs 59-62 *)
Definition parse_num (k : mkey) : option Z :=
  match k with KInt z => if in_i64 z then Some z else None | KText s => parse_i64 s end.
(* used by key_text: crates/weaver_forge/src/extensions/util.rs 58-85 *)
Definition show_int (z : Z) : string :=
  match z with
  | Z0 => "0"
  | Zpos p => NilZero.string_of_uint (Pos.to_uint p)
  | Zneg p => "-" ++ NilZero.string_of_uint (Pos.to_uint p)
  end.
(* used by pair_leb: crates/weaver_forge/src/extensions/util.rs 58-85 *)
Definition key_text (k : mkey) : string := match k with KInt z => show_int z | KText s => s end.
(* used by numsort: crates/weaver_forge/src/extensions/util.rs 58-85 *)
Definition pair_leb (a b : mkey * json) : bool :=
  match parse_num (fst a), parse_num (fst b) with
  | Some x, Some y => Z.leb x y
  | Some _, None => true
  | None, Some _ => false
  | None, None => str_leb (key_text (fst a)) (key_text (fst b))
  end.
(* crates/weaver_forge/src/extensions/util.rs 58-85 *)
Definition numsort (m : list (mkey * json)) : list (mkey * json) := stable_sort pair_leb m.

(* util.rs 88-102: split_id *)
Definition split_id (v : json) : res (list string) :=
  match v with JStr s => Ok (split_char "." s) | _ => Err "Expected string" end.

(* util.rs 165-186: to_yaml, from the YAML text on *)
Fixpoint yaml_escape (s : string) : string :=
  match s with
  | EmptyString => ""
  | String c r =>
    (if Ascii.eqb c "<" then "\u003c" else if Ascii.eqb c ">" then "\u003e" else if Ascii.eqb c "&" then "\u0026"
     else if Ascii.eqb c "'" then "\u0027" else String c "") ++ yaml_escape r
  end.

(* ---------- otel.rs 449-474: print_member_value ---------- *)
(* serde_json: the escape of a byte (format_escaped_str) *)
(* used by escape_byte: crates/weaver_forge/src/extensions/otel.rs 453-474 *)
Definition hex_digit (n : nat) : ascii := ascii_of_nat (if Nat.ltb n 10 then 48 + n else 87 + n).
(* used by escape_str: crates/weaver_forge/src/extensions/otel.rs 453-474 *)
Definition escape_byte (c : ascii) : string :=
  let n := nat_of_ascii c in
  if Nat.eqb n 34 then "\""" else if Nat.eqb n 92 then "\\"
  else if Nat.eqb n 8 then "\b" else if Nat.eqb n 9 then "\t" else if Nat.eqb n 10 then "\n"
  else if Nat.eqb n 12 then "\f" else if Nat.eqb n 13 then "\r"
  else if Nat.ltb n 32 then "\u00" ++ String (hex_digit (n / 16)) (String (hex_digit (n mod 16)) "")
  else String c "".
(* used by quote: crates/weaver_forge/src/extensions/otel.rs 453-474 *)
Fixpoint escape_str (s : string) : string := match s with EmptyString => "" | String c r => escape_byte c ++ escape_str r end.
(* used by print_member_value: crates/weaver_forge/src/extensions/otel.rs 453-474 *)
Definition quote (s : string) : string := """" ++ escape_str s ++ """".
(* crates/weaver_forge/src/extensions/otel.rs 453-474 *)
Definition print_member_value (show : json -> string) (v : json) : string :=
  match v with
  | JStr s => quote s
  | JNum _ | JBool _ => show v
  | _ => ""
  end.

(* ---------- ansi.rs ---------- *)
(* 221-266: the filters and the codes of their functions (5-219) *)
Definition ansi_filters : list (string * nat) :=
  [("ansi_black", 30); ("ansi_red", 31); ("ansi_green", 32); ("ansi_yellow", 33); ("ansi_blue", 34); ("ansi_magenta", 35); ("ansi_cyan", 36); ("ansi_white", 37);
   ("ansi_bright_black", 90); ("ansi_bright_red", 91); ("ansi_bright_green", 92); ("ansi_bright_yellow", 93); ("ansi_bright_blue", 94); ("ansi_bright_magenta", 95); ("ansi_bright_cyan", 96); ("ansi_bright_white", 97);
   ("ansi_bg_black", 40); ("ansi_bg_red", 41); ("ansi_bg_green", 42); ("ansi_bg_yellow", 43); ("ansi_bg_blue", 44); ("ansi_bg_magenta", 45); ("ansi_bg_cyan", 46); ("ansi_bg_white", 47);
   ("ansi_bg_bright_black", 100); ("ansi_bg_bright_red", 101); ("ansi_bg_bright_green", 102); ("ansi_bg_bright_yellow", 103); ("ansi_bg_bright_blue", 104); ("ansi_bg_bright_magenta", 105); ("ansi_bg_bright_cyan", 106); ("ansi_bg_bright_white", 107);
   ("ansi_bold", 1); ("ansi_italic", 3); ("ansi_underline", 4); ("ansi_strikethrough", 9)].
(* as above: ansi.rs 221-266, ansi.rs 5-219 *)
Definition esc : ascii := ascii_of_nat 27.
(* as above: ansi.rs 221-266, ansi.rs 5-219 *)
Definition sgr (code : nat) : string := String esc ("[" ++ show_int (Z.of_nat code) ++ "m").
(* as above: ansi.rs 221-266, ansi.rs 5-219 *)
Definition ansi (name : string) (input : string) : option string :=
  option_map (fun code => sgr code ++ input ++ sgr 0) (slookup name ansi_filters).
