(* Prometheus names of metrics.
   Models crates/weaver_forge/src/extensions/prom.rs.  A metric name is a list of Unicode
   code points (Rust chars); units and instruments are byte strings.
   [alnum] is char::is_alphanumeric (Unicode tables, a parameter). *)
From Coq Require Import String Ascii Bool Arith NArith List.
Import ListNotations.
From Verif Require Import Base Str.
Local Open Scope string_scope.

(* used by chars: prom.rs 95-99 *)
Definition name := list N.

(* an ASCII literal as characters *)
(* used by with_suffixes: prom.rs 95-99 *)
Fixpoint chars (s : string) : name :=
  match s with
  | EmptyString => []
  | String c s' => N_of_ascii c :: chars s'
  end.

(* char::is_ascii_digit, is_ascii_alphanumeric *)
(* used by c_ascii_alnum: prom.rs 241-247 *)
Definition c_digit (c : N) : bool := (N.leb 48 c && N.leb c 57).
(* used by fix_char: prom.rs 241-247 *)
Definition c_ascii_alnum (c : N) : bool :=
  c_digit c || (N.leb 65 c && N.leb c 90) || (N.leb 97 c && N.leb c 122).
(* used by with_suffixes: prom.rs 95-99 *)
Definition c_under : N := 95.
(* used by kept: prom.rs 231-234 *)
Definition c_colon : N := 58.

(* prom.rs 12-17 *)
Inductive strategy := NoTranslation | EscapeNoSuffix | NoEscapeSuffix | EscapeSuffix.

(* prom.rs 154-204 *)
Definition prom_units : list (string * string) :=
  [("d","days"); ("h","hours"); ("min","minutes"); ("s","seconds"); ("ms","milliseconds");
   ("us","microseconds"); ("ns","nanoseconds");
   ("By","bytes"); ("KiBy","kibibytes"); ("MiBy","mebibytes"); ("GiBy","gibibytes");
   ("TiBy","tibibytes"); ("KBy","kilobytes"); ("MBy","megabytes"); ("GBy","gigabytes");
   ("TBy","terabytes"); ("B","bytes"); ("KB","kilobytes"); ("MB","megabytes");
   ("GB","gigabytes"); ("TB","terabytes");
   ("m","meters"); ("V","volts"); ("A","amperes"); ("J","joules"); ("W","watts"); ("g","grams");
   ("Cel","celsius"); ("Hz","hertz"); ("1","ratio"); ("%","percent")].
(* crates/weaver_forge/src/extensions/prom.rs 159-201 *)
Definition get_prom_units (unit : string) : option string := slookup unit prom_units.

(* prom.rs 206-217 *)
Definition prom_per_units : list (string * string) :=
  [("s","second"); ("m","minute"); ("h","hour"); ("d","day"); ("w","week"); ("mo","month"); ("y","year")].
(* crates/weaver_forge/src/extensions/prom.rs 203-214 *)
Definition get_prom_per_unit (unit : string) : option string := slookup unit prom_per_units.

(* prom.rs 10 *)
Definition non_applicable_on_per_unit : list string := ["1"; "d"; "h"; "min"; "s"; "ms"; "us"; "ns"].

(* Rust str::split_once *)
(* used by get_unit_suffixes: prom.rs 118-152 *)
Fixpoint split_once (c : ascii) (s : string) : option (string * string) :=
  match s with
  | EmptyString => None
  | String d s' =>
    if Ascii.eqb d c then Some ("", s')
    else match split_once c s' with
         | Some (a, b) => Some (String d a, b)
         | None => None
         end
  end.

(* prom.rs 118-152 *)
Definition get_unit_suffixes (unit : string) : option string :=
  match unit with
  | EmptyString => None
  | _ =>
    match get_prom_units unit with
    | Some m => Some m
    | None =>
      match split_once "/"%char unit with
      | Some (first, second) =>
        match str_mem first non_applicable_on_per_unit, get_prom_units first, get_prom_per_unit second with
        | true, _, Some p | false, None, Some p => Some ("per_" ++ p)
        | false, Some f, Some p => Some (f ++ "_per_" ++ p)
        | _, _, _ => None
        end
      | None => None
      end
    end
  end.

(* prom.rs 101-116 *)
Definition get_suffixes (unit instrument : string) : list string :=
  app (match get_unit_suffixes unit with Some u => [u] | None => [] end)
      (if String.eqb instrument "counter" then ["total"] else []).

(* prom.rs 95-99 *)
Definition with_suffixes (n : name) (unit instrument : string) : name :=
  fold_left (fun acc suffix => (acc ++ c_under :: chars suffix)%list) (get_suffixes unit instrument) n.

Section Sanitize.
  Variable alnum : N -> bool.

  (* prom.rs 231-234: acceptable in the search for the first invalid character *)
  Definition kept (c : N) : bool := alnum c || N.eqb c c_under || N.eqb c c_colon.

  (* prom.rs 241-247: replacement of the characters from the first invalid one on *)
  Definition fix_char (c : N) : N :=
    if c_ascii_alnum c || N.eqb c c_under || N.eqb c c_colon then c else c_under.

  (* the name split at the first invalid character; None when there is none *)
  (* used by sanitize_name: prom.rs 220-254 *)
  Fixpoint split_valid (s : name) : option (name * name) :=
    match s with
    | [] => None
    | c :: s' =>
      if negb (kept c) then Some ([], s)
      else match split_valid s' with
           | Some (v, r) => Some (c :: v, r)
           | None => None
           end
    end.

  (* prom.rs 220-254 *)
  Definition sanitize_name (s : name) : name :=
    match s with
    | c :: _ =>
      if c_digit c then c_under :: map fix_char s
      else match split_valid s with
           | Some (valid, rest) => (valid ++ map fix_char rest)%list
           | None => s
           end
    | [] => []
    end.

  (* prom.rs 80-93 *)
  Definition get_name (n : name) (unit instrument : string) (st : strategy) : name :=
    match st with
    | NoTranslation => n
    | EscapeNoSuffix => sanitize_name n
    | NoEscapeSuffix => with_suffixes n unit instrument
    | EscapeSuffix => with_suffixes (sanitize_name n) unit instrument
    end.

  (* used by get_names: prom.rs 19-78 *)
  Definition name_eqb (a b : name) : bool := if list_eq_dec N.eq_dec a b then true else false.

  (* prom.rs 54-76: expansion of one name *)
  Definition expand_name (instrument : string) (expand : bool) (n : name) : list name :=
    if expand then
      if String.eqb instrument "histogram" then
        [n; (n ++ chars "_bucket")%list; (n ++ chars "_count")%list; (n ++ chars "_sum")%list]
      else if String.eqb instrument "summary" then
        [n; (n ++ chars "_count")%list; (n ++ chars "_sum")%list]
      else [n]
    else [n].

  (* prom.rs 19-78 *)
  Definition get_names (n : name) (unit instrument : string) (st : option strategy) (expand : bool)
    : list name :=
    let variants :=
      match st with
      | None => [n; sanitize_name n; with_suffixes n unit instrument;
                 with_suffixes (sanitize_name n) unit instrument]
      | Some NoTranslation => [n]
      | Some EscapeNoSuffix => [sanitize_name n]
      | Some NoEscapeSuffix => [with_suffixes n unit instrument]
      | Some EscapeSuffix => [with_suffixes (sanitize_name n) unit instrument]
      end in
    flat_map (expand_name instrument expand) (dedup_by name_eqb variants).
End Sanitize.
