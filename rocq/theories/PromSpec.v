(* What Prometheus requires of a metric name. *)
From Coq Require Import String Ascii Bool Arith NArith List.
Import ListNotations.
Local Open Scope N_scope.

Definition letter (c : N) : Prop := (65 <= c <= 90) \/ (97 <= c <= 122).
Definition digit (c : N) : Prop := 48 <= c <= 57.

(* [a-zA-Z_:][a-zA-Z0-9_:]* *)
Definition first_char (c : N) : Prop := letter c \/ c = 95 \/ c = 58.
Definition name_char (c : N) : Prop := first_char c \/ digit c.
Definition legal (n : list N) : Prop :=
  exists c r, n = c :: r /\ first_char c /\ Forall name_char r.

Definition ascii_name (n : list N) : Prop := Forall (fun c => c < 128) n.

(* char::is_alphanumeric agrees with the ASCII classes below 128 *)
Definition unicode_table (alnum : N -> bool) : Prop :=
  forall c, c < 128 -> (alnum c = true <-> letter c \/ digit c).

(* [t] is [s] with some characters replaced by underscores *)
Inductive underscored : list N -> list N -> Prop :=
| us_nil : underscored [] []
| us_keep c s t : underscored s t -> underscored (c :: s) (c :: t)
| us_repl c s t : ~ name_char c -> underscored s t -> underscored (c :: s) (95 :: t).

(* Words for units (OpenTelemetry to Prometheus compatibility tables) *)
Local Open Scope string_scope.
Definition known_units : list (string * string) :=
  [("d","days"); ("h","hours"); ("min","minutes"); ("s","seconds"); ("ms","milliseconds");
   ("us","microseconds"); ("ns","nanoseconds");
   ("By","bytes"); ("KiBy","kibibytes"); ("MiBy","mebibytes"); ("GiBy","gibibytes");
   ("TiBy","tibibytes"); ("KBy","kilobytes"); ("MBy","megabytes"); ("GBy","gigabytes");
   ("TBy","terabytes"); ("B","bytes"); ("KB","kilobytes"); ("MB","megabytes");
   ("GB","gigabytes"); ("TB","terabytes");
   ("m","meters"); ("V","volts"); ("A","amperes"); ("J","joules"); ("W","watts"); ("g","grams");
   ("Cel","celsius"); ("Hz","hertz"); ("1","ratio"); ("%","percent")].
Definition known_per_units : list (string * string) :=
  [("s","second"); ("m","minute"); ("h","hour"); ("d","day"); ("w","week"); ("mo","month"); ("y","year")].
