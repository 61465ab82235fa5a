(* Vocabulary for C103: names in another case. *)
From Coq Require Import String Ascii Bool Arith List.
Import ListNotations.
From Verif Require Import Base CaseModel.
Local Open Scope string_scope.

(* ---------- letters ---------- *)
Definition capitals : string := "ABCDEFGHIJKLMNOPQRSTUVWXYZ".
Definition smalls : string := "abcdefghijklmnopqrstuvwxyz".
Definition is_capital (c : ascii) : Prop := exists i, String.get i capitals = Some c.
Definition is_small (c : ascii) : Prop := exists i, String.get i smalls = Some c.
Definition is_number (c : ascii) : Prop := exists i, String.get i "0123456789" = Some c.
(* [b] is [a] as a small letter, as a capital; what is no letter stays *)
Definition to_small (a b : ascii) : Prop :=
  (exists i, String.get i capitals = Some a /\ String.get i smalls = Some b) \/ (~ is_capital a /\ b = a).
Definition to_capital (a b : ascii) : Prop :=
  (exists i, String.get i smalls = Some a /\ String.get i capitals = Some b) \/ (~ is_small a /\ b = a).
Inductive each (R : ascii -> ascii -> Prop) : string -> string -> Prop :=
| ea_nil : each R "" ""
| ea_cons a b s t : R a b -> each R s t -> each R (String a s) (String b t).
Inductive capitalised : string -> string -> Prop :=
| ca a b s t : to_capital a b -> each to_small s t -> capitalised (String a s) (String b t).
(* every character of a text *)
Definition holds (P : ascii -> Prop) (s : string) : Prop := forall x c y, s = x ++ String c y -> P c.

(* ---------- words ---------- *)
Definition separates (c : ascii) : Prop := In c ["."; "_"; "-"; " "]%char.
(* a word ends between [a] and [b], [rest] follows: aB, or A|Bc *)
Definition turns (a b : ascii) (rest : string) : Prop :=
  (is_small a /\ is_capital b) \/ (is_capital a /\ is_capital b /\ exists c r, rest = String c r /\ is_small c).
Definition solid (w after : string) : Prop :=
  holds (fun c => ~ separates c) w /\ forall x a b y, w = x ++ String a (String b y) -> ~ turns a b (y ++ after).
Definition ends (w after : string) : Prop :=
  after = "" \/ (exists c r, after = String c r /\ separates c) \/
  exists x a b r, w = x ++ String a "" /\ after = String b r /\ turns a b r.
Inductive words : string -> list string -> Prop :=
| wo_nil : words "" []
| wo_sep c s l : separates c -> words s l -> words (String c s) l
| wo_word w s l : w <> "" -> solid w s -> ends w s -> words s l -> words (w ++ s) (w :: l).

(* ---------- conventions ---------- *)
Definition delimiter (k : convention) : string :=
  match k with
  | LowerCase | UpperCase | TitleCase => " "
  | PascalCase | CamelCase => ""
  | SnakeCase | ScreamingSnakeCase => "_"
  | KebabCase | ScreamingKebabCase => "-"
  end.
Definition styled (k : convention) (l ws : list string) : Prop :=
  match k with
  | LowerCase | SnakeCase | KebabCase => Forall2 (each to_small) l ws
  | UpperCase | ScreamingSnakeCase | ScreamingKebabCase => Forall2 (each to_capital) l ws
  | TitleCase | PascalCase => Forall2 capitalised l ws
  | CamelCase => match l, ws with
                 | [], [] => True
                 | w :: l', v :: ws' => each to_small w v /\ Forall2 capitalised l' ws'
                 | _, _ => False
                 end
  end.

(* ---------- names ---------- *)
(* a word of a name: small letters and digits *)
Definition name_word (w : string) : Prop := w <> "" /\ holds (fun c => is_small c \/ is_number c) w.
(* words with single dots or underscores between them *)
Inductive name : string -> list string -> Prop :=
| na_one w : name_word w -> name w [w]
| na_more w c s l : name_word w -> c = "."%char \/ c = "_"%char -> name s l -> name (w ++ String c s) (w :: l).
(* the text without its underscores *)
Inductive without (c : ascii) : string -> string -> Prop :=
| wi_nil : without c "" ""
| wi_skip s t : without c s t -> without c (String c s) t
| wi_keep d s t : d <> c -> without c s t -> without c (String d s) (String d t).
(* a word of two letters or more with letters at both ends *)
Definition sturdy (w : string) : Prop :=
  name_word w /\ exists a m b, w = String a (m ++ String b "") /\ is_small a /\ is_small b.
(* the letters and digits of a text, in small letters *)
Inductive bare : string -> string -> Prop :=
| ba_nil : bare "" ""
| ba_sep c s t : separates c -> bare s t -> bare (String c s) t
| ba_char a b s t : ~ separates a -> to_small a b -> bare s t -> bare (String a s) (String b t).
