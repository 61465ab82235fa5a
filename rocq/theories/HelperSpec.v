(* Vocabulary for C104: the helper filters of the templates. *)
From Coq Require Import String Ascii Bool Arith NArith ZArith List.
Import ListNotations.
From Verif Require Import Base Json SemTypes HelperModel.
From Verif Require ServeSpec.
Local Open Scope string_scope.

Definition glue (l : list string) : string := fold_right String.append "" l.
(* what a value has in it to go over *)
Inductive items : json -> list json -> Prop :=
| it_null : items JNull []
| it_list l : items (JArr l) l
| it_keys m : items (JObj m) (map (fun kv => JStr (fst kv)) m)
| it_text s l : s = glue l -> Forall (fun c => String.length c = 1) l -> items (JStr s) (map JStr l).

(* ---------- numbers ---------- *)
(* a decimal number of 64 bits with a sign *)
Definition integer (s : string) (z : Z) : Prop :=
  (- 2 ^ 63 <= z < 2 ^ 63)%Z /\
  ((exists n, ServeSpec.digits s n /\ z = Z.of_nat n) \/
   (exists t n, s = "+" ++ t /\ ServeSpec.digits t n /\ z = Z.of_nat n) \/
   (exists t n, s = "-" ++ t /\ ServeSpec.digits t n /\ z = (- Z.of_nat n)%Z)).
Definition counts (k : mkey) (z : Z) : Prop :=
  match k with KInt i => i = z /\ (- 2 ^ 63 <= z < 2 ^ 63)%Z | KText s => integer s z end.
Definition before (a b : mkey) : Prop :=
  (exists x, counts a x /\ forall y, counts b y -> (x <= y)%Z) \/
  ((forall x, ~ counts a x) /\ (forall y, ~ counts b y) /\ String.leb (key_text a) (key_text b) = true).
Definition same_place (a b : mkey) : Prop := before a b /\ before b a.

(* ---------- JSON texts (RFC 8259) ---------- *)
Definition hex (c : ascii) (n : nat) : Prop := String.get n "0123456789abcdef" = Some c \/ String.get n "0123456789ABCDEF" = Some c.
Inductive unescaped : string -> string -> Prop :=
| un_nil : unescaped "" ""
| un_plain c s t : 32 <= nat_of_ascii c -> c <> """"%char -> c <> "\"%char -> unescaped s t -> unescaped (String c s) (String c t)
| un_quote s t : unescaped s t -> unescaped (String "\" (String """" s)) (String """" t)
| un_back s t : unescaped s t -> unescaped (String "\" (String "\" s)) (String "\" t)
| un_slash s t : unescaped s t -> unescaped (String "\" (String "/" s)) (String "/" t)
| un_b s t : unescaped s t -> unescaped (String "\" (String "b" s)) (String (ascii_of_nat 8) t)
| un_f s t : unescaped s t -> unescaped (String "\" (String "f" s)) (String (ascii_of_nat 12) t)
| un_n s t : unescaped s t -> unescaped (String "\" (String "n" s)) (String (ascii_of_nat 10) t)
| un_r s t : unescaped s t -> unescaped (String "\" (String "r" s)) (String (ascii_of_nat 13) t)
| un_t s t : unescaped s t -> unescaped (String "\" (String "t" s)) (String (ascii_of_nat 9) t)
| un_u a b x y s t : hex a x -> hex b y -> 16 * x + y < 128 -> unescaped s t ->
    unescaped (String "\" (String "u" (String "0" (String "0" (String a (String b s)))))) (String (ascii_of_nat (16 * x + y)) t).
(* a JSON string, and the text it stands for *)
Definition json_string (s t : string) : Prop := exists u, s = """" ++ u ++ """" /\ unescaped u t.

(* ---------- YAML scalars ---------- *)
Definition free_of (c : ascii) (s : string) : Prop := forall a b, s <> a ++ String c b.
(* 'text' *)
Definition yaml_quoted (s t : string) : Prop := s = "'" ++ t ++ "'" /\ free_of "'" t.
(* a plain scalar that starts with a backslash stands for itself *)
Definition yaml_plain (s t : string) : Prop := s = t /\ exists r, s = "\" ++ r /\ free_of " " r /\ free_of ":" r /\ free_of "#" r /\ free_of (ascii_of_nat 10) r.

(* ---------- terminals ---------- *)
Record style := { foreground : option nat; background : option nat; bold : bool; italic : bool; underline : bool; struck : bool }.
Definition no_style : style := {| foreground := None; background := None; bold := false; italic := false; underline := false; struck := false |}.
Definition with_fg n s := {| foreground := Some n; background := background s; bold := bold s; italic := italic s; underline := underline s; struck := struck s |}.
Definition with_bg n s := {| foreground := foreground s; background := Some n; bold := bold s; italic := italic s; underline := underline s; struck := struck s |}.
Definition with_bold s := {| foreground := foreground s; background := background s; bold := true; italic := italic s; underline := underline s; struck := struck s |}.
Definition with_italic s := {| foreground := foreground s; background := background s; bold := bold s; italic := true; underline := underline s; struck := struck s |}.
Definition with_underline s := {| foreground := foreground s; background := background s; bold := bold s; italic := italic s; underline := true; struck := struck s |}.
Definition with_struck s := {| foreground := foreground s; background := background s; bold := bold s; italic := italic s; underline := underline s; struck := true |}.
(* ECMA-48 SGR, with the bright colours: colours 8 to 15 *)
Inductive selects : nat -> style -> style -> Prop :=
| se_reset s : selects 0 s no_style
| se_bold s : selects 1 s (with_bold s)
| se_italic s : selects 3 s (with_italic s)
| se_underline s : selects 4 s (with_underline s)
| se_struck s : selects 9 s (with_struck s)
| se_fg n s : n < 8 -> selects (30 + n) s (with_fg n s)
| se_bg n s : n < 8 -> selects (40 + n) s (with_bg n s)
| se_bright n s : n < 8 -> selects (90 + n) s (with_fg (8 + n) s)
| se_bg_bright n s : n < 8 -> selects (100 + n) s (with_bg (8 + n) s).
(* what a terminal in a style shows for a text, and the style it is left in *)
Inductive shows : style -> string -> list (ascii * style) -> style -> Prop :=
| sh_end s : shows s "" [] s
| sh_char s c t l e : c <> ascii_of_nat 27 -> shows s t l e -> shows s (String c t) ((c, s) :: l) e
| sh_sgr s d n s' t l e : ServeSpec.digits d n -> selects n s s' -> shows s' t l e ->
    shows s (String (ascii_of_nat 27) ("[" ++ d ++ "m" ++ t)) l e.
Definition colours : list string := ["black"; "red"; "green"; "yellow"; "blue"; "magenta"; "cyan"; "white"].
(* the filters by their names, and the style each stands for *)
Inductive styles : string -> (style -> style) -> Prop :=
| st_fg n c : nth_error colours n = Some c -> styles ("ansi_" ++ c) (with_fg n)
| st_bright n c : nth_error colours n = Some c -> styles ("ansi_bright_" ++ c) (with_fg (8 + n))
| st_bg n c : nth_error colours n = Some c -> styles ("ansi_bg_" ++ c) (with_bg n)
| st_bg_bright n c : nth_error colours n = Some c -> styles ("ansi_bg_bright_" ++ c) (with_bg (8 + n))
| st_bold : styles "ansi_bold" with_bold
| st_italic : styles "ansi_italic" with_italic
| st_underline : styles "ansi_underline" with_underline
| st_struck : styles "ansi_strikethrough" with_struck.
Fixpoint chars (s : string) : list ascii := match s with EmptyString => [] | String c r => c :: chars r end.
Definition printed (show : json -> string) (v : json) (t : string) : Prop := match v with JStr s => t = s | _ => t = show v end.
