(* Vocabulary for C102: where the errors of a definition file are shown. *)
From Coq Require Import String Ascii Bool Arith NArith List.
Import ListNotations.
From Verif Require Import Base Json SemTypes LocModel.
From Verif Require ServeSpec SearchSpec.
Local Open Scope string_scope.

(* ---------- places in a document ---------- *)
Inductive step := SKey (k : ykey) | SIdx (n : nat).
(* the node at a place *)
Inductive sits : ynode -> list step -> ynode -> Prop :=
| si_here n : sits n [] n
| si_key a b m k l r c p n : m = app l ((k, c) :: r) -> ~ In k (map fst l) -> sits c p n -> sits (YMap a b m) (SKey k :: p) n
| si_idx a b l i c p n : nth_error l i = Some c -> sits c p n -> sits (YSeq a b l) (SIdx i :: p) n.
Definition key_text (k : ykey) : string := match k with YStr s | YOther s => s end.
(* RFC 6901: ~ is written ~0, and / is written ~1 *)
Inductive escaped : string -> string -> Prop :=
| es_nil : escaped "" ""
| es_tilde s e : escaped s e -> escaped (String "~" s) ("~0" ++ e)
| es_slash s e : escaped s e -> escaped (String "/" s) ("~1" ++ e)
| es_char c s e : c <> "~"%char -> c <> "/"%char -> escaped s e -> escaped (String c s) (String c e).
(* the JSON pointer to a place *)
Inductive points : list step -> string -> Prop :=
| po_nil : points [] ""
| po_key k e p s : escaped (key_text k) e -> points p s -> points (SKey k :: p) ("/" ++ e ++ s)
| po_idx n d p s : ServeSpec.digits d n -> points p s -> points (SIdx n :: p) ("/" ++ d ++ s).
(* a key that needs no escape, is not empty and does not look like a number *)
Definition plain_key (k : string) : Prop :=
  k <> "" /\ (forall a b, k <> a ++ "/" ++ b) /\ (forall a b, k <> a ++ "~" ++ b) /\ forall n, ~ ServeSpec.number k n.
Inductive plain : list step -> Prop :=
| pl_nil : plain []
| pl_key k p : plain_key k -> plain p -> plain (SKey (YStr k) :: p)
| pl_idx n p : (N.of_nat n < 2 ^ 64)%N -> plain p -> plain (SIdx n :: p).
(* the node lies inside the text *)
Definition within (d : ydoc) (n : ynode) : Prop := fst (node_span n) <= snd (node_span n) <= List.length (yd_chars d).
Definition sound (d : ydoc) : Prop := forall p n, sits (yd_root d) p n -> within d n.
Definition text_of (l : list string) : string := fold_right String.append "" l.
(* the bytes of the node in the text *)
Definition shows (d : ydoc) (n : ynode) (offset len : nat) : Prop :=
  exists before node after, yd_chars d = app before (app node after) /\
    List.length before = fst (node_span n) /\ List.length (app before node) = snd (node_span n) /\
    offset = String.length (text_of before) /\ len = String.length (text_of node).

(* ---------- schemas ---------- *)
Definition member (j : json) (k : string) (v : json) : Prop :=
  exists l r, j = JObj (app l ((k, v) :: r)) /\ ~ In k (map fst l).
Inductive chain : json -> list string -> json -> Prop :=
| cn_end j : chain j [] j
| cn_step j k v p w : member j k v -> chain v p w -> chain j (k :: p) w.
(* the definition that a reference such as #/definitions/x names *)
Definition refers (schema : json) (r : string) (d : json) : Prop :=
  exists parts, parts <> [] /\ (forall p, In p parts -> forall a b, p <> a ++ "/" ++ b) /\ r = "#/" ++ join "/" parts /\ chain schema parts d.
(* the schemas on the way to the place, the last one excepted *)
Inductive leads (schema : json) : json -> list step -> list json -> Prop :=
| le_end j : leads schema j [] []
| le_key j k v p l : k <> "$ref" -> member j k v -> leads schema v p l -> leads schema j (SKey (YStr k) :: p) (j :: l)
| le_ref j r d p l : member j "$ref" (JStr r) -> refers schema r d -> leads schema d p l -> leads schema j (SKey (YStr "$ref") :: p) (j :: l)
| le_idx a i v p l : nth_error a i = Some v -> leads schema v p l -> leads schema (JArr a) (SIdx i :: p) (JArr a :: l).
Definition describes (j : json) (d : string) : Prop := member j "description" (JStr d).
(* the description of the innermost of them that has one *)
Definition innermost (l : list json) (d : string) : Prop :=
  (exists a j b, l = app a (j :: b) /\ describes j d /\ forall x y, In x b -> ~ describes x y) \/
  ((forall x y, In x l -> ~ describes x y) /\ d = "No description available").

(* ---------- messages ---------- *)
(* the error, and the errors of its variants *)
Inductive within_error : verror -> verror -> Prop :=
| we_self e : within_error e e
| we_sub t ctx errors x e : In errors ctx -> In x errors -> within_error x e -> within_error (VMany t ctx) e.

(* ---------- for the examples ---------- *)
Definition sample_doc (key : ykey) : ydoc :=
  {| yd_chars := ["a"; ":"; " "; "1"]; yd_root := YMap 0 4 [(key, YScalar 3 4)] |}.
Definition sample_two : ydoc :=
  {| yd_chars := ["x"; "y"; "z"]; yd_root := YMap 0 3 [(YStr "a~b", YScalar 0 1); (YStr "a~0b", YScalar 2 3)] |}.
(* the record of a violation says what it should, and says it in the right place *)
Definition answered (schema : json) (d : ydoc) (v : violation) (r : reported) : Prop :=
  (forall x, within_error (vi_error v) x -> SearchSpec.says (verror_text x) (re_text r)) /\
  (forall o k, re_span r = Some (o, k) -> exists p n, sits (yd_root d) p n /\ shows d n o k) /\
  (forall p n, p <> [] -> plain p -> points p (vi_instance v) -> sits (yd_root d) p n ->
     exists o k, re_span r = Some (o, k) /\ shows d n o k) /\
  (forall p l t, p <> [] -> plain p -> points p (vi_schema v) -> leads schema schema p l -> innermost l t -> re_advice r = Some t).
(* {é: 1} and the schema of a mapping whose members are described *)
Definition sample_wide : ydoc :=
  {| yd_chars := [String (ascii_of_nat 195) (String (ascii_of_nat 169) ""); ":"; " "; "1"];
     yd_root := YMap 0 4 [(YStr "k", YScalar 3 4)] |}.
Definition sample_schema : json :=
  JObj [("definitions", JObj [("item", JObj [("description", JStr "An item."); ("type", JStr "string")])]);
        ("description", JStr "A file.");
        ("properties", JObj [("k", JObj [("$ref", JStr "#/definitions/item")])])].
