(* Vocabulary for C105: the properties a JSON schema allows, and the versions of its format. *)
From Coq Require Import String Ascii Bool Arith NArith List.
Import ListNotations.
From Verif Require Import Json.
From Verif Require ServeSpec.
Local Open Scope string_scope.

(* ---------- the places in the documents of a schema ---------- *)
Inductive part := Field (f : string) | Item.
Fixpoint shown (before : string) (p : list part) : string :=
  match p with
  | [] => before
  | Field f :: r => shown (if String.eqb before "" then f else before ++ "." ++ f) r
  | Item :: r => shown (before ++ "[]") r
  end.
Definition place_text (p : list part) : string := shown "" p.

(* the schemas directly in a schema, with the part of a document they are about *)
Inductive within : json -> json -> list part -> Prop :=
| wi_alt m k l x : In (k, JArr l) m -> k = "anyOf" \/ k = "oneOf" \/ k = "allOf" -> In x l -> within (JObj m) x []
| wi_field m ps f c : In ("properties", JObj ps) m -> In (f, c) ps -> within (JObj m) c [Field f]
| wi_item m i : In ("items", i) m -> within (JObj m) i [Item].
Definition refers (x : json) (name : string) : Prop := exists m, x = JObj m /\ In ("$ref", JStr ("#/$defs/" ++ name)) m.
(* [allows defs x p]: a document of the schema x may have a property at p *)
Inductive allows (defs : list (string * json)) : json -> list part -> Prop :=
| al_here x c f : within x c [Field f] -> allows defs x [Field f]
| al_in x c q p : within x c q -> allows defs c p -> allows defs x (app q p)
| al_ref x name c p : refers x name -> In (name, c) defs -> allows defs c p -> allows defs x p.
(* the same, but a definition is not used in itself *)
Inductive allows_once (defs : list (string * json)) : list string -> json -> list part -> Prop :=
| ao_here op x c f : within x c [Field f] -> allows_once defs op x [Field f]
| ao_in op x c q p : within x c q -> allows_once defs op c p -> allows_once defs op x (app q p)
| ao_ref op x name c p : refers x name -> In (name, c) defs -> ~ In name op -> allows_once defs (name :: op) c p -> allows_once defs op x p.

Definition has (defs : list (string * json)) (s : json) (t : string) : Prop := exists p, allows_once defs [] s p /\ place_text p = t.

(* the schemas that belong to a schema *)
Inductive belongs (defs : list (string * json)) (s : json) : json -> Prop :=
| be_self : belongs defs s s
| be_in x y q : belongs defs s x -> within x y q -> belongs defs s y
| be_ref x name y : belongs defs s x -> refers x name -> In (name, y) defs -> belongs defs s y.
(* a reference is one to a definition and stands alone; the keys of an object are different *)
Definition plain (x : json) : Prop :=
  forall m, x = JObj m -> NoDup (map fst m) /\ (forall r, In ("$ref", JStr r) m -> (exists name, r = "#/$defs/" ++ name) /\ map fst m = ["$ref"]).
Definition definitions (s : json) (defs : list (string * json)) : Prop := exists m, s = JObj m /\ NoDup (map fst m) /\
  ((In ("$defs", JObj defs) m /\ NoDup (map fst defs)) \/ (~ In "$defs" (map fst m) /\ defs = [])).
Definition plain_schema (s : json) (defs : list (string * json)) : Prop := definitions s defs /\ forall x, belongs defs s x -> plain x.
(* what is in a schema without following references *)
Inductive inside : json -> json -> Prop :=
| in_self x : inside x x
| in_deep x y z q : within x y q -> inside y z -> inside x z.
(* no definition is used in itself, directly or by way of others *)
Definition not_recursive (defs : list (string * json)) : Prop :=
  exists rank : string -> nat, forall name d x name', In (name, d) defs -> inside d x -> refers x name' -> rank name' < rank name.

(* ---------- versions ---------- *)
Definition format (s : json) (f : string) : Prop :=
  exists m ps fm, s = JObj m /\ NoDup (map fst m) /\ In ("properties", JObj ps) m /\ NoDup (map fst ps) /\
    In ("file_format", JObj fm) ps /\ NoDup (map fst fm) /\ In ("const", JStr f) fm.
Definition lacks (c : ascii) (s : string) : Prop := forall a b, s <> a ++ String c b.
(* name/MAJOR.MINOR, and maybe more after a dot or a slash *)
Definition version (s : json) (major minor : nat) : Prop :=
  exists f name M m rest, format s f /\ f = name ++ "/" ++ M ++ "." ++ m ++ rest /\ lacks "/" name /\
    ServeSpec.number M major /\ ServeSpec.number m minor /\ (rest = "" \/ exists r, rest = "." ++ r \/ rest = "/" ++ r).

(* ---------- samples ---------- *)
Definition obj (ps : list (string * json)) : json := JObj [("properties", JObj ps)].
Definition ref (name : string) : json := JObj [("$ref", JStr ("#/$defs/" ++ name))].
Definition formatted (f : string) (ps : list (string * json)) : json := obj (("file_format", JObj [("const", JStr f)]) :: ps).
(* a tree, and one whose children are no trees *)
Definition tree_node : json := obj [("child", ref "Node"); ("name", JObj [])].
Definition leaf_node : json := obj [("child", JObj []); ("name", JObj [])].
Definition rooted (node : json) : json := JObj [("$defs", JObj [("Node", node)]); ("properties", JObj [("root", ref "Node")])].
Definition with_sibling (ps : list (string * json)) : json :=
  JObj [("$defs", JObj [("A", obj [("x", JObj [])])]); ("properties", JObj [("p", JObj [("$ref", JStr "#/$defs/A"); ("properties", JObj ps)])])].
Definition listed : json :=
  JObj [("$defs", JObj [("A", obj [("x", ref "B")]); ("B", JObj [("anyOf", JArr [obj [("y", JObj [])]; JObj [("type", JStr "null")]])])]);
        ("properties", JObj [("as", JObj [("items", ref "A")])])].
