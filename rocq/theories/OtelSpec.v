(* Vocabulary for the template filters. *)
From Coq Require Import String Ascii Bool Arith ZArith NArith Permutation Sorted List.
Import ListNotations.
From Verif Require Import Base Json SemTypes OtelModel.
Local Open Scope string_scope.

(* [l] is obtained by interleaving [a] and [b], each keeping its order *)
Inductive interleave {A} : list A -> list A -> list A -> Prop :=
| il_nil : interleave [] [] []
| il_left x l a b : interleave l a b -> interleave (x :: l) (x :: a) b
| il_right x l a b : interleave l a b -> interleave (x :: l) a (x :: b).

(* The order of requirement levels *)
Definition level_rank (r : req_level) : nat :=
  match r with
  | RRequired => 1
  | RConditional _ => 2
  | RRecommended | RRecommendedText _ => 3
  | ROptIn | ROptInText _ => 4
  end.

Definition has_text_opt_in (r : req_level) : Prop := exists t, r = ROptInText t.

(* level first, then name (byte order) *)
Definition attr_le (a b : attribute) : Prop :=
  level_rank (at_req a) < level_rank (at_req b) \/
  level_rank (at_req a) = level_rank (at_req b) /\ str_leb (at_name a) (at_name b) = true.

Definition same_place (a b : attribute) : Prop :=
  level_rank (at_req a) = level_rank (at_req b) /\ at_name a = at_name b.

(* Names of the types in definition files *)
Definition type_name (p : prim) : string :=
  match p with
  | PBoolean => "boolean" | PInt => "int" | PDouble => "double" | PString => "string"
  | PAny => "any" | PStrings => "string[]" | PInts => "int[]" | PDoubles => "double[]"
  | PBooleans => "boolean[]"
  end.

Inductive exactly_one : bool -> bool -> bool -> Prop :=
| eo1 : exactly_one true false false
| eo2 : exactly_one false true false
| eo3 : exactly_one false false true.

(* i64 *)
Definition i64 (z : Z) : Prop := (- 2 ^ 63 <= z < 2 ^ 63)%Z.
Definition valid_value (v : value_spec) : Prop := match v with VInt z => i64 z | _ => True end.

Definition is_vint (v : value_spec) : Prop := exists z, v = VInt z.
Definition is_vdouble (v : value_spec) : Prop := exists b, v = VDouble b.
Definition is_vstring (v : value_spec) : Prop := exists s, v = VString s.
Definition is_vbool (v : value_spec) : Prop := exists b, v = VBool b.

(* texts *)
Definition has_dot (s : string) : Prop := exists a b, s = a ++ String "."%char b.

(* All fields of a body tree, each with the ids on the way to it *)
Fixpoint nodes (b : body) : list (list string * body) :=
  match b with
  | Body id fields =>
    ([id], b) ::
    match fields with
    | None => []
    | Some fs => flat_map (fun f => map (fun n => (id :: fst n, snd n)) (nodes f)) fs
    end
  end.

(* How a body is listed: the field itself, then the listings of its fields in order *)
Inductive listing (leb : body -> body -> bool) : list string -> nat -> body -> list (string * body * nat) -> Prop :=
| ls_leaf up d id :
    listing leb up d (Body id None) [(join "." (app up [id]), Body id None, d)]
| ls_node up d id fs fs' ls :
    Permutation fs fs' -> StronglySorted (fun a b => leb a b = true) fs' ->
    Forall2 (listing leb (app up [id]) (S d)) fs' ls ->
    listing leb up d (Body id (Some fs)) ((join "." (app up [id]), Body id (Some fs), d) :: concat ls).

(* Words.  White space, word characters (letters, digits, "_", anything outside ASCII) and
   other characters. *)
Inductive kind := KSpace | KWord | KOther.
Definition between (a b : nat) (c : ascii) : bool := Nat.leb a (nat_of_ascii c) && Nat.leb (nat_of_ascii c) b.
Definition kind_of_char (c : ascii) : kind :=
  if Nat.eqb (nat_of_ascii c) 32 || between 9 13 c then KSpace
  else if between 48 57 c || between 65 90 c || between 97 122 c || Nat.eqb (nat_of_ascii c) 95 || between 128 255 c
  then KWord else KOther.

Inductive of_kind (k : kind) : string -> Prop :=
| ok_one c : kind_of_char c = k -> of_kind k (String c "")
| ok_cons c s : kind_of_char c = k -> of_kind k s -> of_kind k (String c s).

(* the pieces are maximal runs *)
Inductive runs : list string -> Prop :=
| runs_nil : runs []
| runs_one k t : of_kind k t -> runs [t]
| runs_cons k k' t t' r : of_kind k t -> of_kind k' t' -> k <> k' -> runs (t' :: r) -> runs (t :: t' :: r).

(* equal up to the case of ASCII letters *)
Inductive same_letters : string -> string -> Prop :=
| sl_nil : same_letters "" ""
| sl_cons c d s t :
    c = d \/ (between 65 90 c = true /\ nat_of_ascii d = nat_of_ascii c + 32)
          \/ (between 65 90 d = true /\ nat_of_ascii c = nat_of_ascii d + 32) ->
    same_letters s t -> same_letters (String c s) (String d t).

(* what a run becomes: the last acronym of the list written with the same letters, or itself *)
Inductive replaced (acronyms : list string) (t : string) : string -> Prop :=
| rep_some before a after :
    acronyms = app before (a :: after) -> same_letters a t ->
    Forall (fun b => ~ same_letters b t) after -> replaced acronyms t a
| rep_none : Forall (fun b => ~ same_letters b t) acronyms -> replaced acronyms t t.
