(** JSON values as used by serde_json (third-party library data type). *)
From Coq Require Import String Ascii Bool Arith Lia ZArith NArith List.
From Verif Require Import Base.
Import ListNotations.

(** serde_json::Number. [NInt] is PosInt/NegInt (u64 or i64); [NFloat] carries the
    IEEE-754 binary64 bit pattern. *)
Inductive num := NInt (z : Z) | NFloat (bits : N).

(** serde_json::Value. An object is an association list in iteration order. *)
Inductive json :=
| JNull
| JBool (b : bool)
| JNum (n : num)
| JStr (s : string)
| JArr (l : list json)
| JObj (m : list (string * json)).

(** Induction principle going through the nested lists. *)
Section JsonInd.
  Variable P : json -> Prop.
  Hypothesis Hnull : P JNull.
  Hypothesis Hbool : forall b, P (JBool b).
  Hypothesis Hnum : forall n, P (JNum n).
  Hypothesis Hstr : forall s, P (JStr s).
  Hypothesis Harr : forall l, Forall P l -> P (JArr l).
  Hypothesis Hobj : forall m, Forall (fun kv => P (snd kv)) m -> P (JObj m).

  Fixpoint json_ind2 (j : json) : P j :=
    match j with
    | JNull => Hnull
    | JBool b => Hbool b
    | JNum n => Hnum n
    | JStr s => Hstr s
    | JArr l => Harr l ((fix go (l : list json) : Forall P l :=
        match l with
        | [] => Forall_nil _
        | x :: r => Forall_cons _ (json_ind2 x) (go r)
        end) l)
    | JObj m => Hobj m ((fix go (m : list (string * json)) : Forall (fun kv => P (snd kv)) m :=
        match m with
        | [] => Forall_nil _
        | kv :: r => Forall_cons _ (json_ind2 (snd kv)) (go r)
        end) m)
    end.
End JsonInd.

(* PartialEq for serde_json::Number (library) *)
Definition num_eqb (a b : num) : bool :=
  match a, b with
  | NInt x, NInt y => Z.eqb x y
  | NFloat x, NFloat y => N.eqb x y
  | _, _ => false
  end.

(** Structural equality test. *)
Fixpoint json_eqb (a b : json) {struct a} : bool :=
  match a, b with
  | JNull, JNull => true
  | JBool x, JBool y => Bool.eqb x y
  | JNum x, JNum y => num_eqb x y
  | JStr x, JStr y => String.eqb x y
  | JArr x, JArr y =>
      (fix go (x y : list json) : bool :=
         match x, y with
         | [], [] => true
         | a :: x', b :: y' => json_eqb a b && go x' y'
         | _, _ => false
         end) x y
  | JObj x, JObj y =>
      (fix go (x y : list (string * json)) : bool :=
         match x, y with
         | [], [] => true
         | (k, a) :: x', (k', b) :: y' => String.eqb k k' && json_eqb a b && go x' y'
         | _, _ => false
         end) x y
  | _, _ => false
  end.

(* Value::is_null *)
Definition is_jnull (j : json) : bool := match j with JNull => true | _ => false end.
(* Value::is_boolean *)
Definition is_jbool (j : json) : bool := match j with JBool _ => true | _ => false end.
(* Value::is_number *)
Definition is_jnum (j : json) : bool := match j with JNum _ => true | _ => false end.
(* Value::is_i64 or is_u64 *)
Definition is_jint (j : json) : bool := match j with JNum (NInt _) => true | _ => false end.
(* Value::is_string *)
Definition is_jstr (j : json) : bool := match j with JStr _ => true | _ => false end.
