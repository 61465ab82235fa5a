(** Specification vocabulary for C12-C14. *)
From Coq Require Import String Bool Arith ZArith NArith List Permutation.
From Verif Require Import Base Json F64 DiffModel.
Import ListNotations.
Local Open Scope list_scope.

(** Two documents that differ only in the order of array elements and object entries. *)
Inductive same_upto_order : json -> json -> Prop :=
| SNull : same_upto_order JNull JNull
| SBool b : same_upto_order (JBool b) (JBool b)
| SNum n : same_upto_order (JNum n) (JNum n)
| SStr s : same_upto_order (JStr s) (JStr s)
| SArr l l' l'' : Forall2 same_upto_order l l' -> Permutation l' l'' ->
    same_upto_order (JArr l) (JArr l'')
| SObj m m' m'' : Forall2 (fun kv kv' => fst kv = fst kv' /\ same_upto_order (snd kv) (snd kv')) m m' ->
    Permutation m' m'' -> same_upto_order (JObj m) (JObj m'').

(** A JSON value as serde_json can hold it: floats are not NaN, object keys are distinct. *)
Inductive well_formed : json -> Prop :=
| WNull : well_formed JNull
| WBool b : well_formed (JBool b)
| WNum n : is_nan (num_f64 n) = false -> well_formed (JNum n)
| WStr s : well_formed (JStr s)
| WArr l : Forall well_formed l -> well_formed (JArr l)
| WObj m : NoDup (map fst m) -> Forall (fun kv => well_formed (snd kv)) m -> well_formed (JObj m).

(** The numbers that occur in a document. *)
Fixpoint numbers (j : json) : list num :=
  match j with
  | JNum n => [n]
  | JArr l => flat_map numbers l
  | JObj m => flat_map (fun kv => numbers (snd kv)) m
  | _ => []
  end.

(** Different numbers of the document have different double values. *)
Definition no_ties (j : json) : Prop :=
  forall n n', In n (numbers j) -> In n' (numbers j) -> num_f64 n = num_f64 n' -> n = n'.

(** Equality of documents up to numbers with the same double value. *)
Inductive same_values : json -> json -> Prop :=
| VNull : same_values JNull JNull
| VBool b : same_values (JBool b) (JBool b)
| VNum n n' : num_f64 n = num_f64 n' -> same_values (JNum n) (JNum n')
| VStr s : same_values (JStr s) (JStr s)
| VArr l l' : Forall2 same_values l l' -> same_values (JArr l) (JArr l')
| VObj m m' : Forall2 (fun kv kv' => fst kv = fst kv' /\ same_values (snd kv) (snd kv')) m m' ->
    same_values (JObj m) (JObj m').

(** The documented order of the JSON types. *)
Definition type_rank (j : json) : nat :=
  match j with JNull => 0 | JBool _ => 1 | JNum _ => 2 | JStr _ => 3 | JArr _ => 4 | JObj _ => 5 end.
