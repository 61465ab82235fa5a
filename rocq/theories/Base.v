(** Shared definitions: byte strings, association-list maps, stable sort.
    These model Rust library types (String, HashMap, Vec::sort_by), not weaver code. *)
From Coq Require Import String Ascii Bool Arith Lia Permutation Sorted NArith List.
Import ListNotations.
Local Open Scope list_scope.

(** ** Option helpers *)

(** Rust [Option::or]. *)
Definition opt_or {A} (a b : option A) : option A :=
  match a with Some _ => a | None => b end.

(** Rust [Option::unwrap_or]. *)
Definition opt_get {A} (a : option A) (d : A) : A :=
  match a with Some x => x | None => d end.

(* Rust Option::is_some (library) *)
Definition is_some {A} (a : option A) : bool :=
  match a with Some _ => true | None => false end.

(* Rust PartialEq for Option (library) *)
Definition opt_eqb {A} (eqb : A -> A -> bool) (a b : option A) : bool :=
  match a, b with
  | Some x, Some y => eqb x y
  | None, None => true
  | _, _ => false
  end.

(** ** Strings *)

(** Rust [str::starts_with]: byte-wise prefix test. *)
Fixpoint starts_with (pre s : string) : bool :=
  match pre, s with
  | EmptyString, _ => true
  | String a p, String b t => if Ascii.eqb a b then starts_with p t else false
  | String _ _, EmptyString => false
  end.

(** Rust [str::strip_prefix]. *)
Fixpoint strip_prefix (pre s : string) : option string :=
  match pre, s with
  | EmptyString, _ => Some s
  | String a p, String b t => if Ascii.eqb a b then strip_prefix p t else None
  | String _ _, EmptyString => None
  end.

(** Rust [Ord for str]: lexicographic order on bytes. *)
Definition str_cmp (a b : string) : comparison := String.compare a b.

(* Rust Ord for str: <= (library) *)
Definition str_leb (a b : string) : bool :=
  match str_cmp a b with Gt => false | _ => true end.

(* Rust Ord for str: < (library) *)
Definition str_ltb (a b : string) : bool :=
  match str_cmp a b with Lt => true | _ => false end.

(** Rust [str::contains]. *)
Fixpoint contains (needle hay : string) : bool :=
  starts_with needle hay ||
  match hay with
  | EmptyString => false
  | String _ t => contains needle t
  end.

(** Rust [[String]::join]. *)
Fixpoint join (sep : string) (l : list string) : string :=
  match l with
  | [] => ""
  | [x] => x
  | x :: r => (x ++ sep ++ join sep r)%string
  end.

(* Rust [String]::contains (library) *)
Definition str_mem (x : string) (l : list string) : bool :=
  existsb (String.eqb x) l.

(** ** Association-list maps *)
Section Maps.
  Context {K V : Type} (eqb : K -> K -> bool).

  (* Rust HashMap::get and BTreeMap::get (library) *)
  Fixpoint lookup (k : K) (m : list (K * V)) : option V :=
    match m with
    | [] => None
    | (k', v) :: r => if eqb k k' then Some v else lookup k r
    end.

  (** Map insertion: replace the value in place or append the new key.
      Rust [HashMap::insert]; the position of a key is not observable. *)
  Fixpoint insert (k : K) (v : V) (m : list (K * V)) : list (K * V) :=
    match m with
    | [] => [(k, v)]
    | (k', v') :: r => if eqb k k' then (k', v) :: r else (k', v') :: insert k v r
    end.

  (** Rust [HashMap::remove]. *)
  Fixpoint remove_key (k : K) (m : list (K * V)) : list (K * V) :=
    match m with
    | [] => []
    | (k', v') :: r => if eqb k k' then r else (k', v') :: remove_key k r
    end.

  (* Rust HashMap::contains_key (library) *)
  Definition has_key (k : K) (m : list (K * V)) : bool := is_some (lookup k m).
End Maps.

(** [*map.entry(k).or_insert(0) += 1] *)
Definition incr {K} (eqb : K -> K -> bool) (k : K) (m : list (K * nat)) : list (K * nat) :=
  insert eqb k (S (opt_get (lookup eqb k m) 0)) m.

(** Sum of all counters of a map. *)
Definition sum_counts {K} (m : list (K * nat)) : nat :=
  fold_right (fun p acc => snd p + acc) 0 m.

(* HashMap::get with String keys (library) *)
Definition slookup {V} := @lookup string V String.eqb.
(* HashMap::insert with String keys (library) *)
Definition sinsert {V} := @insert string V String.eqb.

(** ** Stable sort (Rust [slice::sort_by] is stable; a stable sort is unique) *)
Section Sort.
  Context {A : Type} (leb : A -> A -> bool).

  (* one step of slice::sort_by (library) *)
  Fixpoint sort_insert (x : A) (l : list A) : list A :=
    match l with
    | [] => [x]
    | y :: r => if leb x y then x :: y :: r else y :: sort_insert x r
    end.

  (* Rust slice::sort_by (library) *)
  Definition stable_sort (l : list A) : list A := fold_right sort_insert [] l.
End Sort.

(** BTreeMap insertion keeps the keys sorted. *)
Section BTree.
  Context {V : Type}.
  (* Rust BTreeMap::insert (library) *)
  Fixpoint bt_insert (k : string) (v : V) (m : list (string * V)) : list (string * V) :=
    match m with
    | [] => [(k, v)]
    | (k', v') :: r =>
        match str_cmp k k' with
        | Lt => (k, v) :: m
        | Eq => (k', v) :: r
        | Gt => (k', v') :: bt_insert k v r
        end
    end.
End BTree.

(* Rust Vec::dedup_by (library) *)
Fixpoint dedup_by {A} (eqb : A -> A -> bool) (l : list A) : list A :=
  match l with
  | [] => []
  | x :: r => x :: filter (fun y => negb (eqb x y)) (dedup_by eqb r)
  end.

(* Rust Iterator::filter(p).count() (library) *)
Definition count_if {A} (p : A -> bool) (l : list A) : nat := length (filter p l).
