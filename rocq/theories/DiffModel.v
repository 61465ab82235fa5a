(** Model of the JSON canonicalisation of crates/weaver_diff/src/lib.rs. *)
From Coq Require Import String Ascii Bool Arith Lia ZArith NArith List.
From Verif Require Import Base Json F64.
Import ListNotations.
Local Open Scope list_scope.

(** lib.rs 197-200: compare numbers as f64; incomparable counts as equal. *)
Definition num_cmp (a b : num) : comparison :=
  match f_cmp (num_f64 a) (num_f64 b) with Some o => o | None => Eq end.

(* used by compare_by: lib.rs 151-172 *)
Definition bool_cmp (a b : bool) : comparison :=
  match a, b with false, true => Lt | true, false => Gt | _, _ => Eq end.

(** lib.rs 181-292 [compare_values], [compare_arrays], [compare_objects]. An object is its
    entry list in iteration order. The comparison of numbers is a parameter so that the
    proofs can replace it. *)
Section Compare.
  Variable nc : num -> num -> comparison.

  (* used by leb_by: lib.rs 151-172 *)
  Fixpoint compare_by (a b : json) {struct a} : comparison :=
    match a, b with
    | JNull, JNull => Eq
    | JNull, _ => Lt
    | _, JNull => Gt
    | JBool x, JBool y => bool_cmp x y
    | JBool _, _ => Lt
    | _, JBool _ => Gt
    | JNum x, JNum y => nc x y
    | JNum _, _ => Lt
    | _, JNum _ => Gt
    | JStr x, JStr y => str_cmp x y
    | JStr _, _ => Lt
    | _, JStr _ => Gt
    | JArr x, JArr y =>
        match Nat.compare (length x) (length y) with
        | Eq => (fix go (x y : list json) : comparison :=
                   match x, y with
                   | u :: x', v :: y' => match compare_by u v with Eq => go x' y' | o => o end
                   | _, _ => Eq
                   end) x y
        | o => o
        end
    | JArr _, _ => Lt
    | _, JArr _ => Gt
    | JObj x, JObj y =>
        match Nat.compare (length x) (length y) with
        | Eq => (fix go (x y : list (string * json)) : comparison :=
                   match x, y with
                   | (k, u) :: x', (k', v) :: y' =>
                       match str_cmp k k' with
                       | Eq => match compare_by u v with Eq => go x' y' | o => o end
                       | o => o
                       end
                   | _, _ => Eq
                   end) x y
        | o => o
        end
    end.

  (* used by canon_by: lib.rs 151-172 *)
  Definition leb_by (a b : json) : bool := match compare_by a b with Gt => false | _ => true end.

  (** lib.rs 151-172 [canonicalize_json]. Collecting into the map sorts by key. *)
  Fixpoint canon_by (j : json) : json :=
    match j with
    | JArr l => JArr (stable_sort leb_by (map canon_by l))
    | JObj m => JObj (fold_left (fun acc kv => bt_insert (fst kv) (snd kv) acc)
                                (map (fun kv => (fst kv, canon_by (snd kv))) m) [])
    | _ => j
    end.
End Compare.

(* crates/weaver_diff/src/lib.rs 181-220 *)
Definition compare_values := compare_by num_cmp.
(* crates/weaver_diff/src/lib.rs 151-172 *)
Definition canonicalize_json := canon_by num_cmp.
