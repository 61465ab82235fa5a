(** C12-C14: canonical JSON, value comparison, ordered floats. *)
From Coq Require Import String Ascii Bool Arith Lia ZArith NArith Permutation Sorted List.
From Verif Require Import Base Json F64 DiffModel DiffSpec DiffProofs.
Import ListNotations.
Local Open Scope string_scope.
Local Open Scope list_scope.

(** ** C12 *)

(** Canonicalising twice gives what canonicalising once gives. *)
Theorem C12_idempotent : forall j, well_formed j ->
  canonicalize_json (canonicalize_json j) = canonicalize_json j.
Proof. exact c12_idem. Qed.
Print Assumptions C12_idempotent.

(** Canonicalising only reorders. *)
Theorem C12_contents_kept : forall j, well_formed j -> same_upto_order j (canonicalize_json j).
Proof. exact c12_keeps. Qed.
Print Assumptions C12_contents_kept.

(** Documents that differ only in order canonicalise to the same document, up to numbers that
    have the same double value. *)
Theorem C12_same_values : forall a b, well_formed a -> same_upto_order a b ->
  same_values (canonicalize_json a) (canonicalize_json b).
Proof. exact c12_values. Qed.
Print Assumptions C12_same_values.

(** Full claim: documents that differ only in order canonicalise to equal documents. Proved
    when different numbers of the document have different double values; false otherwise
    ([C12_order_insensitive_refuted]). *)
Theorem C12_order_insensitive_partial : forall a b, well_formed a -> no_ties a ->
  same_upto_order a b -> canonicalize_json a = canonicalize_json b.
Proof. exact c12_equal. Qed.
Print Assumptions C12_order_insensitive_partial.

(** 2^53 and 2^53 + 1 compare equal, so their input order survives. *)
Theorem C12_order_insensitive_refuted : exists a b,
  well_formed a /\ same_upto_order a b /\ canonicalize_json a <> canonicalize_json b.
Proof.
  exists (JArr [JNum (NInt (2 ^ 53)); JNum (NInt (2 ^ 53 + 1))]),
         (JArr [JNum (NInt (2 ^ 53 + 1)); JNum (NInt (2 ^ 53))]).
  split; [|split].
  - repeat constructor.
  - apply (SArr _ [JNum (NInt (2 ^ 53)); JNum (NInt (2 ^ 53 + 1))]); [repeat constructor|apply perm_swap].
  - vm_compute. discriminate.
Qed.
Print Assumptions C12_order_insensitive_refuted.

Definition ex_doc : json :=
  JObj [("b", JArr [JNum (NInt 3); JStr "x"; JNull; JNum (NInt 1)]); ("a", JBool true)].
Definition ex_doc' : json :=
  JObj [("a", JBool true); ("b", JArr [JNull; JNum (NInt 1); JNum (NInt 3); JStr "x"])].

Example C12_case : well_formed ex_doc /\ no_ties ex_doc /\ ex_doc <> ex_doc' /\
  canonicalize_json ex_doc = ex_doc'.
Proof.
  split; [|split; [|split]].
  - unfold ex_doc. constructor.
    + repeat constructor; simpl; intuition discriminate.
    + repeat constructor.
  - unfold no_ties. simpl. intros n n' [<-|[<-|[]]] [<-|[<-|[]]] H; try reflexivity; vm_compute in H; discriminate.
  - discriminate.
  - vm_compute. reflexivity.
Qed.

(** ** C13 *)

(** The comparison is reflexive, antisymmetric and transitive on every serde_json value. *)
Theorem C13_total_preorder : forall a b c, well_formed a -> well_formed b -> well_formed c ->
  compare_values a a = Eq /\
  compare_values b a = CompOpp (compare_values a b) /\
  (compare_values a b <> Gt -> compare_values b c <> Gt -> compare_values a c <> Gt).
Proof. exact c13_laws. Qed.
Print Assumptions C13_total_preorder.

(** Values that compare equal are the same up to the double value of numbers. *)
Theorem C13_equal_means_same : forall a b, well_formed a -> well_formed b ->
  compare_values a b = Eq -> same_values a b.
Proof. exact c13_eq. Qed.
Print Assumptions C13_equal_means_same.

(** Values of different types are ordered null < bool < number < string < array < object. *)
Theorem C13_type_order : forall a b, type_rank a < type_rank b -> compare_values a b = Lt.
Proof. exact c13_rank. Qed.
Print Assumptions C13_type_order.

Example C13_case :
  well_formed ex_doc /\ well_formed ex_doc' /\ compare_values ex_doc ex_doc' = Gt /\
  compare_values (JArr [JStr "b"]) (JArr [JStr "a"; JNull]) = Lt.
Proof.
  split; [apply C12_case|]. split; [|split; vm_compute; reflexivity].
  unfold ex_doc'. constructor.
  - repeat constructor; simpl; intuition discriminate.
  - repeat constructor.
Qed.

(** ** C14 *)

(** The order on wrapped floats is total, for every pair of bit patterns including NaNs. *)
Theorem C14_total_order : forall a b c,
  of_cmp a a = Eq /\ of_cmp b a = CompOpp (of_cmp a b) /\
  (of_cmp a b <> Gt -> of_cmp b c <> Gt -> of_cmp a c <> Gt).
Proof. exact c14_order. Qed.
Print Assumptions C14_total_order.

(** Equality and order agree. *)
Theorem C14_eq_is_cmp_eq : forall a b, of_eqb a b = true <-> of_cmp a b = Eq.
Proof. exact of_eqb_cmp. Qed.
Print Assumptions C14_eq_is_cmp_eq.

(** Equal wrapped floats hash equally (so they are the same map key). *)
Theorem C14_equal_hash : forall a b, (a < 2 ^ 64)%N -> (b < 2 ^ 64)%N ->
  of_eqb a b = true -> of_hash_bits a = of_hash_bits b.
Proof. exact c14_hash. Qed.
Print Assumptions C14_equal_hash.

(** The order is the numeric order on numbers, and NaN is the greatest value. *)
Theorem C14_numeric : forall a b o, f_cmp (decode a) (decode b) = Some o -> of_cmp a b = o.
Proof. exact c14_numeric. Qed.
Print Assumptions C14_numeric.

Theorem C14_nan_greatest : forall a b, is_nan (decode a) = true ->
  of_cmp a b = if is_nan (decode b) then Eq else Gt.
Proof. exact c14_nan. Qed.
Print Assumptions C14_nan_greatest.

(** Two different NaNs and the two zeros are equal and share a hash; 1.0 < 1.5 < inf < NaN. *)
Example C14_cases :
  of_eqb 0x7ff8000000000001 0xfff8000000000000 = true /\
  of_eqb 0 0x8000000000000000 = true /\
  of_hash_bits 0 = of_hash_bits 0x8000000000000000 /\
  of_cmp 0x3ff0000000000000 0x3ff8000000000000 = Lt /\
  of_cmp 0x7ff0000000000000 0x7ff8000000000000 = Lt /\
  of_cmp 0xbff0000000000000 0x3ff0000000000000 = Lt.
Proof. vm_compute. repeat split; reflexivity. Qed.
