(** IEEE-754 binary64 values by bit pattern, their comparison, and the float wrapper of
    crates/weaver_common/src/ordered_float.rs. *)
From Coq Require Import Bool Arith Lia ZArith NArith List.
From Verif Require Import Json.
Import ListNotations.

(** The value of a bit pattern. A finite value is represented by the integer
    [value * 2^1074]; both zeros are [FFin 0]. *)
Inductive fval := FNaN | FInf (neg : bool) | FFin (z : Z).

(* the sign bit of IEEE-754 binary64 *)
Definition f_sign (b : N) : bool := N.testbit b 63.
(* the exponent bits of IEEE-754 binary64 *)
Definition f_exp (b : N) : N := ((b / 2 ^ 52) mod 2 ^ 11)%N.
(* the mantissa bits of IEEE-754 binary64 *)
Definition f_mant (b : N) : N := (b mod 2 ^ 52)%N.

(** IEEE-754 binary64 interpretation of [f64::from_bits]. *)
Definition decode (b : N) : fval :=
  if N.eqb (f_exp b) 2047 then
    if N.eqb (f_mant b) 0 then FInf (f_sign b) else FNaN
  else
    let mag := if N.eqb (f_exp b) 0 then Z.of_N (f_mant b)
               else (Z.of_N (2 ^ 52 + f_mant b) * 2 ^ (Z.of_N (f_exp b) - 1))%Z in
    FFin (if f_sign b then - mag else mag)%Z.

(* Rust f64::is_nan *)
Definition is_nan (v : fval) : bool := match v with FNaN => true | _ => false end.

(** Rust [f64::partial_cmp]. *)
Definition f_cmp (a b : fval) : option comparison :=
  match a, b with
  | FNaN, _ | _, FNaN => None
  | FInf n, FInf m => Some (match n, m with
                            | true, false => Lt | false, true => Gt | _, _ => Eq end)
  | FInf true, FFin _ => Some Lt
  | FInf false, FFin _ => Some Gt
  | FFin _, FInf true => Some Gt
  | FFin _, FInf false => Some Lt
  | FFin x, FFin y => Some (Z.compare x y)
  end.

(** Rust [f64::eq]. *)
Definition f_eqb (a b : fval) : bool :=
  match f_cmp a b with Some Eq => true | _ => false end.

(** Rust [n as f64] for a 64-bit integer: round to nearest, ties to even, 53 significant bits.
    The result is the rounded integer. *)
Definition round53 (z : Z) : Z :=
  let a := Z.abs z in
  let e := Z.max 0 (Z.log2 a - 52) in
  let q := (a / 2 ^ e)%Z in
  let r := (a mod 2 ^ e)%Z in
  let up := (Z.ltb (2 ^ e) (2 * r) || (Z.eqb (2 * r) (2 ^ e) && Z.odd q && Z.ltb 0 e))%Z in
  (Z.sgn z * ((if up then q + 1 else q) * 2 ^ e))%Z.

(** serde_json [Number::as_f64]. *)
Definition num_f64 (n : num) : fval :=
  match n with
  | NInt z => FFin (round53 z * 2 ^ 1074)%Z
  | NFloat b => decode b
  end.

(** * OrderedF64, values given by their bits *)

(** ordered_float.rs 49-58 [PartialEq::eq]. *)
Definition of_eqb (a b : N) : bool :=
  if is_nan (decode a) && is_nan (decode b) then true else f_eqb (decode a) (decode b).

(** ordered_float.rs 69-86 [Ord::cmp]. *)
Definition of_cmp (a b : N) : comparison :=
  match f_cmp (decode a) (decode b) with
  | Some o => o
  | None => if is_nan (decode a) then (if is_nan (decode b) then Eq else Gt) else Lt
  end.

(** [f64::NAN.to_bits()]. *)
Definition nan_bits : N := 0x7ff8000000000000.

(** ordered_float.rs 88-99 [Hash::hash]: the value fed to the hasher. *)
Definition of_hash_bits (a : N) : N :=
  if is_nan (decode a) then nan_bits
  else if f_eqb (decode a) (decode 0) then 0%N
  else a.
