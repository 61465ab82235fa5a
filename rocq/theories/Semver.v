(** Semantic versions as the [semver] crate orders them (library type, not weaver code). *)
From Coq Require Import String Ascii Bool Arith Lia NArith List.
From Verif Require Import Base.
Import ListNotations.
Local Open Scope list_scope.

(** A dot-separated identifier of a pre-release or of build metadata. *)
Inductive ident := INum (n : N) | IAlpha (s : string).

(* semver::Version (library) *)
Record version := {
  v_major : N; v_minor : N; v_patch : N;
  v_pre : list ident;
  v_build : list ident
}.

(** Numeric identifiers are below alphanumeric ones. *)
Definition ident_cmp (a b : ident) : comparison :=
  match a, b with
  | INum x, INum y => N.compare x y
  | INum _, IAlpha _ => Lt
  | IAlpha _, INum _ => Gt
  | IAlpha x, IAlpha y => str_cmp x y
  end.

(* the order of dot-separated identifiers (library) *)
Fixpoint idents_cmp (a b : list ident) : comparison :=
  match a, b with
  | [], [] => Eq
  | [], _ => Lt
  | _, [] => Gt
  | x :: a', y :: b' => match ident_cmp x y with Eq => idents_cmp a' b' | o => o end
  end.

(** A release is above its pre-releases. *)
Definition pre_cmp (a b : list ident) : comparison :=
  match a, b with
  | [], [] => Eq
  | [], _ => Gt
  | _, [] => Lt
  | _, _ => idents_cmp a b
  end.

(** [Ord for semver::Version]: major, minor, patch, pre-release, build. Build identifiers
    are ordered like pre-release ones except that an empty build is lowest; the crate's
    special treatment of leading zeros in numeric build identifiers is left out. *)
Definition ver_cmp (a b : version) : comparison :=
  match N.compare (v_major a) (v_major b) with
  | Eq => match N.compare (v_minor a) (v_minor b) with
          | Eq => match N.compare (v_patch a) (v_patch b) with
                  | Eq => match pre_cmp (v_pre a) (v_pre b) with
                          | Eq => idents_cmp (v_build a) (v_build b)
                          | o => o
                          end
                  | o => o
                  end
          | o => o
          end
  | o => o
  end.

(* Version <= (library) *)
Definition ver_leb (a b : version) : bool := match ver_cmp a b with Gt => false | _ => true end.
(* Version == by the order (library) *)
Definition ver_eqb (a b : version) : bool := match ver_cmp a b with Eq => true | _ => false end.
