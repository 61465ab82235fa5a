(* The resolved registries (version 1, as the resolver leaves them) that publishing is spoken of: what their
   definitions and their sizes can be. *)
From Coq Require Import String Ascii Bool Arith ZArith NArith Sorted List.
Import ListNotations.
From Verif Require Import Base Json SemTypes Resolved ConvertModel.
From Verif Require UrlModel.
From Verif Require Import PubSpec.

(* an attribute as a definition file can give it *)
Definition given_attribute (to_f64 : Z -> N) (a : attribute) : Prop :=
  type_ok (at_type a) /\
  (forall e, at_examples a = Some e -> some_document_says to_f64 e) /\
  (forall m, at_annotations a = Some m -> in_order (map fst m)).
Definition given_group (g : group) : Prop := forall m, g_annotations g = Some m -> in_order (map fst m).

Record resolved_registry (to_f64 : Z -> N) (url_parse : string -> option UrlModel.parsed_url) (s : source1) : Prop := {
  rr_url : url_ok url_parse (so_url s);
  rr_attributes : Forall (given_attribute to_f64) (so_catalog s);
  rr_groups : Forall given_group (so_groups s);
  rr_many : small (length (so_catalog s));
  rr_deps : Forall (url_ok url_parse) (so_deps s) /\ in_order (so_deps s) /\ small (length (so_deps s))
}.

(* a member of an enumeration was deprecated with a mere text, the old form *)
Definition given_member_deprecated_by_text (s : source1) : Prop :=
  exists a ms e text, In a (so_catalog s) /\ at_type a = TEnum ms /\ In e ms /\
    ee_deprecated e = Some (DUnspecified text).
