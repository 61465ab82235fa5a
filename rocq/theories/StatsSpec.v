(* Vocabulary for statistics. *)
From Coq Require Import String Ascii Bool Arith List.
Import ListNotations.
From Verif Require Import Base SemTypes Json Resolved StatsModel.
Local Open Scope string_scope.

(* n of the elements of l have the property *)
Inductive number {A} (P : A -> Prop) : list A -> nat -> Prop :=
| num_nil : number P [] 0
| num_yes a l n : P a -> number P l n -> number P (a :: l) (S n)
| num_no a l n : ~ P a -> number P l n -> number P (a :: l) n.

(* A breakdown of l: every value that occurs has exactly one entry, which is its number
   of occurrences; other values have none.  [at_ a k]: a counts under k. *)
Definition breakdown {A K} (at_ : A -> K -> Prop) (l : list A) (m : list (K * nat)) : Prop :=
  NoDup (map fst m) /\
  forall k n, In (k, n) m <-> (number (fun a => at_ a k) l n /\ n <> 0).

(* the distinct names *)
Definition names_of {A} (at_ : A -> string -> Prop) (l : list A) (s : list string) : Prop :=
  NoDup s /\ forall x, In x s <-> exists a, In a l /\ at_ a x.

(* the sum of what the elements count for *)
Fixpoint total {A} (f : A -> nat) (l : list A) : nat :=
  match l with [] => 0 | a :: r => f a + total f r end.

(* the numbers of a breakdown, together *)
Definition sum_of {K} (m : list (K * nat)) : nat := total snd m.

(* a metric that can be counted *)
Definition complete_metric (g : group) : Prop :=
  g_metric_name g <> None /\ g_instrument g <> None /\ g_unit g <> None.

(* the groups of one type *)
Inductive of_type (t : group_type) : list group -> list group -> Prop :=
| ot_nil : of_type t [] []
| ot_yes g l l' : g_type g = t -> of_type t l l' -> of_type t (g :: l) (g :: l')
| ot_no g l l' : g_type g <> t -> of_type t l l' -> of_type t (g :: l) l'.

(* the common statistics say what is true of the groups l *)
Definition true_common (l : list group) (c : common_stats) : Prop :=
  cs_count c = length l /\
  cs_attributes c = total (fun g => length (g_attributes g)) l /\
  number (fun g => g_prefix g <> "") l (cs_prefix c) /\
  number (fun g => g_note g <> "") l (cs_note c) /\
  breakdown (fun g s => g_stability g = Some s) l (cs_stability c) /\
  number (fun g => g_deprecated g <> None) l (cs_deprecated c) /\
  breakdown (fun g n => length (g_attributes g) = n) l (cs_cards c).

(* the statistics of a type say what is true of the groups l *)
Definition true_entry (t : group_type) (l : list group) (e : group_stats) : Prop :=
  match e with
  | StPlain c => t <> GMetric /\ t <> GSpan /\ true_common l c
  | StMetric c names instruments units =>
    t = GMetric /\ true_common l c /\
    names_of (fun g n => g_metric_name g = Some n) l names /\
    breakdown (fun g i => g_instrument g = Some i) l instruments /\
    breakdown (fun g u => g_unit g = Some u) l units
  | StSpan c kinds =>
    t = GSpan /\ true_common l c /\ breakdown (fun g k => g_span_kind g = Some k) l kinds
  end.

(* the statistics of the common fields of signals *)
Definition true_signals {A} (c : A -> common) (l : list A) (s : signal_stats) : Prop :=
  ss_count s = length l /\
  breakdown (fun a x => c_stability (c a) = x) l (ss_stability s) /\
  number (fun a => c_deprecated (c a) <> None) l (ss_deprecated s) /\
  number (fun a => c_note (c a) <> "") l (ss_note s).

(* two types are counted together *)
Definition counted_together (a b : attr_type) : Prop :=
  match a, b with
  | TEnum l, TEnum l' => length l = length l'
  | TPrim p, TPrim q => p = q
  | TTemplate p, TTemplate q => p = q
  | _, _ => False
  end.

(* samples *)
Definition stat_group (id : string) (t : group_type) (note : string) (st : option stability)
    (attrs : list nat) (name : option string) : group :=
  {| g_id := id; g_type := t; g_brief := ""; g_note := note; g_prefix := ""; g_extends := None;
     g_stability := st; g_deprecated := None; g_attributes := attrs; g_span_kind := Some SkClient;
     g_events := []; g_metric_name := name; g_instrument := Some Counter; g_unit := Some "s";
     g_name := None; g_lineage := None; g_display_name := None; g_body := None;
     g_annotations := None; g_assocs := []; g_visibility := None; g_is_v2 := false;
     g_span_name := None; g_level := None |}.
Definition stat_schema (gs : list group) : schema1 :=
  {| s1_url := "https://acme.com/1.0.0"; s1_groups := gs; s1_catalog := [];
     s1_dependencies := []; s1_manifest_version := None; s1_origins := [] |}.
Definition stat_groups : list group :=
  [stat_group "metric.a" GMetric "n" (Some SStable) [0; 1] (Some "a");
   stat_group "span.b" GSpan "" (Some SStable) [0] None;
   stat_group "metric.a2" GMetric "" None [0; 2] (Some "a")].
Definition stat_common (d : option deprecated) : common :=
  {| c_brief := ""; c_note := "note"; c_stability := SStable; c_deprecated := d; c_annotations := [] |}.
Definition stat_schema2 (groups : list attribute_group2) (refs : list nat) : schema2 :=
  {| s2_url := "https://acme.com/1.0.0";
     s2_catalog := [{| a2_key := "k"; a2_type := TPrim PInt; a2_examples := None;
                       a2_common := stat_common None; a2_provenance := {| p2_source := None; p2_path := "" |} |}];
     s2_registry := {| r2_attributes := refs; r2_attribute_groups := groups; r2_spans := [];
                       r2_metrics := []; r2_events := []; r2_entities := [] |};
     s2_refinements := {| f2_spans := []; f2_metrics := []; f2_events := []; f2_entities := [] |};
     s2_dependencies := [] |}.
