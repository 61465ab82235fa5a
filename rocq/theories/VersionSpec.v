(** Specification vocabulary for C10 and C11. *)
From Coq Require Import String Bool Arith NArith List Permutation Sorted.
From Verif Require Import Base Semver VersionModel.
Import ListNotations.
Local Open Scope list_scope.

Definition ver_lt (a b : version) : Prop := ver_cmp a b = Lt.
Definition ver_le (a b : version) : Prop := ver_cmp a b <> Gt.

(** The kinds of names that a version history renames. *)
Inductive kind := KResourceAttribute | KMetricAttribute | KMetric | KLogAttribute | KSpanAttribute.

(** The rename maps of one kind in one version, in file order. *)
Definition section_of (k : kind) (s : version_spec) : list renames :=
  match k with
  | KResourceAttribute => match vs_resources s with Some l => l | None => [] end
  | KMetricAttribute => match vs_metrics s with Some l => map mc_attributes l | None => [] end
  | KMetric => match vs_metrics s with Some l => map mc_metrics l | None => [] end
  | KLogAttribute => match vs_logs s with Some l => l | None => [] end
  | KSpanAttribute => match vs_spans s with Some l => l | None => [] end
  end.

(** What a caller gets for a name. *)
Definition name_at (k : kind) (c : version_changes) (name : string) : string :=
  match k with
  | KResourceAttribute => get_resource_attribute_name c name
  | KMetricAttribute => get_metric_attribute_name c name
  | KMetric => get_metric_name c name
  | KLogAttribute => get_log_attribute_name c name
  | KSpanAttribute => get_span_attribute_name c name
  end.

(** [name] is renamed to [new] by the first of the maps that renames it. *)
Inductive renamed_by : list renames -> string -> string -> Prop :=
| RHere m r name new : In (name, new) m -> renamed_by (m :: r) name new
| RLater m r name new : ~ In name (map fst m) -> renamed_by r name new -> renamed_by (m :: r) name new.

Definition not_renamed (l : list renames) (name : string) : Prop :=
  forall m, In m l -> ~ In name (map fst m).

(** The newest version not after [v] that renames [name] renames it to [new]. *)
Definition newest_rename (vs : versions) (v : version) (k : kind) (name new : string) : Prop :=
  exists w s, In (w, s) vs /\ ver_le w v /\ renamed_by (section_of k s) name new /\
    forall w' s', In (w', s') vs -> ver_lt w w' -> ver_le w' v -> not_renamed (section_of k s') name.

Definition never_renamed (vs : versions) (v : version) (k : kind) (name : string) : Prop :=
  forall w s, In (w, s) vs -> ver_le w v -> not_renamed (section_of k s) name.

(** Histories as BTreeMap and HashMap hold them: versions ascending, names unique per map. *)
Definition good_spec (s : version_spec) : Prop := forall k m, In m (section_of k s) -> NoDup (map fst m).
Definition good_history (vs : versions) : Prop :=
  StronglySorted ver_lt (map fst vs) /\ Forall (fun p => good_spec (snd p)) vs.

(** Within one version, a name is renamed by at most one change of a kind. *)
Definition unambiguous (s : version_spec) : Prop :=
  forall k name n1 n2 m1 m2, In m1 (section_of k s) -> In m2 (section_of k s) ->
    In (name, n1) m1 -> In (name, n2) m2 -> n1 = n2.

(** The kinds that extending a version with its parent's entry merges. *)
Definition merged_kind (k : kind) : Prop := k <> KMetricAttribute.
