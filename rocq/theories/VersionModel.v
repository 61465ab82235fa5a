(** Model of the version history of crates/weaver_version/src/lib.rs. *)
From Coq Require Import String Ascii Bool Arith Lia NArith List.
From Verif Require Import Base Semver.
Import ListNotations.
Local Open Scope list_scope.

(** A map of old to new names: [HashMap<String, String>]. *)
(* used by metrics_change: metrics_changes.rs 11-39 *)
Definition renames := list (string * string).

(** metrics_changes.rs 11-39 [MetricsChange]; [apply_to_metrics] is not read by the functions
    modelled and is omitted. *)
Record metrics_change := { mc_attributes : renames; mc_metrics : renames }.

(** lib.rs 71-85 [VersionSpec]. A change of the sections all, logs, spans and resources is its
    attribute map. *)
Record version_spec := {
  vs_all : option (list renames);
  vs_metrics : option (list metrics_change);
  vs_logs : option (list renames);
  vs_spans : option (list renames);
  vs_resources : option (list renames)
}.

(** lib.rs 62-67 [Versions]: a BTreeMap, in ascending order. *)
Definition versions := list (version * version_spec).

(** lib.rs 89-96 [VersionChanges]. *)
Record version_changes := {
  ch_metric_names : renames;
  ch_metric_attributes : renames;
  ch_resource_attributes : renames;
  ch_log_attributes : renames;
  ch_span_attributes : renames
}.

(** lib.rs 135-137 [latest_version]. *)
Definition latest_version (vs : versions) : option version :=
  match rev vs with [] => None | (v, _) :: _ => Some v end.

(** lib.rs 147-155 [versions_asc], 157-166 [versions_desc], 168-176 [versions_asc_from],
    178-187 [versions_desc_from]. *)
Definition versions_asc (vs : versions) : versions := vs.
(* crates/weaver_version/src/lib.rs 152-158 *)
Definition versions_desc (vs : versions) : versions := rev vs.
(* crates/weaver_version/src/lib.rs 163-168 *)
Definition versions_asc_from (vs : versions) (v : version) : versions :=
  filter (fun p => ver_leb v (fst p)) vs.
(* crates/weaver_version/src/lib.rs 173-179 *)
Definition versions_desc_from (vs : versions) (v : version) : versions :=
  rev (filter (fun p => ver_leb (fst p) v) vs).

Section Order.
  (** Iteration order of a hash map. *)
  Variable order : renames -> renames.

  (** lib.rs 211-217 and the four similar closures: insert unless the key is there. *)
  Definition add_new (m : renames) (p : string * string) : renames :=
    if has_key String.eqb (fst p) m then m else sinsert (fst p) (snd p) m.

  (* used by add_spec: lib.rs 202-268 *)
  Definition add_changes (m : renames) (changes : list renames) : renames :=
    fold_left add_new (flat_map order changes) m.

  (* used by add_spec: lib.rs 202-268 *)
  Definition opt_changes (o : option (list renames)) : list renames := opt_get o [].

  (** lib.rs 202-268: the body of the loop over the versions. *)
  Definition add_spec (c : version_changes) (s : version_spec) : version_changes :=
    {| ch_resource_attributes := add_changes (ch_resource_attributes c) (opt_changes (vs_resources s));
       ch_metric_names := add_changes (ch_metric_names c) (map mc_metrics (opt_get (vs_metrics s) []));
       ch_metric_attributes := add_changes (ch_metric_attributes c) (map mc_attributes (opt_get (vs_metrics s) []));
       ch_log_attributes := add_changes (ch_log_attributes c) (opt_changes (vs_logs s));
       ch_span_attributes := add_changes (ch_span_attributes c) (opt_changes (vs_spans s)) |}.

  (** lib.rs 189-277 [version_changes_for]. *)
  Definition version_changes_for (vs : versions) (v : version) : version_changes :=
    fold_left (fun c p => add_spec c (snd p)) (versions_desc_from vs v)
      {| ch_metric_names := []; ch_metric_attributes := []; ch_resource_attributes := [];
         ch_log_attributes := []; ch_span_attributes := [] |}.

  (** [HashMap::extend]. *)
  (* used by extend_section: lib.rs 335-356 *)
  Definition map_extend (m m' : renames) : renames :=
    fold_left (fun acc p => sinsert (fst p) (snd p) acc) (order m') m.

  (** lib.rs 314-334 and the similar loops: the parent renamings absent from all local changes. *)
  Definition missing (local parent : list renames) : renames :=
    fold_left (fun acc p => if existsb (has_key String.eqb (fst p)) local then acc
                            else sinsert (fst p) (snd p) acc)
              (flat_map order parent) [].

  (** lib.rs 335-356: put them in the first local change, or in a new one. [get_or_insert_with]
      may leave an empty section behind; that is the same as no section here. *)
  Definition extend_section (local : list renames) (parent : option (list renames)) : list renames :=
    match parent with
    | None => local
    | Some p =>
        match missing local p, local with
        | [], _ => local
        | m, [] => [m]
        | m, c :: r => map_extend c m :: r
        end
    end.

  (** lib.rs 360-396: the metrics section, metric names only. *)
  Definition extend_metrics (local : list metrics_change) (parent : option (list metrics_change)) : list metrics_change :=
    match parent with
    | None => local
    | Some p =>
        match missing (map mc_metrics local) (map mc_metrics p), local with
        | [], _ => local
        | m, [] => [{| mc_attributes := []; mc_metrics := m |}]
        | m, c :: r => {| mc_attributes := mc_attributes c; mc_metrics := map_extend (mc_metrics c) m |} :: r
        end
    end.

  (** lib.rs 310-490 [VersionSpec::extend]. *)
  Definition extend_spec (local parent : version_spec) : version_spec :=
    {| vs_all := vs_all local;
       vs_resources := Some (extend_section (opt_changes (vs_resources local)) (vs_resources parent));
       vs_metrics := Some (extend_metrics (opt_get (vs_metrics local) []) (vs_metrics parent));
       vs_logs := Some (extend_section (opt_changes (vs_logs local)) (vs_logs parent));
       vs_spans := Some (extend_section (opt_changes (vs_spans local)) (vs_spans parent)) |}.

  (** BTreeMap [get_mut] then [extend], or [insert]; lib.rs 283-292. *)
  Fixpoint extend_version (vs : versions) (v : version) (s : version_spec) : versions :=
    match vs with
    | [] => [(v, s)]
    | (w, t) :: r =>
        match ver_cmp v w with
        | Lt => (v, s) :: vs
        | Eq => (w, extend_spec t s) :: r
        | Gt => (w, t) :: extend_version r v s
        end
    end.

  (** lib.rs 281-293 [Versions::extend]. *)
  Definition extend (vs parent : versions) : versions :=
    fold_left (fun acc p => extend_version acc (fst p) (snd p)) parent vs.
End Order.

(** lib.rs 584-631: the getters. *)
Definition get_name (m : renames) (name : string) : string := opt_get (slookup name m) name.
(* crates/weaver_version/src/lib.rs 581-587 *)
Definition get_resource_attribute_name (c : version_changes) := get_name (ch_resource_attributes c).
(* crates/weaver_version/src/lib.rs 592-598 *)
Definition get_metric_attribute_name (c : version_changes) := get_name (ch_metric_attributes c).
(* crates/weaver_version/src/lib.rs 603-609 *)
Definition get_metric_name (c : version_changes) := get_name (ch_metric_names c).
(* crates/weaver_version/src/lib.rs 614-620 *)
Definition get_log_attribute_name (c : version_changes) := get_name (ch_log_attributes c).
(* crates/weaver_version/src/lib.rs 625-631 *)
Definition get_span_attribute_name (c : version_changes) := get_name (ch_span_attributes c).
