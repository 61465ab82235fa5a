(** C10, C11: version history. *)
From Coq Require Import String Ascii Bool Arith Lia NArith Permutation Sorted List.
From Verif Require Import Base Semver SemverProofs VersionModel VersionSpec VersionProofs.
Import ListNotations.
Local Open Scope string_scope.
Local Open Scope list_scope.

(** ** C10 *)

(** The name a caller gets is the one given by the newest version, up to the requested one,
    that renames it; a name no such version renames is unchanged. For every iteration order of
    the rename maps. *)
Theorem C10_newest_rename_wins : forall order vs v k name,
  (forall m, Permutation (order m) m) -> good_history vs ->
  (forall new, newest_rename vs v k name new -> name_at k (version_changes_for order vs v) name = new) /\
  (never_renamed vs v k name -> name_at k (version_changes_for order vs v) name = name).
Proof. exact c10_rename. Qed.
Print Assumptions C10_newest_rename_wins.

Definition ver (a b c : N) : version := {| v_major := a; v_minor := b; v_patch := c; v_pre := []; v_build := [] |}.
Definition empty_spec : version_spec :=
  {| vs_all := None; vs_metrics := None; vs_logs := None; vs_spans := None; vs_resources := None |}.
Definition spans (l : list renames) : version_spec :=
  {| vs_all := None; vs_metrics := None; vs_logs := None; vs_spans := Some l; vs_resources := None |}.
Definition all_section (l : list renames) : version_spec :=
  {| vs_all := Some l; vs_metrics := None; vs_logs := None; vs_spans := None; vs_resources := None |}.

Definition ex_history : versions :=
  [(ver 1 9 0, spans [[("http.method", "old"); ("x", "y")]]);
   (ver 1 10 0, spans [[("a", "b")]; [("http.method", "http.request.method")]]);
   (ver 2 0 0, spans [[("http.method", "too.new")]])].

Ltac good_tac :=
  split; [repeat constructor|
    repeat (constructor; [intros k m H; destruct k; simpl in H; intuition (subst; repeat constructor; simpl; intuition discriminate)|]);
    constructor].

Example ex_history_good : good_history ex_history.
Proof. good_tac. Qed.

(** 1.10.0 is newer than 1.9.0 (not the string order), and 2.0.0 is after the requested 1.11.0. *)
Example C10_case :
  newest_rename ex_history (ver 1 11 0) KSpanAttribute "http.method" "http.request.method" /\
  never_renamed ex_history (ver 1 11 0) KLogAttribute "http.method" /\
  name_at KSpanAttribute (version_changes_for (fun m => m) ex_history (ver 1 11 0)) "http.method" = "http.request.method".
Proof.
  split; [|split; [|vm_compute; reflexivity]].
  - exists (ver 1 10 0), (spans [[("a", "b")]; [("http.method", "http.request.method")]]).
    split; [right; left; reflexivity|]. split; [vm_compute; discriminate|]. split.
    + apply RLater; [simpl; intuition discriminate|]. apply RHere. left. reflexivity.
    + intros w' s' Hi Hlt Hle. destruct Hi as [[= <- <-]|[[= <- <-]|[[= <- <-]|[]]]].
      * vm_compute in Hlt. discriminate.
      * vm_compute in Hlt. discriminate.
      * exfalso. apply Hle. vm_compute. reflexivity.
  - intros w s Hi _ m Hm. destruct Hi as [[= <- <-]|[[= <- <-]|[[= <- <-]|[]]]]; destruct Hm.
Qed.

(** Rename chains are not followed: [a] became [b] and later [b] became [c], but asking the
    later version for [a] gives [b]. *)
Theorem C10_chain_refuted : exists vs v, good_history vs /\
  newest_rename vs v KSpanAttribute "b" "c" /\
  name_at KSpanAttribute (version_changes_for (fun m => m) vs v) "a" = "b".
Proof.
  exists [(ver 1 0 0, spans [[("a", "b")]]); (ver 1 1 0, spans [[("b", "c")]])], (ver 1 1 0).
  split; [good_tac|]. split; [|vm_compute; reflexivity].
  exists (ver 1 1 0), (spans [[("b", "c")]]). split; [right; left; reflexivity|].
  split; [vm_compute; discriminate|]. split; [apply RHere; left; reflexivity|].
  intros w' s' [[= <- <-]|[[= <- <-]|[]]] Hlt _; vm_compute in Hlt; discriminate.
Qed.
Print Assumptions C10_chain_refuted.

(** Renames in the section that applies to all telemetry are ignored. *)
Theorem C10_all_section_refuted : exists vs v name new, good_history vs /\
  (exists w s l m, In (w, s) vs /\ ver_le w v /\ vs_all s = Some l /\ In m l /\ In (name, new) m) /\
  name <> new /\
  forall k, name_at k (version_changes_for (fun m => m) vs v) name = name.
Proof.
  exists [(ver 1 0 0, all_section [[("a", "b")]])], (ver 1 0 0), "a", "b".
  split; [good_tac|]. split; [|split; [discriminate|intros []; reflexivity]].
  exists (ver 1 0 0), (all_section [[("a", "b")]]), [[("a", "b")]], [("a", "b")].
  repeat split; try (left; reflexivity). vm_compute. discriminate.
Qed.
Print Assumptions C10_all_section_refuted.

(** ** C11 *)

(** Extending a history with a parent history keeps both sets of versions; a version only one
    of them has is taken over unchanged; a version both have keeps every local rename, and gets
    the parent's renames of names the version did not rename locally. Full claim: this for
    every kind of rename. It holds for all kinds but the metric attributes
    ([C11_metric_attributes_refuted]). When the parent renames one name twice in a version,
    its last rename is taken ([rev]). *)
Theorem C11_extend_partial : forall order local parent,
  (forall m, Permutation (order m) m) -> good_history local -> good_history parent ->
  good_history (extend order local parent) /\
  (forall w, In w (map fst (extend order local parent)) <-> In w (map fst local) \/ In w (map fst parent)) /\
  (forall w s, In (w, s) local -> ~ In w (map fst parent) -> In (w, s) (extend order local parent)) /\
  (forall w s, In (w, s) parent -> ~ In w (map fst local) -> In (w, s) (extend order local parent)) /\
  (forall w s p, In (w, s) local -> In (w, p) parent ->
    exists e, In (w, e) (extend order local parent) /\
      forall k name new, merged_kind k ->
        (renamed_by (section_of k e) name new <->
         renamed_by (section_of k s) name new \/
         (not_renamed (section_of k s) name /\ renamed_by (rev (section_of k p)) name new))).
Proof. exact c11_extend. Qed.
Print Assumptions C11_extend_partial.

(** The same with the parent's own reading of its renames, when they are unambiguous. *)
Theorem C11_extend_unambiguous_partial : forall order local parent w s p,
  (forall m, Permutation (order m) m) ->
  good_history local -> good_history parent -> In (w, s) local -> In (w, p) parent -> unambiguous p ->
  exists e, In (w, e) (extend order local parent) /\
    forall k name new, merged_kind k ->
      (renamed_by (section_of k e) name new <->
       renamed_by (section_of k s) name new \/
       (not_renamed (section_of k s) name /\ renamed_by (section_of k p) name new)).
Proof. exact c11_unambiguous. Qed.
Print Assumptions C11_extend_unambiguous_partial.

Example C11_case :
  good_history ex_history /\
  extend (fun m => m) [(ver 1 9 0, spans [[("x", "local")]])] ex_history =
  [(ver 1 9 0, {| vs_all := None; vs_metrics := Some []; vs_logs := Some [];
                  vs_spans := Some [[("x", "local"); ("http.method", "old")]]; vs_resources := Some [] |});
   (ver 1 10 0, spans [[("a", "b")]; [("http.method", "http.request.method")]]);
   (ver 2 0 0, spans [[("http.method", "too.new")]])].
Proof. split; [exact ex_history_good|vm_compute; reflexivity]. Qed.

Definition metric_attrs (m : renames) : version_spec :=
  {| vs_all := None; vs_metrics := Some [{| mc_attributes := m; mc_metrics := [] |}]; vs_logs := None;
     vs_spans := None; vs_resources := None |}.

(** A parent's metric-attribute renames are dropped for a version both histories have. *)
Theorem C11_metric_attributes_refuted : exists local parent w s p name new,
  good_history local /\ good_history parent /\ In (w, s) local /\ In (w, p) parent /\
  not_renamed (section_of KMetricAttribute s) name /\ renamed_by (section_of KMetricAttribute p) name new /\
  forall e, In (w, e) (extend (fun m => m) local parent) -> not_renamed (section_of KMetricAttribute e) name.
Proof.
  exists [(ver 1 0 0, empty_spec)], [(ver 1 0 0, metric_attrs [("a", "b")])], (ver 1 0 0), empty_spec,
    (metric_attrs [("a", "b")]), "a", "b".
  split; [good_tac|]. split; [good_tac|]. split; [left; reflexivity|]. split; [left; reflexivity|].
  split; [intros m []|]. split; [apply RHere; left; reflexivity|].
  intros e [H|[]]. vm_compute in H. injection H as <-. intros m [].
Qed.
Print Assumptions C11_metric_attributes_refuted.

(** A parent's renames for all telemetry are dropped for a version both histories have. *)
Theorem C11_all_section_refuted : exists local parent w s p l,
  good_history local /\ good_history parent /\ In (w, s) local /\ In (w, p) parent /\
  vs_all s = None /\ vs_all p = Some l /\ l <> [] /\
  forall e, In (w, e) (extend (fun m => m) local parent) -> vs_all e = None.
Proof.
  exists [(ver 1 0 0, empty_spec)], [(ver 1 0 0, all_section [[("a", "b")]])], (ver 1 0 0), empty_spec,
    (all_section [[("a", "b")]]), [[("a", "b")]].
  split; [good_tac|]. split; [good_tac|]. repeat split; try (left; reflexivity); try discriminate.
  intros e [H|[]]. vm_compute in H. injection H as <-. reflexivity.
Qed.
Print Assumptions C11_all_section_refuted.

(** A parent that renames a name twice in a version: alone its first rename applies, merged its
    last one does. *)
Theorem C11_ambiguous_parent_refuted : exists parent,
  good_history parent /\
  name_at KSpanAttribute (version_changes_for (fun m => m) parent (ver 1 0 0)) "a" = "first" /\
  name_at KSpanAttribute (version_changes_for (fun m => m)
     (extend (fun m => m) [(ver 1 0 0, empty_spec)] parent) (ver 1 0 0)) "a" = "last".
Proof.
  exists [(ver 1 0 0, spans [[("a", "first")]; [("a", "last")]])].
  split; [good_tac|]. split; vm_compute; reflexivity.
Qed.
Print Assumptions C11_ambiguous_parent_refuted.
