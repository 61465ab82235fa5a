(* C38: the version of a registry that is used; C39: loading a registry with its
   dependencies; C70: the definition files of a registry. *)
From Coq Require Import String Ascii Bool Arith Lia Permutation Sorted NArith List.
From Verif Require Import Base BaseProofs BaseProofs2 Semver SemverProofs SemTypes ResultModel ResolveModel ExtProofs
  Str StrProofs LoadModel LoadSpec LoadProofs LoadProofs2 FileProofs.
Import ListNotations.
Local Open Scope string_scope.

(* ---------- C38 ---------- *)
(* Two URLs of one registry with equal major versions: the higher one is used. *)
Theorem C38_higher_of_two w u1 u2 : compatible w u1 u2 ->
  exists m, latest_major (w_name w) (w_semver w) u1 u2 = Got m /\ (m = u1 \/ m = u2) /\
            not_above w u1 m /\ not_above w u2 m.
Proof.
  intros (N & v1 & v2 & E1 & E2 & M).
  destruct (latest_major (w_name w) (w_semver w) u1 u2) as [m|e] eqn:E.
  - destruct (latest_major_got w _ _ _ E) as (_ & a & b & A & B & _ & Hc).
    rewrite E1 in A. rewrite E2 in B. injection A as <-. injection B as <-.
    exists m. split; [reflexivity|].
    assert (forall u v, w_semver w u = Some v -> not_above w u u) as R.
    { intros u v H. apply (not_above_of w v v); trivial. rewrite ver_cmp_refl. discriminate. }
    destruct Hc as [[-> L]|[-> L]].
    + split; [auto|]. split; [exact (R u1 v1 E1)|]. apply (not_above_of w v2 v1); auto.
      rewrite (ver_cmp_opp v1 v2), L. discriminate.
    + split; [auto|]. split; [apply (not_above_of w v1 v2); auto|exact (R u2 v2 E2)].
  - exfalso. destruct (latest_major_bad w _ _ _ N E) as (_ & [[_ H]|[[_ H]|(_ & x & y & H1 & H2 & H)]]); congruence.
Qed.
Print Assumptions C38_higher_of_two.

(* Different registries, different majors or versions that are no semantic versions are
   rejected. *)
Theorem C38_rejected w u1 u2 : ~ compatible w u1 u2 ->
  exists e, latest_major (w_name w) (w_semver w) u1 u2 = Bad e.
Proof.
  intros H. destruct (latest_major (w_name w) (w_semver w) u1 u2) as [m|e] eqn:E; [|eauto].
  destruct (latest_major_got w _ _ _ E) as (N & a & b & A & B & M & _). destruct H. split; [exact N|]. eauto 6.
Qed.
Print Assumptions C38_rejected.

(* Over the URLs of any list of dependencies, compatible name by name, the chosen one is the
   highest, and there is one for every registry met. *)
Theorem C38_highest_of_all w deps :
  (forall u u', visited deps u -> visited deps u' -> w_name w u = w_name w u' -> compatible w u u') ->
  forall u, visited deps u -> exists m,
    slookup (w_name w u) (collect_chosen w deps) = Some m /\ w_name w m = w_name w u /\
    highest w (visited deps) m.
Proof.
  intros Hc u Hu. unfold collect_chosen. rewrite collect_flat.
  assert (forall x, In x (urls_of deps) <-> visited deps x) as V.
  { intros x. unfold urls_of. rewrite in_flat_map. split; intros (d & I & H); exists d; (split; [exact I|]).
    - apply in_app_or in H as [H|H]; [left|right; exact H]. destruct (fst d); [destruct H as [->|[]]; reflexivity|destruct H].
    - apply in_or_app. destruct H as [->|H]; [left; left; reflexivity|right; exact H]. }
  pose proof (collect_ok w (urls_of deps) (fun _ => False) [] (okc_start w)) as K.
  destruct K as [K1 K2].
  { intros x y [[]|Hx] [[]|Hy]. apply Hc; apply V; assumption. }
  destruct (K2 u (or_intror (proj2 (V u) Hu))) as (m & Hm & _).
  exists m. split; [exact Hm|]. destruct (K1 _ _ Hm) as [N [[]|I]]. split; [exact N|].
  split; [apply V, I|]. intros x Hx Nx. destruct (K2 x (or_intror (proj2 (V x) Hx))) as (m' & Hm' & Hle).
  rewrite Nx, N, Hm in Hm'. injection Hm' as <-. exact Hle.
Qed.
Print Assumptions C38_highest_of_all.

(* ... so the order in which they are visited does not matter. *)
Theorem C38_any_order_partial w deps deps' :
  (forall u, visited deps u <-> visited deps' u) ->
  (forall u u', visited deps u -> visited deps u' -> w_name w u = w_name w u' -> compatible w u u') ->
  versions_identify w (visited deps) ->
  forall n, slookup n (collect_chosen w deps) = slookup n (collect_chosen w deps').
Proof.
  intros Hv Hc Hi n.
  assert (Hc' : forall u u', visited deps' u -> visited deps' u' -> w_name w u = w_name w u' -> compatible w u u').
  { intros u u' A B. apply Hc; apply Hv; assumption. }
  assert (forall ds, (exists u, visited ds u /\ w_name w u = n) \/ slookup n (collect_chosen w ds) = None) as D.
  { intros ds. unfold collect_chosen. rewrite collect_flat.
    destruct (slookup n (fold_left (collect_url w) (urls_of ds) [])) as [x|] eqn:E; [|right; reflexivity]. left.
    destruct (existsb (fun u => String.eqb (w_name w u) n) (urls_of ds)) eqn:X.
    - apply existsb_exists in X as (u & I & Eu). apply String.eqb_eq in Eu. exists u. split; [|exact Eu].
      apply in_flat_map in I as (d & Id & H). exists d. split; [exact Id|].
      apply in_app_or in H as [H|H]; [left|right; exact H]. destruct (fst d); [destruct H as [->|[]]; reflexivity|destruct H].
    - exfalso. assert (slookup n (fold_left (collect_url w) (urls_of ds) []) = None) as Z; [|congruence].
      apply collect_names. split; [reflexivity|]. intros u I Eu.
      assert (existsb (fun u => String.eqb (w_name w u) n) (urls_of ds) = true) as Y; [|congruence].
      apply existsb_exists. exists u. split; [exact I|]. apply String.eqb_eq, Eu. }
  destruct (D deps) as [(u & Hu & <-)|E].
  - destruct (C38_highest_of_all w deps Hc u Hu) as (m & -> & Nm & Pm & Lm).
    destruct (C38_highest_of_all w deps' Hc' u (proj1 (Hv u) Hu)) as (m' & -> & Nm' & Pm' & Lm').
    f_equal. apply Hv in Pm'.
    destruct (Lm m' Pm' ltac:(congruence)) as [->|(_ & v' & v & E' & E & _ & L)]; [reflexivity|].
    destruct (Lm' m (proj1 (Hv m) Pm) ltac:(congruence)) as [->|(_ & x & x' & F & F' & _ & L')]; [reflexivity|].
    rewrite E in F. rewrite E' in F'. injection F as <-. injection F' as <-.
    apply Hi; trivial; [congruence|]. rewrite E, E'. f_equal.
    apply ver_leb_antisym; apply ver_leb_spec; assumption.
  - rewrite E. destruct (D deps') as [(u & Hu & <-)|E']; [|congruence].
    exfalso. destruct (C38_highest_of_all w deps Hc u (proj2 (Hv u) Hu)) as (m & H & _). congruence.
Qed.
Print Assumptions C38_any_order_partial.

(* Loading: for every registry met, the version kept is the highest one met anywhere in the
   graph, and all versions met are compatible. *)
Theorem C38_loaded_highest w order extra main t nfes chosen :
  load_registry w order extra main = Loaded t nfes chosen ->
  (forall u, mentioned w main u -> exists m,
     slookup (w_name w u) chosen = Some m /\ w_name w m = w_name w u /\ highest w (mentioned w main) m) /\
  (forall u u', mentioned w main u -> mentioned w main u' -> u <> u' -> w_name w u = w_name w u' ->
     compatible w u u').
Proof.
  unfold load_registry. destruct (load w max_dependency_depth [] main []) as [t0 n0 c0|e] eqn:E; [|discriminate].
  intros H. injection H as <- <- <-.
  destruct (load_good w _ _ _ _ _ _ _ _ (okc_start w) E) as [_ [K1 K2]].
  assert (forall u, mentioned w main u -> exists m,
     slookup (w_name w u) c0 = Some m /\ w_name w m = w_name w u /\ highest w (mentioned w main) m) as A.
  { intros u Hu. destruct (K2 u (or_intror Hu)) as (m & Hm & _). exists m. split; [exact Hm|].
    destruct (K1 _ _ Hm) as [N [[]|I]]. split; [exact N|]. split; [exact I|].
    intros x Hx Nx. destruct (K2 x (or_intror Hx)) as (m' & Hm' & Hle). rewrite Nx, N, Hm in Hm'. injection Hm' as <-. exact Hle. }
  split; [exact A|]. intros u u' Hu Hu' Ne N. split; [exact N|].
  destruct (A u Hu) as (m & Hm & Nm & _ & Lm).
  destruct (Lm u Hu ltac:(congruence)) as [->|(_ & v & x & E1 & E2 & M1 & _)];
  destruct (Lm u' Hu' ltac:(congruence)) as [E3|(_ & v' & x' & E3 & E4 & M2 & _)].
  - congruence.
  - rewrite E4. eauto 7.
  - subst u'. exists v, x. auto.
  - exists v, v'. repeat split; trivial. rewrite E2 in E4. injection E4 as <-. congruence.
Qed.
Print Assumptions C38_loaded_highest.

(* The user is told, once loading succeeded, about exactly the declared dependencies that
   were replaced by another version: which was asked for and which is used. *)
Theorem C38_replacement_reported w order extra main t nfes chosen ds :
  (forall l, Permutation (order l) l) -> rp_content main = CDefinition ds ->
  load_registry w order extra main = Loaded t nfes chosen ->
  exists before warnings, nfes = app before warnings /\ forall x, In x warnings <->
    exists n u m, last_declared w ds n u /\ m <> u /\ mentioned w main m /\ w_name w m = n /\
      highest w (mentioned w main) m /\ slookup n chosen = Some m /\
      x = LUpgraded n (w_version w u) (w_version w m).
Proof.
  intros Ho Co H. pose proof (C38_loaded_highest _ _ _ _ _ _ _ H) as [A _]. revert H.
  unfold load_registry. destruct (load w max_dependency_depth [] main []) as [t0 n0 c0|e] eqn:E; [|discriminate].
  rewrite Co. unfold manifest_deps. rewrite Co. intros H. injection H as <- <- <-.
  destruct (load_good w _ _ _ _ _ _ _ _ (okc_start w) E) as [_ [K1 K2]].
  eexists n0, _. split; [reflexivity|]. intros x. rewrite upgrade_in.
  assert (NoDup (map fst (main_dependencies w ds))) as Nd.
  { unfold main_dependencies. rewrite <- fold_left_rev_right. induction (rev ds) as [|d l IH]; cbn; [constructor|].
    apply (insert_nodup _ string_eqb_spec), IH. }
  assert (forall n u, In (n, u) (order (main_dependencies w ds)) <-> last_declared w ds n u) as L.
  { intros n u. rewrite <- main_deps_last, (slookup_in _ n u Nd). split; apply Permutation_in; [apply Ho|apply Permutation_sym, Ho]. }
  split.
  - intros (n & u & m & I & Hm & Ne & ->). exists n, u, m. split; [apply L, I|]. split; [exact Ne|].
    destruct (K1 _ _ Hm) as [N [[]|Me]]. split; [exact Me|]. split; [exact N|]. split; [|auto].
    destruct (A m Me) as (m' & Hm' & _ & Hh). rewrite N, Hm in Hm'. injection Hm' as <-. exact Hh.
  - intros (n & u & m & I & Ne & _ & _ & _ & Hm & ->). exists n, u, m. split; [apply L, I|auto].
Qed.
Print Assumptions C38_replacement_reported.

(* ---------- C39 ---------- *)
(* When loading succeeds everything declared is loaded, ... *)
Theorem C39_everything_loaded w order extra main t nfes chosen :
  load_registry w order extra main = Loaded t nfes chosen -> loaded_as w main t.
Proof.
  unfold load_registry. destruct (load w max_dependency_depth [] main []) as [t0 n0 c0|e] eqn:E; [|discriminate].
  intros H. injection H as <- <- <-. exact (proj1 (proj1 (load_good w _ _ _ _ _ _ _ _ (okc_start w) E))).
Qed.
Print Assumptions C39_everything_loaded.

(* ... no chain of declarations meets a registry twice and none is longer than ten. *)
Theorem C39_no_cycle_no_overrun w order extra main t nfes chosen :
  load_registry w order extra main = Loaded t nfes chosen ->
  forall l r, route w main l r -> NoDup (names w (app l [r])) /\ length (app l [r]) <= 10.
Proof.
  unfold load_registry. destruct (load w max_dependency_depth [] main []) as [t0 n0 c0|e] eqn:E; [|discriminate].
  intros _ l r Hr.
  destruct (proj2 (proj1 (load_good w _ _ _ _ _ _ _ _ (okc_start w) E)) l r Hr) as (L & Nd & _).
  rewrite names_snoc. split; [exact Nd|]. rewrite app_length. unfold max_dependency_depth in L. cbn. lia.
Qed.
Print Assumptions C39_no_cycle_no_overrun.

(* A failure has a cause of the kind the error names. *)
Theorem C39_failure_explained w order extra main e : reads_as_read w main ->
  load_registry w order extra main = LoadFailed e -> explained w main e.
Proof.
  intros Hr. unfold load_registry. destruct (load w max_dependency_depth [] main []) as [t0 n0 c0|x] eqn:E; [discriminate|].
  intros H. injection H as <-.
  apply (load_fail w main Hr max_dependency_depth (fun _ => False) [] main [] x); trivial.
  - constructor.
  - constructor.
  - apply okc_start.
  - intros u [].
Qed.
Print Assumptions C39_failure_explained.

Lemma readable_clean w main : readable w main -> forall r e, reached w main r -> w_cached w (rp_url r) = None ->
  (rp_files r = inr e \/ rp_content r = CPublished (inr e) \/
   exists ds d, rp_content r = CDefinition ds /\ In d ds /\ w_fetch w d = inr e) -> False.
Proof.
  intros (H & _) r e R Ca. destruct (H r R Ca) as ((own & F) & P & D). intros [K|[K|(ds & d & K & I & Fe)]].
  - congruence.
  - exact (P e K).
  - destruct (D ds d K I) as (r' & x & Fd). congruence.
Qed.
Lemma conflict_incompatible w c u1 u2 : conflict_between w c u1 u2 -> ~ compatible w u1 u2.
Proof.
  intros (_ & H) (_ & v1 & v2 & E1 & E2 & M). destruct H as [[_ H]|[[_ H]|(_ & x & y & A & B & D)]]; congruence.
Qed.
Lemma readable_graph w main e : readable w main -> explained w main e ->
  (exists m, e = LDepth m) \/ (exists n c, e = LCircular n c).
Proof.
  intros Hr. destruct e; cbn; eauto.
  - intros [(u1 & u2 & M1 & M2 & Ne & C)|(r & d1 & d2 & R & T & C)]; exfalso; apply (conflict_incompatible _ _ _ _ C).
    + apply (proj1 (proj2 Hr)); trivial. exact (proj1 C).
    + exact (proj2 (proj2 (proj2 (proj2 Hr) r d1 d2 R T))).
  - intros (r & d1 & d2 & R & T & _ & U). exfalso. destruct (proj2 (proj2 Hr) r d1 d2 R T) as (A & B & _). tauto.
  - intros (r & R & Ca & K). exfalso. apply (readable_clean w main Hr r (LFetch m) R Ca). intuition.
  - intros (r & R & Ca & K). exfalso. apply (readable_clean w main Hr r (LFiles m) R Ca). intuition.
  - intros (r & R & Ca & K). exfalso. apply (readable_clean w main Hr r (LSchema m) R Ca). intuition.
  - intros (r & R & Ca & K). exfalso. apply (readable_clean w main Hr r (LWarning m) R Ca). intuition.
  - intros (r & R & Ca & K). exfalso. apply (readable_clean w main Hr r (LUpgraded name requested selected) R Ca). intuition.
Qed.

(* With readable registries and compatible versions: no cycle and no chain beyond ten means
   everything is loaded; *)
Theorem C39_loads w order extra main : reads_as_read w main -> readable w main ->
  (forall l r, route w main l r -> NoDup (names w (app l [r])) /\ length (app l [r]) <= 10) ->
  exists t nfes chosen, load_registry w order extra main = Loaded t nfes chosen /\ loaded_as w main t.
Proof.
  intros Hc Hr Hg. destruct (load_registry w order extra main) as [t n c|e] eqn:E.
  - exists t, n, c. split; [reflexivity|]. exact (C39_everything_loaded _ _ _ _ _ _ _ E).
  - exfalso. pose proof (C39_failure_explained _ _ _ _ _ Hc E) as X.
    destruct (readable_graph w main e Hr X) as [[m ->]|(n & c & ->)].
    + destruct X as (l & r & R & L & _). destruct (Hg l r R) as [_ K]. rewrite app_length in K. cbn in K. lia.
    + destruct X as (l & r & R & _ & -> & I & _). destruct (Hg l r R) as [K _]. rewrite names_snoc in K.
      apply NoDup_remove_2 in K. rewrite app_nil_r in K. contradiction.
Qed.
Print Assumptions C39_loads.

(* a cycle, when no chain of different registries is longer than nine, is reported as
   circular, with the chain of registries that closes it; *)
Theorem C39_cycle_reported w order extra main l r : reads_as_read w main -> readable w main ->
  route w main l r -> In (w_name w (rp_url r)) (names w l) ->
  (forall l' r', route w main l' r' -> NoDup (names w l') -> length l' <= 9) ->
  exists n c, load_registry w order extra main = LoadFailed (LCircular n c) /\
    exists l' r', route w main l' r' /\ n = w_name w (rp_url r') /\ In n (names w l') /\
                  c = join " → " (names w (app l' [r'])).
Proof.
  intros Hc Hr Ht I Hs. destruct (load_registry w order extra main) as [t n c|e] eqn:E.
  - exfalso. destruct (C39_no_cycle_no_overrun _ _ _ _ _ _ _ E l r Ht) as [K _]. rewrite names_snoc in K.
    apply NoDup_remove_2 in K. rewrite app_nil_r in K. contradiction.
  - pose proof (C39_failure_explained _ _ _ _ _ Hc E) as X.
    destruct (readable_graph w main e Hr X) as [[m ->]|(n & c & ->)].
    + exfalso. destruct X as (l' & r' & R & L & Nd & _). specialize (Hs l' r' R Nd). lia.
    + exists n, c. split; [reflexivity|]. destruct X as (l' & r' & R & Nd & En & In' & Ec).
      exists l', r'. rewrite names_snoc, <- En. auto.
Qed.
Print Assumptions C39_cycle_reported.

(* a chain of more than ten registries, without a cycle, is reported with the registry that
   is too far. *)
Theorem C39_overrun_reported w order extra main l r : reads_as_read w main -> readable w main ->
  route w main l r -> length (app l [r]) > 10 ->
  (forall l' r', route w main l' r' -> NoDup (names w (app l' [r']))) ->
  exists r', load_registry w order extra main = LoadFailed (LDepth (rp_repr r')) /\
    exists l', route w main l' r' /\ length l' = 10.
Proof.
  intros Hc Hr Ht L Hn. destruct (load_registry w order extra main) as [t n c|e] eqn:E.
  - exfalso. destruct (C39_no_cycle_no_overrun _ _ _ _ _ _ _ E l r Ht) as [_ K]. lia.
  - pose proof (C39_failure_explained _ _ _ _ _ Hc E) as X.
    destruct (readable_graph w main e Hr X) as [[m ->]|(n & c & ->)].
    + destruct X as (l' & r' & R & L' & _ & ->). eauto 6.
    + exfalso. destruct X as (l' & r' & R & _ & -> & I & _). specialize (Hn l' r' R). rewrite names_snoc in Hn.
      apply NoDup_remove_2 in Hn. rewrite app_nil_r in Hn. contradiction.
Qed.
Print Assumptions C39_overrun_reported.

(* ---------- C70 ---------- *)
(* The files read below a directory whose own name is not hidden are exactly the definition
   files no part of whose path is hidden. *)
Theorem C70_files_read_partial root cs : ~ starts_with_dot (root_name root) -> root <> "" -> Forall plain_entry cs ->
  forall x, In x (definition_files root cs) <->
    exists ds n, lies_in cs ds n /\ (forall d, In d ds -> ~ starts_with_dot d) /\ ~ starts_with_dot n /\
      definition_name n /\ x = (if ends_slash root then root else root ++ "/") ++ join "/" (app ds [n]).
Proof.
  intros Hh Hr Hp x. unfold definition_files. split.
  - intros H. apply walk_sound in H as (_ & ds & n & L & Vd & Vn & Dn & ->).
    exists ds, n. repeat (split; [assumption|]). apply path_below_spec; [exact Hr|exact (lies_in_plain _ _ _ L Hp)].
  - intros (ds & n & L & Vd & Vn & Dn & ->). cbn [walk entry_name].
    destruct (hidden (root_name root)) eqn:H; [apply hidden_spec in H; contradiction|].
    rewrite <- path_below_spec; [|exact Hr|exact (lies_in_plain _ _ _ L Hp)].
    exact (walk_complete cs ds n L Vd Vn Dn root).
Qed.
Print Assumptions C70_files_read_partial.

(* Each of them is reported under the registry's own path. *)
Theorem C70_reported_path_partial root repr cs x : root <> "" -> Forall plain_entry cs ->
  ends_slash repr = ends_slash root -> In x (definition_files root cs) ->
  exists ds n, lies_in cs ds n /\
    provenance_path repr root x = Some ((if ends_slash repr then repr else repr ++ "/") ++ join "/" (app ds [n])).
Proof.
  intros Hr Hp He H. unfold definition_files in H. apply walk_sound in H as (_ & ds & n & L & _ & _ & _ & ->).
  exists ds, n. split; [exact L|]. pose proof (lies_in_plain _ _ _ L Hp) as F.
  rewrite (path_below_spec ds root n Hr F). apply provenance_of; trivial.
  intros E. rewrite Forall_forall in F. destruct (F n) as [Hn _]; [apply in_or_app; right; left; reflexivity|].
  apply Hn. clear - E. induction ds as [|d ds IH]; [exact E|]. cbn [app join] in E.
  destruct (app ds [n]) as [|y r] eqn:A; [destruct ds; discriminate|]. destruct d; discriminate.
Qed.
Print Assumptions C70_reported_path_partial.

(* The files are read in parallel: whatever the order of their results, either some fatal
   error is reported in every order, or the same specifications and warnings come out. *)
Theorem C70_parallel {S E} (rs rs' : list (wresult S E)) : Permutation rs rs' ->
  ((exists e, gather rs = inr e /\ In (WFatal e) rs) /\ (exists e, gather rs' = inr e /\ In (WFatal e) rs)) \/
  (exists ss es ss' es', gather rs = inl (ss, es) /\ gather rs' = inl (ss', es') /\
     Permutation ss ss' /\ Permutation es es' /\
     (forall t, In t ss <-> In (WOk t) rs \/ exists n, In (WOkNfe t n) rs) /\
     (forall e, In e es <-> exists t n, In (WOkNfe t n) rs /\ In e n)).
Proof.
  intros P.
  assert ((exists e, In (WFatal e) rs) \/ forall e, ~ In (WFatal e) rs) as [[e I]|H].
  { clear. induction rs as [|r rs IH]; [right; intros e []|]. destruct IH as [[e I]|H]; [left; exists e; right; exact I|].
    destruct r as [t|t n|e]; [right|right|left; exists e; left; reflexivity]; intros e [K|K]; try discriminate; exact (H e K). }
  - left. split; [exact (gather_bad rs e I)|].
    destruct (gather_bad rs' e (Permutation_in _ P I)) as (e' & G & I'). exists e'. split; [exact G|].
    exact (Permutation_in _ (Permutation_sym P) I').
  - right. assert (forall e, ~ In (WFatal e) rs') as H' by (intros e I; apply (H e); exact (Permutation_in _ (Permutation_sym P) I)).
    rewrite (gather_ok rs H), (gather_ok rs' H').
    eexists _, _, _, _. split; [reflexivity|]. split; [reflexivity|].
    split; [apply Permutation_flat_map, P|]. split; [apply Permutation_flat_map, P|]. split.
    + intros t. rewrite in_flat_map. split.
      * intros ([x|x n|e] & I & K); [left|right; exists n|destruct K]; destruct K as [->|[]]; exact I.
      * intros [I|[n I]]; [exists (WOk t)|exists (WOkNfe t n)]; (split; [exact I|left; reflexivity]).
    + intros e. rewrite in_flat_map. split.
      * intros ([x|x n|y] & I & K); [destruct K| |destruct K]. exists x, n. auto.
      * intros (t & n & I & K). exists (WOkNfe t n). auto.
Qed.
Print Assumptions C70_parallel.

(* ---------- what does not hold ---------- *)
Definition ver (a b : N) : version := {| v_major := a; v_minor := b; v_patch := 0; v_pre := []; v_build := [] |}.
Definition sample_name (u : string) : string :=
  if starts_with "http://x" u then "x" else if starts_with "https://x" u then "x" else if starts_with "https://p" u then "p" else "main".
Definition sample_semver (u : string) : option version :=
  match u with
  | "https://x/1.0.0" | "http://x/1.0.0" | "https://p/1.0.0" | "https://main/1.0.0" => Some (ver 1 0)
  | "https://x/1.2.0" => Some (ver 1 2)
  | "https://x/2.0.0" => Some (ver 2 0)
  | _ => None
  end.
Definition d_x1 := {| dc_url := "https://x/1.0.0"; dc_path := None |}.
Definition d_x12 := {| dc_url := "https://x/1.2.0"; dc_path := None |}.
Definition d_p := {| dc_url := "https://p/1.0.0"; dc_path := None |}.
Definition r_x1 := {| rp_url := "https://x/1.0.0"; rp_repr := "x1"; rp_content := CPlain; rp_files := inl [] |}.
Definition r_x12 := {| rp_url := "https://x/1.2.0"; rp_repr := "x12"; rp_content := CPlain; rp_files := inl [] |}.
Definition r_p := {| rp_url := "https://p/1.0.0"; rp_repr := "p"; rp_content := CPublished (inl ("https://p/1.0.0", ["https://x/2.0.0"])); rp_files := inl [] |}.
Definition sample (cached : string -> option loaded) (content_p : content) : world :=
  {| w_name := sample_name; w_version := fun u => u; w_semver := sample_semver;
     w_fetch := fun d => if String.eqb (dc_url d) "https://x/1.0.0" then inl (r_x1, [])
                         else if String.eqb (dc_url d) "https://x/1.2.0" then inl (r_x12, [])
                         else inl ({| rp_url := "https://p/1.0.0"; rp_repr := "p"; rp_content := content_p; rp_files := inl [] |}, []);
     w_cached := cached |}.
Definition r_main ds := {| rp_url := "https://main/1.0.0"; rp_repr := "main"; rp_content := CDefinition ds; rp_files := inl [] |}.

(* Incompatible versions met while resolving are passed over in silence: the first one met
   stays, so the order of the dependencies decides. *)
Theorem C38_any_order_refuted : exists w deps deps', Permutation deps deps' /\
  slookup "x" (collect_chosen w deps) <> slookup "x" (collect_chosen w deps').
Proof.
  exists (sample (fun _ => None) CPlain), [(Some "https://x/1.0.0", []); (Some "https://x/2.0.0", [])],
         [(Some "https://x/2.0.0", []); (Some "https://x/1.0.0", [])].
  split; [apply perm_swap|]. vm_compute. discriminate.
Qed.
Print Assumptions C38_any_order_refuted.
(* Two spellings of one version (http and https) are interchangeable: the last one met is
   used, so the order decides here as well. *)
Theorem C38_same_version_refuted : exists w deps deps', Permutation deps deps' /\
  (forall u u', visited deps u -> visited deps u' -> w_name w u = w_name w u' -> compatible w u u') /\
  slookup "x" (collect_chosen w deps) <> slookup "x" (collect_chosen w deps').
Proof.
  exists (sample (fun _ => None) CPlain), [(Some "https://x/1.0.0", []); (Some "http://x/1.0.0", [])],
         [(Some "http://x/1.0.0", []); (Some "https://x/1.0.0", [])].
  split; [apply perm_swap|]. split; [|vm_compute; discriminate].
  intros u u' (d & [<-|[<-|[]]] & [H|[]]) (d' & [<-|[<-|[]]] & [H'|[]]); cbn in H, H'; injection H as <-; injection H' as <-;
    intros _; (split; [reflexivity|]); exists (ver 1 0), (ver 1 0); repeat split.
Qed.
Print Assumptions C38_same_version_refuted.

(* What is cached changes the outcome: a published dependency read from its files has its
   own dependencies checked for conflicts, the same schema taken from the cache has not. *)
Theorem C39_cache_refuted : exists w w' order main t nfes chosen,
  w_name w' = w_name w /\ w_fetch w' = w_fetch w /\ (forall u, w_cached w u = None) /\
  (forall u t', w_cached w' u = Some t' -> exists r, u = rp_url r /\ reached w main r /\ loaded_as w r t') /\
  load_registry w' order [] main = Loaded t nfes chosen /\
  exists e, load_registry w order [] main = LoadFailed (LConflict e).
Proof.
  set (cp := CPublished (inl ("https://p/1.0.0", ["https://x/2.0.0"]))).
  set (cache := fun u => if String.eqb u "https://p/1.0.0" then Some (LResolved true "https://p/1.0.0" ["https://x/2.0.0"]) else None).
  exists (sample (fun _ => None) cp), (sample cache cp), (fun l => l), (r_main [d_x1; d_p]).
  eexists _, _, _. split; [reflexivity|]. split; [reflexivity|]. split; [reflexivity|]. split; [|split; [vm_compute; reflexivity|eexists; vm_compute; reflexivity]].
  intros u t'. cbn. unfold cache. destruct (String.eqb_spec u "https://p/1.0.0") as [->|]; [|discriminate].
  intros H. injection H as <-. exists r_p. split; [reflexivity|]. split; [|apply la_published; reflexivity].
  exists [r_main [d_x1; d_p]]. apply (rt_next _ _ [] _ r_p); [constructor|]. split; [reflexivity|].
  exists [d_x1; d_p], d_p, []. repeat split. right. left. reflexivity.
Qed.
Print Assumptions C39_cache_refuted.

(* A registry given as the current directory, as its parent or by any path whose last name
   is hidden is read as empty. *)
Theorem C70_hidden_root_refuted cs : definition_files "." cs = [] /\ definition_files ".." cs = [] /\
  definition_files "./" cs = [] /\ definition_files "/home/.semconv" cs = [].
Proof. repeat split; reflexivity. Qed.
Print Assumptions C70_hidden_root_refuted.

(* A registry given as the path of its definition manifest, under another name than
   manifest.yaml: the manifest itself is taken for a definition file and the program stops. *)
Theorem C70_manifest_path_refuted : exists path x, In x (walk path (EFile (root_name path))) /\
  provenance_path path path x = None.
Proof. exists "registry/my_manifest.yaml", "registry/my_manifest.yaml". split; [left; reflexivity|reflexivity]. Qed.
Print Assumptions C70_manifest_path_refuted.

(* A sub-folder written with a trailing slash: the reported path loses a character. *)
Theorem C70_trailing_slash_refuted :
  definition_files "/tmp/repo/model/" [EFile "http.yaml"] = ["/tmp/repo/model/http.yaml"] /\
  provenance_path "https://host/repo.git[model/]" "/tmp/repo/model/" "/tmp/repo/model/http.yaml"
    = Some "https://host/repo.git[model/]/ttp.yaml".
Proof. split; reflexivity. Qed.
Print Assumptions C70_trailing_slash_refuted.

(* ---------- the hypotheses are met ---------- *)
Example C38_C39_nonvacuous :
  let w := sample (fun _ => None) (CDefinition [d_x12]) in
  load_registry w (fun l => l) [] (r_main [d_x1; d_p]) =
    Loaded (LDefined (r_main [d_x1; d_p]) [LDefined r_x1 []; LDefined {| rp_url := "https://p/1.0.0"; rp_repr := "p"; rp_content := CDefinition [d_x12]; rp_files := inl [] |} [LDefined r_x12 []]])
      [LUpgraded "x" "https://x/1.0.0" "https://x/1.2.0"]
      [("main", "https://main/1.0.0"); ("x", "https://x/1.2.0"); ("p", "https://p/1.0.0")] /\
  (exists u1 u2, compatible w u1 u2 /\ u1 <> u2) /\
  versions_identify w (visited [(Some "https://x/1.0.0", ["https://x/1.2.0"]); (None, ["https://p/1.0.0"])]) /\
  collect_chosen w [(Some "https://x/1.0.0", ["https://x/1.2.0"]); (None, ["https://p/1.0.0"])]
    = [("x", "https://x/1.2.0"); ("p", "https://p/1.0.0")].
Proof.
  split; [vm_compute; reflexivity|]. split; [|split; [|vm_compute; reflexivity]].
  - exists "https://x/1.0.0", "https://x/1.2.0". split; [|discriminate]. split; [reflexivity|].
    exists (ver 1 0), (ver 1 2). repeat split.
  - intros u u' (d & [<-|[<-|[]]] & H) (d' & [<-|[<-|[]]] & H'); cbn in H, H';
      repeat match goal with
             | H : _ \/ _ |- _ => destruct H
             | H : False |- _ => destruct H
             | H : Some _ = Some _ |- _ => injection H as <-
             | H : None = Some _ |- _ => discriminate
             end; subst; vm_compute; intros A B; congruence.
Qed.
Example C39_cycle_nonvacuous :
  let w := sample (fun _ => None) (CDefinition [d_p]) in
  load_registry w (fun l => l) [] (r_main [d_p]) = LoadFailed (LCircular "p" "main → p → p").
Proof. vm_compute. reflexivity. Qed.
Example C70_nonvacuous :
  definition_files "model" [EFile "a.yaml"; EFile "manifest.yaml"; EFile "README.md"; EDir "http" [EFile "b.yml"; EFile ".c.yaml"]; EDir ".git" [EFile "d.yaml"]]
    = ["model/a.yaml"; "model/http/b.yml"] /\
  provenance_path "https://h/r.git[model]" "model" "model/http/b.yml" = Some "https://h/r.git[model]/http/b.yml".
Proof. split; reflexivity. Qed.

Definition r_loop := {| rp_url := "https://p/1.0.0"; rp_repr := "p"; rp_content := CDefinition [d_p]; rp_files := inl [] |}.
Definition w_loop := sample (fun _ => None) (CDefinition [d_p]).
Lemma loop_declares r r' : (r = r_main [d_p] \/ r = r_loop) -> declares w_loop r r' -> r' = r_loop.
Proof.
  intros [-> | ->] (_ & ds & d & x & E & I & F); cbn in E; injection E as <-; destruct I as [<-|[]]; cbn in F;
    injection F as <- _; reflexivity.
Qed.
Lemma loop_route l r : route w_loop (r_main [d_p]) l r ->
  (l = [] /\ r = r_main [d_p]) \/ exists k, l = r_main [d_p] :: repeat r_loop k /\ r = r_loop.
Proof.
  induction 1 as [|l r r' H IH D]; [left; split; reflexivity|]. right.
  destruct IH as [[-> ->]|(k & -> & ->)]; apply loop_declares in D; auto; subst r'.
  - exists 0. split; reflexivity.
  - exists (S k). split; [|reflexivity]. cbn [app]. f_equal. rewrite <- repeat_cons. reflexivity.
Qed.
Lemma loop_mentioned u r : mentioned w_loop r u -> (r = r_main [d_p] \/ r = r_loop) -> u = "https://main/1.0.0" \/ u = "https://p/1.0.0".
Proof.
  induction 1 as [r|r us u (_ & x & P) I|r r' u D M IH]; intros Hr.
  - destruct Hr as [-> | ->]; auto.
  - destruct Hr as [-> | ->]; discriminate.
  - apply IH. right. exact (loop_declares r r' Hr D).
Qed.
(* the hypotheses of C39_cycle_reported, on a registry that depends on itself below main *)
Example C39_cycle_hypotheses : let main := r_main [d_p] in
  reads_as_read w_loop main /\ readable w_loop main /\
  (exists l r, route w_loop main l r /\ In (w_name w_loop (rp_url r)) (names w_loop l)) /\
  (forall l r, route w_loop main l r -> NoDup (names w_loop l) -> length l <= 9).
Proof.
  cbn zeta.
  assert (forall r, reached w_loop (r_main [d_p]) r -> r = r_main [d_p] \/ r = r_loop) as R.
  { intros r [l H]. apply loop_route in H as [[_ ->]|(k & _ & ->)]; auto. }
  split; [|split; [|split]].
  - intros r e Hr H. destruct (R r Hr) as [-> | ->]; destruct H as [H|[H|(ds & d & E & I & F)]]; try discriminate;
      cbn in E; injection E as <-; destruct I as [<-|[]]; discriminate.
  - split; [|split].
    + intros r Hr _. destruct (R r Hr) as [-> | ->]; (split; [eexists; reflexivity|]; split; [discriminate|]);
        intros ds d E I; cbn in E; injection E as <-; destruct I as [<-|[]]; eexists _, _; reflexivity.
    + intros u1 u2 H1 H2 Ne N. apply loop_mentioned in H1; [|auto]. apply loop_mentioned in H2; [|auto].
      destruct H1 as [-> | ->], H2 as [-> | ->]; try congruence; discriminate.
    + intros r d1 d2 Hr (_ & a & b & c & E & _). destruct (R r Hr) as [-> | ->]; cbn in E; injection E as E;
        destruct a as [|? [|? ?]]; cbn in E; inversion E; destruct b; discriminate.
  - exists [r_main [d_p]; r_loop], r_loop. split.
    + apply (rt_next _ _ [r_main [d_p]] r_loop).
      * apply (rt_next _ _ [] (r_main [d_p])); [constructor|]. split; [reflexivity|]. exists [d_p], d_p, []. repeat split. left. reflexivity.
      * split; [reflexivity|]. exists [d_p], d_p, []. repeat split. left. reflexivity.
    + right. left. reflexivity.
  - intros l r H Nd. apply loop_route in H as [[-> _]|([|[|k]] & -> & _)]; cbn; try lia.
    exfalso. cbn in Nd. inversion Nd as [|? ? _ Nd']. inversion Nd' as [|? ? X _]. apply X. left. reflexivity.
Qed.
