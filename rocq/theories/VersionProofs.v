(** Proofs for C10 and C11. *)
From Coq Require Import String Ascii Bool Arith Lia NArith Permutation Sorted List.
From Verif Require Import Base BaseProofs BaseProofs2 Semver SemverProofs VersionModel VersionSpec.
Import ListNotations.
Local Open Scope list_scope.

Lemma slookup_app {V} (l l' : list (string * V)) n :
  slookup n (l ++ l') = match slookup n l with Some v => Some v | None => slookup n l' end.
Proof.
  unfold slookup. induction l as [|[k v] l IH]; simpl; [reflexivity|].
  destruct (String.eqb n k); auto.
Qed.

Lemma slookup_cons {V} n k (v : V) l : slookup n ((k, v) :: l) = if String.eqb n k then Some v else slookup n l.
Proof. reflexivity. Qed.

Lemma slookup_sinsert {V} n k (v : V) m : slookup n (sinsert k v m) = if String.eqb n k then Some v else slookup n m.
Proof.
  unfold slookup, sinsert. destruct (String.eqb_spec n k) as [->|N].
  - apply (lookup_insert_eq _ string_eqb_spec).
  - apply (lookup_insert_ne _ string_eqb_spec). congruence.
Qed.

Lemma has_key_none {V} n (m : list (string * V)) : has_key String.eqb n m = false <-> slookup n m = None.
Proof. unfold has_key, slookup. destruct (lookup String.eqb n m); simpl; split; congruence. Qed.

Lemma add_new_lookup m p n : slookup n (add_new m p) =
  match slookup n m with Some v => Some v | None => slookup n [p] end.
Proof.
  unfold add_new. destruct p as [k v]; simpl fst; simpl snd.
  destruct (has_key String.eqb k m) eqn:E.
  - rewrite slookup_cons. destruct (String.eqb_spec n k) as [->|N].
    + destruct (slookup k m) eqn:El; [reflexivity|]. apply has_key_none in El. congruence.
    + destruct (slookup n m); reflexivity.
  - apply has_key_none in E. rewrite slookup_sinsert, slookup_cons.
    destruct (String.eqb_spec n k) as [->|N]; [rewrite E; reflexivity|]. destruct (slookup n m); reflexivity.
Qed.

Lemma fold_add_new l : forall m n, slookup n (fold_left add_new l m) =
  match slookup n m with Some v => Some v | None => slookup n l end.
Proof.
  induction l as [|p l IH]; intros m n; simpl fold_left.
  - destruct (slookup n m); reflexivity.
  - rewrite IH, add_new_lookup. change (p :: l) with ([p] ++ l). rewrite slookup_app.
    destruct (slookup n m); [reflexivity|]. reflexivity.
Qed.

Lemma slookup_in_key {V} n (v : V) l : slookup n l = Some v -> In (n, v) l.
Proof. apply (lookup_in _ string_eqb_spec). Qed.

Section Order.
  Variable order : renames -> renames.
  Hypothesis order_perm : forall m, Permutation (order m) m.

  Lemma order_lookup m n : NoDup (map fst m) -> slookup n (order m) = slookup n m.
  Proof. intros H. symmetry. apply slookup_perm; [exact H|]. symmetry. apply order_perm. Qed.

  Lemma renamed_iff l name new : (forall m, In m l -> NoDup (map fst m)) ->
    (renamed_by l name new <-> slookup name (flat_map order l) = Some new).
  Proof.
    induction l as [|m l IH]; intros H; simpl.
    - split; [intros R; inversion R|discriminate].
    - rewrite slookup_app, order_lookup by (apply H; left; reflexivity).
      specialize (IH (fun m' h => H m' (or_intror h))).
      split.
      + intros R. inversion R as [? ? ? ? Hin|? ? ? ? Hnin Hr]; subst.
        * rewrite (proj2 (slookup_in m name new (H m (or_introl eq_refl))) Hin). reflexivity.
        * apply slookup_none in Hnin. rewrite Hnin. apply IH. assumption.
      + destruct (slookup name m) as [x|] eqn:E.
        * intros [= ->]. apply RHere. apply slookup_in_key, E.
        * intros R. apply RLater; [apply slookup_none, E|apply IH, R].
  Qed.

  Lemma not_renamed_iff l name : not_renamed l name <-> slookup name (flat_map order l) = None.
  Proof.
    unfold not_renamed. rewrite slookup_none. split.
    - intros H Hi. rewrite in_map_iff in Hi. destruct Hi as ([k v] & <- & Hi). apply in_flat_map in Hi as (m & Hm & Hi).
      apply (H m Hm). apply (Permutation_in _ (order_perm m)) in Hi. apply (in_map fst) in Hi. exact Hi.
    - intros H m Hm Hi. apply H. rewrite in_map_iff in Hi. destruct Hi as ([k v] & <- & Hi).
      apply in_map_iff. exists (k, v). split; [reflexivity|]. apply in_flat_map. exists m.
      split; [exact Hm|]. apply (Permutation_in _ (Permutation_sym (order_perm m))). exact Hi.
  Qed.

  Definition map_of (k : kind) (c : version_changes) : renames :=
    match k with
    | KResourceAttribute => ch_resource_attributes c
    | KMetricAttribute => ch_metric_attributes c
    | KMetric => ch_metric_names c
    | KLogAttribute => ch_log_attributes c
    | KSpanAttribute => ch_span_attributes c
    end.

  Lemma name_at_map k c n : name_at k c n = match slookup n (map_of k c) with Some v => v | None => n end.
  Proof. destruct k; reflexivity. Qed.

  Lemma add_spec_lookup k c s n : slookup n (map_of k (add_spec order c s)) =
    match slookup n (map_of k c) with Some v => Some v | None => slookup n (flat_map order (section_of k s)) end.
  Proof.
    destruct k; simpl; unfold add_changes, opt_changes; rewrite fold_add_new; f_equal;
      [destruct (vs_resources s)|destruct (vs_metrics s)|destruct (vs_metrics s)|
        destruct (vs_logs s)|destruct (vs_spans s)]; reflexivity.
  Qed.

  Lemma fold_spec_lookup k l : forall c n,
    slookup n (map_of k (fold_left (fun c p => add_spec order c (snd p)) l c)) =
    match slookup n (map_of k c) with Some v => Some v
    | None => slookup n (flat_map (fun p : version * version_spec => flat_map order (section_of k (snd p))) l) end.
  Proof.
    induction l as [|p l IH]; intros c n; simpl.
    - destruct (slookup n (map_of k c)); reflexivity.
    - rewrite IH, add_spec_lookup, slookup_app. destruct (slookup n (map_of k c)); reflexivity.
  Qed.

  Lemma changes_lookup k vs v n : slookup n (map_of k (version_changes_for order vs v)) =
    slookup n (flat_map (fun p : version * version_spec => flat_map order (section_of k (snd p))) (versions_desc_from vs v)).
  Proof. unfold version_changes_for. rewrite fold_spec_lookup. destruct k; reflexivity. Qed.

  (** A descending list of versions. *)
  Lemma desc_lookup k n l : Forall (fun p => good_spec (snd p)) l ->
    forall new, slookup n (flat_map (fun p : version * version_spec => flat_map order (section_of k (snd p))) l) = Some new ->
    exists l1 w s l2, l = l1 ++ (w, s) :: l2 /\ renamed_by (section_of k s) n new /\
      forall w' s', In (w', s') l1 -> not_renamed (section_of k s') n.
  Proof.
    induction l as [|[w s] l IH]; intros G new H; simpl in H; [discriminate|].
    inversion G as [|? ? Gs Gl]; subst. rewrite slookup_app in H.
    destruct (slookup n (flat_map order (section_of k s))) as [x|] eqn:E.
    - injection H as ->. exists [], w, s, l. split; [reflexivity|]. split; [|intros ? ? []].
      apply renamed_iff; [exact (Gs k)|exact E].
    - destruct (IH Gl new H) as (l1 & w1 & s1 & l2 & -> & R & N).
      exists ((w, s) :: l1), w1, s1, l2. split; [reflexivity|]. split; [exact R|].
      intros w' s' [[= <- <-]|Hi]; [apply not_renamed_iff, E|eapply N, Hi].
  Qed.

  Lemma desc_lookup_none k n l :
    slookup n (flat_map (fun p : version * version_spec => flat_map order (section_of k (snd p))) l) = None <->
    forall w s, In (w, s) l -> not_renamed (section_of k s) n.
  Proof.
    induction l as [|[w s] l IH]; simpl.
    - split; [intros _ ? ? []|reflexivity].
    - rewrite slookup_app. split.
      + destruct (slookup n (flat_map order (section_of k s))) eqn:E; [discriminate|].
        intros H w' s' [[= <- <-]|Hi]; [apply not_renamed_iff, E|]. exact (proj1 IH H w' s' Hi).
      + intros H. rewrite (proj1 (not_renamed_iff _ _) (H w s (or_introl eq_refl))).
        apply IH. intros w' s' Hi. apply (H w' s'). right. exact Hi.
  Qed.
End Order.

Lemma desc_in vs v w s : In (w, s) (versions_desc_from vs v) <-> In (w, s) vs /\ ver_le w v.
Proof.
  unfold versions_desc_from. rewrite <- in_rev, filter_In. simpl. rewrite ver_leb_spec. reflexivity.
Qed.

Lemma sorted_filter {A B} (R : B -> B -> Prop) (f : A -> B) p l : StronglySorted R (map f l) -> StronglySorted R (map f (filter p l)).
Proof.
  induction l as [|x l IH]; simpl; intros H; [constructor|]. inversion H as [|? ? Hs Hf]; subst.
  destruct (p x); simpl; [|apply IH, Hs]. constructor; [apply IH, Hs|].
  rewrite Forall_forall in *. intros y Hy. apply in_map_iff in Hy as (z & <- & Hz).
  apply filter_In in Hz as [Hz _]. apply Hf, in_map, Hz.
Qed.

Lemma sorted_app_lt {A} (R : A -> A -> Prop) l1 l2 : StronglySorted R (l1 ++ l2) ->
  forall x y, In x l1 -> In y l2 -> R x y.
Proof.
  induction l1 as [|a l1 IH]; simpl; intros H x y Hx Hy; [destruct Hx|].
  inversion H as [|? ? Hs Hf]; subst. destruct Hx as [->|Hx]; [|eapply IH; eassumption].
  rewrite Forall_forall in Hf. apply Hf, in_or_app. auto.
Qed.

Lemma ver_lt_irrefl a : ~ ver_lt a a.
Proof. unfold ver_lt. rewrite ver_cmp_refl. discriminate. Qed.
Lemma ver_lt_asym a b : ver_lt a b -> ~ ver_lt b a.
Proof. intros H H'. apply (ver_lt_irrefl a). eapply ver_cmp_lt; eassumption. Qed.

Lemma sorted_unique (vs : versions) w s s' : StronglySorted ver_lt (map fst vs) -> In (w, s) vs -> In (w, s') vs -> s = s'.
Proof.
  induction vs as [|[w0 s0] vs IH]; simpl; intros H H1 H2; [destruct H1|].
  inversion H as [|? ? Hs Hf]; subst. rewrite Forall_forall in Hf.
  destruct H1 as [E1|H1], H2 as [E2|H2]; try congruence.
  - exfalso. injection E1 as -> ->. apply (ver_lt_irrefl w), Hf, (in_map fst _ _ H2).
  - exfalso. injection E2 as -> ->. apply (ver_lt_irrefl w), Hf, (in_map fst _ _ H1).
  - apply IH; assumption.
Qed.

Theorem c10_rename order vs v k name : (forall m, Permutation (order m) m) -> good_history vs ->
  (forall new, newest_rename vs v k name new -> name_at k (version_changes_for order vs v) name = new) /\
  (never_renamed vs v k name -> name_at k (version_changes_for order vs v) name = name).
Proof.
  intros HO [HS HG]. rewrite name_at_map, changes_lookup. split.
  - intros new (w & s & Hi & Hle & HR & HN).
    destruct (slookup name _) as [x|] eqn:E.
    + apply desc_lookup in E; [|exact HO|].
      2:{ apply Forall_forall. intros [w' s'] H'. apply desc_in in H' as [H' _].
          rewrite Forall_forall in HG. apply (HG _ H'). }
      destruct E as (l1 & w1 & s1 & l2 & El & HR1 & HN1).
      assert (Hd : In (w, s) (versions_desc_from vs v)) by (apply desc_in; auto).
      assert (Gs : good_spec s) by (rewrite Forall_forall in HG; apply (HG _ Hi)).
      rewrite El in Hd. apply in_app_or in Hd as [Hd|[Hd|Hd]].
      * exfalso. specialize (HN1 w s Hd). apply (not_renamed_iff order HO) in HN1.
        apply (renamed_iff order HO) in HR; [congruence|exact (Gs k)].
      * injection Hd as -> ->.
        apply (renamed_iff order HO) in HR; [|exact (Gs k)]. apply (renamed_iff order HO) in HR1; [|exact (Gs k)]. congruence.
      * exfalso.
        assert (Hi1 : In (w1, s1) vs /\ ver_le w1 v).
        { apply desc_in. rewrite El. apply in_or_app. right. left. reflexivity. }
        destruct Hi1 as [Hi1 Hle1].
        assert (Hlt : ver_lt w w1).
        { unfold versions_desc_from in El.
          pose proof (sorted_filter ver_lt fst (fun p => ver_leb (fst p) v) vs HS) as SF.
          apply (f_equal (@rev _)) in El. rewrite rev_involutive in El. rewrite El in SF.
          rewrite rev_app_distr in SF. simpl in SF. rewrite <- app_assoc in SF. rewrite map_app in SF.
          eapply sorted_app_lt; [exact SF| |].
          - apply in_map_iff. exists (w, s). split; [reflexivity|]. apply in_rev in Hd. exact Hd.
          - left. reflexivity. }
        specialize (HN w1 s1 Hi1 Hlt Hle1). apply (not_renamed_iff order HO) in HN.
        assert (Gs1 : good_spec s1) by (rewrite Forall_forall in HG; apply (HG _ Hi1)).
        apply (renamed_iff order HO) in HR1; [congruence|exact (Gs1 k)].
    + exfalso. apply (desc_lookup_none order HO) with (w := w) (s := s) in E; [|apply desc_in; auto].
      apply (not_renamed_iff order HO) in E. apply (renamed_iff order HO) in HR; [congruence|].
      rewrite Forall_forall in HG. exact (HG _ Hi k).
  - intros HN. rewrite (proj2 (desc_lookup_none order HO k name (versions_desc_from vs v))); [reflexivity|].
    intros w s Hi. apply desc_in in Hi as [Hi Hle]. exact (HN w s Hi Hle).
Qed.

(** * Extend *)
Section Extend.
  Variable order : renames -> renames.
  Hypothesis order_perm : forall m, Permutation (order m) m.

  Lemma existsb_has_key local n : existsb (has_key String.eqb n) local = false <-> not_renamed local n.
  Proof.
    unfold not_renamed. split.
    - intros H m Hm Hi. assert (existsb (has_key String.eqb n) local = true); [|congruence].
      apply existsb_exists. exists m. split; [exact Hm|].
      destruct (has_key String.eqb n m) eqn:E; [reflexivity|]. apply has_key_none, slookup_none in E. tauto.
    - intros H. destruct (existsb (has_key String.eqb n) local) eqn:E; [|reflexivity].
      apply existsb_exists in E as (m & Hm & E). exfalso. apply (H m Hm).
      destruct (slookup n m) eqn:El.
      + apply slookup_in_key in El. apply (in_map fst) in El. exact El.
      + apply has_key_none in El. congruence.
  Qed.

  Lemma missing_fold (local : list renames) (l : renames) : forall acc n,
    slookup n (fold_left (fun acc p => if existsb (has_key String.eqb (fst p)) local then acc
                            else sinsert (fst p) (snd p) acc) l acc) =
    if existsb (has_key String.eqb n) local then slookup n acc
    else match slookup n (rev l) with Some v => Some v | None => slookup n acc end.
  Proof.
    induction l as [|[k v] l IH]; intros acc n; simpl.
    - match goal with |- _ = if ?b then _ else _ => destruct b end; reflexivity.
    - rewrite IH, slookup_app, slookup_cons.
      destruct (existsb (has_key String.eqb k) local) eqn:Ek.
      + destruct (String.eqb_spec n k) as [->|N]; [rewrite Ek; reflexivity|].
        destruct (existsb (has_key String.eqb n) local); [reflexivity|].
        destruct (slookup n (rev l)); reflexivity.
      + rewrite slookup_sinsert. destruct (String.eqb_spec n k) as [->|N].
        * rewrite Ek. destruct (slookup k (rev l)); reflexivity.
        * destruct (existsb (has_key String.eqb n) local); [reflexivity|].
          destruct (slookup n (rev l)); reflexivity.
  Qed.

  Lemma missing_nodup_fold (local : list renames) (l : renames) : forall acc : renames, NoDup (map fst acc) ->
    NoDup (map fst (fold_left (fun acc p => if existsb (has_key String.eqb (fst p)) local then acc
                            else sinsert (fst p) (snd p) acc) l acc)).
  Proof.
    induction l as [|[k v] l IH]; intros acc H; simpl; [exact H|]. apply IH.
    destruct (existsb (has_key String.eqb k) local); [exact H|]. apply (insert_nodup _ string_eqb_spec), H.
  Qed.

  Lemma missing_lookup local parent n : slookup n (missing order local parent) =
    if existsb (has_key String.eqb n) local then None else slookup n (rev (flat_map order parent)).
  Proof.
    unfold missing. rewrite missing_fold. destruct (existsb (has_key String.eqb n) local); [reflexivity|].
    destruct (slookup n (rev _)); reflexivity.
  Qed.

  Lemma extend_fold (l : renames) : forall (m : renames) n,
    slookup n (fold_left (fun acc p => sinsert (fst p) (snd p) acc) l m) =
    match slookup n (rev l) with Some v => Some v | None => slookup n m end.
  Proof.
    induction l as [|[k v] l IH]; intros m n; simpl; [reflexivity|].
    rewrite IH, slookup_app, slookup_sinsert, slookup_cons.
    destruct (slookup n (rev l)); [reflexivity|]. destruct (String.eqb n k); reflexivity.
  Qed.

  Lemma map_extend_nodup m m' : NoDup (map fst m) -> NoDup (map fst (map_extend order m m')).
  Proof.
    unfold map_extend. generalize (order m'). intros l. revert m.
    induction l as [|[k v] l IH]; intros m H; simpl; [exact H|]. apply IH, (insert_nodup _ string_eqb_spec), H.
  Qed.

  Lemma map_extend_lookup m m' n : NoDup (map fst m') -> slookup n (map_extend order m m') =
    match slookup n m' with Some v => Some v | None => slookup n m end.
  Proof.
    intros H. unfold map_extend. rewrite extend_fold.
    rewrite <- (slookup_perm m' (rev (order m')) n H); [reflexivity|].
    rewrite <- Permutation_rev. symmetry. apply order_perm.
  Qed.

  Definition good_maps (l : list renames) := forall m, In m l -> NoDup (map fst m).

  Lemma missing_nil_lookup local parent n : missing order local parent = [] ->
    slookup n (missing order local parent) = None.
  Proof. intros ->. reflexivity. Qed.

  (** The merged section, for any order-preserving reading of it. *)
  Lemma extend_section_maps local p (Hl : good_maps local) :
    good_maps (extend_section order local (Some p)) /\
    forall n, slookup n (flat_map order (extend_section order local (Some p))) =
      match slookup n (flat_map order local) with
      | Some v => Some v
      | None => slookup n (rev (flat_map order p))
      end.
  Proof.
    assert (Hm : NoDup (map fst (missing order local p))) by (apply missing_nodup_fold; constructor).
    pose proof (missing_lookup local p) as ML.
    simpl. destruct (missing order local p) as [|q mm] eqn:Em; [|destruct local as [|c r]].
    - split; [exact Hl|]. intros n. specialize (ML n).
      destruct (slookup n (flat_map order local)) eqn:E; [reflexivity|].
      apply (not_renamed_iff order order_perm), existsb_has_key in E. rewrite E in ML. exact ML.
    - split; [intros m [<-|[]]; exact Hm|]. intros n. simpl. rewrite app_nil_r.
      rewrite (order_lookup order order_perm) by assumption. rewrite ML. reflexivity.
    - split.
      + intros m [<-|H]; [apply map_extend_nodup, Hl; left; reflexivity|apply Hl; right; exact H].
      + intros n. simpl flat_map. rewrite !slookup_app, !(order_lookup order order_perm);
          [|apply Hl; left; reflexivity|apply map_extend_nodup, Hl; left; reflexivity].
        rewrite map_extend_lookup by exact Hm. rewrite ML.
        destruct (existsb (has_key String.eqb n) (c :: r)) eqn:Ex.
        * destruct (slookup n c) eqn:Ec; [reflexivity|].
          destruct (slookup n (flat_map order r)) eqn:Er; [reflexivity|].
          exfalso. assert (existsb (has_key String.eqb n) (c :: r) = false); [|congruence].
          apply existsb_has_key, (not_renamed_iff order order_perm). simpl. rewrite slookup_app, (order_lookup order order_perm), Ec by (apply Hl; left; reflexivity).
          exact Er.
        * apply existsb_has_key, (not_renamed_iff order order_perm) in Ex. simpl in Ex.
          rewrite slookup_app, (order_lookup order order_perm) in Ex by (apply Hl; left; reflexivity).
          destruct (slookup n c); [discriminate|]. rewrite Ex.
          destruct (slookup n (rev (flat_map order p))); reflexivity.
  Qed.

  Lemma extend_metrics_maps local p :
    map mc_metrics (extend_metrics order local (Some p)) =
    extend_section order (map mc_metrics local) (Some (map mc_metrics p)).
  Proof.
    simpl. destruct (missing order (map mc_metrics local) (map mc_metrics p)); [reflexivity|].
    destruct local; reflexivity.
  Qed.

  Lemma rev_flat_map {A B} (f : A -> list B) l : rev (flat_map f l) = flat_map (fun x => rev (f x)) (rev l).
  Proof.
    induction l as [|x l IH]; simpl; [reflexivity|].
    rewrite rev_app_distr, IH, flat_map_app. simpl. rewrite app_nil_r. reflexivity.
  Qed.

  Lemma rev_order_perm m : Permutation (rev (order m)) m.
  Proof. rewrite <- Permutation_rev. apply order_perm. Qed.

  Lemma extend_metric_attributes local p :
    flat_map order (map mc_attributes (extend_metrics order local p)) = flat_map order (map mc_attributes local) \/
    (local = [] /\ exists m, map mc_attributes (extend_metrics order local p) = [@nil (string * string)] /\ extend_metrics order local p = [m]).
  Proof.
    destruct p as [p|]; [|left; reflexivity]. unfold extend_metrics.
    destruct (missing order (map mc_metrics local) (map mc_metrics p)); [left; reflexivity|].
    destruct local; [right|left; reflexivity]. split; [reflexivity|]. eexists. split; reflexivity.
  Qed.

  Lemma extend_metric_attributes_good local p : good_maps (map mc_attributes local) ->
    good_maps (map mc_attributes (extend_metrics order local p)).
  Proof.
    intros H. destruct p as [p|]; [|exact H]. unfold extend_metrics.
    destruct (missing order (map mc_metrics local) (map mc_metrics p)) as [|q0 mm]; [exact H|].
    destruct local as [|c r]; [|exact H]. intros m [<-|[]]. constructor.
  Qed.

  (** What the extended spec holds of a kind. *)
  Lemma extend_spec_section k s p : merged_kind k -> good_spec s ->
    good_maps (section_of k (extend_spec order s p)) /\
    forall n, slookup n (flat_map order (section_of k (extend_spec order s p))) =
      match slookup n (flat_map order (section_of k s)) with
      | Some v => Some v
      | None => slookup n (rev (flat_map order (section_of k p)))
      end.
  Proof.
    assert (G : forall local o, good_maps local ->
      good_maps (extend_section order local o) /\
      forall n, slookup n (flat_map order (extend_section order local o)) =
        match slookup n (flat_map order local) with
        | Some v => Some v
        | None => slookup n (rev (flat_map order (match o with Some l => l | None => [] end)))
        end).
    { intros local [q|] Hl; [apply extend_section_maps, Hl|]. split; [exact Hl|].
      intros n. simpl. destruct (slookup n (flat_map order local)); reflexivity. }
    intros Hk Hs. destruct k; try (exfalso; apply Hk; reflexivity); simpl.
    - specialize (G (opt_changes (vs_resources s)) (vs_resources p)). apply G.
      specialize (Hs KResourceAttribute). simpl in Hs. destruct (vs_resources s); [exact Hs|intros m []].
    - specialize (G (map mc_metrics (opt_get (vs_metrics s) [])) (match vs_metrics p with Some q => Some (map mc_metrics q) | None => None end)).
      assert (Hl : good_maps (map mc_metrics (opt_get (vs_metrics s) []))).
      { specialize (Hs KMetric). simpl in Hs. destruct (vs_metrics s); [exact Hs|intros m []]. }
      specialize (G Hl).
      assert (E : map mc_metrics (extend_metrics order (opt_get (vs_metrics s) []) (vs_metrics p)) =
        extend_section order (map mc_metrics (opt_get (vs_metrics s) [])) (match vs_metrics p with Some q => Some (map mc_metrics q) | None => None end)).
      { destruct (vs_metrics p); [apply extend_metrics_maps|reflexivity]. }
      rewrite E. destruct (vs_metrics s), (vs_metrics p); exact G.
    - specialize (G (opt_changes (vs_logs s)) (vs_logs p)). apply G.
      specialize (Hs KLogAttribute). simpl in Hs. destruct (vs_logs s); [exact Hs|intros m []].
    - specialize (G (opt_changes (vs_spans s)) (vs_spans p)). apply G.
      specialize (Hs KSpanAttribute). simpl in Hs. destruct (vs_spans s); [exact Hs|intros m []].
  Qed.

  Lemma extend_spec_good s p : good_spec s -> good_spec (extend_spec order s p).
  Proof.
    intros Hs k. destruct k; try (apply extend_spec_section; [discriminate|exact Hs]).
    simpl. apply extend_metric_attributes_good. specialize (Hs KMetricAttribute). simpl in Hs.
    destruct (vs_metrics s); [exact Hs|intros m []].
  Qed.

  Lemma extend_spec_renamed k s p : merged_kind k -> good_spec s -> good_spec p -> forall name new,
    renamed_by (section_of k (extend_spec order s p)) name new <->
    renamed_by (section_of k s) name new \/
    (not_renamed (section_of k s) name /\ renamed_by (rev (section_of k p)) name new).
  Proof.
    intros Hk Hs Hp name new. destruct (extend_spec_section k s p Hk Hs) as [G L].
    rewrite (renamed_iff order order_perm) by exact G.
    rewrite (renamed_iff order order_perm) by exact (Hs k).
    rewrite (not_renamed_iff order order_perm).
    rewrite (renamed_iff (fun m => rev (order m)) rev_order_perm) by (intros m Hm; apply in_rev in Hm; apply (Hp k m Hm)).
    rewrite <- rev_flat_map, L.
    destruct (slookup name (flat_map order (section_of k s))); split; auto.
    - intros [H|[H _]]; [exact H|discriminate].
    - intros [H|[_ H]]; [discriminate|exact H].
  Qed.

  Lemma not_renamed_app l l' n : not_renamed (l ++ l') n <-> not_renamed l n /\ not_renamed l' n.
  Proof.
    unfold not_renamed. split.
    - intros H. split; intros m Hm; apply H, in_or_app; auto.
    - intros [H H'] m Hm. apply in_app_or in Hm as []; auto.
  Qed.

  Lemma renamed_in l name new : renamed_by l name new -> exists m, In m l /\ In (name, new) m.
  Proof. induction 1 as [|m r name new _ _ (m' & Hm & Hi)]; [exists m; simpl; auto|exists m'; simpl; auto]. Qed.

  Lemma in_renamed l m name new : In m l -> In (name, new) m -> exists new', renamed_by l name new'.
  Proof.
    induction l as [|m0 l IH]; intros Hm Hi; [destruct Hm|].
    destruct (in_dec string_dec name (map fst m0)) as [Hin|Hn].
    - apply in_map_iff in Hin as ([k v] & <- & Hin). exists v. apply RHere, Hin.
    - destruct Hm as [->|Hm]; [exfalso; apply Hn, (in_map fst _ _ Hi)|].
      destruct (IH Hm Hi) as [x Hx]. exists x. apply RLater; assumption.
  Qed.

  Lemma unambiguous_rev k p name new : unambiguous p ->
    renamed_by (rev (section_of k p)) name new <-> renamed_by (section_of k p) name new.
  Proof.
    intros U.
    assert (G : forall l l', (forall m, In m l <-> In m l') ->
       (forall n1 n2 m1 m2, In m1 l -> In m2 l -> In (name, n1) m1 -> In (name, n2) m2 -> n1 = n2) ->
       renamed_by l name new -> renamed_by l' name new).
    { intros l l' E HU R. apply renamed_in in R as (m & Hm & Hi).
      destruct (in_renamed l' m name new (proj1 (E m) Hm) Hi) as [x Hx].
      pose proof Hx as R. apply renamed_in in R as (m' & Hm' & Hi').
      rewrite (HU new x m m'); auto. apply E, Hm'. }
    split; apply G; try (intros m; rewrite <- in_rev; reflexivity).
    - intros n1 n2 m1 m2 H1 H2. apply in_rev in H1, H2. eapply U; eassumption.
    - intros n1 n2 m1 m2 H1 H2. eapply U; eassumption.
  Qed.

  (** ** The map of versions *)
  Lemma extend_version_keys vs v s w : In w (map fst (extend_version order vs v s)) <-> w = v \/ In w (map fst vs).
  Proof.
    induction vs as [|[w0 t] r IH]; simpl; [intuition auto|].
    destruct (ver_cmp v w0) eqn:E; simpl.
    - apply ver_cmp_eq in E as ->. intuition auto.
    - intuition auto.
    - rewrite IH. intuition auto.
  Qed.

  Lemma extend_version_good vs v s : good_history vs -> good_spec s -> good_history (extend_version order vs v s).
  Proof.
    intros [HS HG] Hs. split.
    - clear HG Hs. induction vs as [|[w t] r IH]; simpl in *; [repeat constructor|].
      inversion HS as [|? ? HS' HF]; subst. destruct (ver_cmp v w) eqn:E; simpl.
      + constructor; assumption.
      + constructor; [exact HS|]. constructor; [exact E|].
        eapply Forall_impl; [|exact HF]. intros a Ha. eapply ver_cmp_lt; [exact E|exact Ha].
      + constructor; [apply IH, HS'|]. apply Forall_forall. intros a Ha. apply extend_version_keys in Ha as [->|Ha].
        * unfold ver_lt. rewrite ver_cmp_opp, E. reflexivity.
        * rewrite Forall_forall in HF. apply HF, Ha.
    - clear HS. induction vs as [|[w t] r IH]; simpl; [repeat constructor; exact Hs|].
      inversion HG as [|? ? Ht Hr]; subst. destruct (ver_cmp v w).
      + constructor; [apply extend_spec_good, Ht|exact Hr].
      + constructor; [exact Hs|exact HG].
      + constructor; [exact Ht|apply IH, Hr].
  Qed.

  Lemma extend_version_in vs v s : good_history vs -> forall w t,
    In (w, t) (extend_version order vs v s) <->
    (w <> v /\ In (w, t) vs) \/ (w = v /\ ~ In v (map fst vs) /\ t = s) \/
    (w = v /\ exists t0, In (v, t0) vs /\ t = extend_spec order t0 s).
  Proof.
    intros [HS _]. induction vs as [|[w0 t0] r IH]; intros w t.
    - simpl. split.
      + intros [[= <- <-]|[]]. right. left. auto.
      + intros [[_ []]|[(-> & _ & ->)|(_ & ? & [] & _)]]. auto.
    - simpl map in HS. inversion HS as [|? ? HS' HF]; subst. rewrite Forall_forall in HF. specialize (IH HS').
      assert (Hfresh : forall x y, In (x, y) r -> ver_lt w0 x).
      { intros x y Hi. apply HF, (in_map fst _ _ Hi). }
      simpl extend_version. destruct (ver_cmp v w0) eqn:E.
      + apply ver_cmp_eq in E as ->. simpl. split.
        * intros [[= <- <-]|Hi]; [right; right; split; [reflexivity|]; exists t0; auto|].
          left. split; [|auto]. intros ->. apply (ver_lt_irrefl w0), (Hfresh _ _ Hi).
        * intros [[N [[= -> ->]|Hi]]|[(-> & N & _)|(-> & t1 & [[= ->]|Hi] & ->)]]; auto; try tauto.
          exfalso. apply (ver_lt_irrefl w0), (Hfresh _ _ Hi).
      + assert (Hv : forall x y, In (x, y) ((w0, t0) :: r) -> x <> v).
        { intros x y [[= <- <-]|Hi] ->; [rewrite ver_cmp_refl in E; discriminate|].
          apply (ver_lt_asym v w0 E), (Hfresh _ _ Hi). }
        split.
        * intros [[= <- <-]|Hi]; [|left; split; [eapply Hv, Hi|exact Hi]].
          right. left. split; [reflexivity|]. split; [|reflexivity].
          intros Hi. apply in_map_iff in Hi as ([x y] & Hx & Hi). simpl in Hx. subst x. exact (Hv _ _ Hi eq_refl).
        * intros [[N Hi]|[(-> & _ & ->)|(-> & t1 & Hi & _)]]; [right; exact Hi|left; reflexivity|].
          exfalso. exact (Hv _ _ Hi eq_refl).
      + assert (Nv : w0 <> v) by (intros ->; rewrite ver_cmp_refl in E; discriminate).
        simpl. rewrite IH. split.
        * intros [[= <- <-]|[[N Hi]|[(-> & N & ->)|(-> & t1 & Hi & ->)]]].
          -- left. auto.
          -- left. auto.
          -- right. left. split; [reflexivity|]. split; [|reflexivity]. intros [H|H]; [congruence|tauto].
          -- right. right. split; [reflexivity|]. exists t1. auto.
        * intros [[N [[= -> ->]|Hi]]|[(-> & N & ->)|(-> & t1 & [[= Hc ->]|Hi] & ->)]].
          -- left. reflexivity.
          -- right. left. auto.
          -- right. right. left. split; [reflexivity|]. split; [tauto|reflexivity].
          -- exfalso. congruence.
          -- right. right. right. split; [reflexivity|]. exists t1. auto.
  Qed.

  Lemma extend_char parent : forall vs, good_history vs -> good_history parent ->
    good_history (extend order vs parent) /\
    (forall w t, In (w, t) (extend order vs parent) <->
      (~ In w (map fst parent) /\ In (w, t) vs) \/
      (~ In w (map fst vs) /\ In (w, t) parent) \/
      (exists s p, In (w, s) vs /\ In (w, p) parent /\ t = extend_spec order s p)).
  Proof.
    unfold extend. induction parent as [|[v s] parent IH]; intros vs Gv Gp; simpl.
    - split; [exact Gv|]. intros w t. split.
      + intros H. left. tauto.
      + intros [[_ H]|[[_ []]|(? & ? & _ & [] & _)]]. exact H.
    - destruct Gp as [PS PG]. simpl in PS. inversion PS as [|? ? PS' PF]; subst.
      inversion PG as [|? ? Ps PG']; subst. rewrite Forall_forall in PF.
      destruct (IH (extend_version order vs v s) (extend_version_good vs v s Gv Ps) (conj PS' PG')) as [G1 G2].
      split; [exact G1|]. intros w t. rewrite G2.
      pose proof (extend_version_in vs v s Gv) as EV. pose proof (extend_version_keys vs v s) as EK.
      assert (Nv : ~ In v (map fst parent)) by (intros H; apply (ver_lt_irrefl v), PF, H).
      assert (NvI : forall y, ~ In (v, y) parent) by (intros y H; apply Nv, (in_map fst _ _ H)).
      split.
      + intros [[N Hi]|[[N Hi]|(s1 & p1 & Hs & Hp & ->)]].
        * apply EV in Hi as [[Nw Hi]|[(-> & Nk & ->)|(-> & t0 & Hi & ->)]].
          -- left. split; [|exact Hi]. intros [H|H]; [congruence|tauto].
          -- right. left. auto.
          -- right. right. exists t0, s. auto.
        * right. left. rewrite EK in N. split; [tauto|]. right. exact Hi.
        * right. right. apply EV in Hs as [[Nw Hs]|[(-> & _)|(-> & _)]].
          -- exists s1, p1. auto.
          -- exfalso. exact (NvI _ Hp).
          -- exfalso. exact (NvI _ Hp).
      + intros [[N Hi]|[[N [[= <- <-]|Hi]]|(s1 & p1 & Hs & [[= <- <-]|Hp] & ->)]].
        * left. split; [tauto|]. apply EV. left. split; [intros ->; tauto|exact Hi].
        * left. split; [exact Nv|]. apply EV. right. left. auto.
        * right. left. split; [|exact Hi]. rewrite EK. intros [->|H]; [exact (NvI _ Hi)|tauto].
        * left. split; [exact Nv|]. apply EV. right. right. split; [reflexivity|]. exists s1. auto.
        * right. right. exists s1, p1. split; [|auto]. apply EV. left. split; [|exact Hs].
          intros ->. exact (NvI _ Hp).
  Qed.
End Extend.

Lemma in_fst {A B} (x : A) (l : list (A * B)) : In x (map fst l) <-> exists y, In (x, y) l.
Proof.
  rewrite in_map_iff. split.
  - intros ([a b] & <- & H). exists b. exact H.
  - intros [y H]. exists (x, y). auto.
Qed.

Definition version_dec (a b : version) : {a = b} + {a <> b}.
Proof.
  destruct (ver_cmp a b) eqn:E.
  - left. apply ver_cmp_eq, E.
  - right. intros H. rewrite H, ver_cmp_refl in E. discriminate.
  - right. intros H. rewrite H, ver_cmp_refl in E. discriminate.
Defined.

Lemma c11_extend order local parent : (forall m, Permutation (order m) m) ->
  good_history local -> good_history parent ->
  good_history (extend order local parent) /\
  (forall w, In w (map fst (extend order local parent)) <-> In w (map fst local) \/ In w (map fst parent)) /\
  (forall w s, In (w, s) local -> ~ In w (map fst parent) -> In (w, s) (extend order local parent)) /\
  (forall w s, In (w, s) parent -> ~ In w (map fst local) -> In (w, s) (extend order local parent)) /\
  (forall w s p, In (w, s) local -> In (w, p) parent ->
    exists e, In (w, e) (extend order local parent) /\
      forall k name new, merged_kind k ->
        (renamed_by (section_of k e) name new <->
         renamed_by (section_of k s) name new \/
         (not_renamed (section_of k s) name /\ renamed_by (rev (section_of k p)) name new))).
Proof.
  intros HO Gl Gp. destruct (extend_char order HO parent local Gl Gp) as [G C].
  split; [exact G|]. split; [|split; [|split]].
  - intros w. rewrite !in_fst. split.
    + intros [t H]. apply C in H as [[_ H]|[[_ H]|(s & p & H & _)]]; eauto.
    + intros [[s H]|[p H]].
      * destruct (in_dec version_dec w (map fst parent)) as [Hi|Hn].
        -- apply in_fst in Hi as [p Hp]. exists (extend_spec order s p). apply C. right. right. eauto.
        -- exists s. apply C. left. auto.
      * destruct (in_dec version_dec w (map fst local)) as [Hi|Hn].
        -- apply in_fst in Hi as [s Hs]. exists (extend_spec order s p). apply C. right. right. eauto.
        -- exists p. apply C. right. left. auto.
  - intros w s H N. apply C. left. auto.
  - intros w s H N. apply C. right. left. auto.
  - intros w s p Hs Hp. exists (extend_spec order s p). split; [apply C; right; right; eauto|].
    intros k name new Hk. destruct Gl as [_ Gl], Gp as [_ Gp]. rewrite Forall_forall in Gl, Gp.
    apply extend_spec_renamed; [exact HO|exact Hk|exact (Gl _ Hs)|exact (Gp _ Hp)].
Qed.

Lemma c11_unambiguous order local parent w s p : (forall m, Permutation (order m) m) ->
  good_history local -> good_history parent -> In (w, s) local -> In (w, p) parent -> unambiguous p ->
  exists e, In (w, e) (extend order local parent) /\
    forall k name new, merged_kind k ->
      (renamed_by (section_of k e) name new <->
       renamed_by (section_of k s) name new \/
       (not_renamed (section_of k s) name /\ renamed_by (section_of k p) name new)).
Proof.
  intros HO Gl Gp Hs Hp U. destruct (c11_extend order local parent HO Gl Gp) as (_ & _ & _ & _ & H).
  destruct (H w s p Hs Hp) as (e & He & HR). exists e. split; [exact He|].
  intros k name new Hk. pose proof (HR k name new Hk) as H1.
  pose proof (unambiguous_rev k p name new U) as H2. tauto.
Qed.
