(** Proofs about the schema diff. *)
From Coq Require Import String Ascii Bool Arith Lia Permutation List.
From Verif Require Import Base BaseProofs BaseProofs2 Json SemTypes Resolved SchemaDiffModel SchemaDiffSpec.
Import ListNotations.
Local Open Scope string_scope.
Local Open Scope list_scope.

(** * Collecting into a map *)

Lemma sinsert_lookup {V} k (v : V) m k' :
  slookup k' (sinsert k v m) = if String.eqb k' k then Some v else slookup k' m.
Proof.
  unfold slookup, sinsert. destruct (String.eqb_spec k' k) as [->|N].
  - apply (lookup_insert_eq _ string_eqb_spec).
  - apply (lookup_insert_ne _ string_eqb_spec). congruence.
Qed.

Lemma collect_snoc {V} (l : list (string * V)) kv :
  collect (l ++ [kv]) = sinsert (fst kv) (snd kv) (collect l).
Proof. unfold collect. rewrite fold_left_app. reflexivity. Qed.

Lemma collect_nodup {V} (l : list (string * V)) : NoDup (map fst (collect l)).
Proof.
  induction l as [|kv l IH] using rev_ind; [constructor|].
  rewrite collect_snoc. apply (insert_nodup _ string_eqb_spec), IH.
Qed.

Lemma last_with_snoc {A} (P : A -> Prop) l y x :
  last_with P (l ++ [y]) x <-> (P y /\ x = y) \/ (~ P y /\ last_with P l x).
Proof.
  split.
  - intros (l1 & l2 & E & Px & Hn). destruct l2 as [|z l2 _] using rev_ind.
    + apply app_inj_tail in E as [-> ->]. left. auto.
    + rewrite app_comm_cons, app_assoc in E. apply app_inj_tail in E as [-> ->].
      right. split; [apply Hn, in_or_app; right; left; reflexivity|].
      exists l1, l2. split; [reflexivity|]. split; [exact Px|].
      intros w Hw. apply Hn, in_or_app. left. exact Hw.
  - intros [[Py ->]|[Ny (l1 & l2 & -> & Px & Hn)]].
    + exists l, []. split; [reflexivity|]. split; [exact Py|]. intros ? [].
    + exists l1, (l2 ++ [y]). split; [rewrite <- app_assoc; reflexivity|]. split; [exact Px|].
      intros w Hw. apply in_app_or in Hw as [Hw|[<-|[]]]; auto.
Qed.

Lemma last_with_nil {A} (P : A -> Prop) x : ~ last_with P [] x.
Proof. intros (l1 & l2 & E & _). destruct l1; discriminate. Qed.

Lemma last_with_ext {A} (P Q : A -> Prop) l x :
  (forall y, P y <-> Q y) -> last_with P l x <-> last_with Q l x.
Proof.
  intros E. split; intros (l1 & l2 & -> & Px & Hn); exists l1, l2;
    (split; [reflexivity|]); (split; [apply E, Px|]); intros y Hy Hq; apply (Hn y Hy), E, Hq.
Qed.

Lemma last_with_unique {A} (P : A -> Prop) l x y : last_with P l x -> last_with P l y -> x = y.
Proof.
  induction l as [|z l IH] using rev_ind; intros Hx Hy.
  - destruct (last_with_nil _ _ Hx).
  - apply last_with_snoc in Hx. apply last_with_snoc in Hy.
    destruct Hx as [[Px ->]|[Nx Hx]], Hy as [[Py ->]|[Ny Hy]]; auto; contradiction.
Qed.

Lemma collect_lookup {V} (l : list (string * V)) n v :
  slookup n (collect l) = Some v <-> last_with (fun kv => fst kv = n) l (n, v).
Proof.
  induction l as [|kv l IH] using rev_ind.
  - split; [discriminate|]. intros H. destruct (last_with_nil _ _ H).
  - rewrite collect_snoc, sinsert_lookup, last_with_snoc, <- IH.
    destruct kv as [k w]. simpl. destruct (String.eqb_spec n k) as [->|N].
    + split; [intros [= ->]; left; auto|]. intros [[_ [= ->]]|[F _]]; [reflexivity|].
      destruct F. reflexivity.
    + split; [intros H; right; split; auto|]. intros [[<- _]|[_ H]]; [destruct N; reflexivity|exact H].
Qed.

(** Collecting the images of the elements selected by a partial map. *)
Lemma collect_flat_map {A V} (f : A -> list (string * V)) (l : list A) n v :
  (forall x, f x = [] \/ exists kv, f x = [kv]) ->
  (slookup n (collect (flat_map f l)) = Some v
   <-> exists x, last_with (fun x => exists w, f x = [(n, w)]) l x /\ f x = [(n, v)]).
Proof.
  intros Hf. induction l as [|y l IH] using rev_ind.
  - split; [discriminate|]. intros (x & H & _). destruct (last_with_nil _ _ H).
  - rewrite flat_map_app. simpl. rewrite app_nil_r.
    destruct (Hf y) as [E|[[k w] E]].
    + rewrite E, app_nil_r, IH. split; intros (x & Hx & Ex).
      * exists x. split; [|exact Ex]. apply last_with_snoc. right. split; [|exact Hx].
        intros [w Ew]. rewrite E in Ew. discriminate.
      * exists x. split; [|exact Ex]. apply last_with_snoc in Hx as [[[w Ew] _]|[_ Hx]].
        -- rewrite E in Ew. discriminate.
        -- exact Hx.
    + rewrite E, collect_snoc, sinsert_lookup. simpl. destruct (String.eqb_spec n k) as [->|N].
      * split.
        -- intros [= ->]. exists y. split; [|exact E]. apply last_with_snoc. left.
           split; [exists v; exact E|reflexivity].
        -- intros (x & Hx & Ex). apply last_with_snoc in Hx as [[_ ->]|[Nx _]].
           ++ rewrite E in Ex. congruence.
           ++ destruct Nx. exists w. exact E.
      * rewrite IH. split; intros (x & Hx & Ex).
        -- exists x. split; [|exact Ex]. apply last_with_snoc. right. split; [|exact Hx].
           intros [w' Ew]. rewrite E in Ew. congruence.
        -- exists x. split; [|exact Ex]. apply last_with_snoc in Hx as [[[w' Ew] _]|[_ Hx]].
           ++ rewrite E in Ew. congruence.
           ++ exact Hx.
Qed.

(** * Deprecation *)

Lemma opt_eqb_spec {A} (eqb : A -> A -> bool) (H : forall a b, eqb a b = true <-> a = b) x y :
  opt_eqb eqb x y = true <-> x = y.
Proof.
  destruct x, y; simpl; split; try congruence; try discriminate.
  - intros E. apply H in E. congruence.
  - intros [= ->]. apply H. reflexivity.
Qed.

Lemma dep_eqb_spec a b : dep_eqb a b = true <-> a = b.
Proof.
  destruct a, b; simpl; try (split; [discriminate|congruence]);
    rewrite ?andb_true_iff, ?(opt_eqb_spec _ string_eqb_spec), ?string_eqb_spec;
    split; try (intros [-> ->]; reflexivity); try (intros ->; reflexivity);
    intros H; injection H; auto.
Qed.

Lemma dep_note_renamed to note : dep_note (DRenamed to note) = rename_note to note.
Proof. destruct note; reflexivity. Qed.

(** * The hash-based diff *)

Definition mview {T} (dep : T -> option deprecated) (m : list (string * T)) : view :=
  fun n d => exists x, slookup n m = Some x /\ dep x = d.

Lemma mview_fun {T} (dep : T -> option deprecated) m n d d' :
  mview dep m n d -> mview dep m n d' -> d = d'.
Proof. intros (x & E & <-) (y & E' & <-). congruence. Qed.

Lemma mview_defined {T} (dep : T -> option deprecated) m n :
  defined (mview dep m) n <-> exists x, slookup n m = Some x.
Proof.
  split.
  - intros (d & x & E & _). exists x. exact E.
  - intros (x & E). exists (dep x), x. auto.
Qed.

Lemma mview_undefined {T} (dep : T -> option deprecated) m n :
  slookup n m = None -> ~ defined (mview dep m) n.
Proof. intros E H. apply mview_defined in H as (x & E'). congruence. Qed.

Lemma deprecation_change_expected (H B : view) n l b :
  (forall d, H n d <-> d = l) -> (forall d, B n d <-> d = b) ->
  forall x, In x (deprecation_change n n l b) <-> (expected H B x /\ subject x = n).
Proof.
  intros HH HB x. unfold deprecation_change. split.
  - destruct l as [d|]; [|intros []].
    destruct (match b with Some b0 => dep_eqb d b0 | None => false end) eqn:E; [intros []|].
    assert (Nb : b <> Some d).
    { intros ->. destruct (dep_eqb d d) eqn:Ed; [discriminate|].
      rewrite (proj2 (dep_eqb_spec d d) eq_refl) in Ed. discriminate. }
    assert (HB' : B n b) by (apply HB; reflexivity).
    assert (HH' : H n (Some d)) by (apply HH; reflexivity).
    destruct d as [to note|note|note|note]; intros [<-|[]]; (split; [|reflexivity]).
    + rewrite dep_note_renamed. eapply exp_renamed; eassumption.
    + eapply exp_obsoleted; eassumption.
    + eapply exp_uncategorized; eassumption.
    + eapply exp_unspecified; eassumption.
  - intros [X S].
    inversion X as [m D N|m D N|m to note c Hm Bm Nm|m note c Hm Bm Nm|m note c Hm Bm Nm|m note c Hm Bm Nm];
      subst x; simpl in S; subst m.
    + destruct N. exists b. apply HB. reflexivity.
    + destruct N. exists l. apply HH. reflexivity.
    + apply HH in Hm as <-. apply HB in Bm as ->.
      destruct b as [b|]; [|left; apply f_equal; apply dep_note_renamed].
      destruct (dep_eqb _ b) eqn:E; [apply dep_eqb_spec in E; congruence|].
      left. apply f_equal. apply dep_note_renamed.
    + apply HH in Hm as <-. apply HB in Bm as ->.
      destruct b as [b|]; [|left; reflexivity].
      destruct (dep_eqb _ b) eqn:E; [apply dep_eqb_spec in E; congruence|]. left; reflexivity.
    + apply HH in Hm as <-. apply HB in Bm as ->.
      destruct b as [b|]; [|left; reflexivity].
      destruct (dep_eqb _ b) eqn:E; [apply dep_eqb_spec in E; congruence|]. left; reflexivity.
    + apply HH in Hm as <-. apply HB in Bm as ->.
      destruct b as [b|]; [|left; reflexivity].
      destruct (dep_eqb _ b) eqn:E; [apply dep_eqb_spec in E; congruence|]. left; reflexivity.
Qed.

Lemma deprecation_change_one o n l b :
  deprecation_change o n l b = [] \/ exists x, deprecation_change o n l b = [x].
Proof.
  unfold deprecation_change. destruct l as [d|]; [|auto].
  destruct (match b with Some b0 => dep_eqb d b0 | None => false end); [auto|].
  destruct d; right; eexists; reflexivity.
Qed.

Section Hash.
  Variable order : forall V : Type, list (string * V) -> list (string * V).
  Hypothesis order_perm : forall V m, Permutation (order V m) m.
  Context {T : Type}.
  Variable dep : T -> option deprecated.

  Lemma in_order V (m : list (string * V)) x : In x (order V m) <-> In x m.
  Proof. split; apply Permutation_in; [apply order_perm|apply Permutation_sym, order_perm]. Qed.

  Lemma order_nodup V (m : list (string * V)) : NoDup (map fst m) -> NoDup (map fst (order V m)).
  Proof.
    intros H. eapply Permutation_NoDup; [|exact H]. apply Permutation_map, Permutation_sym, order_perm.
  Qed.

  Lemma flat_map_subjects (f : string * T -> list change) (l : list (string * T)) :
    (forall kv, In kv l -> f kv = [] \/ exists x, f kv = [x] /\ subject x = fst kv) ->
    NoDup (map fst l) ->
    NoDup (map subject (flat_map f l)) /\
    (forall n, In n (map subject (flat_map f l)) -> In n (map fst l)).
  Proof.
    induction l as [|kv l IH]; intros Hf ND; simpl; [split; [constructor|intros ? []]|].
    inversion ND as [|? ? Hn ND']; subst.
    destruct IH as [I1 I2]; [intros y Hy; apply Hf; right; exact Hy|exact ND'|].
    destruct (Hf kv (or_introl eq_refl)) as [E|(x & E & Ex)]; rewrite E; simpl.
    - split; [exact I1|]. intros n H. right. apply I2, H.
    - split.
      + constructor; [|exact I1]. rewrite Ex. intros F. apply Hn, I2, F.
      + intros n [<-|H]; [left; symmetry; exact Ex|right; apply I2, H].
  Qed.

  Lemma nodup_app {A} (l1 l2 : list A) :
    NoDup l1 -> NoDup l2 -> (forall x, In x l1 -> ~ In x l2) -> NoDup (l1 ++ l2).
  Proof.
    induction l1 as [|a l1 IH]; intros H1 H2 D; simpl; [exact H2|].
    inversion H1 as [|? ? Hn H1']; subst. constructor.
    - intros F. apply in_app_or in F as [F|F]; [exact (Hn F)|]. exact (D a (or_introl eq_refl) F).
    - apply IH; auto. intros x Hx. apply D. right. exact Hx.
  Qed.

  Lemma diff_by_hash_exact (latest base : list (string * T)) :
    NoDup (map fst latest) -> NoDup (map fst base) ->
    exact_report (mview dep latest) (mview dep base) (diff_by_hash order dep latest base).
  Proof.
    intros NL NB. unfold diff_by_hash. split.
    - rewrite map_app.
      set (f1 := fun '(n, x) => match slookup n base with
                                | Some b => deprecation_change n n (dep x) (dep b)
                                | None => [ChAdded n] end).
      set (f2 := fun '(n, _) => if has_key String.eqb n latest then [] else [ChRemoved n]).
      destruct (flat_map_subjects f1 (order _ latest)) as [A1 A2].
      { intros [n x] Hin. unfold f1. destruct (slookup n base) as [b|].
        - destruct (deprecation_change_one n n (dep x) (dep b)) as [E|[c E]]; rewrite E; [auto|].
          right. exists c. split; [reflexivity|].
          unfold deprecation_change in E. destruct (dep x) as [d|]; [|discriminate].
          destruct (match dep b with Some b0 => dep_eqb d b0 | None => false end); [discriminate|].
          destruct d; injection E as <-; reflexivity.
        - right. eexists. split; reflexivity. }
      { apply order_nodup, NL. }
      destruct (flat_map_subjects f2 (order _ base)) as [B1 B2].
      { intros [n x] Hin. unfold f2. destruct (has_key String.eqb n latest); [auto|].
        right. eexists. split; reflexivity. }
      { apply order_nodup, NB. }
      apply nodup_app; [exact A1|exact B1|].
      intros n H1 H2. apply A2 in H1.
      apply in_map_iff in H2 as (c & Ec & Hc). apply in_flat_map in Hc as ([m y] & Hm & Hc).
      unfold f2 in Hc. destruct (has_key String.eqb m latest) eqn:K; [destruct Hc|].
      destruct Hc as [<-|[]]. simpl in Ec. subst m.
      unfold has_key in K. destruct (lookup String.eqb n latest) eqn:L; [discriminate|].
      apply (lookup_none _ string_eqb_spec) in L. apply L.
      apply in_map_iff in H1 as (kv & <- & Hkv). apply in_map. apply (proj1 (in_order _ _ _)), Hkv.
    - intros c. rewrite in_app_iff, !in_flat_map. split.
      + intros [([n x] & Hin & Hc)|([n x] & Hin & Hc)].
        * apply (proj1 (in_order _ _ _)) in Hin. apply slookup_in in Hin; [|exact NL].
          destruct (slookup n base) as [b|] eqn:Eb.
          -- apply (deprecation_change_expected (mview dep latest) (mview dep base)) in Hc; [apply Hc| |].
             ++ intros d. split; [|intros ->; exists x; auto]. intros (x' & E' & <-). congruence.
             ++ intros d. split; [|intros ->; exists b; auto]. intros (x' & E' & <-). congruence.
          -- destruct Hc as [<-|[]]. apply exp_added.
             ++ apply mview_defined. exists x. exact Hin.
             ++ apply mview_undefined, Eb.
        * apply (proj1 (in_order _ _ _)) in Hin. apply slookup_in in Hin; [|exact NB].
          destruct (has_key String.eqb n latest) eqn:K; [destruct Hc|]. destruct Hc as [<-|[]].
          apply exp_removed.
          -- apply mview_defined. exists x. exact Hin.
          -- apply mview_undefined. unfold has_key in K. unfold slookup.
             destruct (lookup String.eqb n latest); [discriminate|reflexivity].
      + intros X.
        assert (Dep : forall n l b, slookup n latest = Some l -> slookup n base = Some b ->
                  subject c = n -> exists kv, In kv (order _ latest) /\
                  In c (let '(n, x) := kv in match slookup n base with
                                | Some b => deprecation_change n n (dep x) (dep b)
                                | None => [ChAdded n] end)).
        { intros n l b El Eb Es. exists (n, l). split.
          - apply (proj2 (in_order _ _ _)), (lookup_in _ string_eqb_spec), El.
          - rewrite Eb. apply (deprecation_change_expected (mview dep latest) (mview dep base)).
            + intros d. split; [|intros ->; exists l; auto]. intros (x' & E' & <-). congruence.
            + intros d. split; [|intros ->; exists b; auto]. intros (x' & E' & <-). congruence.
            + auto. }
        inversion X as [m D N|m D N|m to note b Hm Bm Nm|m note b Hm Bm Nm|m note b Hm Bm Nm|m note b Hm Bm Nm];
          subst c.
        * left. apply mview_defined in D as (x & E). exists (m, x). split.
          -- apply (proj2 (in_order _ _ _)), (lookup_in _ string_eqb_spec), E.
          -- destruct (slookup m base) as [b|] eqn:Eb; [|left; reflexivity].
             destruct N. apply mview_defined. exists b. exact Eb.
        * right. apply mview_defined in D as (x & E). exists (m, x). split.
          -- apply (proj2 (in_order _ _ _)), (lookup_in _ string_eqb_spec), E.
          -- destruct (has_key String.eqb m latest) eqn:K; [|left; reflexivity].
             destruct N. apply mview_defined. unfold has_key in K. unfold slookup.
             destruct (lookup String.eqb m latest) as [y|]; [exists y; reflexivity|discriminate].
        * left. destruct Hm as (l & El & _), Bm as (b' & Eb & _). eapply Dep; [exact El|exact Eb|reflexivity].
        * left. destruct Hm as (l & El & _), Bm as (b' & Eb & _). eapply Dep; [exact El|exact Eb|reflexivity].
        * left. destruct Hm as (l & El & _), Bm as (b' & Eb & _). eapply Dep; [exact El|exact Eb|reflexivity].
        * left. destruct Hm as (l & El & _), Bm as (b' & Eb & _). eapply Dep; [exact El|exact Eb|reflexivity].
  Qed.
End Hash.

(** * Reports depend on the views only *)

Definition same_view (V W : view) : Prop := forall n d, V n d <-> W n d.

Lemma same_view_sym V W : same_view V W -> same_view W V.
Proof. intros H n d. symmetry. apply H. Qed.

Lemma expected_ext H H' B B' x :
  same_view H H' -> same_view B B' -> expected H B x -> expected H' B' x.
Proof.
  intros EH EB X.
  assert (DH : forall n, defined H n <-> defined H' n)
    by (intros n; split; intros [d Hd]; exists d; apply EH; exact Hd).
  assert (DB : forall n, defined B n <-> defined B' n)
    by (intros n; split; intros [d Hd]; exists d; apply EB; exact Hd).
  inversion X as [m D N|m D N|m to note b Hm Bm Nm|m note b Hm Bm Nm|m note b Hm Bm Nm|m note b Hm Bm Nm].
  - apply exp_added; [apply DH, D|]. intros F. apply N, DB, F.
  - apply exp_removed; [apply DB, D|]. intros F. apply N, DH, F.
  - eapply exp_renamed; [apply EH, Hm|apply EB, Bm|exact Nm].
  - eapply exp_obsoleted; [apply EH, Hm|apply EB, Bm|exact Nm].
  - eapply exp_uncategorized; [apply EH, Hm|apply EB, Bm|exact Nm].
  - eapply exp_unspecified; [apply EH, Hm|apply EB, Bm|exact Nm].
Qed.

Lemma exact_report_ext H H' B B' l :
  same_view H H' -> same_view B B' -> exact_report H B l -> exact_report H' B' l.
Proof.
  intros EH EB [N E]. split; [exact N|]. intros x. rewrite E.
  split; apply expected_ext; auto using same_view_sym.
Qed.

Lemma exact_report_nil (H B : view) l :
  (forall n d d', H n d -> H n d' -> d = d') -> (forall n d d', B n d -> B n d' -> d = d') ->
  (forall n, defined H n \/ ~ defined H n) -> (forall n, defined B n \/ ~ defined B n) ->
  exact_report H B l -> (l = [] <-> nothing_new H B).
Proof.
  intros FH FB DecH DecB [_ E]. split.
  - intros ->. split.
    + intros n. split; intros D.
      * destruct (DecB n) as [X|X]; [exact X|]. destruct (proj2 (E (ChAdded n))). now apply exp_added.
      * destruct (DecH n) as [X|X]; [exact X|]. destruct (proj2 (E (ChRemoved n))). now apply exp_removed.
    + intros n d b Hn Bn.
      assert (C : b = Some d \/ b <> Some d).
      { destruct b as [b|]; [|right; discriminate].
        destruct (dep_eqb d b) eqn:Q; [left; apply dep_eqb_spec in Q; congruence|].
        right. intros [= ->]. rewrite (proj2 (dep_eqb_spec d d) eq_refl) in Q. discriminate. }
      destruct C as [C|C]; [exact C|]. exfalso.
      destruct d as [to note|note|note|note].
      * destruct (proj2 (E (ChRenamed n to (rename_note to note)))). eapply exp_renamed; eassumption.
      * destruct (proj2 (E (ChObsoleted n note))). eapply exp_obsoleted; eassumption.
      * destruct (proj2 (E (ChUncategorized n note))). eapply exp_uncategorized; eassumption.
      * destruct (proj2 (E (ChUncategorized n note))). eapply exp_unspecified; eassumption.
  - intros [S D]. destruct l as [|x l]; [reflexivity|]. exfalso.
    assert (X : expected H B x) by (apply E; left; reflexivity).
    inversion X as [m D1 N|m D1 N|m to note b Hm Bm Nm|m note b Hm Bm Nm|m note b Hm Bm Nm|m note b Hm Bm Nm].
    + apply N, S, D1.
    + apply N, S, D1.
    + apply Nm. exact (D _ _ _ Hm Bm).
    + apply Nm. exact (D _ _ _ Hm Bm).
    + apply Nm. exact (D _ _ _ Hm Bm).
    + apply Nm. exact (D _ _ _ Hm Bm).
Qed.

(** * Version 2 views *)

Lemma list_view_map {T} (id : T -> string) (com : T -> common) (l : list T) :
  same_view (mview (fun x => c_deprecated (com x)) (collect (map (fun x => (id x, x)) l)))
            (list_view id com l).
Proof.
  intros n d. unfold mview, list_view.
  assert (E : map (fun x => (id x, x)) l = flat_map (fun x => [(id x, x)]) l).
  { induction l; simpl; congruence. }
  rewrite E. split.
  - intros (x & Hx & Hd). apply collect_flat_map in Hx; [|intros y; right; eexists; reflexivity].
    destruct Hx as (y & Hy & [= E1 E2]). subst y. exists x. split; [|exact Hd].
    eapply last_with_ext; [|exact Hy]. intros z. simpl. split.
    + intros <-. exists z. reflexivity.
    + intros [w [= Ez _]]. exact Ez.
  - intros (x & Hx & Hd). exists x. split; [|exact Hd].
    apply collect_flat_map; [intros y; right; eexists; reflexivity|].
    exists x. assert (id x = n) by (destruct Hx as (? & ? & _ & P & _); exact P). subst n.
    split; [|reflexivity]. eapply last_with_ext; [|exact Hx]. intros z. split.
    + intros [w [= Ez _]]. exact Ez.
    + intros <-. exists z. reflexivity.
Qed.

Lemma attribute_view2_map s :
  same_view (mview (fun a => c_deprecated (a2_common a)) (registry_attribute_map2 s))
            (attribute_view2 s).
Proof.
  intros n d. unfold mview, attribute_view2, registry_attribute_map2.
  set (f := fun r => match nth_error (s2_catalog s) r with Some a => [(a2_key a, a)] | None => [] end).
  assert (F : forall r, f r = [] \/ exists kv, f r = [kv]).
  { intros r. unfold f. destruct (nth_error _ r); [right; eexists; reflexivity|left; reflexivity]. }
  assert (Q : forall r, (exists w, f r = [(n, w)]) <->
              exists a, nth_error (s2_catalog s) r = Some a /\ a2_key a = n).
  { intros r. unfold f. destruct (nth_error (s2_catalog s) r) as [a|].
    - split; [intros [w [= E1 E2]]; exists a; auto|]. intros (b & [= <-] & <-). exists a. reflexivity.
    - split; [intros [w [=]]|intros (a & [=] & _)]. }
  split.
  - intros (a & Ha & Hd). apply collect_flat_map in Ha as (r & Hr & Er); [|exact F].
    exists r, a. split; [eapply last_with_ext; [|exact Hr]; intros y; symmetry; apply Q|].
    unfold f in Er. destruct (nth_error (s2_catalog s) r) as [b|]; [|discriminate].
    injection Er as E1 ->. auto.
  - intros (r & a & Hr & Ea & Hd). exists a. split; [|exact Hd].
    apply collect_flat_map; [exact F|]. exists r. split.
    + eapply last_with_ext; [|exact Hr]. intros y. apply Q.
    + unfold f. rewrite Ea. destruct Hr as (? & ? & _ & (b & Eb & <-) & _). congruence.
Qed.

Section V2.
  Variable order : forall V : Type, list (string * V) -> list (string * V).
  Hypothesis order_perm : forall V m, Permutation (order V m) m.

  Lemma diff_signals2_exact {T} (id : T -> string) com (l b : list T) :
    exact_report (list_view id com l) (list_view id com b) (diff_signals2 order id com l b).
  Proof.
    eapply exact_report_ext; [apply list_view_map|apply list_view_map|].
    apply (diff_by_hash_exact order order_perm); apply collect_nodup.
  Qed.

  Lemma diff2_exact head base k :
    exact_report (view2 k head) (view2 k base) (report2 k (diff2 order head base)).
  Proof.
    destruct k; simpl; try apply diff_signals2_exact.
    eapply exact_report_ext; [apply attribute_view2_map|apply attribute_view2_map|].
    apply (diff_by_hash_exact order order_perm); apply collect_nodup.
  Qed.
End V2.

(** The views are functional and decidable. *)
Lemma mview_dec {T} (dep : T -> option deprecated) m n :
  defined (mview dep m) n \/ ~ defined (mview dep m) n.
Proof.
  destruct (slookup n m) as [x|] eqn:E.
  - left. exists (dep x), x. auto.
  - right. apply mview_undefined, E.
Qed.

Lemma same_view_fun (V W : view) :
  same_view V W -> (forall n d d', V n d -> V n d' -> d = d') ->
  (forall n d d', W n d -> W n d' -> d = d').
Proof. intros E F n d d' H1 H2. apply (F n); apply E; assumption. Qed.

Lemma same_view_dec (V W : view) :
  same_view V W -> (forall n, defined V n \/ ~ defined V n) -> (forall n, defined W n \/ ~ defined W n).
Proof.
  intros E F n. destruct (F n) as [[d H]|H].
  - left. exists d. apply E, H.
  - right. intros [d H']. apply H. exists d. apply E, H'.
Qed.

Lemma view2_fun k s n d d' : view2 k s n d -> view2 k s n d' -> d = d'.
Proof.
  revert n d d'. destruct k; simpl.
  - eapply same_view_fun; [apply attribute_view2_map|]. intros n d d'; apply mview_fun.
  - eapply same_view_fun; [apply list_view_map|]. intros n d d'; apply mview_fun.
  - eapply same_view_fun; [apply list_view_map|]. intros n d d'; apply mview_fun.
  - eapply same_view_fun; [apply list_view_map|]. intros n d d'; apply mview_fun.
  - eapply same_view_fun; [apply list_view_map|]. intros n d d'; apply mview_fun.
  - eapply same_view_fun; [apply list_view_map|]. intros n d d'; apply mview_fun.
Qed.

Lemma view2_dec k s n : defined (view2 k s) n \/ ~ defined (view2 k s) n.
Proof.
  revert n. destruct k; simpl.
  - eapply same_view_dec; [apply attribute_view2_map|]. intros n; apply mview_dec.
  - eapply same_view_dec; [apply list_view_map|]. intros n; apply mview_dec.
  - eapply same_view_dec; [apply list_view_map|]. intros n; apply mview_dec.
  - eapply same_view_dec; [apply list_view_map|]. intros n; apply mview_dec.
  - eapply same_view_dec; [apply list_view_map|]. intros n; apply mview_dec.
  - eapply same_view_dec; [apply list_view_map|]. intros n; apply mview_dec.
Qed.

Lemma changes2_is_empty_spec c :
  changes2_is_empty c = true <-> forall k, report2 k c = [].
Proof.
  unfold changes2_is_empty. split.
  - intros H k.
    destruct (c2_attributes c) eqn:E1, (c2_attribute_groups c) eqn:E2, (c2_entities c) eqn:E3,
      (c2_events c) eqn:E4, (c2_metrics c) eqn:E5, (c2_spans c) eqn:E6; try discriminate H.
    destruct k; simpl; assumption.
  - intros H. pose proof (H C2Attributes) as H1. pose proof (H C2AttributeGroups) as H2.
    pose proof (H C2Entities) as H3. pose proof (H C2Events) as H4.
    pose proof (H C2Metrics) as H5. pose proof (H C2Spans) as H6. simpl in *.
    rewrite H1, H2, H3, H4, H5, H6. reflexivity.
Qed.

Section Empty2.
  Variable order : forall V : Type, list (string * V) -> list (string * V).
  Hypothesis order_perm : forall V m, Permutation (order V m) m.

  Lemma diff2_empty_iff head base :
    changes2_is_empty (diff2 order head base) = true
    <-> forall k, nothing_new (view2 k head) (view2 k base).
  Proof.
    rewrite changes2_is_empty_spec. split; intros H k; specialize (H k).
    - eapply exact_report_nil; [..|apply (diff2_exact order order_perm)|exact H];
        intros; eauto using view2_fun, view2_dec.
    - eapply exact_report_nil; [..|exact H]; [..|apply (diff2_exact order order_perm)];
        intros; eauto using view2_fun, view2_dec.
  Qed.

  Lemma diff2_self s k : report2 k (diff2 order s s) = [].
  Proof.
    eapply exact_report_nil; [..|apply (diff2_exact order order_perm)|];
      try (intros; eauto using view2_fun, view2_dec; fail).
    split; [intros n; reflexivity|]. intros n d b H1 H2. eapply view2_fun; eassumption.
  Qed.
End Empty2.

(** * Version 1 *)

Definition add_all (c : changes1) (t : item_type) (l : list change) : changes1 :=
  fold_left (fun c x => add_change c t x) l c.

Lemma item_type_eqb_spec a b : item_type_eqb a b = true <-> a = b.
Proof. destruct a, b; simpl; split; congruence. Qed.

Definition all_types (c : changes1) : Prop :=
  map fst (ch_map c) = [ItAttributes; ItMetrics; ItEvents; ItSpans; ItEntities].

Lemma all_types_lookup c t : all_types c -> exists l, changes_by_type c t = Some l.
Proof.
  intros H. unfold changes_by_type. destruct (lookup item_type_eqb t (ch_map c)) as [l|] eqn:E; [eauto|].
  exfalso. apply (lookup_none _ item_type_eqb_spec) in E. apply E. rewrite H.
  destruct t; simpl; auto 6.
Qed.

Lemma add_change_types c t x : all_types c -> all_types (add_change c t x).
Proof.
  intros H. unfold all_types, add_change. simpl.
  destruct (lookup item_type_eqb t (ch_map c)) as [v|] eqn:E; [|exact H].
  rewrite insert_keys.
  assert (K : In t (map fst (ch_map c))) by (rewrite H; destruct t; simpl; auto 6).
  destruct (has_key item_type_eqb t (ch_map c)) eqn:HK; [exact H|].
  unfold has_key in HK. rewrite E in HK. discriminate.
Qed.

Lemma add_change_type c t x t' :
  changes_by_type (add_change c t x) t' =
  if item_type_eqb t' t then option_map (fun v => v ++ [x]) (changes_by_type c t)
  else changes_by_type c t'.
Proof.
  unfold changes_by_type, add_change. simpl.
  destruct (item_type_eqb t' t) eqn:Q.
  - apply item_type_eqb_spec in Q as ->.
    destruct (lookup item_type_eqb t (ch_map c)) as [v|] eqn:E; simpl.
    + apply (lookup_insert_eq _ item_type_eqb_spec).
    + exact E.
  - destruct (lookup item_type_eqb t (ch_map c)) as [v|] eqn:E; [|reflexivity].
    apply (lookup_insert_ne _ item_type_eqb_spec). intros Et.
    rewrite (proj2 (item_type_eqb_spec t' t)) in Q by congruence. discriminate.
Qed.

Lemma add_all_types c t l : all_types c -> all_types (add_all c t l).
Proof.
  unfold add_all. revert c. induction l as [|x l IH]; intros c H; simpl; [exact H|].
  apply IH, add_change_types, H.
Qed.

Lemma add_all_type c t l t' :
  changes_by_type (add_all c t l) t' =
  if item_type_eqb t' t then option_map (fun v => v ++ l) (changes_by_type c t)
  else changes_by_type c t'.
Proof.
  unfold add_all. revert c. induction l as [|x l IH]; intros c; simpl.
  - destruct (item_type_eqb t' t) eqn:Q; [|reflexivity].
    apply item_type_eqb_spec in Q as ->. destruct (changes_by_type c t); simpl; [rewrite app_nil_r|]; reflexivity.
  - rewrite IH, !add_change_type, (proj2 (item_type_eqb_spec t t) eq_refl).
    destruct (item_type_eqb t' t) eqn:Q; [|reflexivity].
    destruct (changes_by_type c t); simpl; [rewrite <- app_assoc|]; reflexivity.
Qed.

Lemma add_all_meta c t l :
  ch_head (add_all c t l) = ch_head c /\ ch_baseline (add_all c t l) = ch_baseline c.
Proof.
  unfold add_all. revert c. induction l as [|x l IH]; intros c; simpl; [auto|].
  destruct (IH (add_change c t x)) as [-> ->]. auto.
Qed.

Lemma add_all_app c t l1 l2 : add_all (add_all c t l1) t l2 = add_all c t (l1 ++ l2).
Proof. unfold add_all. rewrite fold_left_app. reflexivity. Qed.

Lemma fold_add_all {A} (t : item_type) (f : A -> list change) (g : changes1 -> A -> changes1) l c :
  (forall c x, In x l -> g c x = add_all c t (f x)) ->
  fold_left g l c = add_all c t (flat_map f l).
Proof.
  revert c. induction l as [|x l IH]; intros c H; simpl; [reflexivity|].
  rewrite H by (left; reflexivity). rewrite IH by (intros; apply H; right; assumption).
  apply add_all_app.
Qed.

Section V1.
  Variable order : forall V : Type, list (string * V) -> list (string * V).
  Hypothesis order_perm : forall V m, Permutation (order V m) m.

  Lemma diff_signals_eq t latest base c :
    diff_signals order t latest base c = add_all c t (diff_by_hash order g_deprecated latest base).
  Proof.
    unfold diff_signals, diff_by_hash. rewrite <- add_all_app.
    rewrite (fold_add_all t (fun '(n, _) => if has_key String.eqb n latest then [] else [ChRemoved n])).
    2:{ intros c' [n x] _. destruct (has_key String.eqb n latest); reflexivity. }
    f_equal. apply fold_add_all. intros c' [n x] _.
    destruct (slookup n base); reflexivity.
  Qed.

  Definition named (m : list (string * attribute)) : Prop := forall n a, In (n, a) m -> at_name a = n.

  Lemma diff_attributes_eq latest base c :
    named latest -> named base ->
    diff_attributes order latest base c
    = add_all c ItAttributes (diff_by_hash order at_deprecated latest base).
  Proof.
    intros NL NB. unfold diff_attributes, diff_by_hash. rewrite <- add_all_app.
    rewrite (fold_add_all ItAttributes (fun '(n, _) => if has_key String.eqb n latest then [] else [ChRemoved n])).
    2:{ intros c' [n x] Hx. destruct (has_key String.eqb n latest); [reflexivity|].
        rewrite (NB n x); [reflexivity|]. apply (proj1 (in_order order order_perm _ _ _)), Hx. }
    f_equal. apply fold_add_all. intros c' [n x] Hx.
    apply (proj1 (in_order order order_perm _ _ _)) in Hx.
    destruct (slookup n base) as [b|] eqn:E.
    - apply (lookup_in _ string_eqb_spec) in E. rewrite (NL _ _ Hx), (NB _ _ E). reflexivity.
    - rewrite (NL _ _ Hx). reflexivity.
  Qed.
End V1.

(** Attribute map of a version 1 schema. *)
Definition use_pairs (s : schema1) (u : group * nat) : list (string * attribute) :=
  match nth_error (s1_catalog s) (snd u) with
  | Some a => if is_refinement_attr (fst u) a then [] else [(at_name a, a)]
  | None => []
  end.

Lemma group_attrs_ok s g refs l :
  group_attrs s g refs = Ok l ->
  l = flat_map (fun r => use_pairs s (g, r)) refs /\ Forall (fun r => r < length (s1_catalog s)) refs.
Proof.
  revert l. induction refs as [|r refs IH]; simpl; intros l H.
  - injection H as <-. split; [reflexivity|constructor].
  - destruct (nth_error (s1_catalog s) r) as [a|] eqn:E; [|discriminate].
    destruct (group_attrs s g refs) as [l'|e] eqn:G; [|discriminate].
    injection H as <-. destruct (IH l' eq_refl) as [-> F]. split.
    + assert (U : use_pairs s (g, r) = if is_refinement_attr g a then [] else [(at_name a, a)])
        by (unfold use_pairs; simpl; rewrite E; reflexivity).
      rewrite U. destruct (is_refinement_attr g a); reflexivity.
    + constructor; [|exact F]. apply nth_error_Some. congruence.
Qed.

Lemma group_attrs_total s g refs :
  Forall (fun r => r < length (s1_catalog s)) refs -> exists l, group_attrs s g refs = Ok l.
Proof.
  induction refs as [|r refs IH]; simpl; intros H; [eauto|].
  inversion H as [|? ? Hr H']; subst. destruct (IH H') as [l E]. rewrite E.
  destruct (nth_error (s1_catalog s) r) as [a|] eqn:N; [simpl; eauto|].
  apply nth_error_None in N. lia.
Qed.

Lemma groups_attrs_ok s gs l :
  groups_attrs s gs = Ok l ->
  l = flat_map (use_pairs s) (flat_map (fun g => map (fun r => (g, r)) (g_attributes g)) gs)
  /\ Forall (fun g => Forall (fun r => r < length (s1_catalog s)) (g_attributes g)) gs.
Proof.
  revert l. induction gs as [|g gs IH]; simpl; intros l H.
  - injection H as <-. split; [reflexivity|constructor].
  - destruct (group_attrs s g (g_attributes g)) as [a|] eqn:G; [|discriminate]. simpl in H.
    destruct (groups_attrs s gs) as [b|] eqn:E; [|discriminate]. injection H as <-.
    destruct (IH b eq_refl) as [-> F]. apply group_attrs_ok in G as [-> F']. split.
    + rewrite flat_map_app. f_equal.
      induction (g_attributes g) as [|r refs IHr]; simpl; [reflexivity|].
      inversion F'; subst. rewrite IHr by assumption. reflexivity.
    + constructor; assumption.
Qed.

Lemma groups_attrs_total s gs :
  Forall (fun g => Forall (fun r => r < length (s1_catalog s)) (g_attributes g)) gs ->
  exists l, groups_attrs s gs = Ok l.
Proof.
  induction gs as [|g gs IH]; simpl; intros H; [eauto|].
  inversion H as [|? ? Hg H']; subst. destruct (IH H') as [l E].
  destruct (group_attrs_total s g _ Hg) as [l' E']. rewrite E', E. simpl. eauto.
Qed.

Lemma refs_valid_forall s :
  refs_valid s <->
  Forall (fun g => Forall (fun r => r < length (s1_catalog s)) (g_attributes g)) (s1_groups s).
Proof.
  unfold refs_valid. rewrite Forall_forall. split.
  - intros H g Hg. rewrite Forall_forall. intros r Hr. exact (H g r Hg Hr).
  - intros H g r Hg Hr. specialize (H g Hg). rewrite Forall_forall in H. exact (H r Hr).
Qed.

Lemma is_definition_spec g a : is_refinement_attr g a = false <-> is_definition g a.
Proof.
  unfold is_refinement_attr, is_definition, lineage_attribute. split.
  - intros H gl al E1 E2. rewrite E1, E2 in H. apply negb_false_iff, string_eqb_spec in H. exact H.
  - intros H. destruct (g_lineage g) as [gl|]; [|reflexivity].
    destruct (slookup (at_name a) (gl_attributes gl)) as [al|] eqn:E; [|reflexivity].
    apply negb_false_iff, string_eqb_spec. exact (H gl al eq_refl E).
Qed.

Lemma registry_attribute_map_view s m :
  registry_attribute_map s = Ok m ->
  same_view (mview at_deprecated m) (attribute_view s) /\ NoDup (map fst m) /\ named m.
Proof.
  unfold registry_attribute_map. intros H.
  destruct (groups_attrs s (s1_groups s)) as [l|] eqn:E; [|discriminate]. injection H as <-.
  apply groups_attrs_ok in E as [-> _].
  assert (F : forall u, use_pairs s u = [] \/ exists kv, use_pairs s u = [kv]).
  { intros u. unfold use_pairs. destruct (nth_error _ _) as [a|]; [|auto].
    destruct (is_refinement_attr _ a); eauto. }
  fold (attribute_uses s).
  assert (Q : forall n u, (exists w, use_pairs s u = [(n, w)]) <->
     exists a, nth_error (s1_catalog s) (snd u) = Some a /\ at_name a = n /\ is_definition (fst u) a).
  { intros n u. unfold use_pairs. destruct (nth_error (s1_catalog s) (snd u)) as [a|].
    - destruct (is_refinement_attr (fst u) a) eqn:R.
      + split; [intros [w [=]]|]. intros (b & [= <-] & _ & D). apply is_definition_spec in D. congruence.
      + split; [intros [w [= E1 E2]]; exists a; repeat split; auto; apply is_definition_spec, R|].
        intros (b & [= <-] & <- & _). eexists. reflexivity.
    - split; [intros [w [=]]|intros (b & [=] & _)]. }
  split; [|split].
  - intros n d. split.
    + intros (a & Ha & Hd). apply collect_flat_map in Ha as (u & Hu & Eu); [|exact F].
      exists u, a. split; [eapply last_with_ext; [|exact Hu]; intros y; symmetry; apply Q|].
      split; [|exact Hd]. unfold use_pairs in Eu.
      destruct (nth_error (s1_catalog s) (snd u)) as [b|]; [|discriminate].
      destruct (is_refinement_attr (fst u) b); [discriminate|]. congruence.
    + intros (u & a & Hu & Ea & Hd). exists a. split; [|exact Hd].
      apply collect_flat_map; [exact F|]. exists u.
      split; [eapply last_with_ext; [|exact Hu]; intros y; apply Q|].
      destruct Hu as (? & ? & _ & (b & Eb & En & Db) & _).
      assert (b = a) by congruence. subst b.
      unfold use_pairs. rewrite Ea. apply is_definition_spec in Db. rewrite Db. congruence.
  - apply collect_nodup.
  - intros n a Hin. apply slookup_in in Hin; [|apply collect_nodup].
    apply collect_flat_map in Hin as (u & _ & Eu); [|exact F]. unfold use_pairs in Eu.
    destruct (nth_error (s1_catalog s) (snd u)) as [b|]; [|discriminate].
    destruct (is_refinement_attr (fst u) b); [discriminate|]. congruence.
Qed.

Lemma group_type_eqb_spec a b : group_type_eqb a b = true <-> a = b.
Proof. destruct a, b; simpl; split; congruence. Qed.

Lemma flat_map_filter {A B} (f : A -> list B) (p : A -> bool) l :
  flat_map f (filter p l) = flat_map (fun x => if p x then f x else []) l.
Proof.
  induction l as [|x l IH]; simpl; [reflexivity|].
  destruct (p x); simpl; rewrite IH; reflexivity.
Qed.

Lemma groups_by_name_view t s :
  t = GMetric \/ t = GEvent \/ t = GSpan \/ t = GEntity ->
  same_view (mview g_deprecated (groups_by_name s t)) (signal_view t s)
  /\ NoDup (map fst (groups_by_name s t)).
Proof.
  intros Ht. unfold groups_by_name. rewrite flat_map_filter.
  set (f := fun g => if group_type_eqb (g_type g) t
                     then match signal_name g with Some n => [(n, g)] | None => [] end else []).
  assert (F : forall g, f g = [] \/ exists kv, f g = [kv]).
  { intros g. unfold f. destruct (group_type_eqb _ _); [|auto]. destruct (signal_name g); eauto. }
  assert (Q : forall n g, (exists w, f g = [(n, w)]) <->
     (g_type g = t /\ (match t with GMetric => g_metric_name g | _ => g_name g end) = Some n)).
  { intros n g. unfold f. destruct (group_type_eqb (g_type g) t) eqn:E.
    - apply group_type_eqb_spec in E. unfold signal_name. rewrite E.
      assert (G : forall o : option string,
                (exists w : group, match o with Some n0 => [(n0, g)] | None => [] end = [(n, w)])
                <-> (t = t /\ o = Some n)).
      { intros [m|]; split.
        - intros [w Ew]. injection Ew as Em _. subst m. auto.
        - intros [_ Em]. injection Em as ->. exists g. reflexivity.
        - intros [w Ew]. discriminate Ew.
        - intros [_ Em]. discriminate Em. }
      destruct Ht as [->|[->|[->| ->]]]; apply G.
    - split; [intros [w [=]]|]. intros [G _]. rewrite (proj2 (group_type_eqb_spec _ _) G) in E. discriminate. }
  split; [|apply collect_nodup].
  intros n d. split.
  - intros (g & Hg & Hd). apply collect_flat_map in Hg as (g' & Hg' & Eg); [|exact F].
    assert (g' = g).
    { unfold f in Eg. destruct (group_type_eqb _ _); [|discriminate].
      destruct (signal_name g'); [|discriminate]. congruence. }
    subst g'. exists g. split; [|exact Hd].
    eapply last_with_ext; [|exact Hg']. intros y. symmetry. apply Q.
  - intros (g & Hg & Hd). exists g. split; [|exact Hd].
    apply collect_flat_map; [exact F|]. exists g.
    split; [eapply last_with_ext; [|exact Hg]; intros y; apply Q|].
    destruct Hg as (? & ? & _ & Pg & _). apply Q in Pg as [w Ew]. rewrite Ew.
    unfold f in Ew. destruct (group_type_eqb _ _); [|discriminate].
    destruct (signal_name g); [|discriminate]. congruence.
Qed.

Section Final1.
  Variable order : forall V : Type, list (string * V) -> list (string * V).
  Hypothesis order_perm : forall V m, Permutation (order V m) m.

  Lemma diff1_total head base :
    (exists c, diff1 order head base = Ok c) <-> refs_valid head /\ refs_valid base.
  Proof.
    unfold diff1, registry_attribute_map. split.
    - intros [c H].
      destruct (groups_attrs head (s1_groups head)) as [l|] eqn:E1; [|discriminate].
      simpl in H. destruct (groups_attrs base (s1_groups base)) as [l'|] eqn:E2; [|discriminate].
      apply groups_attrs_ok in E1 as [_ F1]. apply groups_attrs_ok in E2 as [_ F2].
      split; apply refs_valid_forall; assumption.
    - intros [V1 V2]. apply refs_valid_forall, groups_attrs_total in V1 as [l1 ->].
      apply refs_valid_forall, groups_attrs_total in V2 as [l2 ->]. simpl. eauto.
  Qed.

  Definition new_with (head base : schema1) : changes1 :=
    {| ch_head := opt_get (s1_manifest_version head) "";
       ch_baseline := opt_get (s1_manifest_version base) "";
       ch_map := ch_map changes_new |}.

  Lemma diff1_eq head base c :
    diff1 order head base = Ok c ->
    exists la ba,
      registry_attribute_map head = Ok la /\ registry_attribute_map base = Ok ba /\
      c = add_all (add_all (add_all (add_all (add_all (new_with head base)
            ItAttributes (diff_by_hash order at_deprecated la ba))
            ItMetrics (diff_by_hash order g_deprecated (groups_by_name head GMetric) (groups_by_name base GMetric)))
            ItEvents (diff_by_hash order g_deprecated (groups_by_name head GEvent) (groups_by_name base GEvent)))
            ItSpans (diff_by_hash order g_deprecated (groups_by_name head GSpan) (groups_by_name base GSpan)))
            ItEntities (diff_by_hash order g_deprecated (groups_by_name head GEntity) (groups_by_name base GEntity)).
  Proof.
    unfold diff1. intros H.
    destruct (registry_attribute_map head) as [la|] eqn:E1; [|discriminate]. simpl in H.
    destruct (registry_attribute_map base) as [ba|] eqn:E2; [|discriminate]. simpl in H.
    exists la, ba. split; [reflexivity|]. split; [reflexivity|].
    destruct (registry_attribute_map_view _ _ E1) as (_ & _ & N1).
    destruct (registry_attribute_map_view _ _ E2) as (_ & _ & N2).
    rewrite !diff_signals_eq, (diff_attributes_eq order order_perm) in H by assumption.
    injection H as <-. unfold new_with.
    destruct (s1_manifest_version head), (s1_manifest_version base); reflexivity.
  Qed.

  Lemma new_with_types h b : all_types (new_with h b).
  Proof. reflexivity. Qed.

  Lemma new_with_type h b t : changes_by_type (new_with h b) t = Some [].
  Proof. destruct t; reflexivity. Qed.

  Lemma diff1_exact head base c t :
    diff1 order head base = Ok c ->
    exists l, changes_by_type c t = Some l /\ exact_report (view1 t head) (view1 t base) l.
  Proof.
    intros H. apply diff1_eq in H as (la & ba & E1 & E2 & ->).
    destruct (registry_attribute_map_view _ _ E1) as (V1 & D1 & _).
    destruct (registry_attribute_map_view _ _ E2) as (V2 & D2 & _).
    rewrite !add_all_type. destruct t; simpl; rewrite ?new_with_type; simpl; eexists; (split; [reflexivity|]).
    - eapply exact_report_ext; [exact V1|exact V2|]. apply (diff_by_hash_exact order order_perm); assumption.
    - destruct (groups_by_name_view GMetric head) as [A B]; [auto|].
      destruct (groups_by_name_view GMetric base) as [A' B']; [auto|].
      eapply exact_report_ext; [exact A|exact A'|]. apply (diff_by_hash_exact order order_perm); assumption.
    - destruct (groups_by_name_view GEvent head) as [A B]; [auto|].
      destruct (groups_by_name_view GEvent base) as [A' B']; [auto|].
      eapply exact_report_ext; [exact A|exact A'|]. apply (diff_by_hash_exact order order_perm); assumption.
    - destruct (groups_by_name_view GSpan head) as [A B]; [auto|].
      destruct (groups_by_name_view GSpan base) as [A' B']; [auto|].
      eapply exact_report_ext; [exact A|exact A'|]. apply (diff_by_hash_exact order order_perm); assumption.
    - destruct (groups_by_name_view GEntity head) as [A B]; [auto|].
      destruct (groups_by_name_view GEntity base) as [A' B']; [auto|].
      eapply exact_report_ext; [exact A|exact A'|]. apply (diff_by_hash_exact order order_perm); assumption.
  Qed.

  Lemma diff1_types head base c : diff1 order head base = Ok c -> all_types c.
  Proof.
    intros H. apply diff1_eq in H as (la & ba & _ & _ & ->). repeat apply add_all_types.
    apply new_with_types.
  Qed.

  Lemma diff1_versions head base c :
    diff1 order head base = Ok c ->
    ch_head c = opt_get (s1_manifest_version head) "" /\
    ch_baseline c = opt_get (s1_manifest_version base) "".
  Proof.
    intros H. apply diff1_eq in H as (la & ba & _ & _ & ->).
    rewrite !(proj1 (add_all_meta _ _ _)), !(proj2 (add_all_meta _ _ _)). auto.
  Qed.
End Final1.

Lemma view1_mview t s c order :
  (forall V m, Permutation (order V m) m) -> diff1 order s s = Ok c ->
  (forall n d d', view1 t s n d -> view1 t s n d' -> d = d') /\
  (forall n, defined (view1 t s) n \/ ~ defined (view1 t s) n).
Proof.
  intros Ho H. apply (diff1_eq order Ho) in H as (la & ba & E1 & _ & _).
  destruct (registry_attribute_map_view _ _ E1) as (V1 & _ & _).
  destruct t; simpl.
  - split; [eapply same_view_fun; [exact V1|]; intros n d d'; apply mview_fun
           |eapply same_view_dec; [exact V1|]; intros n; apply mview_dec].
  - destruct (groups_by_name_view GMetric s) as [A _]; [auto|].
    split; [eapply same_view_fun; [exact A|]; intros n d d'; apply mview_fun
           |eapply same_view_dec; [exact A|]; intros n; apply mview_dec].
  - destruct (groups_by_name_view GEvent s) as [A _]; [auto|].
    split; [eapply same_view_fun; [exact A|]; intros n d d'; apply mview_fun
           |eapply same_view_dec; [exact A|]; intros n; apply mview_dec].
  - destruct (groups_by_name_view GSpan s) as [A _]; [auto|].
    split; [eapply same_view_fun; [exact A|]; intros n d d'; apply mview_fun
           |eapply same_view_dec; [exact A|]; intros n; apply mview_dec].
  - destruct (groups_by_name_view GEntity s) as [A _]; [auto|].
    split; [eapply same_view_fun; [exact A|]; intros n d d'; apply mview_fun
           |eapply same_view_dec; [exact A|]; intros n; apply mview_dec].
Qed.

Lemma diff1_self_ok order head base c :
  (forall V m, Permutation (order V m) m) ->
  diff1 order head base = Ok c ->
  (exists c', diff1 order head head = Ok c') /\ (exists c', diff1 order base base = Ok c').
Proof.
  intros Ho H. assert (E : exists c, diff1 order head base = Ok c) by eauto.
  apply (diff1_total order) in E as [A B]. split; apply (diff1_total order); auto.
Qed.

Lemma is_empty_types c : all_types c ->
  (changes_is_empty c = true <-> forall t, changes_by_type c t = Some []).
Proof.
  intros H. destruct c as [h b m]. unfold all_types, changes_is_empty, changes_by_type in *. simpl in *.
  destruct m as [|[k1 v1] [|[k2 v2] [|[k3 v3] [|[k4 v4] [|[k5 v5] [|? ?]]]]]]; try discriminate H.
  injection H as -> -> -> -> ->. simpl. split.
  - intros E t. destruct v1, v2, v3, v4, v5; try discriminate E. destruct t; reflexivity.
  - intros E. pose proof (E ItAttributes) as A1. pose proof (E ItMetrics) as A2.
    pose proof (E ItEvents) as A3. pose proof (E ItSpans) as A4. pose proof (E ItEntities) as A5.
    simpl in *. injection A1 as ->. injection A2 as ->. injection A3 as ->. injection A4 as ->.
    injection A5 as ->. reflexivity.
Qed.

Lemma count_changes_types c : all_types c ->
  count_changes c = count_type ItAttributes c + count_type ItMetrics c + count_type ItEvents c
                    + count_type ItSpans c + count_type ItEntities c.
Proof.
  intros H. destruct c as [h b m]. unfold all_types, count_changes, count_type, changes_by_type in *.
  simpl in *.
  destruct m as [|[k1 v1] [|[k2 v2] [|[k3 v3] [|[k4 v4] [|[k5 v5] [|? ?]]]]]]; try discriminate H.
  injection H as -> -> -> -> ->. simpl. lia.
Qed.

Lemma diff1_nil_iff order head base c t :
  (forall V m, Permutation (order V m) m) -> diff1 order head base = Ok c ->
  (changes_by_type c t = Some [] <-> nothing_new (view1 t head) (view1 t base)).
Proof.
  intros Ho H. destruct (diff1_self_ok _ _ _ _ Ho H) as [[c1 H1] [c2 H2]].
  destruct (diff1_exact order Ho _ _ _ t H) as (l & El & Hl).
  destruct (view1_mview t _ _ _ Ho H1) as [F1 D1].
  destruct (view1_mview t _ _ _ Ho H2) as [F2 D2].
  rewrite El, <- (exact_report_nil _ _ _ F1 F2 D1 D2 Hl). split; congruence.
Qed.

Lemma diff1_empty_iff order head base c :
  (forall V m, Permutation (order V m) m) -> diff1 order head base = Ok c ->
  (changes_is_empty c = true <-> forall t, nothing_new (view1 t head) (view1 t base)).
Proof.
  intros Ho H. rewrite (is_empty_types _ (diff1_types order Ho _ _ _ H)).
  split; intros E t; specialize (E t).
  - eapply diff1_nil_iff; eassumption.
  - eapply diff1_nil_iff; eassumption.
Qed.

Lemma diff1_self order s c t :
  (forall V m, Permutation (order V m) m) -> diff1 order s s = Ok c -> changes_by_type c t = Some [].
Proof.
  intros Ho H. apply (diff1_nil_iff order s s c t Ho H).
  destruct (view1_mview t _ _ _ Ho H) as [F _].
  split; [intros n; reflexivity|]. intros n d b H1 H2. eapply F; eassumption.
Qed.

(** Two exact reports of the same views are permutations of each other. *)
Lemma exact_report_perm H B l l' : exact_report H B l -> exact_report H B l' -> Permutation l l'.
Proof.
  intros [N E] [N' E']. apply NoDup_Permutation.
  - eapply NoDup_map_inv, N.
  - eapply NoDup_map_inv, N'.
  - intros x. rewrite E, E'. reflexivity.
Qed.

Lemma diff1_order order order' head base c c' t :
  (forall V m, Permutation (order V m) m) -> (forall V m, Permutation (order' V m) m) ->
  diff1 order head base = Ok c -> diff1 order' head base = Ok c' ->
  exists l l', changes_by_type c t = Some l /\ changes_by_type c' t = Some l' /\ Permutation l l'.
Proof.
  intros Ho Ho' H H'.
  destruct (diff1_exact order Ho _ _ _ t H) as (l & E & X).
  destruct (diff1_exact order' Ho' _ _ _ t H') as (l' & E' & X').
  exists l, l'. repeat split; auto. eapply exact_report_perm; eassumption.
Qed.

(** Counters of the report. *)
Lemma five_kinds H B l : exact_report H B l ->
  length l = count_if is_added l + count_if is_renamed l + count_if is_obsoleted l
             + count_if is_uncategorized l + count_if is_removed l.
Proof.
  intros [_ E].
  assert (U : ~ In ChUpdated l) by (intros F; apply E in F; inversion F).
  clear E. induction l as [|x l IH]; [reflexivity|].
  assert (U' : ~ In ChUpdated l) by (intros F; apply U; right; exact F).
  specialize (IH U'). rewrite !count_if_cons.
  destruct x; simpl; try lia. destruct U. left. reflexivity.
Qed.

(** * Publishing *)

Lemma dep_roundtrip d :
  dep_of_json (dep_to_json d) =
  Some (match d with DRenamed to note => DRenamed to (Some (rename_note to note)) | _ => d end).
Proof. destruct d as [to [n|]| | |]; reflexivity. Qed.

Lemma last_with_map {A} (P : A -> Prop) (f : A -> A) (l : list A) x :
  (forall y, P (f y) <-> P y) -> last_with P l x -> last_with P (map f l) (f x).
Proof.
  intros E (l1 & l2 & -> & Px & Hn). exists (map f l1), (map f l2).
  split; [rewrite map_app; reflexivity|]. split; [apply E, Px|].
  intros y Hy. apply in_map_iff in Hy as (z & <- & Hz). rewrite E. apply Hn, Hz.
Qed.

Lemma last_with_map_inv {A} (P : A -> Prop) (f : A -> A) (l : list A) x :
  (forall y, P (f y) <-> P y) -> last_with P (map f l) x -> exists y, last_with P l y /\ x = f y.
Proof.
  intros E. induction l as [|z l IH] using rev_ind; intros H.
  - destruct (last_with_nil _ _ H).
  - rewrite map_app in H. simpl in H. apply last_with_snoc in H as [[Pz ->]|[Nz H]].
    + exists z. split; [|reflexivity]. apply last_with_snoc. left. split; [apply E, Pz|reflexivity].
    + destruct (IH H) as (y & Hy & ->). exists y. split; [|reflexivity].
      apply last_with_snoc. right. split; [intros F; apply Nz, E, F|exact Hy].
Qed.

Lemma reread_list_view {T} (id : T -> string) (com : T -> common) (f : T -> T) l n d :
  (forall x, id (f x) = id x) -> (forall x, com (f x) = reread_common (com x)) ->
  (list_view id com (map f l) n d <-> exists d0, list_view id com l n d0 /\ d = reread_dep d0).
Proof.
  intros Hid Hcom. unfold list_view. split.
  - intros (x & Hx & Hd). apply last_with_map_inv in Hx as (y & Hy & ->).
    + exists (c_deprecated (com y)). split; [exists y; auto|]. rewrite Hcom in Hd. symmetry. exact Hd.
    + intros y. rewrite Hid. reflexivity.
  - intros (d0 & (x & Hx & <-) & ->). exists (f x). split.
    + apply (last_with_map (fun x => id x = n)); [intros y; rewrite Hid; reflexivity|exact Hx].
    + rewrite Hcom. reflexivity.
Qed.

Lemma reread_view k s n d :
  view2 k (reread s) n d <-> exists d0, view2 k s n d0 /\ d = reread_dep d0.
Proof.
  destruct k; simpl; try (apply reread_list_view; reflexivity).
  unfold attribute_view2. simpl.
  assert (Q : forall r, (exists a, nth_error (map reread_attribute (s2_catalog s)) r = Some a /\ a2_key a = n)
              <-> (exists a, nth_error (s2_catalog s) r = Some a /\ a2_key a = n)).
  { intros r. rewrite nth_error_map. destruct (nth_error (s2_catalog s) r) as [a|]; simpl.
    - split; intros (b & [= <-] & <-); eexists; split; reflexivity.
    - split; intros (b & [=] & _). }
  split.
  - intros (r & a & Hr & Ea & Hd). rewrite nth_error_map in Ea.
    destruct (nth_error (s2_catalog s) r) as [a0|] eqn:E; [|discriminate]. injection Ea as <-.
    exists (c_deprecated (a2_common a0)). split; [|symmetry; exact Hd].
    exists r, a0. split; [eapply last_with_ext; [|exact Hr]; intros y; symmetry; apply Q|auto].
  - intros (d0 & (r & a & Hr & Ea & Hd) & ->). exists r, (reread_attribute a).
    split; [eapply last_with_ext; [|exact Hr]; intros y; apply Q|].
    rewrite nth_error_map, Ea. split; [reflexivity|]. simpl. rewrite Hd. reflexivity.
Qed.

Lemma published_nothing_new k s :
  notes_given k s -> nothing_new (view2 k s) (view2 k (reread s)).
Proof.
  intros N. split.
  - intros n. split; intros [d H].
    + exists (reread_dep d). apply reread_view. eauto.
    + apply reread_view in H as (d0 & H & _). exists d0. exact H.
  - intros n d b H1 H2. apply reread_view in H2 as (d0 & H2 & ->).
    pose proof (view2_fun _ _ _ _ _ H1 H2) as <-. unfold reread_dep. rewrite dep_roundtrip.
    destruct d as [to [note|]|note|note|note]; try reflexivity.
    destruct (N n to H1).
Qed.
