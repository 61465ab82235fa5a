(** Lemmas about sorted maps (BTreeMap) and sorting up to equivalence. *)
From Coq Require Import String Ascii Bool Arith Lia Permutation Sorted List.
From Verif Require Import Base BaseProofs.
Import ListNotations.
Local Open Scope list_scope.

Definition str_lt (a b : string) : Prop := str_cmp a b = Lt.

(** The keys of a BTreeMap are strictly increasing. *)
Definition bt_sorted {V} (m : list (string * V)) : Prop := StronglySorted str_lt (map fst m).

Lemma str_lt_trans a b c : str_lt a b -> str_lt b c -> str_lt a c.
Proof. apply str_cmp_trans_lt. Qed.
Lemma str_lt_irrefl a : ~ str_lt a a.
Proof. unfold str_lt. rewrite str_cmp_refl. discriminate. Qed.

Lemma bt_insert_keys {V} k (v : V) m k' : In k' (map fst (bt_insert k v m)) <-> k' = k \/ In k' (map fst m).
Proof.
  induction m as [|[k1 v1] m IH]; simpl; [intuition auto|].
  destruct (str_cmp k k1) eqn:E; simpl.
  - apply str_cmp_eq in E as ->. intuition auto.
  - intuition auto.
  - rewrite IH. intuition auto.
Qed.

Lemma bt_insert_sorted {V} k (v : V) m : bt_sorted m -> bt_sorted (bt_insert k v m).
Proof.
  unfold bt_sorted. induction m as [|[k1 v1] m IH]; simpl; intros H.
  - constructor; constructor.
  - inversion H as [|? ? Hs Hf]; subst. destruct (str_cmp k k1) eqn:E; simpl.
    + constructor; assumption.
    + constructor; [exact H|]. constructor; [exact E|].
      rewrite Forall_forall in *. intros x Hx. eapply str_lt_trans; [exact E|apply Hf, Hx].
    + constructor; [apply IH, Hs|]. rewrite Forall_forall in *. intros x Hx.
      apply bt_insert_keys in Hx as [->|Hx]; [|apply Hf, Hx].
      unfold str_lt. rewrite str_cmp_antisym, E. reflexivity.
Qed.

Lemma bt_insert_lookup {V} k (v : V) m k' :
  slookup k' (bt_insert k v m) = if String.eqb k' k then Some v else slookup k' m.
Proof.
  unfold slookup. induction m as [|[k1 v1] m IH]; simpl; [reflexivity|].
  destruct (str_cmp k k1) eqn:E; simpl.
  - apply str_cmp_eq in E as ->. destruct (String.eqb k' k1); reflexivity.
  - reflexivity.
  - rewrite IH. destruct (String.eqb_spec k' k1) as [->|N]; [|reflexivity].
    destruct (String.eqb_spec k1 k) as [->|N']; [|reflexivity].
    rewrite str_cmp_refl in E. discriminate.
Qed.

Lemma bt_sorted_nodup {V} (m : list (string * V)) : bt_sorted m -> NoDup (map fst m).
Proof.
  unfold bt_sorted. induction (map fst m) as [|x l IH]; intros H; [constructor|].
  inversion H as [|? ? Hs Hf]; subst. constructor; [|apply IH, Hs].
  intros Hx. rewrite Forall_forall in Hf. apply (str_lt_irrefl x), Hf, Hx.
Qed.

Lemma slookup_in {V} (m : list (string * V)) k v : NoDup (map fst m) -> (slookup k m = Some v <-> In (k, v) m).
Proof.
  intros H. split; [apply (lookup_in _ string_eqb_spec)|apply (in_lookup _ string_eqb_spec), H].
Qed.

Lemma slookup_none {V} (m : list (string * V)) k : slookup k m = None <-> ~ In k (map fst m).
Proof. apply (lookup_none _ string_eqb_spec). Qed.

(** Two BTreeMaps with the same bindings are equal. *)
Lemma bt_ext {V} (m m' : list (string * V)) : bt_sorted m -> bt_sorted m' ->
  (forall k, slookup k m = slookup k m') -> m = m'.
Proof.
  unfold bt_sorted, slookup. revert m'.
  induction m as [|[k v] m IH]; intros [|[k' v'] m'] H H' E.
  - reflexivity.
  - specialize (E k'). simpl in E. rewrite String.eqb_refl in E. discriminate.
  - specialize (E k). simpl in E. rewrite String.eqb_refl in E. discriminate.
  - inversion H as [|? ? Hs Hf]; inversion H' as [|? ? Hs' Hf']; subst. simpl in *.
    assert (Ek : k = k').
    { destruct (string_dec k k') as [|N]; [assumption|exfalso].
      pose proof (E k) as E1. pose proof (E k') as E2.
      rewrite String.eqb_refl in E1, E2.
      destruct (String.eqb_spec k k'); [contradiction|]. destruct (String.eqb_spec k' k); [congruence|].
      symmetry in E1. apply (lookup_in _ string_eqb_spec) in E1. apply (lookup_in _ string_eqb_spec) in E2.
      apply (in_map fst) in E1, E2. simpl in E1, E2. rewrite Forall_forall in Hf, Hf'.
      apply (str_lt_irrefl k). eapply str_lt_trans; [apply Hf, E2|apply Hf', E1]. }
    subst k'. assert (v = v') by (specialize (E k); rewrite String.eqb_refl in E; congruence). subst v'.
    f_equal. apply IH; [assumption|assumption|]. intros x. specialize (E x).
    destruct (String.eqb_spec x k) as [Ex|N]; [subst x|exact E].
    transitivity (@None V); [|symmetry]; apply (lookup_none _ string_eqb_spec); intros Hx;
      rewrite Forall_forall in Hf, Hf'; apply (str_lt_irrefl k); [apply Hf, Hx|apply Hf', Hx].
Qed.

(** Rust [iter.collect::<BTreeMap>()]: later entries replace earlier ones. *)
Definition bt_collect {V} (l : list (string * V)) : list (string * V) :=
  fold_left (fun acc kv => bt_insert (fst kv) (snd kv) acc) l [].

Lemma bt_fold_sorted {V} (l : list (string * V)) : forall acc, bt_sorted acc ->
  bt_sorted (fold_left (fun acc kv => bt_insert (fst kv) (snd kv) acc) l acc).
Proof. induction l as [|[k v] l IH]; intros acc H; simpl; [exact H|]. apply IH, bt_insert_sorted, H. Qed.

Lemma bt_collect_sorted {V} (l : list (string * V)) : bt_sorted (bt_collect l).
Proof. apply bt_fold_sorted. constructor. Qed.

Lemma bt_fold_lookup {V} (l : list (string * V)) : NoDup (map fst l) -> forall acc k,
  slookup k (fold_left (fun acc kv => bt_insert (fst kv) (snd kv) acc) l acc) =
  match slookup k l with Some v => Some v | None => slookup k acc end.
Proof.
  induction l as [|[k1 v1] l IH]; intros Hn acc k; [reflexivity|].
  simpl in Hn. inversion Hn as [|? ? Hni Hn']; subst. simpl fold_left. rewrite (IH Hn').
  rewrite bt_insert_lookup. unfold slookup at 3. simpl. fold (@slookup V).
  destruct (String.eqb_spec k k1) as [->|N].
  - rewrite (proj2 (slookup_none l k1) Hni). reflexivity.
  - reflexivity.
Qed.

Lemma bt_collect_lookup {V} (l : list (string * V)) k : NoDup (map fst l) ->
  slookup k (bt_collect l) = slookup k l.
Proof. intros H. unfold bt_collect. rewrite bt_fold_lookup by exact H. destruct (slookup k l); reflexivity. Qed.

Lemma bt_collect_perm {V} (l : list (string * V)) : NoDup (map fst l) -> Permutation l (bt_collect l).
Proof.
  intros H. apply NoDup_Permutation.
  - eapply NoDup_map_inv, H.
  - eapply NoDup_map_inv, bt_sorted_nodup, bt_collect_sorted.
  - intros [k v]. rewrite <- (slookup_in l k v H), <- (slookup_in _ k v (bt_sorted_nodup _ (bt_collect_sorted l))).
    rewrite bt_collect_lookup by exact H. reflexivity.
Qed.

Lemma slookup_perm {V} (l l' : list (string * V)) k : NoDup (map fst l) -> Permutation l l' ->
  slookup k l = slookup k l'.
Proof.
  intros H HP.
  assert (H' : NoDup (map fst l')) by (eapply Permutation_NoDup; [apply Permutation_map, HP|exact H]).
  destruct (slookup k l') as [v|] eqn:E.
  - apply (slookup_in _ _ _ H). apply (slookup_in _ _ _ H') in E.
    eapply Permutation_in; [symmetry; exact HP|exact E].
  - apply slookup_none. apply slookup_none in E. intros Hx. apply E.
    eapply Permutation_in; [apply Permutation_map, HP|exact Hx].
Qed.

Lemma bt_collect_perm_eq {V} (l l' : list (string * V)) : NoDup (map fst l) -> Permutation l l' ->
  bt_collect l = bt_collect l'.
Proof.
  intros H HP.
  assert (H' : NoDup (map fst l')) by (eapply Permutation_NoDup; [apply Permutation_map, HP|exact H]).
  apply bt_ext; try apply bt_collect_sorted. intros k. rewrite !bt_collect_lookup by assumption.
  apply slookup_perm; assumption.
Qed.

Lemma bt_collect_id {V} (m : list (string * V)) : bt_sorted m -> bt_collect m = m.
Proof.
  intros H. apply bt_ext; [apply bt_collect_sorted|exact H|].
  intros k. apply bt_collect_lookup, bt_sorted_nodup, H.
Qed.

(** ** Sorting under extensionally equal orders *)
Lemma sort_insert_ext {A} (leb leb' : A -> A -> bool) x l :
  (forall y, In y l -> leb x y = leb' x y) -> sort_insert leb x l = sort_insert leb' x l.
Proof.
  induction l as [|y l IH]; intros H; simpl; [reflexivity|].
  rewrite (H y (or_introl eq_refl)). destruct (leb' x y); [reflexivity|].
  f_equal. apply IH. intros z Hz. apply H. now right.
Qed.

Lemma stable_sort_ext {A} (leb leb' : A -> A -> bool) l :
  (forall x y, In x l -> In y l -> leb x y = leb' x y) -> stable_sort leb l = stable_sort leb' l.
Proof.
  induction l as [|x l IH]; intros H; simpl; [reflexivity|].
  rewrite IH by (intros; apply H; now right).
  apply sort_insert_ext. intros y Hy. apply H; [now left|]. right. apply (stable_sort_in leb'), Hy.
Qed.

(** ** Sorted permutations agree up to the equivalence of the order *)
Section SortedEquiv.
  Context {A : Type} (leb : A -> A -> bool).
  Let le x y := leb x y = true.
  Let eqv x y := leb x y = true /\ leb y x = true.
  Hypothesis total : forall x y, leb x y = true \/ leb y x = true.
  Hypothesis trans : forall x y z, leb x y = true -> leb y z = true -> leb x z = true.

  (** Inserting an element anywhere and comparing with a sorted list: the heads are equivalent,
      so remove the head of one from the other by rank. *)
  Lemma le_refl x : le x x.
  Proof. destruct (total x x); assumption. Qed.

  Lemma sorted_perm_equiv l1 : forall l2, StronglySorted le l1 -> StronglySorted le l2 ->
    Permutation l1 l2 -> Forall2 eqv l1 l2.
  Proof.
    (* compare ranks: the number of elements [<= x] is the same in both lists *)
    assert (G : forall n l1 l2, length l1 = n -> StronglySorted le l1 -> StronglySorted le l2 ->
       length l2 = n -> (forall x, count_if (fun y => leb y x) l1 = count_if (fun y => leb y x) l2) ->
       Forall2 eqv l1 l2).
    { induction n as [|n IH]; intros a b Ha Sa Sb Hb Hc.
      - destruct a, b; try discriminate. constructor.
      - destruct a as [|x a], b as [|y b]; try discriminate.
        inversion Sa as [|? ? Sa' Fa]; inversion Sb as [|? ? Sb' Fb]; subst.
        assert (Hxy : leb y x = true).
        { pose proof (Hc x) as H. rewrite !count_if_cons in H. rewrite (le_refl x) in H.
          destruct (leb y x) eqn:E; [reflexivity|]. exfalso.
          assert (0 < count_if (fun z => leb z x) b) by (simpl in H; lia).
          apply count_if_pos in H0 as (z & Hz & Hzx). rewrite Forall_forall in Fb.
          rewrite (trans y z x (Fb z Hz) Hzx) in E. discriminate. }
        assert (Hyx : leb x y = true).
        { pose proof (Hc y) as H. rewrite !count_if_cons in H. rewrite (le_refl y) in H.
          destruct (leb x y) eqn:E; [reflexivity|]. exfalso.
          assert (0 < count_if (fun z => leb z y) a) by (simpl in H; lia).
          apply count_if_pos in H0 as (z & Hz & Hzx). rewrite Forall_forall in Fa.
          rewrite (trans x z y (Fa z Hz) Hzx) in E. discriminate. }
        constructor; [split; assumption|]. apply IH; auto.
        intros z. pose proof (Hc z) as H. rewrite !count_if_cons in H.
        assert (leb x z = leb y z).
        { destruct (leb x z) eqn:E1, (leb y z) eqn:E2; try reflexivity.
          - rewrite (trans y x z Hxy E1) in E2; discriminate.
          - rewrite (trans x y z Hyx E2) in E1; discriminate. }
        rewrite H0 in H. destruct (leb y z); lia. }
    intros l2 S1 S2 HP. apply (G (length l1)); auto.
    - symmetry. apply Permutation_length, HP.
    - intros x. apply count_if_perm, HP.
  Qed.

  Lemma sorted_equiv l1 l2 : StronglySorted le l1 -> Forall2 eqv l1 l2 -> StronglySorted le l2.
  Proof.
    intros S H. induction H as [|x y l1 l2 [Hxy Hyx] HF IH]; [constructor|].
    inversion S as [|? ? S' Fx]; subst. constructor; [apply IH, S'|].
    clear IH S S'. induction HF as [|a b l1 l2 [Hab Hba] HF IH]; [constructor|].
    inversion Fx; subst. constructor; [|apply IH; assumption].
    eapply trans; [exact Hyx|]. eapply trans; eassumption.
  Qed.

  Lemma eqv_trans_list l1 : forall l2 l3, Forall2 eqv l1 l2 -> Forall2 eqv l2 l3 -> Forall2 eqv l1 l3.
  Proof.
    induction l1 as [|x l1 IH]; intros l2 l3 H H'; inversion H; subst; inversion H'; subst; constructor.
    - destruct H2, H3. split; eapply trans; eassumption.
    - eapply IH; eassumption.
  Qed.

  (** Lists equal up to order and equivalence sort to equivalent lists. *)
  Lemma sort_equiv l l' l'' : Forall2 eqv l l' -> Permutation l' l'' ->
    Forall2 eqv (stable_sort leb l) (stable_sort leb l'').
  Proof.
    intros HF HP.
    destruct (Permutation_Forall2 (stable_sort_perm leb l) HF) as (l3 & HP3 & HF3).
    apply (eqv_trans_list _ l3 _ HF3).
    apply sorted_perm_equiv.
    - apply (sorted_equiv (stable_sort leb l)); [apply stable_sort_sorted; assumption|exact HF3].
    - apply stable_sort_sorted; assumption.
    - rewrite <- HP3, HP. apply stable_sort_perm.
  Qed.
End SortedEquiv.
