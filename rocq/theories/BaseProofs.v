(** Lemmas about Base.v *)
From Coq Require Import String Ascii Bool Arith Lia Permutation Sorted NArith List.
From Verif Require Import Base.
Import ListNotations.
Local Open Scope list_scope.

(** ** Strings *)
Lemma str_app_assoc (a b c : string) : ((a ++ b) ++ c)%string = (a ++ (b ++ c))%string.
Proof. induction a as [|x a IH]; simpl; [reflexivity|now rewrite IH]. Qed.

Lemma str_app_nil_r (a : string) : (a ++ "")%string = a.
Proof. induction a as [|x a IH]; simpl; [reflexivity|now rewrite IH]. Qed.

Lemma str_length_app (a b : string) : String.length (a ++ b) = String.length a + String.length b.
Proof. induction a as [|x a IH]; simpl; [reflexivity|now rewrite IH]. Qed.

Lemma str_app_inj_l (a b c : string) : (a ++ b)%string = (a ++ c)%string -> b = c.
Proof. induction a as [|x a IH]; simpl; intros H; [exact H|injection H as H; auto]. Qed.

Lemma starts_with_spec (p s : string) :
  starts_with p s = true <-> exists t, s = (p ++ t)%string.
Proof.
  revert s; induction p as [|a p IH]; intros s; simpl.
  - split; [intros _; exists s; reflexivity|reflexivity].
  - destruct s as [|b s].
    + split; [discriminate|intros [t Ht]; discriminate].
    + destruct (Ascii.eqb_spec a b) as [->|Hne].
      * rewrite IH; split; intros [t Ht]; exists t; [now rewrite Ht|now injection Ht].
      * split; [discriminate|intros [t Ht]; injection Ht as Hab _; congruence].
Qed.

Lemma starts_with_app (p t : string) : starts_with p (p ++ t) = true.
Proof. apply starts_with_spec; exists t; reflexivity. Qed.

Lemma starts_with_refl (p : string) : starts_with p p = true.
Proof. apply starts_with_spec; exists ""%string; now rewrite str_app_nil_r. Qed.

Lemma strip_prefix_spec (p s t : string) :
  strip_prefix p s = Some t <-> s = (p ++ t)%string.
Proof.
  revert s; induction p as [|a p IH]; intros s; simpl.
  - split; [intros H; injection H as ->; reflexivity|intros ->; reflexivity].
  - destruct s as [|b s]; [split; discriminate|].
    destruct (Ascii.eqb_spec a b) as [->|Hne].
    + rewrite IH; split; [intros ->; reflexivity|intros H; now injection H].
    + split; [discriminate|intros H; injection H as Hab _; congruence].
Qed.

Lemma strip_prefix_none (p s : string) :
  strip_prefix p s = None <-> starts_with p s = false.
Proof.
  revert s; induction p as [|a p IH]; intros s; simpl; [split; discriminate|].
  destruct s as [|b s]; [split; reflexivity|].
  destruct (Ascii.eqb a b); [apply IH|split; reflexivity].
Qed.

Lemma contains_spec (n h : string) :
  contains n h = true <-> exists a b, h = (a ++ n ++ b)%string.
Proof.
  induction h as [|c h IH]; cbn [contains].
  - rewrite orb_false_r, starts_with_spec; split.
    + intros [t Ht]; exists ""%string, t; exact Ht.
    + intros (a & b & H); destruct a; [exists b; exact H|discriminate].
  - rewrite orb_true_iff, starts_with_spec, IH; split.
    + intros [[t Ht]|(a & b & H)].
      * exists ""%string, t; exact Ht.
      * exists (String c a), b; rewrite H; reflexivity.
    + intros (a & b & H); destruct a as [|x a]; simpl in H.
      * left; exists b; exact H.
      * right; injection H as _ H; exists a, b; exact H.
Qed.

Lemma str_mem_spec x l : str_mem x l = true <-> In x l.
Proof.
  unfold str_mem; rewrite existsb_exists; split.
  - intros (y & Hy & He); apply String.eqb_eq in He; now subst.
  - intros H; exists x; split; [exact H|apply String.eqb_refl].
Qed.

Lemma str_mem_false x l : str_mem x l = false <-> ~ In x l.
Proof. rewrite <- str_mem_spec; destruct (str_mem x l); split; congruence. Qed.

(** ** String order *)
Lemma ascii_compare_trans_lt a b c :
  Ascii.compare a b = Lt -> Ascii.compare b c = Lt -> Ascii.compare a c = Lt.
Proof.
  unfold Ascii.compare; rewrite !N.compare_lt_iff; lia.
Qed.

Lemma ascii_cmp_refl c : Ascii.compare c c = Eq.
Proof. unfold Ascii.compare; apply N.compare_refl. Qed.

Lemma str_cmp_refl a : str_cmp a a = Eq.
Proof. unfold str_cmp; induction a as [|x a IH]; simpl; [reflexivity|now rewrite ascii_cmp_refl]. Qed.

Lemma str_cmp_eq a b : str_cmp a b = Eq <-> a = b.
Proof. split; [apply String.compare_eq_iff|intros ->; apply str_cmp_refl]. Qed.

Lemma str_cmp_antisym a b : str_cmp a b = CompOpp (str_cmp b a).
Proof. apply String.compare_antisym. Qed.

Lemma str_cmp_trans_lt a b c : str_cmp a b = Lt -> str_cmp b c = Lt -> str_cmp a c = Lt.
Proof.
  unfold str_cmp.
  revert b c; induction a as [|x a IH]; intros b c.
  - destruct b as [|y b], c as [|z c]; simpl; congruence.
  - destruct b as [|y b], c as [|z c]; simpl; try congruence.
    destruct (Ascii.compare x y) eqn:Hxy; try discriminate;
    destruct (Ascii.compare y z) eqn:Hyz; try discriminate.
    + apply Ascii.compare_eq_iff in Hxy, Hyz; subst.
      rewrite ascii_cmp_refl; apply IH.
    + apply Ascii.compare_eq_iff in Hxy; subst; rewrite Hyz; reflexivity.
    + apply Ascii.compare_eq_iff in Hyz; subst; rewrite Hxy; reflexivity.
    + rewrite (ascii_compare_trans_lt _ _ _ Hxy Hyz); reflexivity.
Qed.

Lemma str_leb_refl a : str_leb a a = true.
Proof. unfold str_leb; now rewrite str_cmp_refl. Qed.

Lemma str_leb_total a b : str_leb a b = true \/ str_leb b a = true.
Proof.
  unfold str_leb; rewrite (str_cmp_antisym b a); destruct (str_cmp a b); simpl; auto.
Qed.

Lemma str_leb_antisym a b : str_leb a b = true -> str_leb b a = true -> a = b.
Proof.
  unfold str_leb; rewrite (str_cmp_antisym b a); destruct (str_cmp a b) eqn:E; simpl;
    try discriminate; intros _ _; now apply str_cmp_eq.
Qed.

Lemma str_leb_trans a b c : str_leb a b = true -> str_leb b c = true -> str_leb a c = true.
Proof.
  unfold str_leb; destruct (str_cmp a b) eqn:Hab; try discriminate;
    destruct (str_cmp b c) eqn:Hbc; try discriminate; intros _ _.
  - apply str_cmp_eq in Hab, Hbc; subst; now rewrite str_cmp_refl.
  - apply str_cmp_eq in Hab; subst; now rewrite Hbc.
  - apply str_cmp_eq in Hbc; subst; now rewrite Hab.
  - now rewrite (str_cmp_trans_lt _ _ _ Hab Hbc).
Qed.

Lemma str_ltb_leb a b : str_ltb a b = true <-> str_leb a b = true /\ a <> b.
Proof.
  unfold str_ltb, str_leb; destruct (str_cmp a b) eqn:E; split; try discriminate.
  - apply str_cmp_eq in E; subst; intros [_ H]; congruence.
  - intros _; split; [reflexivity|intros ->; rewrite str_cmp_refl in E; discriminate].
  - reflexivity.
  - intros [H _]; discriminate.
Qed.

(** ** Maps *)
Section Maps.
  Context {K V : Type} (eqb : K -> K -> bool).
  Hypothesis eqb_spec : forall a b, eqb a b = true <-> a = b.

  Lemma eqb_refl' k : eqb k k = true.
  Proof. now apply eqb_spec. Qed.

  Lemma eqb_neq k k' : k <> k' -> eqb k k' = false.
  Proof. intros H; destruct (eqb k k') eqn:E; [apply eqb_spec in E; congruence|reflexivity]. Qed.

  Lemma lookup_insert_eq k (v : V) m : lookup eqb k (insert eqb k v m) = Some v.
  Proof.
    induction m as [|[k' v'] m IH]; simpl.
    - now rewrite eqb_refl'.
    - destruct (eqb k k') eqn:E; simpl; rewrite E; [reflexivity|exact IH].
  Qed.

  Lemma lookup_insert_ne k k' (v : V) m :
    k <> k' -> lookup eqb k (insert eqb k' v m) = lookup eqb k m.
  Proof.
    intros Hne; induction m as [|[k0 v0] m IH]; simpl.
    - now rewrite eqb_neq.
    - destruct (eqb k' k0) eqn:E; simpl.
      + apply eqb_spec in E; subst; now rewrite eqb_neq.
      + destruct (eqb k k0); [reflexivity|exact IH].
  Qed.

  Lemma lookup_in k (v : V) m : lookup eqb k m = Some v -> In (k, v) m.
  Proof.
    induction m as [|[k0 v0] m IH]; simpl; [discriminate|].
    destruct (eqb k k0) eqn:E; intros H.
    - apply eqb_spec in E; injection H as ->; subst; now left.
    - right; auto.
  Qed.

  Lemma lookup_none k (m : list (K * V)) : lookup eqb k m = None <-> ~ In k (map fst m).
  Proof.
    induction m as [|[k0 v0] m IH]; simpl; [split; [intros _ []|reflexivity]|].
    destruct (eqb k k0) eqn:E.
    - apply eqb_spec in E; subst; split; [discriminate|intros H; exfalso; apply H; now left].
    - rewrite IH; split; intros H; [intros [->|Hin]; [rewrite eqb_refl' in E; discriminate|tauto]|tauto].
  Qed.

  Lemma lookup_some_key k (m : list (K * V)) :
    In k (map fst m) <-> exists v, lookup eqb k m = Some v.
  Proof.
    destruct (lookup eqb k m) as [v|] eqn:E.
    - split; [intros _; now exists v|intros _].
      apply lookup_in in E; apply in_map_iff; exists (k, v); auto.
    - apply lookup_none in E; split; [tauto|intros [v Hv]; discriminate].
  Qed.

  Lemma in_lookup k (v : V) m : NoDup (map fst m) -> In (k, v) m -> lookup eqb k m = Some v.
  Proof.
    induction m as [|[k0 v0] m IH]; simpl; [tauto|].
    intros Hnd [H|H].
    - injection H as -> ->; now rewrite eqb_refl'.
    - inversion Hnd as [|? ? Hni Hnd']; subst.
      rewrite eqb_neq; [auto|].
      intros ->; apply Hni, in_map_iff; exists (k0, v); auto.
  Qed.

  Lemma insert_keys k (v : V) m :
    map fst (insert eqb k v m) =
      if has_key eqb k m then map fst m else map fst m ++ [k].
  Proof.
    unfold has_key; induction m as [|[k0 v0] m IH]; simpl; [reflexivity|].
    destruct (eqb k k0) eqn:E; simpl; [reflexivity|].
    rewrite IH; destruct (is_some (lookup eqb k m)); reflexivity.
  Qed.

  Lemma insert_in_keys k k' (v : V) m :
    In k' (map fst (insert eqb k v m)) <-> k' = k \/ In k' (map fst m).
  Proof.
    rewrite insert_keys; unfold has_key; destruct (lookup eqb k m) as [x|] eqn:E; simpl.
    - split; [tauto|intros [->|H]; [|exact H]].
      apply lookup_some_key; now exists x.
    - rewrite in_app_iff; simpl; split; [intros [H|[H|[]]]; auto|intros [H|H]; auto].
  Qed.

  Lemma insert_nodup k (v : V) m : NoDup (map fst m) -> NoDup (map fst (insert eqb k v m)).
  Proof.
    intros H; rewrite insert_keys; unfold has_key.
    destruct (lookup eqb k m) as [x|] eqn:E; simpl; [exact H|].
    apply lookup_none in E.
    apply (Permutation_NoDup (l := k :: map fst m)); [apply Permutation_cons_append|].
    now constructor.
  Qed.
End Maps.

Lemma string_eqb_spec a b : String.eqb a b = true <-> a = b.
Proof. apply String.eqb_eq. Qed.

Section Incr.
  Context {K : Type} (eqb : K -> K -> bool).
  Hypothesis eqb_spec : forall a b, eqb a b = true <-> a = b.

  Lemma sum_counts_incr k (m : list (K * nat)) :
    sum_counts (incr eqb k m) = S (sum_counts m).
  Proof.
    unfold incr; induction m as [|[k0 n] m IH]; simpl; [reflexivity|].
    destruct (eqb k k0) eqn:E; simpl; [reflexivity|].
    fold (sum_counts m); fold (sum_counts (insert eqb k (S (opt_get (lookup eqb k m) 0)) m)).
    rewrite IH; lia.
  Qed.

  Lemma lookup_incr k k' (m : list (K * nat)) :
    opt_get (lookup eqb k (incr eqb k' m)) 0 =
      (if eqb k k' then 1 else 0) + opt_get (lookup eqb k m) 0.
  Proof.
    unfold incr; destruct (eqb k k') eqn:E.
    - apply eqb_spec in E; subst; now rewrite lookup_insert_eq.
    - rewrite lookup_insert_ne; [reflexivity|exact eqb_spec|].
      intros ->; rewrite (proj2 (eqb_spec k' k') eq_refl) in E; discriminate.
  Qed.

  Lemma incr_in_keys k k' (m : list (K * nat)) :
    In k' (map fst (incr eqb k m)) <-> k' = k \/ In k' (map fst m).
  Proof. apply insert_in_keys; exact eqb_spec. Qed.

  Lemma incr_nodup k (m : list (K * nat)) :
    NoDup (map fst m) -> NoDup (map fst (incr eqb k m)).
  Proof. apply insert_nodup; exact eqb_spec. Qed.
End Incr.

(** ** Stable sort *)
Section Sort.
  Context {A : Type} (leb : A -> A -> bool).

  Lemma sort_insert_perm x l : Permutation (x :: l) (sort_insert leb x l).
  Proof.
    induction l as [|y l IH]; simpl; [reflexivity|].
    destruct (leb x y); [reflexivity|].
    rewrite perm_swap; now constructor.
  Qed.

  Lemma stable_sort_perm l : Permutation l (stable_sort leb l).
  Proof.
    induction l as [|x l IH]; simpl; [reflexivity|].
    rewrite <- sort_insert_perm; now constructor.
  Qed.

  Lemma stable_sort_in x l : In x (stable_sort leb l) <-> In x l.
  Proof.
    split; apply Permutation_in; [symmetry|]; apply stable_sort_perm.
  Qed.

  Lemma stable_sort_length l : length (stable_sort leb l) = length l.
  Proof. symmetry; apply Permutation_length, stable_sort_perm. Qed.

  Definition le (x y : A) : Prop := leb x y = true.

  Section Total.
    Hypothesis total : forall x y, leb x y = true \/ leb y x = true.
    Hypothesis trans : forall x y z, leb x y = true -> leb y z = true -> leb x z = true.

    Lemma sort_insert_sorted x l : StronglySorted le l -> StronglySorted le (sort_insert leb x l).
    Proof.
      induction l as [|y l IH]; simpl; intros Hs.
      - constructor; constructor.
      - inversion Hs as [|? ? Hs' Hf]; subst.
        destruct (leb x y) eqn:E.
        + constructor; [exact Hs|].
          constructor; [exact E|].
          apply (Forall_impl _ (P := le y)); [|exact Hf].
          intros z Hz; unfold le in *; eauto.
        + constructor; [now apply IH|].
          assert (Hyx : leb y x = true) by (destruct (total x y); congruence).
          apply Forall_forall; intros z Hz.
          apply (Permutation_in _ (Permutation_sym (sort_insert_perm x l))) in Hz.
          destruct Hz as [->|Hz]; [exact Hyx|].
          rewrite Forall_forall in Hf; now apply Hf.
    Qed.

    Lemma stable_sort_sorted l : StronglySorted le (stable_sort leb l).
    Proof.
      induction l as [|x l IH]; simpl; [constructor|now apply sort_insert_sorted].
    Qed.
  End Total.

  Lemma sort_insert_head x l : Forall (fun y => leb x y = true) l -> sort_insert leb x l = x :: l.
  Proof.
    destruct l as [|y l]; simpl; intros H; [reflexivity|].
    inversion H as [|? ? Hy _]; subst; now rewrite Hy.
  Qed.

  (** Sorting a sorted list is the identity. *)
  Lemma stable_sort_id l : StronglySorted le l -> stable_sort leb l = l.
  Proof.
    induction l as [|x l IH]; simpl; intros H; [reflexivity|].
    inversion H as [|? ? Hs Hf]; subst.
    rewrite IH; [|exact Hs]. apply sort_insert_head; exact Hf.
  Qed.

  (** Antisymmetry on the elements makes the sorted list unique. *)
  Lemma sorted_perm_unique l1 l2 :
    (forall x y, In x l1 -> In y l1 -> leb x y = true -> leb y x = true -> x = y) ->
    StronglySorted le l1 -> StronglySorted le l2 -> Permutation l1 l2 -> l1 = l2.
  Proof.
    revert l2; induction l1 as [|x l1 IH]; intros l2 Has Hs1 Hs2 HP.
    - apply Permutation_nil in HP; now subst.
    - destruct l2 as [|y l2]; [symmetry in HP; apply Permutation_nil in HP; discriminate|].
      inversion Hs1 as [|? ? Hs1' Hf1]; inversion Hs2 as [|? ? Hs2' Hf2]; subst.
      assert (Hxy : x = y).
      { assert (Hx : In x (y :: l2)) by (eapply Permutation_in; [exact HP|now left]).
        assert (Hy : In y (x :: l1)) by (eapply Permutation_in; [symmetry; exact HP|now left]).
        destruct Hx as [->|Hx]; [reflexivity|].
        destruct Hy as [->|Hy]; [reflexivity|].
        rewrite Forall_forall in Hf1, Hf2.
        apply Has; [now left|now right| |].
        - now apply Hf1.
        - now apply Hf2. }
      subst y; f_equal; apply IH; auto.
      + intros a b Ha Hb; apply Has; now right.
      + eapply Permutation_cons_inv; exact HP.
  Qed.

  Lemma stable_sort_perm_invariant l1 l2 :
    (forall x y, leb x y = true \/ leb y x = true) ->
    (forall x y z, leb x y = true -> leb y z = true -> leb x z = true) ->
    (forall x y, In x l1 -> In y l1 -> leb x y = true -> leb y x = true -> x = y) ->
    Permutation l1 l2 -> stable_sort leb l1 = stable_sort leb l2.
  Proof.
    intros Ht Htr Has HP; apply sorted_perm_unique.
    - intros x y Hx Hy; apply Has; now apply stable_sort_in.
    - now apply stable_sort_sorted.
    - now apply stable_sort_sorted.
    - rewrite <- !stable_sort_perm; exact HP.
  Qed.

  (** Stability: elements equivalent to a given one keep their input order. *)
  Lemma sort_insert_filter_stable (p : A -> bool) x l :
    (forall y, In y l -> p x = true -> p y = true -> leb x y = true) ->
    filter p (sort_insert leb x l) = filter p (x :: l).
  Proof.
    induction l as [|y l IH]; intros H; [reflexivity|].
    simpl sort_insert. destruct (leb x y) eqn:E; [reflexivity|].
    cbn [filter] in *.
    rewrite IH by (intros z Hz; apply H; now right).
    destruct (p x) eqn:Hx, (p y) eqn:Hy; try reflexivity.
    rewrite (H y (or_introl eq_refl) eq_refl Hy) in E; discriminate.
  Qed.

  Lemma stable_sort_stable (p : A -> bool) l :
    (forall x y, p x = true -> p y = true -> leb x y = true) ->
    filter p (stable_sort leb l) = filter p l.
  Proof.
    intros H; induction l as [|x l IH]; simpl; [reflexivity|].
    rewrite sort_insert_filter_stable by (intros; auto).
    cbn [filter]; now rewrite IH.
  Qed.
End Sort.

(** ** count_if *)
Lemma count_if_app {A} (p : A -> bool) l1 l2 :
  count_if p (l1 ++ l2) = count_if p l1 + count_if p l2.
Proof. unfold count_if; now rewrite filter_app, app_length. Qed.

Lemma count_if_cons {A} (p : A -> bool) x l :
  count_if p (x :: l) = (if p x then 1 else 0) + count_if p l.
Proof. unfold count_if; simpl; destruct (p x); reflexivity. Qed.

Lemma count_if_le {A} (p : A -> bool) l : count_if p l <= length l.
Proof.
  induction l as [|x l IH]; [apply le_n|].
  rewrite count_if_cons; simpl; destruct (p x); lia.
Qed.

Lemma count_if_pos {A} (p : A -> bool) l : 0 < count_if p l <-> exists x, In x l /\ p x = true.
Proof.
  induction l as [|x l IH].
  - split; [unfold count_if; simpl; lia|intros (y & [] & _)].
  - rewrite count_if_cons; destruct (p x) eqn:E.
    + split; [intros _; exists x; split; [now left|exact E]|lia].
    + simpl; rewrite IH; split.
      * intros (y & Hy & Hp); exists y; split; [now right|exact Hp].
      * intros (y & [->|Hy] & Hp); [congruence|exists y; auto].
Qed.

Lemma count_if_perm {A} (p : A -> bool) l1 l2 :
  Permutation l1 l2 -> count_if p l1 = count_if p l2.
Proof.
  induction 1; rewrite ?count_if_cons; lia || (try congruence).
Qed.

Lemma filter_perm {A} (p : A -> bool) l1 l2 :
  Permutation l1 l2 -> Permutation (filter p l1) (filter p l2).
Proof.
  induction 1; simpl.
  - constructor.
  - destruct (p x); [now constructor|assumption].
  - destruct (p x), (p y); try (constructor; reflexivity); reflexivity.
  - etransitivity; eassumption.
Qed.

Lemma existsb_perm {A} (p : A -> bool) l1 l2 :
  Permutation l1 l2 -> existsb p l1 = existsb p l2.
Proof.
  intros HP; apply eq_true_iff_eq; rewrite !existsb_exists.
  split; intros (x & Hx & Hp); exists x; split; auto.
  - eapply Permutation_in; eassumption.
  - eapply Permutation_in; [symmetry; eassumption|assumption].
Qed.
