(** Proofs for C12-C14. *)
From Coq Require Import String Ascii Bool Arith Lia ZArith NArith Permutation Sorted List.
From Verif Require Import Base BaseProofs BaseProofs2 Json F64 DiffModel DiffSpec.
Import ListNotations.
Local Open Scope list_scope.

(** * Float comparison *)

(** A lawful comparison of float values: NaN is equal to itself and greater than the rest. *)
Definition v_cmp (a b : fval) : comparison :=
  match f_cmp a b with
  | Some o => o
  | None => if is_nan a then (if is_nan b then Eq else Gt) else Lt
  end.

Lemma v_cmp_opp a b : v_cmp b a = CompOpp (v_cmp a b).
Proof.
  destruct a as [|[]|x], b as [|[]|y]; try reflexivity. unfold v_cmp; simpl. apply Z.compare_antisym.
Qed.
Lemma v_cmp_eq a b : v_cmp a b = Eq <-> a = b.
Proof.
  destruct a as [|[]|x], b as [|[]|y]; unfold v_cmp; simpl; split; try discriminate; try reflexivity.
  - intros H. apply Z.compare_eq in H as ->. reflexivity.
  - intros [= ->]. apply Z.compare_refl.
Qed.
Lemma v_cmp_lt a b c : v_cmp a b = Lt -> v_cmp b c = Lt -> v_cmp a c = Lt.
Proof.
  destruct a as [|[]|x], b as [|[]|y], c as [|[]|z]; unfold v_cmp; simpl; try discriminate; try reflexivity.
  rewrite !Z.compare_lt_iff. lia.
Qed.
Lemma f_cmp_v a b : is_nan a = false -> is_nan b = false -> f_cmp a b = Some (v_cmp a b).
Proof. destruct a as [|[]|x], b as [|[]|y]; simpl; try discriminate; reflexivity. Qed.

Lemma of_cmp_v a b : of_cmp a b = v_cmp (decode a) (decode b).
Proof. reflexivity. Qed.

Lemma of_eqb_cmp a b : of_eqb a b = true <-> of_cmp a b = Eq.
Proof.
  unfold of_eqb, of_cmp, f_eqb.
  destruct (decode a) as [|[]|x], (decode b) as [|[]|y]; simpl; split; try discriminate; try reflexivity;
    destruct (Z.compare x y); auto; discriminate.
Qed.

(** * Comparisons *)
Lemma forall2_length {A B} (R : A -> B -> Prop) l l' : Forall2 R l l' -> length l = length l'.
Proof. induction 1; simpl; congruence. Qed.

(** The consistency of a comparison at a point. *)
Definition tri {A} (cmp : A -> A -> comparison) (a : A) : Prop :=
  forall b c, (cmp a b = Eq -> cmp a c = cmp b c) /\
              (cmp b c = Eq -> cmp a c = cmp a b) /\
              (cmp a b = Lt -> cmp b c = Lt -> cmp a c = Lt).
Definition opp {A} (cmp : A -> A -> comparison) (a : A) : Prop := forall b, cmp b a = CompOpp (cmp a b).

Definition lex {A} (cmp : A -> A -> comparison) : list A -> list A -> comparison :=
  fix go (x y : list A) : comparison :=
  match x, y with
  | u :: x', v :: y' => match cmp u v with Eq => go x' y' | o => o end
  | _, _ => Eq
  end.
Definition len_lex {A} (cmp : A -> A -> comparison) (x y : list A) : comparison :=
  match Nat.compare (length x) (length y) with Eq => lex cmp x y | o => o end.

Lemma opp_tri {A} (cmp : A -> A -> comparison) :
  (forall a b, cmp b a = CompOpp (cmp a b)) ->
  (forall a b, cmp a b = Eq <-> a = b) ->
  (forall a b c, cmp a b = Lt -> cmp b c = Lt -> cmp a c = Lt) ->
  forall a, tri cmp a.
Proof.
  intros _ He Ht a b c. split; [|split].
  - intros H. apply He in H as ->. reflexivity.
  - intros H. apply He in H as ->. reflexivity.
  - apply Ht.
Qed.

Lemma v_tri a : tri v_cmp a.
Proof. apply opp_tri; [apply v_cmp_opp|apply v_cmp_eq|apply v_cmp_lt]. Qed.
Lemma str_tri a : tri str_cmp a.
Proof.
  apply opp_tri; [intros x y; apply str_cmp_antisym|apply str_cmp_eq|apply str_cmp_trans_lt].
Qed.
Lemma nat_tri a : tri Nat.compare a.
Proof.
  apply opp_tri; [intros; apply Nat.compare_antisym|apply Nat.compare_eq_iff|].
  intros x y z. rewrite !Nat.compare_lt_iff. lia.
Qed.

Lemma lex_opp {A} (cmp : A -> A -> comparison) x : Forall (opp cmp) x ->
  forall y, length x = length y -> lex cmp y x = CompOpp (lex cmp x y).
Proof.
  induction 1 as [|u x Hu _ IH]; intros [|v y] L; simpl; try reflexivity.
  rewrite (Hu v). destruct (cmp u v); simpl; try reflexivity. apply IH. simpl in L; lia.
Qed.

Lemma lex_tri {A} (cmp : A -> A -> comparison) x : Forall (tri cmp) x ->
  forall y z, length x = length y -> length y = length z ->
    (lex cmp x y = Eq -> lex cmp x z = lex cmp y z) /\
    (lex cmp y z = Eq -> lex cmp x z = lex cmp x y) /\
    (lex cmp x y = Lt -> lex cmp y z = Lt -> lex cmp x z = Lt).
Proof.
  induction 1 as [|u x Hu _ IH]; intros [|v y] [|w z] L1 L2; simpl in *; try discriminate; [auto|].
  destruct (IH y z) as (I1 & I2 & I3); [lia|lia|].
  destruct (Hu v w) as (H1 & H2 & H3).
  destruct (cmp u v) eqn:Euv.
  - rewrite (H1 eq_refl). destruct (cmp v w); auto. split; [intros; reflexivity|]. split; [discriminate|auto].
    split; [reflexivity|]. split; [discriminate|auto].
  - split; [discriminate|]. destruct (cmp v w) eqn:Evw.
    + rewrite (H2 eq_refl). auto.
    + rewrite (H3 eq_refl eq_refl). split; [discriminate|auto].
    + split; discriminate.
  - split; [discriminate|]. split; [|discriminate]. destruct (cmp v w) eqn:Evw; try discriminate.
    rewrite (H2 eq_refl). auto.
Qed.

Lemma len_lex_opp {A} (cmp : A -> A -> comparison) x : Forall (opp cmp) x -> opp (len_lex cmp) x.
Proof.
  intros H y. unfold len_lex. rewrite (Nat.compare_antisym (length x) (length y)).
  destruct (Nat.compare (length x) (length y)) eqn:E; simpl; try reflexivity.
  apply lex_opp; [exact H|]. apply Nat.compare_eq, E.
Qed.

Lemma len_lex_tri {A} (cmp : A -> A -> comparison) x : Forall (tri cmp) x -> tri (len_lex cmp) x.
Proof.
  intros H y z. unfold len_lex.
  destruct (nat_tri (length x) (length y) (length z)) as (N1 & N2 & N3).
  destruct (Nat.compare (length x) (length y)) eqn:Exy.
  - rewrite (N1 eq_refl). destruct (Nat.compare (length y) (length z)) eqn:Eyz.
    + apply lex_tri; [exact H| |]; apply Nat.compare_eq; assumption.
    + split; [reflexivity|]. split; [discriminate|auto].
    + split; [reflexivity|]. split; [discriminate|auto].
  - split; [discriminate|]. destruct (Nat.compare (length y) (length z)) eqn:Eyz.
    + rewrite (N2 eq_refl). auto.
    + rewrite (N3 eq_refl eq_refl). split; [discriminate|auto].
    + split; discriminate.
  - split; [discriminate|]. split; [|discriminate].
    destruct (Nat.compare (length y) (length z)) eqn:Eyz; try discriminate.
    rewrite (N2 eq_refl). auto.
Qed.

Definition pcmp (cmp : json -> json -> comparison) (x y : string * json) : comparison :=
  match str_cmp (fst x) (fst y) with Eq => cmp (snd x) (snd y) | o => o end.

Lemma pcmp_opp cmp p : opp cmp (snd p) -> opp (pcmp cmp) p.
Proof.
  intros H q. unfold pcmp. rewrite (str_cmp_antisym (fst q) (fst p)).
  destruct (str_cmp (fst p) (fst q)); simpl; try reflexivity. apply H.
Qed.
Lemma pcmp_tri cmp p : tri cmp (snd p) -> tri (pcmp cmp) p.
Proof.
  intros H q r. unfold pcmp. destruct (str_tri (fst p) (fst q) (fst r)) as (N1 & N2 & N3).
  destruct (H (snd q) (snd r)) as (H1 & H2 & H3).
  destruct (str_cmp (fst p) (fst q)) eqn:E1.
  - rewrite (N1 eq_refl). destruct (str_cmp (fst q) (fst r)) eqn:E2; auto;
      (split; [reflexivity|]; split; [discriminate|auto]).
  - split; [discriminate|]. destruct (str_cmp (fst q) (fst r)) eqn:E2.
    + rewrite (N2 eq_refl). auto.
    + rewrite (N3 eq_refl eq_refl). split; [discriminate|auto].
    + split; discriminate.
  - split; [discriminate|]. split; [|discriminate].
    destruct (str_cmp (fst q) (fst r)) eqn:E2; try discriminate. rewrite (N2 eq_refl). auto.
Qed.

Section Lawful.
  Variable nc : num -> num -> comparison.
  Hypothesis nc_opp : forall a, opp nc a.
  Hypothesis nc_tri : forall a, tri nc a.
  Notation cmp := (compare_by nc).

  Lemma cmp_arr x y : cmp (JArr x) (JArr y) = len_lex cmp x y.
  Proof. reflexivity. Qed.
  Lemma cmp_obj x y : cmp (JObj x) (JObj y) = len_lex (pcmp cmp) x y.
  Proof.
    unfold len_lex. simpl. destruct (Nat.compare (length x) (length y)); try reflexivity.
    revert y. induction x as [|[k u] x IH]; intros [|[k' v] y]; try reflexivity.
    simpl. unfold pcmp. simpl. destruct (str_cmp k k'); try reflexivity.
    destruct (cmp u v); try reflexivity. apply IH.
  Qed.

  Lemma cmp_opp a : opp cmp a.
  Proof.
    induction a as [|x|x|x|x IH|x IH] using json_ind2; intros b; destruct b; try reflexivity.
    - destruct x, b; reflexivity.
    - apply nc_opp.
    - simpl. apply str_cmp_antisym.
    - rewrite !cmp_arr. apply len_lex_opp, IH.
    - rewrite !cmp_obj. apply len_lex_opp. eapply Forall_impl; [|exact IH]. intros p. apply pcmp_opp.
  Qed.

  Lemma cmp_tri a : tri cmp a.
  Proof.
    Ltac fin := split; [|split]; intros; solve [reflexivity | discriminate | assumption | congruence].
    induction a as [|x|x|x|x IH|x IH] using json_ind2; intros b c.
    - destruct b, c; simpl; fin.
    - destruct b, c; simpl; try fin. destruct x, b, b0; simpl; fin.
    - destruct b, c; simpl; try fin. apply nc_tri.
    - destruct b, c; simpl; try fin. apply str_tri.
    - destruct b, c; rewrite ?cmp_arr; try (simpl; fin). apply len_lex_tri, IH.
    - destruct b, c; rewrite ?cmp_obj; try (simpl; fin).
      apply len_lex_tri. eapply Forall_impl; [|exact IH]. intros p. apply pcmp_tri.
  Qed.

  Lemma leb_total a b : leb_by nc a b = true \/ leb_by nc b a = true.
  Proof. unfold leb_by. rewrite (cmp_opp a b). destruct (cmp a b); simpl; auto. Qed.

  Lemma leb_trans a b c : leb_by nc a b = true -> leb_by nc b c = true -> leb_by nc a c = true.
  Proof.
    unfold leb_by. destruct (cmp_tri a b c) as (H1 & H2 & H3).
    destruct (cmp a b) eqn:E1; try discriminate; intros _.
    - rewrite (H1 eq_refl). auto.
    - destruct (cmp b c) eqn:E2; try discriminate; intros _; [rewrite (H2 eq_refl)|rewrite (H3 eq_refl eq_refl)]; reflexivity.
  Qed.

  Lemma leb_both a b : leb_by nc a b = true /\ leb_by nc b a = true <-> cmp a b = Eq.
  Proof.
    unfold leb_by. rewrite (cmp_opp a b). destruct (cmp a b); simpl; split; auto; try discriminate;
      intros []; discriminate.
  Qed.

  Notation canon := (canon_by nc).

  (** Equal-rank canonical forms. *)
  Lemma canon_equiv a : forall b, well_formed a -> same_upto_order a b -> cmp (canon a) (canon b) = Eq.
  Proof.
    induction a as [|x|x|x|x IH|x IH] using json_ind2; intros b W S; inversion S; subst; simpl.
    - reflexivity.
    - destruct x; reflexivity.
    - pose proof (nc_opp x x) as H. destruct (nc x x); try discriminate; reflexivity.
    - apply str_cmp_refl.
    - inversion W as [| | | |? WF|]; subst.
      pose proof (sort_equiv (leb_by nc) leb_total leb_trans (map canon x) (map canon l') (map canon l'')) as SE.
      assert (HF : Forall2 (fun u v => leb_by nc u v = true /\ leb_by nc v u = true) (map canon x) (map canon l')).
      { clear - IH H0 WF nc_opp. induction H0 as [|u v x l' Huv _ IHF]; simpl; [constructor|].
        inversion IH; inversion WF; subst. constructor; [|apply IHF; assumption].
        apply leb_both. auto. }
      specialize (SE HF (Permutation_map canon H1)).
      change (cmp (JArr (stable_sort (leb_by nc) (map canon x))) (JArr (stable_sort (leb_by nc) (map canon l''))) = Eq).
      rewrite cmp_arr. unfold len_lex. rewrite (forall2_length _ _ _ SE), Nat.compare_refl.
      clear - SE nc_opp. induction SE as [|u v l1 l2 Huv _ IH]; simpl; [reflexivity|].
      apply leb_both in Huv as ->. exact IH.
    - inversion W as [| | | | |? WN WF]; subst.
      set (cp := fun kv : string * json => (fst kv, canon (snd kv))).
      change (cmp (JObj (bt_collect (map cp x))) (JObj (bt_collect (map cp m''))) = Eq).
      assert (Ek : map fst (map cp x) = map fst x) by (rewrite map_map; reflexivity).
      assert (HF : Forall2 (fun p q => fst p = fst q /\ cmp (snd p) (snd q) = Eq) (map cp x) (map cp m')).
      { clear - IH H0 WF. induction H0 as [|u v x l' [Hk Huv] _ IHF]; simpl; [constructor|].
        inversion IH; inversion WF; subst. constructor; [|apply IHF; assumption].
        split; [exact Hk|]. simpl. auto. }
      assert (Ek' : map fst (map cp m') = map fst (map cp x)).
      { clear - HF. induction HF as [|u v l l' [Hk _] _ IHF]; simpl; [reflexivity|]. congruence. }
      rewrite <- (bt_collect_perm_eq (map cp m') (map cp m''));
        [|rewrite Ek', Ek; exact WN|apply Permutation_map, H1].
      rewrite cmp_obj.
      assert (G : forall l l' acc acc' : list (string * json),
        Forall2 (fun p q => fst p = fst q /\ cmp (snd p) (snd q) = Eq) l l' ->
        Forall2 (fun p q => fst p = fst q /\ cmp (snd p) (snd q) = Eq) acc acc' ->
        Forall2 (fun p q => fst p = fst q /\ cmp (snd p) (snd q) = Eq)
          (fold_left (fun acc kv => bt_insert (fst kv) (snd kv) acc) l acc)
          (fold_left (fun acc kv => bt_insert (fst kv) (snd kv) acc) l' acc')).
      { clear. intros l l' acc acc' H. revert acc acc'.
        induction H as [|[k u] [k' v] l l' [Hk Hv] _ IH]; intros acc acc' HA; simpl; [exact HA|].
        apply IH. simpl in *. subst k'. clear - Hv HA.
        induction HA as [|[k1 u1] [k2 v2] a a' [Hk1 Hv1] HA IH]; simpl in *.
        - constructor; [auto|constructor].
        - subst k2. destruct (str_cmp k k1).
          + constructor; [auto|exact HA].
          + constructor; [auto|]. constructor; [auto|exact HA].
          + constructor; [auto|exact IH]. }
      specialize (G _ _ [] [] HF (Forall2_nil _)).
      fold (bt_collect (map cp x)) in G. fold (bt_collect (map cp m')) in G.
      unfold len_lex. rewrite (forall2_length _ _ _ G), Nat.compare_refl.
      clear - G. induction G as [|u v l1 l2 [Hk Huv] _ IH]; simpl; [reflexivity|].
      unfold pcmp at 1. rewrite Hk, str_cmp_refl, Huv. exact IH.
  Qed.

  Lemma canon_idem a : canon (canon a) = canon a.
  Proof.
    induction a as [|x|x|x|x IH|x IH] using json_ind2; try reflexivity; simpl; f_equal.
    - rewrite (map_ext_in canon (fun v => v)).
      + rewrite map_id. apply stable_sort_id, stable_sort_sorted; [apply leb_total|apply leb_trans].
      + intros v Hv. apply stable_sort_in, in_map_iff in Hv as (w & <- & Hw).
        rewrite Forall_forall in IH. apply IH, Hw.
    - set (cp := fun kv : string * json => (fst kv, canon (snd kv))) in *.
      change (bt_collect (map cp (bt_collect (map cp x))) = bt_collect (map cp x)).
      assert (E : map cp (bt_collect (map cp x)) = bt_collect (map cp x)).
      { assert (G : Forall (fun kv => canon (snd kv) = snd kv) (bt_collect (map cp x))).
        { assert (GI : forall k v (m : list (string * json)), canon v = v ->
             Forall (fun kv => canon (snd kv) = snd kv) m ->
             Forall (fun kv => canon (snd kv) = snd kv) (bt_insert k v m)).
          { intros k v m Hv. induction m as [|[k1 v1] m IHm]; intros Hm; simpl.
            - constructor; [exact Hv|constructor].
            - inversion Hm; subst. destruct (str_cmp k k1); constructor; auto. }
          unfold bt_collect.
          assert (GF : forall l acc, Forall (fun kv => canon (snd kv) = snd kv) l ->
             Forall (fun kv => canon (snd kv) = snd kv) acc ->
             Forall (fun kv => canon (snd kv) = snd kv) (fold_left (fun acc kv => bt_insert (fst kv) (snd kv) acc) l acc)).
          { induction l as [|[k v] l IHl]; intros acc Hl Ha; simpl; [exact Ha|].
            inversion Hl; subst. apply IHl; [assumption|]. apply GI; assumption. }
          apply GF; [|constructor]. clear - IH. induction IH as [|[k v] x Hv _ IHx]; simpl; constructor; auto. }
        clear - G. induction G as [|[k v] m Hv _ IHm]; simpl; [reflexivity|]. rewrite IHm. f_equal.
        unfold cp; simpl in *. rewrite Hv. reflexivity. }
      rewrite E. apply bt_collect_id, bt_collect_sorted.
  Qed.

  Lemma same_refl a : same_upto_order a a.
  Proof.
    induction a as [|x|x|x|x IH|x IH] using json_ind2; try constructor.
    - apply (SArr x x x); [|reflexivity]. induction IH; constructor; auto.
    - apply (SObj x x x); [|reflexivity]. induction IH; constructor; auto.
  Qed.

  Lemma canon_same a : well_formed a -> same_upto_order a (canon a).
  Proof.
    induction a as [|x|x|x|x IH|x IH] using json_ind2; intros W; inversion W; subst; simpl; try constructor.
    - apply (SArr x (map canon x)); [|apply stable_sort_perm].
      clear W. induction IH as [|u x Hu _ IHx]; simpl; [constructor|]. inversion H0; subst. constructor; auto.
    - apply (SObj x (map (fun kv => (fst kv, canon (snd kv))) x)).
      + clear W H0. induction IH as [|u x Hu _ IHx]; simpl; [constructor|]. inversion H1; subst. constructor; auto.
      + apply bt_collect_perm. rewrite map_map. exact H0.
  Qed.
End Lawful.

(** * Transfer to the code's number comparison on values without NaN *)
Definition num_cmp' (a b : num) : comparison := v_cmp (num_f64 a) (num_f64 b).

Lemma nc'_opp a : opp num_cmp' a.
Proof. intros b. apply v_cmp_opp. Qed.
Lemma nc'_tri a : tri num_cmp' a.
Proof. intros b c. apply v_tri. Qed.

Lemma cmp_agree a : forall b, well_formed a -> well_formed b -> compare_by num_cmp a b = compare_by num_cmp' a b.
Proof.
  induction a as [|x|x|x|x IH|x IH] using json_ind2; intros b Wa Wb; destruct b; try reflexivity.
  - simpl. inversion Wa; inversion Wb; subst. unfold num_cmp, num_cmp'. rewrite f_cmp_v by assumption. reflexivity.
  - rewrite !cmp_arr. unfold len_lex. destruct (Nat.compare _ _); try reflexivity.
    inversion Wa as [| | | |? Wx|]; inversion Wb as [| | | |? Wl|]; subst. clear Wa Wb.
    revert l Wl. induction IH as [|u x Hu _ IHx]; intros [|v l] Wl; simpl; try reflexivity.
    inversion Wx; inversion Wl; subst. rewrite (Hu v) by assumption. destruct (compare_by num_cmp' u v); auto.
  - rewrite !cmp_obj. unfold len_lex. destruct (Nat.compare _ _); try reflexivity.
    inversion Wa as [| | | | |? _ Wx]; inversion Wb as [| | | | |? _ Wl]; subst. clear Wa Wb.
    revert m Wl. induction IH as [|u x Hu _ IHx]; intros [|v l] Wl; simpl; try reflexivity.
    inversion Wx; inversion Wl; subst. unfold pcmp at 1 3. rewrite (Hu (snd v)) by assumption.
    destruct (str_cmp (fst u) (fst v)); try reflexivity. destruct (compare_by num_cmp' (snd u) (snd v)); auto.
Qed.

Lemma well_formed_same a : forall b, well_formed a -> same_upto_order a b -> well_formed b.
Proof.
  induction a as [|x|x|x|x IH|x IH] using json_ind2; intros b W S; inversion S; subst; try exact W.
  - inversion W as [| | | |? WF|]; subst. constructor.
    apply (Permutation_Forall H1). clear - IH H0 WF.
    induction H0 as [|u v x l Huv _ IHF]; constructor; inversion IH; inversion WF; subst; auto.
  - inversion W as [| | | | |? WN WF]; subst. constructor.
    + assert (E : map fst x = map fst m').
      { clear - H0. induction H0 as [|u v x l [Hk _] _ IHF]; simpl; [reflexivity|congruence]. }
      eapply Permutation_NoDup; [apply Permutation_map, H1|]. rewrite <- E. assumption.
    + apply (Permutation_Forall H1). clear - IH H0 WF.
      induction H0 as [|u v x l [Hk Huv] _ IHF]; constructor; inversion IH; inversion WF; subst; auto.
Qed.

Lemma well_formed_canon' a : well_formed a -> well_formed (canon_by num_cmp' a).
Proof. intros W. eapply well_formed_same; [exact W|]. apply canon_same; auto using nc'_opp, nc'_tri. Qed.

Lemma canon_agree a : well_formed a -> canonicalize_json a = canon_by num_cmp' a.
Proof.
  unfold canonicalize_json.
  induction a as [|x|x|x|x IH|x IH] using json_ind2; intros W; simpl; try reflexivity; inversion W; subst; f_equal.
  - assert (E : map (canon_by num_cmp) x = map (canon_by num_cmp') x).
    { apply map_ext_in. intros v Hv. rewrite Forall_forall in *. auto. }
    rewrite E. apply stable_sort_ext. intros u v Hu Hv.
    apply in_map_iff in Hu as (u0 & <- & Hu), Hv as (v0 & <- & Hv).
    unfold leb_by. rewrite Forall_forall in *. rewrite cmp_agree; [reflexivity| |]; apply well_formed_canon'; auto.
  - assert (E : map (fun kv => (fst kv, canon_by num_cmp (snd kv))) x = map (fun kv => (fst kv, canon_by num_cmp' (snd kv))) x).
    { apply map_ext_in. intros v Hv. rewrite Forall_forall in *. f_equal. auto. }
    rewrite E. reflexivity.
Qed.

(** * Comparison equality means equal values *)
Lemma cmp_eq_values a : forall b, compare_by num_cmp' a b = Eq -> same_values a b.
Proof.
  induction a as [|x|x|x|x IH|x IH] using json_ind2; intros b H; destruct b; try discriminate H.
  - constructor.
  - destruct x, b; try discriminate; constructor.
  - constructor. apply v_cmp_eq, H.
  - apply str_cmp_eq in H as ->. constructor.
  - rewrite cmp_arr in H. unfold len_lex in H. destruct (Nat.compare _ _) eqn:E; try discriminate.
    apply Nat.compare_eq in E. constructor. revert l H E.
    induction IH as [|u x Hu _ IHx]; intros [|v l] H E; simpl in *; try discriminate; [constructor|].
    destruct (compare_by num_cmp' u v) eqn:Ec; try discriminate. constructor; auto.
  - rewrite cmp_obj in H. unfold len_lex in H. destruct (Nat.compare _ _) eqn:E; try discriminate.
    apply Nat.compare_eq in E. constructor. revert m H E.
    induction IH as [|u x Hu _ IHx]; intros [|v l] H E; simpl in *; try discriminate; [constructor|].
    unfold pcmp at 1 in H. destruct (str_cmp (fst u) (fst v)) eqn:Ek; try discriminate.
    destruct (compare_by num_cmp' (snd u) (snd v)) eqn:Ec; try discriminate.
    constructor; [split; [apply str_cmp_eq, Ek|auto]|]. apply IHx; [exact H|]. now injection E.
Qed.

Lemma same_values_eq a : forall b (ns : list num),
  (forall n n', In n ns -> In n' ns -> num_f64 n = num_f64 n' -> n = n') ->
  incl (numbers a) ns -> incl (numbers b) ns -> same_values a b -> a = b.
Proof.
  induction a as [|x|x|x|x IH|x IH] using json_ind2; intros b ns Hn Ha Hb S; inversion S; subst; try reflexivity.
  - f_equal. apply Hn; [apply Ha; left; reflexivity|apply Hb; left; reflexivity|assumption].
  - f_equal. simpl in Ha, Hb. revert Ha Hb. clear S. induction H0 as [|u v x l Huv _ IHF]; intros Ha Hb; [reflexivity|].
    inversion IH; subst. simpl in Ha, Hb. f_equal.
    + apply (H1 v ns Hn); [| |exact Huv]; intros n Hin; [apply Ha|apply Hb]; apply in_or_app; auto.
    + apply IHF; [assumption| |]; intros n Hin; [apply Ha|apply Hb]; apply in_or_app; auto.
  - f_equal. simpl in Ha, Hb. revert Ha Hb. clear S. induction H0 as [|u v x l [Hk Huv] _ IHF]; intros Ha Hb; [reflexivity|].
    inversion IH; subst. simpl in Ha, Hb. f_equal.
    + destruct u, v; simpl in *; subst. f_equal.
      apply (H1 j0 ns Hn); [| |exact Huv]; intros n Hin; [apply Ha|apply Hb]; apply in_or_app; auto.
    + apply IHF; [assumption| |]; intros n Hin; [apply Ha|apply Hb]; apply in_or_app; auto.
Qed.

Lemma same_numbers a : forall b, same_upto_order a b -> Permutation (numbers a) (numbers b).
Proof.
  induction a as [|x|x|x|x IH|x IH] using json_ind2; intros b S; inversion S; subst; try reflexivity; simpl.
  - rewrite <- (Permutation_flat_map numbers H1). clear - IH H0.
    induction H0 as [|u v x l Huv _ IHF]; simpl; [reflexivity|]. inversion IH; subst.
    apply Permutation_app; auto.
  - rewrite <- (Permutation_flat_map (fun kv : string * json => numbers (snd kv)) H1). clear - IH H0.
    induction H0 as [|u v x l [Hk Huv] _ IHF]; simpl; [reflexivity|]. inversion IH; subst.
    apply Permutation_app; auto.
Qed.

(** * Results for the code *)
Lemma c13_laws a b c : well_formed a -> well_formed b -> well_formed c ->
  compare_values a a = Eq /\
  compare_values b a = CompOpp (compare_values a b) /\
  (compare_values a b <> Gt -> compare_values b c <> Gt -> compare_values a c <> Gt).
Proof.
  intros Wa Wb Wc. unfold compare_values. rewrite !cmp_agree by assumption.
  split; [|split].
  - pose proof (cmp_opp num_cmp' nc'_opp a a) as H. destruct (compare_by num_cmp' a a); try discriminate; reflexivity.
  - apply (cmp_opp num_cmp' nc'_opp).
  - intros H1 H2 H3. pose proof (leb_trans num_cmp' nc'_tri a b c) as T.
    unfold leb_by in T. rewrite H3 in T.
    destruct (compare_by num_cmp' a b), (compare_by num_cmp' b c); try congruence; discriminate (T eq_refl eq_refl).
Qed.

Lemma c13_eq a b : well_formed a -> well_formed b -> compare_values a b = Eq -> same_values a b.
Proof. intros Wa Wb. unfold compare_values. rewrite cmp_agree by assumption. apply cmp_eq_values. Qed.

Lemma c12_idem a : well_formed a -> canonicalize_json (canonicalize_json a) = canonicalize_json a.
Proof.
  intros W. rewrite (canon_agree a W), canon_agree by (apply well_formed_canon', W).
  apply canon_idem; auto using nc'_opp, nc'_tri.
Qed.

Lemma c12_keeps a : well_formed a -> same_upto_order a (canonicalize_json a).
Proof. intros W. rewrite canon_agree by exact W. apply canon_same, W. Qed.

Lemma c12_values a b : well_formed a -> same_upto_order a b ->
  same_values (canonicalize_json a) (canonicalize_json b).
Proof.
  intros W S. rewrite (canon_agree a W), (canon_agree b (well_formed_same _ _ W S)).
  apply cmp_eq_values, canon_equiv; auto using nc'_opp, nc'_tri.
Qed.

Lemma c12_equal a b : well_formed a -> no_ties a -> same_upto_order a b ->
  canonicalize_json a = canonicalize_json b.
Proof.
  intros W T S. apply (same_values_eq _ _ (numbers a) T); [| |apply c12_values; assumption].
  - intros n Hn. eapply Permutation_in; [symmetry; apply same_numbers, c12_keeps, W|exact Hn].
  - intros n Hn. eapply Permutation_in; [symmetry; apply same_numbers, S|].
    eapply Permutation_in; [symmetry; apply same_numbers, c12_keeps, (well_formed_same _ _ W S)|exact Hn].
Qed.

(** * OrderedF64 *)
Lemma c14_order a b c :
  of_cmp a a = Eq /\ of_cmp b a = CompOpp (of_cmp a b) /\
  (of_cmp a b <> Gt -> of_cmp b c <> Gt -> of_cmp a c <> Gt).
Proof.
  rewrite !of_cmp_v. split; [apply v_cmp_eq; reflexivity|]. split; [apply v_cmp_opp|].
  destruct (v_tri (decode a) (decode b) (decode c)) as (H1 & H2 & H3).
  destruct (v_cmp (decode a) (decode b)) eqn:E1, (v_cmp (decode b) (decode c)) eqn:E2; try congruence; intros _ _.
  - rewrite H1 by reflexivity; discriminate.
  - rewrite H1 by reflexivity; discriminate.
  - rewrite H2 by reflexivity; discriminate.
  - rewrite H3 by reflexivity; discriminate.
Qed.

(** Bits from fields. *)
Lemma bits_fields a : (a < 2 ^ 64)%N ->
  a = ((if f_sign a then 2 ^ 63 else 0) + f_exp a * 2 ^ 52 + f_mant a)%N.
Proof.
  intros H. unfold f_sign, f_exp, f_mant.
  assert (E1 : a = (2 ^ 52 * (a / 2 ^ 52) + a mod 2 ^ 52)%N) by (apply N.div_mod; discriminate).
  assert (E2 : (a / 2 ^ 52 = 2 ^ 11 * ((a / 2 ^ 52) / 2 ^ 11) + (a / 2 ^ 52) mod 2 ^ 11)%N)
    by (apply N.div_mod; discriminate).
  assert (E3 : ((a / 2 ^ 52) / 2 ^ 11 = a / 2 ^ 63)%N) by (rewrite N.div_div by discriminate; reflexivity).
  assert (E4 : (a / 2 ^ 63 = if N.testbit a 63 then 1 else 0)%N).
  { rewrite (N.testbit_eqb a 63).
    assert (L : (a / 2 ^ 63 < 2)%N) by (apply N.div_lt_upper_bound; [discriminate|exact H]).
    rewrite (N.mod_small _ 2) by exact L.
    clear - L. generalize dependent (a / 2 ^ 63)%N. intros n L.
    destruct (N.eqb_spec n 1) as [->|E]; [reflexivity|lia]. }
  rewrite E3, E4 in E2. clear E3 E4.
  destruct (N.testbit a 63); change (2 ^ 63)%N with 9223372036854775808%N;
    change (2 ^ 52)%N with 4503599627370496%N in *; change (2 ^ 11)%N with 2048%N in *; lia.
Qed.

Definition mag (e m : N) : Z :=
  if N.eqb e 0 then Z.of_N m else (Z.of_N (2 ^ 52 + m) * 2 ^ (Z.of_N e - 1))%Z.

Lemma mag_lt e m e' m' : (m < 2 ^ 52)%N -> (e < e')%N -> (mag e m < mag e' m')%Z.
Proof.
  intros Hm He. unfold mag. destruct (N.eqb_spec e' 0) as [->|N']; [lia|].
  assert (Hp : (1 <= 2 ^ (Z.of_N e' - 1))%Z).
  { apply (Z.pow_le_mono_r 2 0 (Z.of_N e' - 1)); lia. }
  assert (H52 : (Z.of_N (2 ^ 52 + m') >= Z.of_N (2 ^ 52))%Z) by lia.
  destruct (N.eqb_spec e 0) as [->|N0].
  - assert (Z.of_N m < Z.of_N (2 ^ 52))%Z by lia. nia.
  - assert (Hq : (2 * 2 ^ (Z.of_N e - 1) <= 2 ^ (Z.of_N e' - 1))%Z).
    { rewrite <- Z.pow_succ_r by lia. apply Z.pow_le_mono_r; lia. }
    assert (H53 : (Z.of_N (2 ^ 52 + m) < 2 * Z.of_N (2 ^ 52))%Z) by lia.
    assert (0 < 2 ^ (Z.of_N e - 1))%Z by (apply Z.pow_pos_nonneg; lia).
    set (x := (2 ^ (Z.of_N e - 1))%Z) in *. set (y := (2 ^ (Z.of_N e' - 1))%Z) in *.
    set (A := Z.of_N (2 ^ 52 + m)) in *. set (B := Z.of_N (2 ^ 52 + m')) in *. set (C := Z.of_N (2 ^ 52)) in *.
    assert (0 < C)%Z by reflexivity.
    apply Z.lt_le_trans with (2 * C * x)%Z; [apply Z.mul_lt_mono_pos_r; assumption|].
    apply Z.le_trans with (C * y)%Z; [|apply Z.mul_le_mono_nonneg_r; lia].
    replace (2 * C * x)%Z with (C * (2 * x))%Z by ring. apply Z.mul_le_mono_nonneg_l; lia.
Qed.

Lemma mag_inj e m e' m' : (m < 2 ^ 52)%N -> (m' < 2 ^ 52)%N -> mag e m = mag e' m' -> e = e' /\ m = m'.
Proof.
  intros Hm Hm' H. destruct (N.lt_trichotomy e e') as [L|[E|L]].
  - pose proof (mag_lt e m e' m' Hm L). lia.
  - subst e'. split; [reflexivity|]. unfold mag in H. destruct (N.eqb_spec e 0); [lia|].
    apply Z.mul_reg_r in H; [lia|].
    assert (0 < 2 ^ (Z.of_N e - 1))%Z by (apply Z.pow_pos_nonneg; lia). lia.
  - pose proof (mag_lt e' m' e m Hm' L). lia.
Qed.

Lemma mag_nonneg e m : (0 <= mag e m)%Z.
Proof.
  unfold mag. destruct (N.eqb e 0); [lia|].
  apply Z.mul_nonneg_nonneg; [lia|]. apply Z.pow_nonneg. lia.
Qed.

Lemma decode_mag b : decode b =
  if N.eqb (f_exp b) 2047 then (if N.eqb (f_mant b) 0 then FInf (f_sign b) else FNaN)
  else FFin (if f_sign b then - mag (f_exp b) (f_mant b) else mag (f_exp b) (f_mant b)).
Proof. reflexivity. Qed.

Lemma f_mant_lt b : (f_mant b < 2 ^ 52)%N.
Proof. apply N.mod_lt. discriminate. Qed.

Lemma decode_inj a b : (a < 2 ^ 64)%N -> (b < 2 ^ 64)%N -> decode a = decode b ->
  is_nan (decode a) = false -> decode a <> FFin 0 -> a = b.
Proof.
  intros Ha Hb H Hn Hz.
  assert (G : f_sign a = f_sign b /\ f_exp a = f_exp b /\ f_mant a = f_mant b).
  { rewrite !decode_mag in H. rewrite decode_mag in Hn, Hz.
    pose proof (mag_nonneg (f_exp a) (f_mant a)) as Pa. pose proof (mag_nonneg (f_exp b) (f_mant b)) as Pb.
    destruct (N.eqb_spec (f_exp a) 2047) as [Ea|Ea], (N.eqb_spec (f_exp b) 2047) as [Eb|Eb].
    - destruct (N.eqb_spec (f_mant a) 0) as [Ma|]; [|discriminate].
      destruct (N.eqb_spec (f_mant b) 0) as [Mb|]; [|discriminate].
      injection H as ->. rewrite Ea, Eb, Ma, Mb. auto.
    - destruct (N.eqb (f_mant a) 0); discriminate.
    - destruct (N.eqb (f_mant b) 0); discriminate.
    - injection H as H.
      assert (f_sign a = f_sign b /\ mag (f_exp a) (f_mant a) = mag (f_exp b) (f_mant b)) as [S M].
      { assert (mag (f_exp a) (f_mant a) <> 0%Z).
        { intros E. rewrite E in Hz. apply Hz. destruct (f_sign a); reflexivity. }
        destruct (f_sign a), (f_sign b); split; try reflexivity; lia. }
      split; [exact S|]. apply mag_inj; [apply f_mant_lt|apply f_mant_lt|exact M]. }
  destruct G as (G1 & G2 & G3). rewrite (bits_fields a Ha), (bits_fields b Hb), G1, G2, G3. reflexivity.
Qed.

Lemma f_eqb_eq a b : f_eqb a b = true <-> a = b /\ is_nan a = false.
Proof.
  unfold f_eqb. destruct a as [|[]|x], b as [|[]|y]; simpl; split; try discriminate; auto; try (intros []; discriminate).
  - destruct (Z.compare_spec x y); try discriminate. subst; auto.
  - intros [[= ->] _]. rewrite Z.compare_refl. reflexivity.
Qed.

Lemma decode_zero : decode 0 = FFin 0.
Proof. reflexivity. Qed.

Lemma c14_hash a b : (a < 2 ^ 64)%N -> (b < 2 ^ 64)%N -> of_eqb a b = true -> of_hash_bits a = of_hash_bits b.
Proof.
  intros Ha Hb H. apply of_eqb_cmp in H. rewrite of_cmp_v in H. apply v_cmp_eq in H.
  unfold of_hash_bits. rewrite decode_zero, <- H.
  destruct (is_nan (decode a)) eqn:En; [reflexivity|].
  destruct (f_eqb (decode a) (FFin 0)) eqn:Ez; [reflexivity|].
  apply decode_inj; try assumption.
  intros E. rewrite E in Ez. discriminate.
Qed.

Lemma c14_numeric a b o : f_cmp (decode a) (decode b) = Some o -> of_cmp a b = o.
Proof. unfold of_cmp. intros ->. reflexivity. Qed.

Lemma c14_nan a b : is_nan (decode a) = true -> of_cmp a b = if is_nan (decode b) then Eq else Gt.
Proof.
  intros H. unfold of_cmp. rewrite H. destruct (decode a); try discriminate. destruct (decode b); reflexivity.
Qed.

Lemma c13_rank a b : type_rank a < type_rank b -> compare_values a b = Lt.
Proof. destruct a, b; simpl; intros H; try reflexivity; lia. Qed.
