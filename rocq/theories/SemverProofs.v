(** The order of semantic versions is total. *)
From Coq Require Import String Ascii Bool Arith Lia NArith List.
From Verif Require Import Base BaseProofs Semver.
Import ListNotations.
Local Open Scope list_scope.

Lemma then_lt (c1 c2 c3 d1 d2 d3 : comparison) :
  (c1 = Eq -> c3 = c2) -> (c2 = Eq -> c3 = c1) -> (c1 = Lt -> c2 = Lt -> c3 = Lt) ->
  (d1 = Lt -> d2 = Lt -> d3 = Lt) ->
  match c1 with Eq => d1 | Lt => Lt | Gt => Gt end = Lt -> match c2 with Eq => d2 | Lt => Lt | Gt => Gt end = Lt ->
  match c3 with Eq => d3 | Lt => Lt | Gt => Gt end = Lt.
Proof.
  intros H1 H2 H3 H4 Ha Hb.
  destruct c1, c2; try discriminate Ha; try discriminate Hb.
  - rewrite (H1 eq_refl). auto.
  - rewrite (H1 eq_refl). reflexivity.
  - rewrite (H2 eq_refl). reflexivity.
  - rewrite (H3 eq_refl eq_refl). reflexivity.
Qed.

Lemma n_lt a b c : N.compare a b = Lt -> N.compare b c = Lt -> N.compare a c = Lt.
Proof. rewrite !N.compare_lt_iff. lia. Qed.

Lemma ident_cmp_opp a b : ident_cmp b a = CompOpp (ident_cmp a b).
Proof. destruct a, b; simpl; try reflexivity; [apply N.compare_antisym|apply str_cmp_antisym]. Qed.
Lemma ident_cmp_eq a b : ident_cmp a b = Eq <-> a = b.
Proof.
  destruct a, b; simpl; split; try discriminate.
  - rewrite N.compare_eq_iff. congruence.
  - intros [= ->]. apply N.compare_refl.
  - rewrite str_cmp_eq. congruence.
  - intros [= ->]. apply str_cmp_refl.
Qed.
Lemma ident_cmp_lt a b c : ident_cmp a b = Lt -> ident_cmp b c = Lt -> ident_cmp a c = Lt.
Proof. destruct a, b, c; simpl; try discriminate; auto; [apply n_lt|apply str_cmp_trans_lt]. Qed.

Lemma idents_cmp_opp a : forall b, idents_cmp b a = CompOpp (idents_cmp a b).
Proof.
  induction a as [|x a IH]; intros [|y b]; simpl; try reflexivity.
  rewrite (ident_cmp_opp x y). destruct (ident_cmp x y); simpl; auto.
Qed.
Lemma idents_cmp_eq a : forall b, idents_cmp a b = Eq <-> a = b.
Proof.
  induction a as [|x a IH]; intros [|y b]; simpl; split; try discriminate; try reflexivity.
  - destruct (ident_cmp x y) eqn:E; try discriminate. apply ident_cmp_eq in E as ->. rewrite IH. congruence.
  - intros [= -> ->]. rewrite (proj2 (ident_cmp_eq y y) eq_refl). apply IH. reflexivity.
Qed.
Lemma idents_cmp_lt a : forall b c, idents_cmp a b = Lt -> idents_cmp b c = Lt -> idents_cmp a c = Lt.
Proof.
  induction a as [|x a IH]; intros [|y b] [|z c]; simpl; try discriminate; auto.
  intros Ha Hb; refine (then_lt _ _ _ _ _ _ _ _ _ _ Ha Hb); clear Ha Hb; [| | |apply IH].
  - intros H. apply ident_cmp_eq in H as ->. reflexivity.
  - intros H. apply ident_cmp_eq in H as ->. reflexivity.
  - apply ident_cmp_lt.
Qed.

Lemma pre_cmp_opp a b : pre_cmp b a = CompOpp (pre_cmp a b).
Proof. destruct a, b; try reflexivity. apply idents_cmp_opp. Qed.
Lemma pre_cmp_eq a b : pre_cmp a b = Eq <-> a = b.
Proof.
  destruct a as [|x a], b as [|y b]; try (simpl; split; [discriminate|congruence]); [simpl; tauto|].
  apply idents_cmp_eq.
Qed.
Lemma pre_cmp_lt a b c : pre_cmp a b = Lt -> pre_cmp b c = Lt -> pre_cmp a c = Lt.
Proof.
  destruct a as [|x a], b as [|y b], c as [|z c]; try (simpl; discriminate); try (intros; reflexivity).
  apply idents_cmp_lt.
Qed.

Lemma ver_cmp_opp a b : ver_cmp b a = CompOpp (ver_cmp a b).
Proof.
  unfold ver_cmp.
  rewrite (N.compare_antisym (v_major a)). destruct (N.compare (v_major a) (v_major b)); simpl; try reflexivity.
  rewrite (N.compare_antisym (v_minor a)). destruct (N.compare (v_minor a) (v_minor b)); simpl; try reflexivity.
  rewrite (N.compare_antisym (v_patch a)). destruct (N.compare (v_patch a) (v_patch b)); simpl; try reflexivity.
  rewrite (pre_cmp_opp (v_pre a)). destruct (pre_cmp (v_pre a) (v_pre b)); simpl; try reflexivity.
  apply idents_cmp_opp.
Qed.
Lemma ver_cmp_eq a b : ver_cmp a b = Eq <-> a = b.
Proof.
  unfold ver_cmp. destruct a as [a1 a2 a3 a4 a5], b as [b1 b2 b3 b4 b5]; simpl. split.
  - destruct (N.compare a1 b1) eqn:E1; try discriminate. apply N.compare_eq_iff in E1 as ->.
    destruct (N.compare a2 b2) eqn:E2; try discriminate. apply N.compare_eq_iff in E2 as ->.
    destruct (N.compare a3 b3) eqn:E3; try discriminate. apply N.compare_eq_iff in E3 as ->.
    destruct (pre_cmp a4 b4) eqn:E4; try discriminate. apply pre_cmp_eq in E4 as ->.
    intros H. apply idents_cmp_eq in H as ->. reflexivity.
  - intros [= -> -> -> -> ->]. rewrite !N.compare_refl.
    rewrite (proj2 (pre_cmp_eq b4 b4) eq_refl). apply idents_cmp_eq. reflexivity.
Qed.
Lemma ver_cmp_lt a b c : ver_cmp a b = Lt -> ver_cmp b c = Lt -> ver_cmp a c = Lt.
Proof.
  unfold ver_cmp.
  intros Ha Hb; refine (then_lt _ _ _ _ _ _ _ _ _ _ Ha Hb); clear Ha Hb; [intros H; apply N.compare_eq_iff in H as ->; reflexivity..|apply n_lt|].
  intros Ha Hb; refine (then_lt _ _ _ _ _ _ _ _ _ _ Ha Hb); clear Ha Hb; [intros H; apply N.compare_eq_iff in H as ->; reflexivity..|apply n_lt|].
  intros Ha Hb; refine (then_lt _ _ _ _ _ _ _ _ _ _ Ha Hb); clear Ha Hb; [intros H; apply N.compare_eq_iff in H as ->; reflexivity..|apply n_lt|].
  intros Ha Hb; refine (then_lt _ _ _ _ _ _ _ _ _ _ Ha Hb); clear Ha Hb; [intros H; apply pre_cmp_eq in H as ->; reflexivity..|apply pre_cmp_lt|].
  apply idents_cmp_lt.
Qed.
Lemma ver_cmp_refl a : ver_cmp a a = Eq.
Proof. apply ver_cmp_eq. reflexivity. Qed.

Lemma ver_leb_spec a b : ver_leb a b = true <-> ver_cmp a b <> Gt.
Proof. unfold ver_leb. destruct (ver_cmp a b); split; congruence. Qed.
Lemma ver_leb_refl a : ver_leb a a = true.
Proof. unfold ver_leb. rewrite ver_cmp_refl. reflexivity. Qed.
Lemma ver_leb_total a b : ver_leb a b = true \/ ver_leb b a = true.
Proof. unfold ver_leb. rewrite (ver_cmp_opp a b). destruct (ver_cmp a b); simpl; auto. Qed.
Lemma ver_leb_antisym a b : ver_leb a b = true -> ver_leb b a = true -> a = b.
Proof.
  unfold ver_leb. rewrite (ver_cmp_opp a b). destruct (ver_cmp a b) eqn:E; simpl; try discriminate.
  intros _ _. apply ver_cmp_eq, E.
Qed.
Lemma ver_leb_trans a b c : ver_leb a b = true -> ver_leb b c = true -> ver_leb a c = true.
Proof.
  unfold ver_leb. destruct (ver_cmp a b) eqn:E1; try discriminate; intros _.
  - apply ver_cmp_eq in E1 as ->. auto.
  - destruct (ver_cmp b c) eqn:E2; try discriminate; intros _.
    + apply ver_cmp_eq in E2 as ->. rewrite E1. reflexivity.
    + rewrite (ver_cmp_lt _ _ _ E1 E2). reflexivity.
Qed.
