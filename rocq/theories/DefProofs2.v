(* Proofs about examples as written, version 2 definitions and file formats. *)
From Coq Require Import String Ascii Bool Arith Lia Permutation ZArith NArith List.
Import ListNotations.
From Verif Require Import Base BaseProofs Json SemTypes Resolved ResultModel ResultSpec VdirModel Str CodeModel CodeSpec
  DefModel DefSpec DefProofs.
Local Open Scope string_scope.

Definition reads {A} (g : json -> option A) (P : json -> Prop) : Prop := forall j, (exists a, g j = Some a) <-> P j.

Lemma reads_int : reads as_i64 (literal KInt).
Proof.
  intros j. split.
  - intros [a E]. destruct j as [|b|[z|d]|s|l|m]; try discriminate E. cbn [as_i64] in E.
    destruct (_ && _)%bool eqn:B; [|discriminate E]. apply andb_true_iff in B. destruct B as [B1 B2].
    apply Z.leb_le in B1. apply Z.leb_le in B2. constructor. lia.
  - intros H. inversion H as [|z B| | |]; subst. cbn [as_i64].
    replace (_ && _)%bool with true; [eauto|]. symmetry. apply andb_true_iff. split; apply Z.leb_le; lia.
Qed.
Lemma reads_num f : reads (as_f64 f) (fun x => literal KDouble x \/ (KDouble = KDouble /\ number x)).
Proof.
  intros j. split.
  - intros [a E]. destruct j as [|b|[z|d]|s|l|m]; try discriminate E.
    + right. split; [reflexivity|]. destruct (Z_le_gt_dec (-(2^63)) z); [destruct (Z_lt_ge_dec z (2^63))|].
      * left. constructor. lia.
      * right. constructor. lia.
      * right. constructor. lia.
    + left. constructor.
  - intros [H|[_ [H|H]]]; inversion H; subst; cbn [as_f64]; eauto.
Qed.
Lemma reads_bool : reads as_bool (literal KBool).
Proof.
  intros j. split; [intros [a E]; destruct j as [|b|[z|d]|s|l|m]; try discriminate E; constructor|].
  intros H. inversion H; subst; cbn; eauto.
Qed.
Lemma reads_text : reads as_text (literal KString).
Proof.
  intros j. split; [intros [a E]; destruct j as [|b|[z|d]|s|l|m]; try discriminate E; constructor|].
  intros H. inversion H; subst; cbn; eauto.
Qed.
Lemma reads_list {A} (g : json -> option A) P : reads g P -> reads (list_as g) (fun j => exists l, j = JArr l /\ Forall P l).
Proof.
  intros R.
  assert (L : forall l, (exists t, all_as g l = Some t) <-> Forall P l).
  { induction l as [|x l IH]; cbn [all_as]; [split; [constructor|eauto]|]. split.
    - intros [t E]. destruct (g x) as [a|] eqn:Ex; [|discriminate E]. destruct (all_as g l) as [t'|]; [|discriminate E].
      constructor; [apply R; eauto|apply IH; eauto].
    - intros H. inversion H as [|? ? H1 H2]; subst. apply R in H1. apply IH in H2. destruct H1 as [a E1], H2 as [t E2].
      rewrite E1, E2. eauto. }
  intros j. split.
  - intros [t E]. destruct j as [|b|n|s|l|m]; try discriminate E. cbn [list_as] in E. exists l. split; [reflexivity|]. apply L. eauto.
  - intros (l & -> & H). cbn [list_as]. apply L. exact H.
Qed.
Lemma reads_nested {A} (g : json -> option A) P : reads g P -> reads (list_as g) (nested P 1).
Proof. exact (reads_list g P). Qed.
Lemma reads_nested2 {A} (g : json -> option A) P : reads g P -> reads (list_as (list_as g)) (nested P 2).
Proof. intros R. exact (reads_list _ _ (reads_nested g P R)). Qed.

Lemma fails {A} (g : json -> option A) P j : reads g P -> ~ P j -> g j = None.
Proof. intros R N. destruct (g j) as [a|] eqn:E; [|reflexivity]. exfalso. apply N. apply R. eauto. Qed.
Lemma succeeds {A} (g : json -> option A) P j : reads g P -> P j -> exists a, g j = Some a.
Proof. intros R H. apply R. exact H. Qed.
Lemma sound {A} (g : json -> option A) P j a : reads g P -> g j = Some a -> P j.
Proof. intros R H. apply R. eauto. Qed.

Lemma reads_value f : reads (as_value f) (fun x => exists k, literal k x).
Proof.
  intros j. unfold as_value. destruct (as_i64 j) as [z|] eqn:E1.
  - split; [intros _; exists KInt; exact (sound _ _ _ _ reads_int E1)|eauto].
  - destruct (as_f64 f j) as [d|] eqn:E2.
    + split; [intros _|eauto]. destruct (sound _ _ _ _ (reads_num f) E2) as [H|[_ [H|H]]]; eauto.
    + destruct (as_text j) as [s|] eqn:E3.
      * split; [intros _; exists KString; exact (sound _ _ _ _ reads_text E3)|eauto].
      * destruct (as_bool j) as [b|] eqn:E4.
        { split; [intros _; exists KBool; exact (sound _ _ _ _ reads_bool E4)|eauto]. }
        split; [intros [a E]; discriminate E|]. intros [k H]. exfalso.
        destruct k; [apply reads_bool in H| apply reads_int in H|apply (or_introl (B := KDouble = KDouble /\ number j)) in H; apply (reads_num f) in H|apply reads_text in H];
          destruct H as [a H]; congruence.
Qed.

(* a list is not a literal; a literal has one kind *)
Lemma lit_arr k l : ~ literal k (JArr l). Proof. intros H. inversion H. Qed.
Lemma lit_kind k k' j : literal k j -> literal k' j -> k = k'.
Proof. intros H H'. inversion H; subst; inversion H'; subst; try reflexivity; contradiction. Qed.

Section Shape.
  Variable f : Z -> N.
  Local Notation pk k := (fun x => literal k x \/ (k = KDouble /\ number x)).

  Lemma nested_weaken (P Q : json -> Prop) d : (forall x, P x -> Q x) -> forall j, nested P d j -> nested Q d j.
  Proof.
    intros H. induction d as [|d IH]; intros j; cbn [nested]; [apply H|].
    intros (l & -> & F). exists l. split; [reflexivity|]. apply Forall_impl with (2 := F). exact IH.
  Qed.
  Lemma pk_lit k x : k <> KDouble -> (pk k x <-> literal k x).
  Proof. intros N. split; [intros [H|[E _]]; [exact H|contradiction]|auto]. Qed.
  Lemma reads_pk_int : reads as_i64 (pk KInt).
  Proof. intros j. rewrite (reads_int j). symmetry. apply pk_lit. discriminate. Qed.
  Lemma reads_pk_bool : reads as_bool (pk KBool).
  Proof. intros j. rewrite (reads_bool j). symmetry. apply pk_lit. discriminate. Qed.
  Lemma reads_pk_text : reads as_text (pk KString).
  Proof. intros j. rewrite (reads_text j). symmetry. apply pk_lit. discriminate. Qed.
  Lemma int_nested d j : nested (pk KInt) d j <-> nested (literal KInt) d j.
  Proof. split; apply nested_weaken; intros x; apply pk_lit; discriminate. Qed.

  (* two readings of the same list of literals need an empty list *)
  Lemma clash1 (P Q : json -> Prop) l : (forall x, P x -> Q x -> False) -> Forall P l -> Forall Q l -> l = [].
  Proof. intros N A B. destruct l as [|x l]; [reflexivity|]. inversion A; inversion B; subst. exfalso. eauto. Qed.
  Lemma kinds_apart k k' x : k <> k' -> (k <> KDouble \/ k' <> KInt) -> (k' <> KDouble \/ k <> KInt) -> pk k x -> pk k' x -> False.
  Proof.
    unfold number. intros N A B [H|[E H]] [H'|[E' H']].
    - exact (N (lit_kind _ _ _ H H')).
    - subst k'. destruct H' as [H'|H']; pose proof (lit_kind _ _ _ H H'); subst; [destruct B; congruence|congruence].
    - subst k. destruct H as [H|H]; pose proof (lit_kind _ _ _ H H'); subst; [destruct A; congruence|congruence].
    - congruence.
  Qed.

  Definition arr_chain (j : json) : option examples :=
    try (list_as as_i64 j) EInts (try (list_as (as_f64 f) j) EDoubles (try (list_as as_bool j) EBools
    (try (list_as as_text j) EStrings (try (list_as (as_value f) j) EAnys
    (try (list_as (list_as as_i64) j) EListInts (try (list_as (list_as (as_f64 f)) j) EListDoubles
    (try (list_as (list_as as_bool) j) EListBools (try (list_as (list_as as_text) j) EListStrings
    None)))))))).
  Lemma parse_arr l : parse_examples f (JArr l) = arr_chain (JArr l).
  Proof. reflexivity. Qed.

  Lemma nested_arr P d l : nested P (S d) (JArr l) <-> Forall (nested P d) l.
  Proof.
    cbn [nested]. split; [intros (l' & E & F); injection E as <-; exact F|]. intros F. exists l. auto.
  Qed.
  Lemma nested_nil P d : nested P (S d) (JArr []).
  Proof. apply nested_arr. constructor. Qed.

  Lemma shape_sound j e k d : parse_examples f j = Some e -> has_shape e k d -> shaped k d j.
  Proof.
    destruct j as [|b|n|s|l|m].
    - discriminate.
    - cbn. intros E S. injection E as <-. inversion S; subst. split; [lia|]. split; [left; constructor|].
      split; [intros _ H; inversion H|discriminate].
    - unfold parse_examples. cbn [as_bool try]. intros E S.
      destruct (as_i64 (JNum n)) as [z|] eqn:E1.
      + cbn [try] in E. injection E as <-. inversion S; subst. split; [lia|].
        split; [left; exact (sound _ _ _ _ reads_int E1)|]. split; [congruence|discriminate].
      + cbn [try] in E. destruct n as [z|d0]; cbn [as_f64 try] in E; injection E as <-; inversion S; subst; (split; [lia|]).
        * split; [exact (proj1 (reads_num f (JNum (NInt z))) (ex_intro _ (f z) eq_refl))|].
          split; [|discriminate]. intros _ H. cbn [nested] in H. apply reads_int in H. destruct H as [a H]. congruence.
        * split; [left; constructor|]. split; [|discriminate]. intros _ H. inversion H.
    - cbn. intros E S. injection E as <-. inversion S; subst. split; [lia|]. split; [left; constructor|].
      split; [intros _ H; inversion H|discriminate].
    - rewrite parse_arr. unfold arr_chain. intros E S.
      assert (I1 : forall a, list_as as_i64 (JArr l) = a -> a = None -> ~ nested (literal KInt) 1 (JArr l)).
      { intros a Ea -> H. apply (reads_nested _ _ reads_int) in H. destruct H as [t H]. congruence. }
      assert (I2 : forall a, list_as (list_as as_i64) (JArr l) = a -> a = None -> ~ nested (literal KInt) 2 (JArr l)).
      { intros a Ea -> H. apply (reads_nested2 _ _ reads_int) in H. destruct H as [t H]. congruence. }
      destruct (list_as as_i64 (JArr l)) as [t|] eqn:E1.
      { cbn [try] in E. injection E as <-. inversion S; subst. split; [lia|].
        split; [exact (sound _ _ _ _ (reads_nested _ _ reads_pk_int) E1)|]. split; [congruence|discriminate]. }
      specialize (I1 _ eq_refl eq_refl).
      assert (NE : JArr l <> JArr []) by (intros X; injection X as ->; apply I1, nested_nil).
      cbn [try] in E. destruct (list_as (as_f64 f) (JArr l)) as [t|] eqn:E2.
      { cbn [try] in E. injection E as <-. inversion S; subst. split; [lia|].
        split; [exact (sound _ _ _ _ (reads_nested _ _ (reads_num f)) E2)|]. split; [auto|discriminate]. }
      cbn [try] in E. destruct (list_as as_bool (JArr l)) as [t|] eqn:E3.
      { cbn [try] in E. injection E as <-. inversion S; subst. split; [lia|].
        split; [exact (sound _ _ _ _ (reads_nested _ _ reads_pk_bool) E3)|]. split; [auto|discriminate]. }
      cbn [try] in E. destruct (list_as as_text (JArr l)) as [t|] eqn:E4.
      { cbn [try] in E. injection E as <-. inversion S; subst. split; [lia|].
        split; [exact (sound _ _ _ _ (reads_nested _ _ reads_pk_text) E4)|]. split; [auto|discriminate]. }
      cbn [try] in E. destruct (list_as (as_value f) (JArr l)) as [t|] eqn:E5.
      { cbn [try] in E. injection E as <-. inversion S. }
      cbn [try] in E. destruct (list_as (list_as as_i64) (JArr l)) as [t|] eqn:E6.
      { cbn [try] in E. injection E as <-. inversion S; subst. split; [lia|].
        split; [exact (sound _ _ _ _ (reads_nested2 _ _ reads_pk_int) E6)|]. split; [congruence|auto]. }
      specialize (I2 _ eq_refl eq_refl).
      cbn [try] in E. destruct (list_as (list_as (as_f64 f)) (JArr l)) as [t|] eqn:E7.
      { cbn [try] in E. injection E as <-. inversion S; subst. split; [lia|].
        split; [exact (sound _ _ _ _ (reads_nested2 _ _ (reads_num f)) E7)|]. split; auto. }
      cbn [try] in E. destruct (list_as (list_as as_bool) (JArr l)) as [t|] eqn:E8.
      { cbn [try] in E. injection E as <-. inversion S; subst. split; [lia|].
        split; [exact (sound _ _ _ _ (reads_nested2 _ _ reads_pk_bool) E8)|]. split; auto. }
      cbn [try] in E. destruct (list_as (list_as as_text) (JArr l)) as [t|] eqn:E9; [|discriminate E].
      cbn [try] in E. injection E as <-. inversion S; subst. split; [lia|].
      split; [exact (sound _ _ _ _ (reads_nested2 _ _ reads_pk_text) E9)|]. split; auto.
    - discriminate.
  Qed.

  (* the readers before the right one fail *)
  Lemma not_flat {A} (g : json -> option A) (P : json -> Prop) l : reads g P -> (forall x, ~ P (JArr x)) ->
    l <> [] -> Forall (fun j => exists x, j = JArr x) l -> list_as g (JArr l) = None.
  Proof.
    intros R N NE F. apply (fails _ _ _ (reads_list g P R)). intros (l' & E & F'). injection E as <-.
    destruct l as [|x l]; [congruence|]. inversion F as [|? ? [y ->] _]; inversion F'; subst. exact (N y ltac:(assumption)).
  Qed.

  Lemma none_flat k k' l : k <> k' -> (k <> KDouble \/ k' <> KInt) -> (k' <> KDouble \/ k <> KInt) -> l <> [] ->
    Forall (pk k) l -> ~ (exists l', JArr l = JArr l' /\ Forall (pk k') l').
  Proof.
    intros A B C NE F (l' & E & F'). injection E as <-. apply NE.
    exact (clash1 _ _ l (fun x H H' => kinds_apart k k' x A B C H H') F F').
  Qed.
  Lemma none_deep k k' l : k <> k' -> (k <> KDouble \/ k' <> KInt) -> (k' <> KDouble \/ k <> KInt) ->
    ~ nested (literal KInt) 2 (JArr l) ->
    Forall (nested (pk k) 1) l -> ~ nested (pk k') 2 (JArr l).
  Proof.
    intros A B C NI F F'. apply nested_arr in F'. apply NI. apply nested_arr.
    rewrite Forall_forall in F, F' |- *. intros x I. destruct (F x I) as (a & -> & Fa). destruct (F' _ I) as (b & E & Fb).
    injection E as <-. rewrite (clash1 _ _ a (fun x H H' => kinds_apart k k' x A B C H H') Fa Fb). apply nested_nil.
  Qed.

  Lemma shape_complete j k d : shaped k d j -> exists e, parse_examples f j = Some e /\ has_shape e k d.
  Proof.
    intros (Ld & N & NI & NE). destruct d as [|[|[|d]]]; [| | |lia].
    - clear NE Ld. cbn [nested] in N, NI. destruct k.
      + destruct N as [H|[E _]]; [|discriminate E]. inversion H; subst. eexists. split; [reflexivity|constructor].
      + destruct N as [H|[E _]]; [|discriminate E]. destruct (proj2 (reads_int j) H) as [z Ez].
        inversion H; subst. unfold parse_examples. cbn [as_bool try]. rewrite Ez. cbn [try]. eexists. split; [reflexivity|constructor].
      + assert (X : as_i64 j = None) by (apply (fails _ _ _ reads_int), NI; discriminate).
        apply (reads_num f) in N. destruct N as [a Ea]. destruct j as [|b|n|s|l|m]; try discriminate Ea.
        unfold parse_examples. cbn [as_bool try]. rewrite X, Ea. cbn [try]. eexists. split; [reflexivity|constructor].
      + destruct N as [H|[E _]]; [|discriminate E]. inversion H; subst. eexists. split; [reflexivity|constructor].
    - clear NE Ld. destruct N as (l & -> & F). change (nested (pk k) 0) with (pk k) in F.
      rewrite parse_arr. unfold arr_chain.
      assert (NL : k <> KInt -> l <> []) by (intros Hk ->; apply (NI Hk), nested_nil).
      assert (X1 : k <> KInt -> list_as as_i64 (JArr l) = None) by (intros Hk; exact (fails _ _ _ (reads_nested _ _ reads_int) (NI Hk))).
      destruct k.
      + rewrite X1 by discriminate. rewrite (fails _ _ _ (reads_nested _ _ (reads_num f)))
          by (apply (none_flat KBool KDouble); try discriminate; try (left; discriminate); try (right; discriminate); auto; apply NL; discriminate).
        destruct (succeeds _ _ (JArr l) (reads_list _ _ reads_pk_bool) (ex_intro _ l (conj eq_refl F))) as [t Et].
        rewrite Et. cbn [try]. eexists. split; [reflexivity|constructor].
      + destruct (succeeds _ _ (JArr l) (reads_list _ _ reads_pk_int) (ex_intro _ l (conj eq_refl F))) as [t Et].
        rewrite Et. cbn [try]. eexists. split; [reflexivity|constructor].
      + rewrite X1 by discriminate.
        destruct (succeeds _ _ (JArr l) (reads_list _ _ (reads_num f)) (ex_intro _ l (conj eq_refl F))) as [t Et].
        rewrite Et. cbn [try]. eexists. split; [reflexivity|constructor].
      + rewrite X1 by discriminate. rewrite (fails _ _ _ (reads_nested _ _ (reads_num f)))
          by (apply (none_flat KString KDouble); try discriminate; try (left; discriminate); try (right; discriminate); auto; apply NL; discriminate).
        rewrite (fails _ _ _ (reads_nested _ _ reads_pk_bool))
          by (apply (none_flat KString KBool); try discriminate; try (left; discriminate); try (right; discriminate); auto; apply NL; discriminate).
        destruct (succeeds _ _ (JArr l) (reads_list _ _ reads_pk_text) (ex_intro _ l (conj eq_refl F))) as [t Et].
        rewrite Et. cbn [try]. eexists. split; [reflexivity|constructor].
    - clear Ld. specialize (NE eq_refl). destruct N as (l & -> & F). change (nested (pk k) 1) with (nested (pk k) 1) in F.
      assert (NL : l <> []) by congruence.
      assert (FA : Forall (fun j => exists x, j = JArr x) l).
      { apply Forall_impl with (2 := F). intros x (y & -> & _). eauto. }
      rewrite parse_arr. unfold arr_chain.
      rewrite (not_flat as_i64 _ l reads_int) by (try assumption; intros x H; inversion H).
      rewrite (not_flat (as_f64 f) _ l (reads_num f)) by (try assumption; intros x [H|[_ [H|H]]]; inversion H).
      rewrite (not_flat as_bool _ l reads_bool) by (try assumption; intros x H; inversion H).
      rewrite (not_flat as_text _ l reads_text) by (try assumption; intros x H; inversion H).
      rewrite (not_flat (as_value f) _ l (reads_value f)) by (try assumption; intros x [q H]; inversion H).
      cbn [try].
      assert (X1 : k <> KInt -> list_as (list_as as_i64) (JArr l) = None) by (intros Hk; exact (fails _ _ _ (reads_nested2 _ _ reads_int) (NI Hk))).
      destruct k.
      + rewrite X1 by discriminate. rewrite (fails _ _ _ (reads_nested2 _ _ (reads_num f)))
          by (apply (none_deep KBool KDouble); try discriminate; try (left; discriminate); try (right; discriminate); auto; apply NI; discriminate).
        destruct (succeeds _ _ (JArr l) (reads_nested2 _ _ reads_pk_bool) (ex_intro _ l (conj eq_refl F))) as [t Et].
        rewrite Et. cbn [try]. eexists. split; [reflexivity|constructor].
      + destruct (succeeds _ _ (JArr l) (reads_nested2 _ _ reads_pk_int) (ex_intro _ l (conj eq_refl F))) as [t Et].
        rewrite Et. cbn [try]. eexists. split; [reflexivity|constructor].
      + rewrite X1 by discriminate.
        destruct (succeeds _ _ (JArr l) (reads_nested2 _ _ (reads_num f)) (ex_intro _ l (conj eq_refl F))) as [t Et].
        rewrite Et. cbn [try]. eexists. split; [reflexivity|constructor].
      + rewrite X1 by discriminate. rewrite (fails _ _ _ (reads_nested2 _ _ (reads_num f)))
          by (apply (none_deep KString KDouble); try discriminate; try (left; discriminate); try (right; discriminate); auto; apply NI; discriminate).
        rewrite (fails _ _ _ (reads_nested2 _ _ reads_pk_bool))
          by (apply (none_deep KString KBool); try discriminate; try (left; discriminate); try (right; discriminate); auto; apply NI; discriminate).
        destruct (succeeds _ _ (JArr l) (reads_nested2 _ _ reads_pk_text) (ex_intro _ l (conj eq_refl F))) as [t Et].
        rewrite Et. cbn [try]. eexists. split; [reflexivity|constructor].
  Qed.

  (* contents *)
  Lemma list_as_forall2 {A} (g : json -> option A) (R : A -> json -> Prop) : (forall j a, g j = Some a -> R a j) ->
    forall j t, list_as g j = Some t -> exists js, j = JArr js /\ Forall2 R t js.
  Proof.
    intros H j t. destruct j as [|b|n|s|l|m]; try discriminate. cbn [list_as]. intros E. exists l. split; [reflexivity|].
    revert t E. induction l as [|x l IH]; intros t E; cbn [all_as] in E; [injection E as <-; constructor|].
    destruct (g x) as [a|] eqn:Ex; [|discriminate E]. destruct (all_as g l) as [t'|]; [|discriminate E]. injection E as <-.
    constructor; [exact (H x a Ex)|exact (IH t' eq_refl)].
  Qed.
  Lemma list_as_map {A} (g : json -> option A) (h : A -> json) : (forall j a, g j = Some a -> j = h a) ->
    forall j t, list_as g j = Some t -> j = JArr (map h t).
  Proof.
    intros H j t E. destruct (list_as_forall2 g (fun a j => j = h a) H j t E) as (js & -> & F). f_equal.
    clear E. induction F as [|a y t ys E F IH]; [reflexivity|]. cbn [map]. rewrite E, IH. reflexivity.
  Qed.
  Lemma int_back j z : as_i64 j = Some z -> j = JNum (NInt z).
  Proof. destruct j as [|b|[y|d]|s|l|m]; try discriminate. cbn [as_i64]. destruct (_ && _)%bool; [|discriminate]. intros E. injection E as <-. reflexivity. Qed.
  Lemma bool_back j z : as_bool j = Some z -> j = JBool z.
  Proof. destruct j; try discriminate. intros E. injection E as <-. reflexivity. Qed.
  Lemma text_back j z : as_text j = Some z -> j = JStr z.
  Proof. destruct j; try discriminate. intros E. injection E as <-. reflexivity. Qed.
  Lemma num_back j z : as_f64 f j = Some z -> value_text f (VDouble z) j.
  Proof. destruct j as [|b|[y|d]|s|l|m]; try discriminate; intros E; injection E as <-; constructor. Qed.
  Lemma value_back j v : as_value f j = Some v -> value_text f v j.
  Proof.
    unfold as_value. destruct (as_i64 j) as [z|] eqn:E1; [intros E; injection E as <-; rewrite (int_back _ _ E1); constructor|].
    destruct (as_f64 f j) as [d|] eqn:E2; [intros E; injection E as <-; exact (num_back _ _ E2)|].
    destruct (as_text j) as [s|] eqn:E3; [intros E; injection E as <-; rewrite (text_back _ _ E3); constructor|].
    destruct (as_bool j) as [b|] eqn:E4; [intros E; injection E as <-; rewrite (bool_back _ _ E4); constructor|discriminate].
  Qed.
  Lemma parse_contents j e : parse_examples f j = Some e -> contents f e j.
  Proof.
    unfold parse_examples.
    destruct (as_bool j) as [b|] eqn:E1; [intros E; injection E as <-; rewrite (bool_back _ _ E1); constructor|]. cbn [try].
    destruct (as_i64 j) as [b|] eqn:E2; [intros E; injection E as <-; rewrite (int_back _ _ E2); constructor|]. cbn [try].
    destruct (as_f64 f j) as [b|] eqn:E3; [intros E; injection E as <-; constructor; exact (num_back _ _ E3)|]. cbn [try].
    destruct (as_text j) as [b|] eqn:E4; [intros E; injection E as <-; rewrite (text_back _ _ E4); constructor|]. cbn [try].
    destruct (as_value f j) as [b|] eqn:E5.
    { exfalso. unfold as_value in E5. rewrite E2, E3, E4, E1 in E5. discriminate E5. }
    cbn [try].
    destruct (list_as as_i64 j) as [t|] eqn:E6; [intros E; injection E as <-; rewrite (list_as_map _ _ int_back _ _ E6); constructor|]. cbn [try].
    destruct (list_as (as_f64 f) j) as [t|] eqn:E7.
    { intros E; injection E as <-. destruct (list_as_forall2 _ _ num_back _ _ E7) as (js & -> & F). constructor. exact F. }
    cbn [try].
    destruct (list_as as_bool j) as [t|] eqn:E8; [intros E; injection E as <-; rewrite (list_as_map _ _ bool_back _ _ E8); constructor|]. cbn [try].
    destruct (list_as as_text j) as [t|] eqn:E9; [intros E; injection E as <-; rewrite (list_as_map _ _ text_back _ _ E9); constructor|]. cbn [try].
    destruct (list_as (as_value f) j) as [t|] eqn:E10.
    { intros E; injection E as <-. destruct (list_as_forall2 _ _ value_back _ _ E10) as (js & -> & F). constructor. exact F. }
    cbn [try].
    destruct (list_as (list_as as_i64) j) as [t|] eqn:E11.
    { intros E; injection E as <-. rewrite (list_as_map _ _ (list_as_map _ _ int_back) _ _ E11). constructor. }
    cbn [try].
    destruct (list_as (list_as (as_f64 f)) j) as [t|] eqn:E12.
    { intros E; injection E as <-. destruct (list_as_forall2 _ _ (list_as_forall2 _ _ num_back) _ _ E12) as (js & -> & F). constructor. exact F. }
    cbn [try].
    destruct (list_as (list_as as_bool) j) as [t|] eqn:E13.
    { intros E; injection E as <-. rewrite (list_as_map _ _ (list_as_map _ _ bool_back) _ _ E13). constructor. }
    cbn [try].
    destruct (list_as (list_as as_text) j) as [t|] eqn:E14; [|discriminate].
    intros E; injection E as <-. rewrite (list_as_map _ _ (list_as_map _ _ text_back) _ _ E14). constructor.
  Qed.
End Shape.
