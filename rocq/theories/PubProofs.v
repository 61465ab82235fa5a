From Coq Require Import String Ascii Bool Arith ZArith NArith Lia Sorted List.
Import ListNotations.
From Verif Require Import Base BaseProofs Json SemTypes Resolved.
From Verif Require SchemaDiffModel SchemaDiffSpec DefModel UrlModel JinModel JinSpec JinProofs StrProofs Str.
Import JinModel JinSpec JinProofs.
From Verif Require Import PubModel PubSpec.
Local Open Scope string_scope.

(* ---------- examples ---------- *)
Definition keeps_failing {A B} (rd' : json -> option B) (rd : json -> option A) (w : A -> json) : Prop :=
  forall x v, rd x = Some v -> rd' x = None -> rd' (w v) = None.
Definition comes_back {A} (rd : json -> option A) (w : A -> json) : Prop :=
  forall x v, rd x = Some v -> rd (w v) = Some v.

Lemma all_as_cons : forall {A} (f : json -> option A) x r,
  DefModel.all_as f (x :: r) = match f x, DefModel.all_as f r with Some a, Some t => Some (a :: t) | _, _ => None end.
Proof. reflexivity. Qed.

Lemma lift_back : forall {A} (rd : json -> option A) w,
  comes_back rd w -> comes_back (DefModel.list_as rd) (write_vec w).
Proof.
  intros A rd w H x v Hx. destruct x as [| | | |l|]; try discriminate. cbn in Hx |- *.
  revert v Hx. induction l as [|x l IH]; intros v Hx; [injection Hx as <-; reflexivity|].
  rewrite all_as_cons in Hx. destruct (rd x) as [a|] eqn:E; [|discriminate].
  destruct (DefModel.all_as rd l) as [t|]; [|discriminate]. injection Hx as <-. cbn [map].
  rewrite all_as_cons, (H _ _ E), (IH t eq_refl). reflexivity.
Qed.

Lemma lift_fail : forall {A B} (rd' : json -> option B) (rd : json -> option A) w,
  keeps_failing rd' rd w -> keeps_failing (DefModel.list_as rd') (DefModel.list_as rd) (write_vec w).
Proof.
  intros A B rd' rd w H x v Hx Hf. destruct x as [| | | |l|]; try discriminate. cbn in Hx, Hf |- *.
  revert v Hx Hf. induction l as [|x l IH]; intros v Hx Hf; [discriminate|].
  cbn [DefModel.all_as] in Hx, Hf. destruct (rd x) as [a|] eqn:E; [|discriminate].
  destruct (DefModel.all_as rd l) as [t|]; [|discriminate]. injection Hx as <-. cbn [map].
  rewrite all_as_cons. destruct (rd' x) as [b|] eqn:E'.
  - destruct (rd' (w a)); [|reflexivity].
    rewrite (IH t eq_refl); [reflexivity|]. destruct (DefModel.all_as rd' l); [discriminate|reflexivity].
  - rewrite (H _ _ E E'). reflexivity.
Qed.

Section Ex.
  Variable f : Z -> N.
  Let int (z : Z) := JNum (NInt z).
  Let dbl (d : N) := JNum (NFloat d).

  Lemma back_bool : comes_back DefModel.as_bool JBool. Proof. intros x v _. reflexivity. Qed.
  Lemma back_i64 : comes_back DefModel.as_i64 int.
  Proof.
    intros x v. unfold DefModel.as_i64. destruct x as [| |[z|]| | |]; try discriminate.
    destruct (_ && _)%bool eqn:E; [|discriminate]. intros [= <-]. cbn. rewrite E. reflexivity.
  Qed.
  Lemma back_f64 : comes_back (DefModel.as_f64 f) dbl. Proof. intros x v _. reflexivity. Qed.
  Lemma back_text : comes_back DefModel.as_text JStr. Proof. intros x v _. reflexivity. Qed.
  Lemma back_value : comes_back (DefModel.as_value f) write_value_spec.
  Proof.
    intros x v. unfold DefModel.as_value at 1. destruct (DefModel.as_i64 x) as [z|] eqn:E.
    - intros [= <-]. unfold DefModel.as_value. cbn [write_value_spec]. fold (int z). rewrite (back_i64 _ _ E). reflexivity.
    - destruct x as [|b|[z|d]|s|l|m]; cbn; try discriminate; intros [= <-]; reflexivity.
  Qed.

  Ltac dumb := intros x v; unfold DefModel.as_value, DefModel.as_i64, DefModel.as_f64, DefModel.as_bool, DefModel.as_text;
    destruct x as [|b|[z|d]|s|l|m]; cbn; try congruence; try (destruct (_ && _)%bool; congruence).
  Lemma fail_i64_f64 : keeps_failing DefModel.as_i64 (DefModel.as_f64 f) dbl. Proof. dumb. Qed.
  Lemma fail_i64_bool : keeps_failing DefModel.as_i64 DefModel.as_bool JBool. Proof. dumb. Qed.
  Lemma fail_f64_bool : keeps_failing (DefModel.as_f64 f) DefModel.as_bool JBool. Proof. dumb. Qed.
  Lemma fail_i64_text : keeps_failing DefModel.as_i64 DefModel.as_text JStr. Proof. dumb. Qed.
  Lemma fail_f64_text : keeps_failing (DefModel.as_f64 f) DefModel.as_text JStr. Proof. dumb. Qed.
  Lemma fail_bool_text : keeps_failing DefModel.as_bool DefModel.as_text JStr. Proof. dumb. Qed.
  Lemma fail_bool_i64 : keeps_failing DefModel.as_bool DefModel.as_i64 int. Proof. dumb. Qed.
  Lemma fail_bool_f64 : keeps_failing DefModel.as_bool (DefModel.as_f64 f) dbl. Proof. dumb. Qed.

  Ltac dumb_value := intros x v; unfold DefModel.as_value; destruct (DefModel.as_i64 x) as [z|] eqn:E;
    [intros [= <-]; destruct x as [|b|[z'|d]|s|l|m]; try discriminate; cbn in E |- *;
       destruct (_ && _)%bool; try congruence; injection E as <-; congruence
    |destruct x as [|b|[z'|d]|s|l|m]; cbn; try discriminate; intros [= <-]; cbn; congruence].
  Lemma fail_i64_value : keeps_failing DefModel.as_i64 (DefModel.as_value f) write_value_spec.
  Proof.
    intros x v. unfold DefModel.as_value. intros H E. rewrite E in H.
    destruct x as [|b|[z'|d]|s|l|m]; cbn in H; try discriminate; injection H as <-; reflexivity.
  Qed.
  Lemma fail_f64_value : keeps_failing (DefModel.as_f64 f) (DefModel.as_value f) write_value_spec.
  Proof.
    intros x v. unfold DefModel.as_value. intros H E. rewrite E in H.
    destruct x as [|b|[z'|d]|s|l|m]; cbn in H, E; try discriminate; injection H as <-; reflexivity.
  Qed.
  Lemma fail_bool_value : keeps_failing DefModel.as_bool (DefModel.as_value f) write_value_spec.
  Proof.
    intros x v. unfold DefModel.as_value. intros H E. destruct v; try reflexivity.
    destruct x as [|b'|[z'|d]|s|l|m]; cbn in H, E; try discriminate. destruct (_ && _)%bool; discriminate.
  Qed.
  Lemma fail_text_value : keeps_failing DefModel.as_text (DefModel.as_value f) write_value_spec.
  Proof.
    intros x v. unfold DefModel.as_value. intros H E. destruct v; try reflexivity.
    destruct x as [|b'|[z'|d]|s'|l|m]; cbn in H, E; try discriminate. destruct (_ && _)%bool; discriminate.
  Qed.
  Lemma fail_arr : forall {A B} (rd' : json -> option B) (rd : json -> option A) w,
    (forall l, rd' (JArr l) = None) -> keeps_failing rd' (DefModel.list_as rd) (write_vec w).
  Proof. intros A B rd' rd w H x v _ _. apply H. Qed.

  Lemma examples_back : comes_back (DefModel.parse_examples f) write_examples.
  Proof.
    intros x e. unfold DefModel.parse_examples at 1, DefModel.try.
    destruct (DefModel.as_bool x) as [b|] eqn:E1; [intros [= <-]; reflexivity|].
    destruct (DefModel.as_i64 x) as [z|] eqn:E2.
    { intros [= <-]. unfold DefModel.parse_examples, DefModel.try. cbn [write_examples]. fold (int z).
      rewrite (fail_bool_i64 _ _ E2 E1), (back_i64 _ _ E2). reflexivity. }
    destruct (DefModel.as_f64 f x) as [d|] eqn:E3; [intros [= <-]; reflexivity|].
    destruct (DefModel.as_text x) as [s|] eqn:E4; [intros [= <-]; reflexivity|].
    destruct (DefModel.as_value f x) as [v|] eqn:E5.
    { exfalso. unfold DefModel.as_value in E5. rewrite E2, E3, E4, E1 in E5. discriminate. }
    destruct x as [| | | |js|]; try discriminate.
    destruct (DefModel.list_as DefModel.as_i64 (JArr js)) as [l|] eqn:L1.
    { intros [= <-]. unfold DefModel.parse_examples, DefModel.try. cbn [write_examples]. change (fun z => JNum (NInt z)) with int.
      rewrite (lift_back _ _ back_i64 _ _ L1). reflexivity. }
    destruct (DefModel.list_as (DefModel.as_f64 f) (JArr js)) as [l|] eqn:L2.
    { intros [= <-]. unfold DefModel.parse_examples, DefModel.try. cbn [write_examples]. change (fun d => JNum (NFloat d)) with dbl.
      rewrite (lift_fail _ _ _ fail_i64_f64 _ _ L2 L1), (lift_back _ _ back_f64 _ _ L2). reflexivity. }
    destruct (DefModel.list_as DefModel.as_bool (JArr js)) as [l|] eqn:L3.
    { intros [= <-]. unfold DefModel.parse_examples, DefModel.try. cbn [write_examples].
      rewrite (lift_fail _ _ _ fail_i64_bool _ _ L3 L1), (lift_fail _ _ _ fail_f64_bool _ _ L3 L2),
        (lift_back _ _ back_bool _ _ L3). reflexivity. }
    destruct (DefModel.list_as DefModel.as_text (JArr js)) as [l|] eqn:L4.
    { intros [= <-]. unfold DefModel.parse_examples, DefModel.try. cbn [write_examples].
      rewrite (lift_fail _ _ _ fail_i64_text _ _ L4 L1), (lift_fail _ _ _ fail_f64_text _ _ L4 L2),
        (lift_fail _ _ _ fail_bool_text _ _ L4 L3), (lift_back _ _ back_text _ _ L4). reflexivity. }
    destruct (DefModel.list_as (DefModel.as_value f) (JArr js)) as [l|] eqn:L5.
    { intros [= <-]. unfold DefModel.parse_examples, DefModel.try. cbn [write_examples].
      rewrite (lift_fail _ _ _ fail_i64_value _ _ L5 L1), (lift_fail _ _ _ fail_f64_value _ _ L5 L2),
        (lift_fail _ _ _ fail_bool_value _ _ L5 L3), (lift_fail _ _ _ fail_text_value _ _ L5 L4),
        (lift_back _ _ back_value _ _ L5). reflexivity. }
    assert (Q : forall {A} (rd : json -> option A) w l,
      DefModel.list_as (DefModel.list_as rd) (JArr js) = Some l ->
      DefModel.list_as DefModel.as_i64 (write_vec (write_vec w) l) = None /\
      DefModel.list_as (DefModel.as_f64 f) (write_vec (write_vec w) l) = None /\
      DefModel.list_as DefModel.as_bool (write_vec (write_vec w) l) = None /\
      DefModel.list_as DefModel.as_text (write_vec (write_vec w) l) = None /\
      DefModel.list_as (DefModel.as_value f) (write_vec (write_vec w) l) = None).
    { intros A rd w l H. repeat split.
      - apply (lift_fail _ _ _ (fail_arr _ rd w (fun _ => eq_refl)) _ _ H L1).
      - apply (lift_fail _ _ _ (fail_arr _ rd w (fun _ => eq_refl)) _ _ H L2).
      - apply (lift_fail _ _ _ (fail_arr _ rd w (fun _ => eq_refl)) _ _ H L3).
      - apply (lift_fail _ _ _ (fail_arr _ rd w (fun _ => eq_refl)) _ _ H L4).
      - apply (lift_fail _ _ _ (fail_arr _ rd w (fun _ => eq_refl)) _ _ H L5). }
    destruct (DefModel.list_as (DefModel.list_as DefModel.as_i64) (JArr js)) as [l|] eqn:M1.
    { intros [= <-]. unfold DefModel.parse_examples, DefModel.try. cbn [write_examples]. change (fun z => JNum (NInt z)) with int.
      destruct (Q _ _ int _ M1) as (q1 & q2 & q3 & q4 & q5). rewrite q1, q2, q3, q4, q5.
      rewrite (lift_back _ _ (lift_back _ _ back_i64) _ _ M1). reflexivity. }
    destruct (DefModel.list_as (DefModel.list_as (DefModel.as_f64 f)) (JArr js)) as [l|] eqn:M2.
    { intros [= <-]. unfold DefModel.parse_examples, DefModel.try. cbn [write_examples]. change (fun d => JNum (NFloat d)) with dbl.
      destruct (Q _ _ dbl _ M2) as (q1 & q2 & q3 & q4 & q5). rewrite q1, q2, q3, q4, q5.
      rewrite (lift_fail _ _ _ (lift_fail _ _ _ fail_i64_f64) _ _ M2 M1),
        (lift_back _ _ (lift_back _ _ back_f64) _ _ M2). reflexivity. }
    destruct (DefModel.list_as (DefModel.list_as DefModel.as_bool) (JArr js)) as [l|] eqn:M3.
    { intros [= <-]. unfold DefModel.parse_examples, DefModel.try. cbn [write_examples].
      destruct (Q _ _ JBool _ M3) as (q1 & q2 & q3 & q4 & q5). rewrite q1, q2, q3, q4, q5.
      rewrite (lift_fail _ _ _ (lift_fail _ _ _ fail_i64_bool) _ _ M3 M1),
        (lift_fail _ _ _ (lift_fail _ _ _ fail_f64_bool) _ _ M3 M2),
        (lift_back _ _ (lift_back _ _ back_bool) _ _ M3). reflexivity. }
    destruct (DefModel.list_as (DefModel.list_as DefModel.as_text) (JArr js)) as [l|] eqn:M4; [|discriminate].
    intros [= <-]. unfold DefModel.parse_examples, DefModel.try. cbn [write_examples].
    destruct (Q _ _ JStr _ M4) as (q1 & q2 & q3 & q4 & q5). rewrite q1, q2, q3, q4, q5.
    rewrite (lift_fail _ _ _ (lift_fail _ _ _ fail_i64_text) _ _ M4 M1),
      (lift_fail _ _ _ (lift_fail _ _ _ fail_f64_text) _ _ M4 M2),
      (lift_fail _ _ _ (lift_fail _ _ _ fail_bool_text) _ _ M4 M3),
      (lift_back _ _ (lift_back _ _ back_text) _ _ M4). reflexivity.
  Qed.
End Ex.
