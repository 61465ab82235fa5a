From Coq Require Import String Ascii Bool Arith ZArith NArith Lia Sorted List.
Import ListNotations.
From Verif Require Import Base BaseProofs Json SemTypes Resolved.
From Verif Require SchemaDiffModel SchemaDiffSpec DefModel UrlModel JinModel JinSpec JinProofs StrProofs Str.
Import JinModel JinSpec JinProofs.
From Verif Require Import PubModel PubSpec PubProofs.
Local Open Scope string_scope.

(* ---------- the entries under a key ---------- *)
Lemma under_app : forall k a b, under k (a ++ b) = (under k a ++ under k b)%list.
Proof. intros k a b. unfold under. rewrite filter_app, map_app. reflexivity. Qed.
Lemma under_cons : forall k k' v r, under k ((k', v) :: r) = if String.eqb k' k then v :: under k r else under k r.
Proof. intros k k' v r. unfold under. cbn. destruct (String.eqb k' k); reflexivity. Qed.
Lemma under_nil : forall k, under k [] = [].
Proof. reflexivity. Qed.
Lemma under_unless : forall {A} k (skip : A -> bool) k' w a,
  under k (unless skip k' w a) = if String.eqb k' k then (if skip a then [] else [w a]) else [].
Proof.
  intros A k skip k' w a. unfold unless. destruct (skip a); [now destruct (String.eqb k' k)|].
  rewrite under_cons. reflexivity.
Qed.
Definition one_if {A} (w : A -> json) (o : option A) : list json := match o with Some a => [w a] | None => [] end.
Lemma under_if_some : forall {A} k k' (w : A -> json) o,
  under k (if_some k' w o) = if String.eqb k' k then one_if w o else [].
Proof.
  intros A k k' w [a|]; cbn [if_some one_if]; [rewrite under_cons; reflexivity|].
  now destruct (String.eqb k' k).
Qed.

Definition other (k : string) (c : common) : Prop := under k (write_common c) = [].
Lemma under_common_other : forall k c, existsb (String.eqb k) common_keys = false -> under k (write_common c) = [].
Proof.
  intros k c H. unfold write_common. rewrite !under_app, !under_cons, !under_unless, under_if_some, !under_nil.
  cbn in H. rewrite !orb_false_iff in H. destruct H as (h1 & h2 & h3 & h4 & h5 & _).
  rewrite (String.eqb_sym "brief"), (String.eqb_sym "note"), (String.eqb_sym "stability"),
    (String.eqb_sym "deprecated"), (String.eqb_sym "annotations"), h1, h2, h3, h4, h5. reflexivity.
Qed.
Definition one_prov (p : provenance2) : list json :=
  match p2_source p with Some n => [JObj [("source", PubModel.write_ref n)]] | None => [] end.
Lemma under_prov : forall k p, under k (write_provenance p) = if String.eqb "provenance" k then one_prov p else [].
Proof.
  intros k p. unfold write_provenance, one_prov. destruct (p2_source p); [rewrite under_cons; reflexivity|].
  now destruct (String.eqb _ _).
Qed.

(* ---------- fields ---------- *)
Lemma req_back : forall {A B} (rd : json -> option B) (w : A -> json) (g : A -> B) a k m,
  under k m = [w a] -> rd (w a) = Some (g a) -> required rd k m = Some (g a).
Proof. intros A B rd w g a k m H E. rewrite (req_one rd k m _ H). exact E. Qed.
Lemma def_unless : forall {A B} d (rd : json -> option B) (w : A -> json) (g : A -> B) (skip : A -> bool) a k m,
  under k m = (if skip a then [] else [w a]) -> (skip a = true -> g a = d) -> rd (w a) = Some (g a) ->
  defaulted d rd k m = Some (g a).
Proof.
  intros A B d rd w g skip a k m H Hs E. destruct (skip a) eqn:S.
  - unfold defaulted. rewrite (field_zero k m H). cbn. rewrite Hs; reflexivity.
  - rewrite (def_one d rd k m _ H). exact E.
Qed.
Lemma opt_some : forall {A B} (rd : json -> option B) (w : A -> json) (g : A -> B) o k m,
  under k m = one_if w o -> (forall a, o = Some a -> rd (w a) = Some (g a) /\ w a <> JNull) ->
  optional rd k m = Some (option_map g o).
Proof.
  intros A B rd w g [a|] k m H E; cbn in H.
  - destruct (E a eq_refl) as [E1 E2]. rewrite (opt_one rd k m _ H E2), E1. reflexivity.
  - unfold optional. rewrite (field_zero k m H). reflexivity.
Qed.
Lemma known_ok : forall ks m, incl (map fst m) ks -> known ks m = Some tt.
Proof.
  intros ks m H. unfold known. replace (forallb _ m) with true; [reflexivity|]. symmetry.
  apply forallb_forall. intros [k v] Hin. apply existsb_exists. exists k. split; [|apply String.eqb_refl].
  apply H. apply (in_map fst) in Hin. exact Hin.
Qed.
Lemma keys_common : forall c, incl (map fst (write_common c)) common_keys.
Proof.
  intros c. unfold write_common, unless, if_some. intros k H.
  destruct (String.eqb "" (c_note c)), (c_deprecated c), (is_nil (c_annotations c)); cbn in H |- *; intuition.
Qed.
Lemma keys_prov : forall p, incl (map fst (write_provenance p)) ["provenance"].
Proof. intros p k H. unfold write_provenance in H. destruct (p2_source p); cbn in H |- *; intuition. Qed.

(* ---------- leaves ---------- *)
Lemma ref_back : forall n, small n -> read_ref (PubModel.write_ref n) = Some n.
Proof.
  intros n H. unfold read_ref, PubModel.write_ref. change (JNum (NInt (Z.of_nat n))) with (write_int (Z.of_nat n)).
  rewrite u32_int; [cbn; now rewrite Nat2Z.id|]. split; [apply Nat2Z.is_nonneg|exact H].
Qed.
Lemma prov_back : forall p m, provenance_ok p -> under "provenance" m = one_prov p ->
  provenance_of m = Some (kept_provenance p).
Proof.
  intros [s q] m H E. unfold one_prov, provenance_of, kept_provenance, provenance_ok in *. cbn in *.
  destruct s as [n|].
  - rewrite (def_one _ _ _ _ _ E). unfold read_provenance. cbn [entries obind].
    rewrite (opt_one read_ref "source" _ (PubModel.write_ref n)); [|reflexivity|discriminate].
    rewrite ref_back by (apply H; reflexivity). reflexivity.
  - unfold defaulted. rewrite (field_zero _ _ E). reflexivity.
Qed.
Lemma stability_back : forall s, read_named stability_of_name (write_stability s) = Some s.
Proof. destruct s; reflexivity. Qed.
Lemma signal_level_back : forall l, read_named signal_level_of_name (write_signal_level l) = Some l.
Proof. destruct l; reflexivity. Qed.
Lemma kind_back : forall k, read_named span_kind_of_name (write_kind k) = Some k.
Proof. destruct k; reflexivity. Qed.
Lemma instrument_back : forall k, read_named instrument_of_name (PubModel.write_instrument k) = Some k.
Proof. destruct k; reflexivity. Qed.
Lemma level_back : forall l, read_level (PubModel.write_level l) = Some l.
Proof. destruct l; reflexivity. Qed.
Lemma dep_back : forall d, SchemaDiffModel.dep_of_json (SchemaDiffModel.dep_to_json d) = Some (kept_deprecation d).
Proof. destruct d as [to [n|]| | |]; reflexivity. Qed.
Lemma dep_member_back : forall d, (forall t, d <> DUnspecified t) ->
  SchemaDiffModel.dep_of_definition (SchemaDiffModel.dep_to_json d) = Some (kept_deprecation d).
Proof. destruct d as [to [n|]| | |]; intros H; try reflexivity. destruct (H note eq_refl). Qed.
Lemma dep_member_lost : forall t, SchemaDiffModel.dep_of_definition (SchemaDiffModel.dep_to_json (DUnspecified t)) = None.
Proof. reflexivity. Qed.
Lemma value_back : forall f v, value_ok v -> DefModel.as_value f (write_value_spec v) = Some v.
Proof.
  intros f [z|d|s|b] H; try reflexivity. cbn in H. unfold DefModel.as_value, DefModel.as_i64. cbn [write_value_spec].
  replace ((-9223372036854775808 <=? z)%Z) with true by (symmetry; apply Z.leb_le; lia).
  replace ((z <=? 9223372036854775807)%Z) with true by (symmetry; apply Z.leb_le; lia). reflexivity.
Qed.
Lemma value_nonnull : forall v, write_value_spec v <> JNull.
Proof. destruct v; discriminate. Qed.
Lemma examples_nonnull : forall e, PubModel.write_examples e <> JNull.
Proof. destruct e; try discriminate. cbn. apply value_nonnull. Qed.

(* ---------- maps in key order ---------- *)
Lemma put_last : forall {V} (m : list (string * V)) k v,
  Forall (fun x => str_cmp (fst x) k = Lt) m -> put k v m = (m ++ [(k, v)])%list.
Proof.
  intros V m k v H. induction H as [|[k1 v1] m Hx _ IH]; [reflexivity|]. cbn [fst put] in Hx |- *.
  rewrite (str_cmp_antisym k k1), Hx. cbn. rewrite IH. reflexivity.
Qed.
Lemma put_all : forall {V} (m acc : list (string * V)), in_order (map fst (acc ++ m)) ->
  fold_left (fun a kv => put (fst kv) (snd kv) a) m acc = (acc ++ m)%list.
Proof.
  intros V m. induction m as [|[k v] m IH]; intros acc H; [cbn; now rewrite app_nil_r|].
  cbn [fold_left fst snd]. rewrite put_last.
  - rewrite IH; rewrite <- app_assoc; [reflexivity|exact H].
  - clear IH. rewrite map_app in H. induction acc as [|[k' v'] acc IH]; [constructor|].
    cbn in H. apply StronglySorted_inv in H as [H1 H2]. constructor; [|apply IH; exact H1].
    rewrite Forall_app in H2. destruct H2 as [_ H2]. inversion H2. assumption.
Qed.
Lemma annotations_back : forall m, in_order (map fst m) -> read_annotations (write_annotations m) = Some m.
Proof. intros m H. unfold read_annotations, write_annotations. rewrite put_all by exact H. reflexivity. Qed.
Lemma set_back : forall l, in_order l -> as_set l = l.
Proof.
  intros l H. unfold as_set.
  assert (E : forall acc, fold_left (fun a k => put k tt a) l acc
              = fold_left (fun a kv => put (fst kv) (snd kv) a) (map (fun k => (k, tt)) l) acc).
  { clear H. induction l as [|k l IH]; intros acc; [reflexivity|]. cbn. apply IH. }
  rewrite E, put_all; cbn [app]; rewrite map_map; cbn; rewrite map_id; [reflexivity|exact H].
Qed.

Lemma common_back : forall c m, common_ok c -> (forall k, In k common_keys -> under k m = under k (write_common c)) ->
  read_common m = Some (kept_common c).
Proof.
  intros [b n s d a] m H E. unfold read_common, kept_common. cbn in H.
  assert (U : forall k, In k common_keys -> under k m = under k (write_common
    {| c_brief := b; c_note := n; c_stability := s; c_deprecated := d; c_annotations := a |})) by exact E. clear E.
  unfold write_common in U. cbn [c_brief c_note c_stability c_deprecated c_annotations] in *.
  assert (V : forall k, In k common_keys -> under k m =
    ((if String.eqb "brief" k then [JStr b] else []) ++
     (if String.eqb "note" k then (if String.eqb "" n then [] else [JStr n]) else []) ++
     (if String.eqb "stability" k then [write_stability s] else []) ++
     (if String.eqb "deprecated" k then one_if SchemaDiffModel.dep_to_json d else []) ++
     (if String.eqb "annotations" k then (if is_nil a then [] else [write_annotations a]) else []))%list).
  { intros k Hk. rewrite (U k Hk), !under_app, !under_cons, !under_unless, under_if_some, !under_nil. reflexivity. }
  clear U.
  rewrite (req_back read_string JStr (fun x => x) b "brief" m);
    [|rewrite V by (cbn; auto 10); reflexivity|reflexivity].
  cbn [obind].
  rewrite (def_unless "" read_string JStr (fun x => x) (String.eqb "") n "note" m);
    [|rewrite V by (cbn; auto 10); cbn; now rewrite app_nil_r|intros Q; apply String.eqb_eq in Q; auto|reflexivity].
  cbn [obind].
  rewrite (req_back (read_named stability_of_name) write_stability (fun x => x) s "stability" m);
    [|rewrite V by (cbn; auto 10); reflexivity|apply stability_back].
  cbn [obind].
  rewrite (opt_some SchemaDiffModel.dep_of_json SchemaDiffModel.dep_to_json kept_deprecation d "deprecated" m);
    [|rewrite V by (cbn; auto 10); cbn; now rewrite app_nil_r|intros x _; split; [apply dep_back|destruct x as [? []| | |]; discriminate]].
  cbn [obind].
  rewrite (def_unless [] read_annotations write_annotations (fun x => x) is_nil a "annotations" m);
    [reflexivity|rewrite V by (cbn; auto 10); reflexivity|intros Q; destruct a; [reflexivity|discriminate]
    |apply annotations_back; exact H].
Qed.
