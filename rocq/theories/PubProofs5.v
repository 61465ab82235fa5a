(* whatever is read is well formed *)
From Coq Require Import String Ascii Bool Arith ZArith NArith Lia Sorted List.
Import ListNotations.
From Verif Require Import Base BaseProofs Json SemTypes Resolved.
From Verif Require SchemaDiffModel DefModel UrlModel JinModel.
Import JinModel.
From Verif Require Import PubModel PubSpec.
Local Open Scope string_scope.

Definition gives {A} (rd : json -> option A) (x : A) : Prop := exists v, rd v = Some x.
Lemma obind_inv : forall {A B} (o : option A) (g : A -> option B) y,
  obind o g = Some y -> exists x, o = Some x /\ g x = Some y.
Proof. intros A B [x|] g y H; [exists x; auto|discriminate]. Qed.
Ltac steps H := repeat match type of H with
  | obind _ _ = Some _ => let x := fresh "x" in let E := fresh "E" in
      apply obind_inv in H; destruct H as (x & E & H)
  end.
Lemma req_gives : forall {A} (rd : json -> option A) k m x, required rd k m = Some x -> gives rd x.
Proof. intros A rd k m x H. unfold required in H. steps H. eexists; exact H. Qed.
Lemma def_gives : forall {A} d (rd : json -> option A) k m x, defaulted d rd k m = Some x -> x = d \/ gives rd x.
Proof.
  intros A d rd k m x H. unfold defaulted in H. steps H. destruct x0 as [v|]; [right; exists v; exact H|left; congruence].
Qed.
Lemma opt_gives : forall {A} (rd : json -> option A) k m o x, optional rd k m = Some o -> o = Some x -> gives rd x.
Proof.
  intros A rd k m o x H ->. unfold optional in H. steps H. destruct x0 as [v|]; [|discriminate].
  assert (Q : option_map Some (rd v) = Some (Some x)) by (destruct v; [discriminate|exact H..]).
  destruct (rd v) as [y|] eqn:Ey; [|discriminate]. cbn in Q. exists v. congruence.
Qed.
Lemma vec_gives : forall {A} (rd : json -> option A) (P : A -> Prop) l,
  gives (read_vec rd) l -> (forall x, gives rd x -> P x) -> Forall P l.
Proof.
  intros A rd P l [v H] HP. destruct v as [| | | |js|]; try discriminate. cbn in H.
  revert l H. induction js as [|j js IH]; intros l H; cbn in H; [injection H as <-; constructor|].
  steps H. injection H as <-. constructor; [apply HP; exists j; exact E|apply IH; exact E0].
Qed.
Lemma def_vec_gives : forall {A} (rd : json -> option A) (P : A -> Prop) k m l,
  defaulted [] (read_vec rd) k m = Some l -> (forall x, gives rd x -> P x) -> Forall P l.
Proof. intros A rd P k m l H HP. destruct (def_gives _ _ _ _ _ H) as [-> | G]; [constructor|exact (vec_gives rd P l G HP)]. Qed.
Lemma req_vec_gives : forall {A} (rd : json -> option A) (P : A -> Prop) k m l,
  required (read_vec rd) k m = Some l -> (forall x, gives rd x -> P x) -> Forall P l.
Proof. intros A rd P k m l H HP. exact (vec_gives rd P l (req_gives _ _ _ _ H) HP). Qed.

Lemma ref_small : forall n, gives read_ref n -> small n.
Proof.
  intros n [v H]. unfold read_ref, read_u32, read_int in H. destruct v as [| |[z|]| | |]; try discriminate.
  destruct (_ && _)%bool eqn:E; [|discriminate]. injection H as <-. apply andb_true_iff in E as [E1 E2].
  apply Z.leb_le in E1, E2. unfold small. lia.
Qed.
Lemma put_keys : forall {V} k (v : V) m, in_order (map fst m) ->
  in_order (map fst (put k v m)) /\ (forall x, In x (map fst (put k v m)) -> x = k \/ In x (map fst m)).
Proof.
  intros V k v m. induction m as [|[k' v'] m IH]; intros H; [cbn; split; [repeat constructor|intuition]|].
  pose proof (StronglySorted_inv H) as [H1 H2]. cbn [put]. destruct (str_cmp k k') eqn:E.
  - apply str_cmp_eq in E. subst k'. split; [exact H|intros x Hx; right; exact Hx].
  - split; [|cbn; intuition]. cbn. constructor; [exact H|]. constructor; [exact E|].
    eapply Forall_impl; [|exact H2]. intros x Hx. cbn in Hx. exact (str_cmp_trans_lt _ _ _ E Hx).
  - destruct (IH H1) as [I1 I2]. split; [|cbn; intros x [-> | Hx]; [auto|destruct (I2 x Hx); auto]].
    cbn. constructor; [exact I1|]. apply Forall_forall. intros x Hx. destruct (I2 x Hx) as [-> | Q].
    + rewrite str_cmp_antisym, E. reflexivity.
    + rewrite Forall_forall in H2. exact (H2 x Q).
Qed.
Lemma put_fold : forall {V W} (g : W -> string * V) l m, in_order (map fst m) ->
  in_order (map fst (fold_left (fun a x => put (fst (g x)) (snd (g x)) a) l m)).
Proof.
  intros V W g l. induction l as [|x l IH]; intros m H; [exact H|]. cbn. apply IH. apply put_keys, H.
Qed.
Lemma annotations_order : forall m, gives read_annotations m -> in_order (map fst m).
Proof.
  intros m [v H]. destruct v as [| | | | |l]; try discriminate. injection H as <-.
  apply (put_fold (fun kv : string * json => kv)). constructor.
Qed.
Lemma set_order : forall l, in_order (as_set l).
Proof. intros l. unfold as_set. apply (put_fold (fun k => (k, tt))). constructor. Qed.
Lemma put_in : forall k m x, In x (map fst (put k tt m)) -> x = k \/ In x (map fst m).
Proof.
  intros k m x. induction m as [|[k' []] m IH]; cbn [put]; [cbn; intuition|].
  destruct (str_cmp k k'); cbn; intuition.
Qed.
Lemma set_in : forall l x, In x (as_set l) -> In x l.
Proof.
  intros l x H. unfold as_set in H.
  assert (G : forall m, In x (map fst (fold_left (fun a k => put k tt a) l m)) -> In x l \/ In x (map fst m)).
  { clear H. induction l as [|k l IH]; intros m H; [auto|]. cbn in H. apply IH in H as [H|H]; [left; right; exact H|].
    apply put_in in H as [-> | H]; [left; left; reflexivity|auto]. }
  destruct (G [] H) as [Q|[]]. exact Q.
Qed.

Lemma provenance_reads : forall m p, provenance_of m = Some p -> provenance_ok p.
Proof.
  intros m p H. destruct (def_gives _ _ _ _ _ H) as [-> | [v G]]; [intros n Q; discriminate Q|].
  unfold read_provenance in G. steps G. injection G as <-. intros n Q. cbn in Q.
  exact (ref_small n (opt_gives _ _ _ _ _ E0 Q)).
Qed.
Lemma common_reads : forall m c, read_common m = Some c -> common_ok c.
Proof.
  intros m c H. unfold read_common in H. steps H. injection H as <-. unfold common_ok. cbn.
  destruct (def_gives _ _ _ _ _ E3) as [-> | G]; [constructor|exact (annotations_order _ G)].
Qed.
Lemma use_reads : forall u, gives read_use u -> use_ok u.
Proof. intros u [v H]. unfold read_use in H. steps H. injection H as <-. split; [exact (ref_small _ (req_gives _ _ _ _ E1))|reflexivity]. Qed.
Lemma span_use_reads : forall u, gives read_span_use u -> span_use_ok u.
Proof. intros u [v H]. unfold read_span_use in H. steps H. injection H as <-. exact (ref_small _ (req_gives _ _ _ _ E1)). Qed.
Lemma entity_ref_reads : forall r, gives read_entity_ref r -> provenance_ok (er_provenance r).
Proof. intros r [v H]. unfold read_entity_ref in H. steps H. injection H as <-. exact (provenance_reads _ _ E2). Qed.

Fixpoint all_assocs (l : list json) : option (list (assoc entity_ref)) :=
  match l with
  | [] => Some []
  | x :: r => match read_assoc x, all_assocs r with Some a, Some b => Some (a :: b) | _, _ => None end
  end.
Fixpoint kids (k : string) (m : list (string * json)) : list (option (list (assoc entity_ref))) :=
  match m with
  | [] => []
  | (k', w) :: r =>
    let rest := kids k r in
    if String.eqb k k' then match w with JArr l => all_assocs l | _ => None end :: rest else rest
  end.
Lemma read_assoc_eq : forall v, read_assoc v =
  match read_entity_ref v with
  | Some r => Some (ARef r)
  | None => match v with
            | JObj m => match kids "one_of" m with
                        | [Some l] => Some (AOneOf l)
                        | _ => match kids "all_of" m with [Some l] => Some (AAllOf l) | _ => None end
                        end
            | _ => None
            end
  end.
Proof. intros v. destruct v; reflexivity. Qed.
Lemma assoc_reads : forall v a, read_assoc v = Some a -> assoc_ok a.
Proof.
  fix IH 1. intros v a H. rewrite read_assoc_eq in H.
  destruct (read_entity_ref v) as [r|] eqn:E.
  - injection H as <-. intros r' [<- | []]. apply entity_ref_reads. exists v. exact E.
  - destruct v as [| | | | |m]; try discriminate.
    assert (G : forall k l, In (Some l) (kids k m) -> forall r, In r (flat_map leaves l) -> provenance_ok (er_provenance r)).
    { clear H E. intros k. induction m as [|[k' w] m IHm]; intros l H r Hr; [destruct H|].
      cbn in H. destruct (String.eqb k k'); [|exact (IHm l H r Hr)].
      destruct H as [H|H]; [|exact (IHm l H r Hr)]. clear IHm. destruct w as [| | | |js|]; try discriminate.
      revert l H Hr. induction js as [|j js IHj]; intros l H Hr; cbn in H; [injection H as <-; destruct Hr|].
      destruct (read_assoc j) as [x|] eqn:Ej; [|discriminate]. destruct (all_assocs js) as [y|]; [|discriminate].
      injection H as <-. cbn in Hr. apply in_app_or in Hr as [Hr|Hr]; [exact (IH j x Ej r Hr)|exact (IHj y eq_refl Hr)]. }
    destruct (kids "one_of" m) as [|[l|] [|]] eqn:K1;
      try (injection H as <-; exact (G "one_of" l ltac:(rewrite K1; left; reflexivity)));
      (destruct (kids "all_of" m) as [|[l'|] [|]] eqn:K2; try discriminate;
       injection H as <-; exact (G "all_of" l' ltac:(rewrite K2; left; reflexivity))).
Qed.
Lemma assoc_given : forall a, gives read_assoc a -> assoc_ok a.
Proof. intros a [v H]. exact (assoc_reads v a H). Qed.

Lemma group_reads : forall g, gives read_group g -> group_ok g.
Proof.
  intros g [v H]. unfold read_group in H. steps H. injection H as <-.
  split; [exact (req_vec_gives _ _ _ _ _ E2 use_reads)|split; [exact (common_reads _ _ E3)|exact (provenance_reads _ _ E4)]].
Qed.
Lemma span_reads : forall m s, read_span_fields m = Some s -> span_ok s.
Proof.
  intros m s H. unfold read_span_fields in H. steps H. injection H as <-.
  split; [exact (def_vec_gives _ _ _ _ _ E3 span_use_reads)|]. split; [exact (def_vec_gives _ _ _ _ _ E4 assoc_given)|].
  split; [exact (common_reads _ _ E6)|exact (provenance_reads _ _ E7)].
Qed.
Lemma metric_reads : forall m s, read_metric_fields m = Some s -> metric_ok s.
Proof.
  intros m s H. unfold read_metric_fields in H. steps H. injection H as <-.
  split; [exact (def_vec_gives _ _ _ _ _ E3 use_reads)|]. split; [exact (def_vec_gives _ _ _ _ _ E4 assoc_given)|].
  split; [exact (common_reads _ _ E6)|exact (provenance_reads _ _ E7)].
Qed.
Lemma event_reads : forall m s, read_event_fields m = Some s -> event_ok s.
Proof.
  intros m s H. unfold read_event_fields in H. steps H. injection H as <-.
  split; [exact (def_vec_gives _ _ _ _ _ E1 use_reads)|]. split; [exact (def_vec_gives _ _ _ _ _ E2 assoc_given)|].
  split; [exact (common_reads _ _ E4)|exact (provenance_reads _ _ E5)].
Qed.
Lemma entity_reads : forall m s, read_entity_fields m = Some s -> entity_ok s.
Proof.
  intros m s H. unfold read_entity_fields in H. steps H. injection H as <-.
  split; [exact (req_vec_gives _ _ _ _ _ E1 use_reads)|]. split; [exact (def_vec_gives _ _ _ _ _ E2 use_reads)|].
  split; [exact (common_reads _ _ E4)|exact (provenance_reads _ _ E5)].
Qed.
Lemma signal_reads : forall {A} (rd : list (string * json) -> option A) (P : A -> Prop),
  (forall m x, rd m = Some x -> P x) -> forall x, gives (read_signal rd) x -> P x.
Proof. intros A rd P H x [v G]. unfold read_signal in G. steps G. exact (H _ _ G). Qed.
Lemma refined_reads : forall {A} (rd : list (string * json) -> option A) (P : A -> Prop),
  (forall m x, rd m = Some x -> P x) -> forall x, gives (read_refinement rd) x -> P (snd x).
Proof. intros A rd P H x [v G]. unfold read_refinement in G. steps G. injection G as <-. exact (H _ _ E1). Qed.

Section Read.
  Variable f : Z -> N.
  Variable url_parse : string -> option UrlModel.parsed_url.
  Lemma value_reads : forall v, gives (DefModel.as_value f) v -> value_ok v.
  Proof.
    intros v [j H]. unfold DefModel.as_value, DefModel.as_i64 in H.
    destruct j as [|b|[z|d]|s|l|m]; cbn in H; try discriminate; try (injection H as <-; exact Logic.I).
    destruct (_ && _)%bool eqn:E; injection H as <-; [|exact Logic.I].
    apply andb_true_iff in E as [E1 E2]. apply Z.leb_le in E1, E2. cbn. lia.
  Qed.
  Lemma member_reads : forall e, gives (read_member f) e -> member_ok e.
  Proof.
    intros e [v H]. unfold read_member in H. steps H. injection H as <-. split; cbn.
    - destruct x2 as [y|]; [exact (value_reads _ (opt_gives _ _ _ _ _ E2 eq_refl))|exact Logic.I].
    - intros m Q. exact (annotations_order _ (opt_gives _ _ _ _ _ E7 Q)).
  Qed.
  Lemma type_reads : forall t, gives (read_type f) t -> type_ok t.
  Proof.
    intros t [v H] ms ->. unfold read_type, DefModel.try in H.
    destruct (read_named prim_of_name v); [discriminate|]. destruct (read_named template_of_name v); [discriminate|].
    destruct (obind _ _) as [l|] eqn:E; [|discriminate]. injection H as <-. steps E.
    exact (req_vec_gives _ _ _ _ _ E member_reads).
  Qed.
  Lemma attribute_reads : forall a, gives (read_attribute f) a -> attribute_ok f a.
  Proof.
    intros a [v H]. unfold read_attribute in H. steps H. injection H as <-.
    split; [exact (type_reads _ (req_gives _ _ _ _ E2))|]. split; [|split; [exact (common_reads _ _ E4)|exact (provenance_reads _ _ E5)]].
    cbn. intros e Q. exact (opt_gives _ _ _ _ _ E3 Q).
  Qed.
  Lemma url_reads : forall x, gives (read_url url_parse) x -> url_ok url_parse x.
  Proof.
    intros x [v H]. unfold read_url in H. steps H.
    destruct (UrlModel.schema_url_new url_parse x0) as [su|] eqn:E1; [|discriminate]. injection H as <-.
    exists x0, su. auto.
  Qed.
  Theorem schema_reads : forall v s, read_schema f url_parse v = Some s -> well_formed f url_parse s.
  Proof.
    intros v s H. unfold read_schema in H. steps H. injection H as <-.
    pose proof (req_gives _ _ _ _ E4) as [vr R]. pose proof (req_gives _ _ _ _ E5) as [vf F].
    unfold read_registry in R. steps R. injection R as <-.
    unfold read_refinements in F. steps F. injection F as <-.
    constructor; cbn.
    - exact (url_reads _ (req_gives _ _ _ _ E2)).
    - exact (req_vec_gives _ _ _ _ _ E3 attribute_reads).
    - eapply req_vec_gives; [eassumption|exact ref_small].
    - eapply req_vec_gives; [eassumption|exact group_reads].
    - eapply req_vec_gives; [eassumption|exact (signal_reads _ _ span_reads)].
    - eapply req_vec_gives; [eassumption|exact (signal_reads _ _ metric_reads)].
    - eapply req_vec_gives; [eassumption|exact (signal_reads _ _ event_reads)].
    - eapply req_vec_gives; [eassumption|exact (signal_reads _ _ entity_reads)].
    - eapply req_vec_gives; [eassumption|exact (refined_reads _ _ span_reads)].
    - eapply req_vec_gives; [eassumption|exact (refined_reads _ _ metric_reads)].
    - eapply req_vec_gives; [eassumption|exact (refined_reads _ _ event_reads)].
    - eapply def_vec_gives; [eassumption|exact (refined_reads _ _ entity_reads)].
    - destruct (def_gives _ _ _ _ _ E6) as [-> | [vd G]]; [split; constructor|].
      destruct (read_vec (read_url url_parse) vd) as [l|] eqn:L; [|discriminate]. injection G as <-.
      split; [|apply set_order]. apply Forall_forall. intros u Hu. apply set_in in Hu.
      assert (Q : Forall (url_ok url_parse) l) by (eapply vec_gives; [exists vd; exact L|exact url_reads]).
      rewrite Forall_forall in Q. exact (Q u Hu).
  Qed.
End Read.
