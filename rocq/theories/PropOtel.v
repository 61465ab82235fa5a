(* C23-C25, C53-C56: template filters. *)
From Coq Require Import String Ascii Bool Arith ZArith NArith Lia Permutation Sorted List.
Import ListNotations.
From Verif Require Import Base BaseProofs BaseProofs2 Json SemTypes Str StrProofs F64 OtelModel OtelSpec.
Local Open Scope string_scope.

(* ** C23 *)

Lemma interleave_filter {A} (p : A -> bool) l :
  interleave l (filter p l) (filter (fun x => negb (p x)) l).
Proof.
  induction l as [|x l IH]; cbn; [constructor|]. destruct (p x); cbn; constructor; exact IH.
Qed.

(* Every list of template values is split in two parts that keep its order and contain every
   element once. *)
Theorem C23_partition : forall l, interleave l (required l) (not_required l).
Proof. intros l. apply interleave_filter. Qed.
Print Assumptions C23_partition.

Lemma get_attr_level ex a : get_attr (ser_attr ex a) "requirement_level" = Some (ser_level (at_req a)).
Proof. reflexivity. Qed.

Definition is_req (a : attribute) : bool := match at_req a with RRequired => true | _ => false end.

Lemma required_ser ex a :
  str_opt_eqb (as_str (get_attr (ser_attr ex a) "requirement_level")) "required" = is_req a.
Proof. rewrite get_attr_level. unfold is_req. destruct (at_req a); reflexivity. Qed.

(* On the attributes of a resolved registry, the first part is the attributes whose level is
   "required" (not those conditionally required), the second part all others. *)
Theorem C23_required_exact : forall ex al,
  exists reqs others,
    interleave al reqs others /\
    Forall (fun a => at_req a = RRequired) reqs /\
    Forall (fun a => at_req a <> RRequired) others /\
    required (map (fun a => ser_attr (ex a) a) al) = map (fun a => ser_attr (ex a) a) reqs /\
    not_required (map (fun a => ser_attr (ex a) a) al) = map (fun a => ser_attr (ex a) a) others.
Proof.
  intros ex al. exists (filter is_req al), (filter (fun a => negb (is_req a)) al).
  split; [apply interleave_filter|]. split; [|split; [|split]].
  - apply Forall_forall. intros a H. apply filter_In in H as [_ H]. unfold is_req in H. destruct (at_req a); congruence.
  - apply Forall_forall. intros a H. apply filter_In in H as [_ H]. unfold is_req in H. destruct (at_req a); discriminate.
  - unfold required. induction al as [|a al IH]; [reflexivity|]. cbn [map filter]. rewrite required_ser.
    destruct (is_req a); cbn [map]; rewrite IH; reflexivity.
  - unfold not_required. induction al as [|a al IH]; [reflexivity|]. cbn [map filter]. rewrite required_ser.
    destruct (is_req a); cbn [map negb]; rewrite IH; reflexivity.
Qed.
Print Assumptions C23_required_exact.

Definition ex_attr (n : string) (r : req_level) : attribute :=
  {| at_name := n; at_type := TPrim PString; at_brief := ""; at_examples := None; at_tag := None;
     at_req := r; at_sampling := None; at_note := ""; at_stability := None; at_deprecated := None;
     at_prefix := false; at_annotations := None; at_role := None |}.

Example C23_ex :
  let al := [ex_attr "a" RRequired; ex_attr "b" (RConditional "if set"); ex_attr "c" RRequired] in
  required (map (ser_attr []) al) = map (ser_attr []) [ex_attr "a" RRequired; ex_attr "c" RRequired] /\
  not_required (map (ser_attr []) al) = map (ser_attr []) [ex_attr "b" (RConditional "if set")].
Proof. split; reflexivity. Qed.

(* ** C24 *)

(* template values that are strings compare like strings *)
Definition string_order (val_cmp : option json -> option json -> comparison) : Prop :=
  forall a b, val_cmp (Some (JStr a)) (Some (JStr b)) = str_cmp a b.

Lemma ordinal_ser ex a : ~ has_text_opt_in (at_req a) -> ordinal (ser_attr ex a) = Ok (level_rank (at_req a)).
Proof.
  intros H. unfold ordinal. rewrite get_attr_level. destruct (at_req a) as [| | |t|t|t]; try reflexivity.
  exfalso. apply H. exists t. reflexivity.
Qed.

Definition attr_leb' (a b : attribute) : bool :=
  match Nat.compare (level_rank (at_req a)) (level_rank (at_req b)) with
  | Lt => true | Gt => false
  | Eq => str_leb (at_name a) (at_name b)
  end.

Lemma attr_leb'_iff a b : attr_leb' a b = true <-> attr_le a b.
Proof.
  unfold attr_leb', attr_le. destruct (Nat.compare_spec (level_rank (at_req a)) (level_rank (at_req b))) as [E|E|E].
  - split; [auto|]. intros [H|[_ H]]; [lia|exact H].
  - split; auto.
  - split; [discriminate|]. intros [H|[H _]]; lia.
Qed.

Lemma attr_le_trans a b c : attr_le a b -> attr_le b c -> attr_le a c.
Proof.
  unfold attr_le. intros [H|[H K]] [H'|[H' K']]; [left; lia|left; lia|left; lia|right].
  split; [lia|]. eapply str_leb_trans; eassumption.
Qed.

Lemma attr_le_total a b : attr_le a b \/ attr_le b a.
Proof.
  unfold attr_le. destruct (Nat.lt_trichotomy (level_rank (at_req a)) (level_rank (at_req b))) as [H|[H|H]]; auto.
  destruct (str_leb_total (at_name a) (at_name b)); auto.
Qed.

Lemma sort_map_aux {A B} (f : A -> B) (leb : A -> A -> bool) (leb' : B -> B -> bool) l :
  (forall x y, In x l -> In y l -> leb' (f x) (f y) = leb x y) ->
  stable_sort leb' (map f l) = map f (stable_sort leb l).
Proof.
  assert (I : forall x m, (forall y, In y m -> leb' (f x) (f y) = leb x y) ->
     sort_insert leb' (f x) (map f m) = map f (sort_insert leb x m)).
  { intros x m. induction m as [|y m IH]; intros H; [reflexivity|]. cbn [map sort_insert]. rewrite H by (left; reflexivity).
    destruct (leb x y); [reflexivity|]. cbn [map]. rewrite IH; [reflexivity|]. intros z Hz. apply H. right. exact Hz. }
  induction l as [|x l IH]; intros H; [reflexivity|]. cbn [map stable_sort fold_right].
  fold (stable_sort leb l). fold (stable_sort leb' (map f l)). rewrite IH.
  - apply I. intros y Hy. apply stable_sort_in in Hy. apply H; [left; reflexivity|right; exact Hy].
  - intros a b Ha Hb. apply H; right; assumption.
Qed.

Lemma attribute_sort_ser val_cmp ex al : string_order val_cmp ->
  Forall (fun a => ~ has_text_opt_in (at_req a)) al ->
  attribute_sort val_cmp (map (fun a => ser_attr (ex a) a) al) =
  Ok (map (fun a => ser_attr (ex a) a) (stable_sort attr_leb' al)).
Proof.
  intros Hs Hl. unfold attribute_sort. rewrite map_length.
  destruct (Nat.leb_spec (length al) 1) as [H1|H1].
  - destruct al as [|a [|b al]]; [reflexivity|reflexivity|cbn in H1; lia].
  - assert (F : forallb (fun v => is_ok (ordinal v)) (map (fun a => ser_attr (ex a) a) al) = true).
    { apply forallb_forall. intros v Hv. apply in_map_iff in Hv as (a & <- & Ha).
      rewrite Forall_forall in Hl. rewrite ordinal_ser by (apply Hl, Ha). reflexivity. }
    rewrite F. f_equal. apply sort_map_aux. intros x y Hx Hy. unfold attr_leb, attr_leb', ord_of.
    rewrite Forall_forall in Hl. rewrite !ordinal_ser by (apply Hl; assumption).
    destruct (Nat.compare _ _); try reflexivity.
    change (get_name_or_key (ser_attr (ex x) x)) with (Some (JStr (at_name x))).
    change (get_name_or_key (ser_attr (ex y) y)) with (Some (JStr (at_name y))).
    rewrite Hs. reflexivity.
Qed.

(* The filter returns the same attributes, ordered by level and then name; attributes with the
   same level and name keep their order. *)
Theorem C24_sorted_partial : forall val_cmp ex al,
  string_order val_cmp ->
  Forall (fun a => ~ has_text_opt_in (at_req a)) al ->
  exists al', attribute_sort val_cmp (map (fun a => ser_attr (ex a) a) al) =
                Ok (map (fun a => ser_attr (ex a) a) al') /\
    Permutation al al' /\ StronglySorted attr_le al' /\
    (forall a, filter (fun b => Nat.eqb (level_rank (at_req a)) (level_rank (at_req b)) && String.eqb (at_name a) (at_name b)) al' =
               filter (fun b => Nat.eqb (level_rank (at_req a)) (level_rank (at_req b)) && String.eqb (at_name a) (at_name b)) al).
Proof.
  intros val_cmp ex al Hs Hl. exists (stable_sort attr_leb' al).
  split; [apply attribute_sort_ser; assumption|]. split; [apply stable_sort_perm|].
  assert (Tot : forall x y, attr_leb' x y = true \/ attr_leb' y x = true).
  { intros x y. rewrite !attr_leb'_iff. apply attr_le_total. }
  assert (Tr : forall x y z, attr_leb' x y = true -> attr_leb' y z = true -> attr_leb' x z = true).
  { intros x y z. rewrite !attr_leb'_iff. apply attr_le_trans. }
  split.
  - assert (S : StronglySorted (fun x y => attr_leb' x y = true) (stable_sort attr_leb' al)) by (apply stable_sort_sorted; assumption).
    induction S as [|x l S IH Hf]; constructor; [exact IH|]. eapply Forall_impl; [|exact Hf]. intros y. apply attr_leb'_iff.
  - intros a. apply stable_sort_stable. intros x y Hx Hy. apply andb_true_iff in Hx as [Hx1 Hx2]. apply andb_true_iff in Hy as [Hy1 Hy2].
    apply Nat.eqb_eq in Hx1, Hy1. apply String.eqb_eq in Hx2, Hy2.
    apply attr_leb'_iff. right. split; [lia|]. rewrite <- Hx2, <- Hy2. apply str_leb_refl.
Qed.
Print Assumptions C24_sorted_partial.

(* When no two attributes have the same level and name, the result does not depend on the
   order of the input. *)
Theorem C24_order_independent_partial : forall val_cmp ex al al2,
  string_order val_cmp ->
  Forall (fun a => ~ has_text_opt_in (at_req a)) al ->
  Permutation al al2 ->
  (forall a b, In a al -> In b al -> same_place a b -> a = b) ->
  attribute_sort val_cmp (map (fun a => ser_attr (ex a) a) al) =
  attribute_sort val_cmp (map (fun a => ser_attr (ex a) a) al2).
Proof.
  intros val_cmp ex al al2 Hs Hl Hp Hd.
  rewrite !attribute_sort_ser; try assumption.
  - do 2 f_equal.
    assert (Tot : forall x y, attr_leb' x y = true \/ attr_leb' y x = true).
    { intros x y. rewrite !attr_leb'_iff. apply attr_le_total. }
    assert (Tr : forall x y z, attr_leb' x y = true -> attr_leb' y z = true -> attr_leb' x z = true).
    { intros x y z. rewrite !attr_leb'_iff. apply attr_le_trans. }
    apply stable_sort_perm_invariant; [exact Tot|exact Tr| |exact Hp].
    intros x y Hx Hy. rewrite !attr_leb'_iff. intros H1 H2. apply Hd; [assumption|assumption|].
    unfold attr_le, same_place in *. destruct H1 as [H1|[H1 K1]]; destruct H2 as [H2|[H2 K2]]; try lia.
    split; [lia|apply str_leb_antisym; assumption].
  - rewrite Forall_forall in *. intros x Hx. apply Hl. eapply Permutation_in; [symmetry; exact Hp|exact Hx].
Qed.
Print Assumptions C24_order_independent_partial.

(* Full claim (every attribute list): false.  A list of two or more attributes, one of them
   with a valid opt-in level that carries a text, is rejected. *)
Theorem C24_opt_in_text_refuted : forall val_cmp ex a b t,
  at_req a = ROptInText t ->
  exists e, attribute_sort val_cmp [ser_attr ex a; ser_attr ex b] = Err e.
Proof.
  intros val_cmp ex a b t H. unfold attribute_sort. cbn [length Nat.leb forallb].
  assert (E : is_ok (ordinal (ser_attr ex a)) = false).
  { unfold ordinal. rewrite get_attr_level, H. reflexivity. }
  rewrite E. eexists. reflexivity.
Qed.
Print Assumptions C24_opt_in_text_refuted.

(* Attributes of a v2 registry have no level: they are ordered by key. *)
Theorem C24_v2_by_key : forall val_cmp ex al,
  string_order val_cmp ->
  (forall a k v, In a al -> In (k, v) (ex a) -> k <> "requirement_level" /\ k <> "name") ->
  exists al', attribute_sort val_cmp (map (fun a => ser_attr_v2 (ex a) a) al) =
                Ok (map (fun a => ser_attr_v2 (ex a) a) al') /\
    Permutation al al' /\ StronglySorted (fun a b => str_leb (at_name a) (at_name b) = true) al'.
Proof.
  intros val_cmp ex al Hs Hx.
  set (leb := fun a b : attribute => str_leb (at_name a) (at_name b)).
  assert (L : forall a k, In a al -> k = "requirement_level" \/ k = "name" -> get_attr (ser_attr_v2 (ex a) a) k = None).
  { intros a k Ha Hk. unfold ser_attr_v2, get_attr. unfold slookup.
    assert (Hex : lookup String.eqb k (ex a) = None).
    { destruct (lookup String.eqb k (ex a)) as [v|] eqn:E; [|reflexivity].
      apply (lookup_in String.eqb string_eqb_spec) in E. destruct (Hx _ _ _ Ha E). destruct Hk; congruence. }
    destruct Hk as [-> | ->]; destruct (at_stability a); destruct (at_deprecated a); cbn; exact Hex. }
  assert (O : forall a, In a al -> ordinal (ser_attr_v2 (ex a) a) = Ok 0).
  { intros a Ha. unfold ordinal. rewrite L by auto. reflexivity. }
  assert (K : forall a, In a al -> get_name_or_key (ser_attr_v2 (ex a) a) = Some (JStr (at_name a))).
  { intros a Ha. unfold get_name_or_key. rewrite L by auto. reflexivity. }
  exists (stable_sort leb al). split; [|split].
  - unfold attribute_sort. rewrite map_length. destruct (Nat.leb_spec (length al) 1) as [H1|H1].
    + destruct al as [|a [|b al]]; [reflexivity|reflexivity|cbn in H1; lia].
    + assert (F : forallb (fun v => is_ok (ordinal v)) (map (fun a => ser_attr_v2 (ex a) a) al) = true).
      { apply forallb_forall. intros v Hv. apply in_map_iff in Hv as (a & <- & Ha). rewrite O by exact Ha. reflexivity. }
      rewrite F. f_equal. apply sort_map_aux. intros x y Hx' Hy. unfold attr_leb, ord_of. rewrite !O, !K by assumption.
      cbn [Nat.compare]. rewrite Hs. reflexivity.
  - apply stable_sort_perm.
  - apply stable_sort_sorted; unfold leb.
    + intros; apply str_leb_total.
    + intros x y z; apply str_leb_trans.
Qed.
Print Assumptions C24_v2_by_key.

Example C24_ex :
  let cmp := fun a b => match a, b with Some (JStr x), Some (JStr y) => str_cmp x y | _, _ => Eq end in
  string_order cmp /\
  attribute_sort cmp (map (ser_attr []) [ex_attr "z" RRequired; ex_attr "b" ROptIn; ex_attr "c" (RConditional "x"); ex_attr "a" RRequired])
  = Ok (map (ser_attr []) [ex_attr "a" RRequired; ex_attr "z" RRequired; ex_attr "c" (RConditional "x"); ex_attr "b" ROptIn]).
Proof. split; [intros a b; reflexivity|reflexivity]. Qed.

(* ** C25 *)

Lemma template_str p : is_template_type (ser_type (TTemplate p)) = Some (negb (prim_eqb p PAny)).
Proof. destruct p; reflexivity. Qed.

(* For every attribute type except "any" and "template[any]" exactly one of the tests
   simple_type, template_type and enum_type holds, the right one. *)
Theorem C25_tests_partial : forall t,
  t <> TPrim PAny -> t <> TTemplate PAny ->
  exists tpl, is_template_type (ser_type t) = Some tpl /\
    exactly_one (is_simple_type (ser_type t)) tpl (is_enum_type (ser_type t)) /\
    (is_simple_type (ser_type t) = true <-> exists p, t = TPrim p) /\
    (tpl = true <-> exists p, t = TTemplate p) /\
    (is_enum_type (ser_type t) = true <-> exists ms, t = TEnum ms).
Proof.
  intros t H1 H2. destruct t as [p|p|ms].
  - exists false. destruct p; try (exfalso; apply H1; reflexivity); repeat split; try reflexivity; try constructor;
      intros H; try discriminate; try (destruct H; discriminate); eexists; reflexivity.
  - exists true. destruct p; try (exfalso; apply H2; reflexivity); repeat split; try reflexivity; try constructor;
      intros H; try discriminate; try (destruct H; discriminate); eexists; reflexivity.
  - exists false. repeat split; try reflexivity; try constructor; intros H; try discriminate; try (destruct H; discriminate).
    eexists; reflexivity.
Qed.
Print Assumptions C25_tests_partial.

(* instantiated_type: the type itself, or the element type of a template type *)
Theorem C25_instantiated_partial : forall fi p,
  p <> PAny ->
  instantiated_type fi (ser_type (TPrim p)) = Some (Ok (type_name p)) /\
  instantiated_type fi (ser_type (TTemplate p)) = Some (Ok (type_name p)).
Proof. intros fi p H. destruct p; try congruence; split; reflexivity. Qed.
Print Assumptions C25_instantiated_partial.

(* Full claim (every type): false.  "any" and "template[any]" are valid attribute types, but
   none of the tests holds and instantiated_type fails. *)
Theorem C25_any_refuted : forall fi t, t = TPrim PAny \/ t = TTemplate PAny ->
  is_simple_type (ser_type t) = false /\ is_template_type (ser_type t) = Some false /\
  is_enum_type (ser_type t) = false /\ exists e, instantiated_type fi (ser_type t) = Some (Err e).
Proof.
  intros fi t [->| ->]; repeat split; try reflexivity; eexists; reflexivity.
Qed.
Print Assumptions C25_any_refuted.

Lemma suffix_length s : ends_with_str template_suffix s = true -> 1 <= String.length s.
Proof. unfold ends_with_str. intros H. apply andb_true_iff in H as [H _]. apply Nat.leb_le in H. exact H. Qed.

(* No template value makes the tests or instantiated_type abort. *)
Theorem C25_no_panic : forall fi v, is_template_type v <> None /\ instantiated_type fi v <> None.
Proof.
  intros fi v.
  assert (S : forall s, starts_with template_prefix s && ends_with_str template_suffix s = true ->
     template_inner s <> None).
  { intros s H. apply andb_true_iff in H as [H1 H2]. apply starts_with_spec in H1 as (t & ->).
    unfold template_inner, slice. rewrite str_length_app.
    assert (E : t <> "").
    { intros ->. vm_compute in H2. discriminate H2. }
    destruct t as [|c t]; [congruence|]. cbn [String.length template_prefix template_suffix].
    replace (Nat.leb _ _) with true by (symmetry; apply Nat.leb_le; lia).
    replace (Nat.leb _ _) with true by (symmetry; apply Nat.leb_le; lia). discriminate. }
  assert (T : is_template_type v <> None).
  { unfold is_template_type. destruct v; try discriminate.
    destruct (starts_with template_prefix s && ends_with_str template_suffix s) eqn:E; [|discriminate].
    specialize (S s E). destruct (template_inner s); [discriminate|congruence]. }
  split; [exact T|]. unfold instantiated_type. destruct (is_simple_type v); [discriminate|].
  destruct (is_template_type v) as [[]|] eqn:E; [| |congruence].
  - destruct v; try discriminate E. unfold is_template_type in E.
    destruct (starts_with template_prefix s && ends_with_str template_suffix s) eqn:E2; [|discriminate E].
    specialize (S s E2). destruct (template_inner s); [discriminate|congruence].
  - destruct (is_enum_type v); discriminate.
Qed.
Print Assumptions C25_no_panic.

(* Enum types.  [fi b] says whether the float [b] has an integral value in the i64 range. *)
Definition kind_of (fi : N -> bool) (v : value_spec) : option string :=
  match v with
  | VInt _ => Some "int"
  | VDouble b => if fi b then Some "int" else Some "double"
  | VString _ => Some "string"
  | VBool _ => None
  end.

Lemma member_type_ser fi m : valid_value (ee_value m) ->
  member_type fi (get_attr (ser_member m) "value") =
  match kind_of fi (ee_value m) with Some t => Ok t | None => Err "Enum values are expected to be int, double, or string" end.
Proof.
  intros H. change (get_attr (ser_member m) "value") with (Some (ser_value (ee_value m))).
  destruct (ee_value m) as [z|b|s|b]; try reflexivity.
  - cbn [ser_value member_type kind_of]. destruct H as [H1 H2].
    replace (Z.leb (- 2 ^ 63) z) with true by (symmetry; apply Z.leb_le; exact H1).
    replace (Z.ltb z (2 ^ 63)) with true by (symmetry; apply Z.ltb_lt; exact H2). reflexivity.
  - cbn. destruct (fi b); reflexivity.
Qed.

Lemma infer_enum_acc fi ms : Forall (fun m => valid_value (ee_value m)) ms ->
  forall cur,
  infer_enum fi (map ser_member ms) (Some cur) =
  if forallb (fun m => is_some (kind_of fi (ee_value m))) ms then
    Ok (Some (if forallb (fun m => match kind_of fi (ee_value m) with Some t => String.eqb cur t | None => false end) ms
              then cur else "string"))
  else Err "Enum values are expected to be int, double, or string".
Proof.
  induction ms as [|m ms IH]; intros Hv cur; [reflexivity|]. inversion Hv as [|x y H1 H2]; subst.
  cbn [map infer_enum forallb]. rewrite member_type_ser by exact H1.
  destruct (kind_of fi (ee_value m)) as [t|]; cbn [is_some andb]; [|reflexivity].
  destruct (String.eqb_spec cur t) as [<-|Hne].
  - rewrite IH by exact H2. cbn [andb]. reflexivity.
  - rewrite IH by exact H2. cbn [andb].
    destruct (forallb (fun m => is_some (kind_of fi (ee_value m))) ms); [|reflexivity].
    destruct (forallb _ ms); reflexivity.
Qed.

(* The inferred type of an enum: the common type of its members, "string" when they differ;
   an enum without members or with a boolean member is an error. *)
Theorem C25_enum_type_partial : forall fi ms,
  Forall (fun m => valid_value (ee_value m)) ms ->
  (forall b, (exists m, In m ms /\ ee_value m = VDouble b) -> fi b = false) ->
  let vs := map ee_value ms in
  match enum_type fi (ser_type (TEnum ms)) with
  | Ok t =>
      vs <> [] /\ Forall (fun v => ~ is_vbool v) vs /\
      (t = "int" <-> Forall is_vint vs) /\ (t = "double" <-> Forall is_vdouble vs) /\
      (t <> "int" -> t <> "double" -> t = "string")
  | Err _ => vs = [] \/ Exists is_vbool vs
  end.
Proof.
  intros fi ms Hv Hfi vs. unfold enum_type.
  change (get_attr (ser_type (TEnum ms)) "members") with (Some (JArr (map ser_member ms))). cbv iota beta.
  destruct ms as [|m ms]; [left; reflexivity|].
  inversion Hv as [|x y H1 H2]; subst. cbn [map infer_enum]. rewrite member_type_ser by exact H1.
  assert (K : forall m', In m' (m :: ms) -> kind_of fi (ee_value m') =
     match ee_value m' with VInt _ => Some "int" | VDouble _ => Some "double" | VString _ => Some "string" | VBool _ => None end).
  { intros m' Hm'. unfold kind_of. destruct (ee_value m') as [z|b|s|b] eqn:E; try reflexivity.
    rewrite Hfi; [reflexivity|]. exists m'. auto. }
  destruct (kind_of fi (ee_value m)) as [t|] eqn:Ek.
  - rewrite infer_enum_acc by exact H2.
    destruct (forallb (fun m0 => is_some (kind_of fi (ee_value m0))) ms) eqn:Es.
    + assert (NB : Forall (fun v => ~ is_vbool v) vs).
      { apply Forall_forall. intros v Hin. unfold vs in Hin. apply in_map_iff in Hin as (m' & <- & Hm').
        intros (b & Eb). assert (Kn : kind_of fi (ee_value m') = None) by (rewrite Eb; reflexivity).
        destruct Hm' as [->|Hm']; [congruence|]. rewrite forallb_forall in Es. specialize (Es _ Hm').
        rewrite Kn in Es. discriminate. }
      split; [discriminate|]. split; [exact NB|].
      set (same := forallb _ ms).
      assert (Q : forall w (P : value_spec -> Prop),
          (forall m', In m' (m :: ms) -> (kind_of fi (ee_value m') = Some w <-> P (ee_value m'))) -> w <> "string" ->
          ((if same then t else "string") = w <-> Forall P vs)).
      { intros w P HP Hw. split.
        - destruct same eqn:Esm; [|congruence]. intros <-. unfold vs. apply Forall_forall. intros v Hin.
          apply in_map_iff in Hin as (m' & <- & Hm'). apply HP; [exact Hm'|].
          destruct Hm' as [<-|Hm']; [exact Ek|]. unfold same in Esm. rewrite forallb_forall in Esm. specialize (Esm _ Hm').
          destruct (kind_of fi (ee_value m')); [|discriminate]. apply String.eqb_eq in Esm. congruence.
        - intros Hf. rewrite Forall_forall in Hf.
          assert (Hall : forall m', In m' (m :: ms) -> kind_of fi (ee_value m') = Some w).
          { intros m' Hm'. apply HP; [exact Hm'|]. apply Hf. unfold vs. apply in_map. exact Hm'. }
          assert (Ew : t = w) by (specialize (Hall m (or_introl eq_refl)); congruence).
          subst w. assert (Esm : same = true).
          { unfold same. apply forallb_forall. intros m' Hm'. rewrite (Hall m' (or_intror Hm')). apply String.eqb_refl. }
          rewrite Esm. reflexivity. }
      split; [|split].
      * apply Q; [|discriminate]. intros m' Hm'. rewrite (K m' Hm'). destruct (ee_value m'); split; intros H;
          try discriminate; try (destruct H; discriminate); try reflexivity. eexists; reflexivity.
      * apply Q; [|discriminate]. intros m' Hm'. rewrite (K m' Hm'). destruct (ee_value m'); split; intros H;
          try discriminate; try (destruct H; discriminate); try reflexivity. eexists; reflexivity.
      * destruct same; [|reflexivity]. intros N1 N2. rewrite (K m (or_introl eq_refl)) in Ek.
        destruct (ee_value m); congruence.
    + right. assert (X : exists m', In m' ms /\ is_some (kind_of fi (ee_value m')) = false).
      { clear -Es. induction ms as [|a ms IH]; [discriminate|]. cbn in Es.
        destruct (is_some (kind_of fi (ee_value a))) eqn:E; [destruct (IH Es) as (m' & Hm & He); exists m'; cbn; auto|].
        exists a. cbn. auto. }
      destruct X as (m' & Hm' & He). apply Exists_exists. exists (ee_value m'). split.
      * right. apply in_map. exact Hm'.
      * destruct (ee_value m'); cbn in He; try discriminate. destruct (fi bits); discriminate. eexists; reflexivity.
  - right. left. unfold kind_of in Ek. destruct (ee_value m); try discriminate; [destruct (fi bits); discriminate|eexists; reflexivity].
Qed.
Print Assumptions C25_enum_type_partial.

(* Doubles with integral values are taken for integers: an enum of the doubles 1.0 and 2.5,
   every member a double, is inferred to be "string", and one of 1.0 and 2.0 to be "int". *)
Definition dbl_entry (b : N) : enum_entry := Build_enum_entry "m" (VDouble b) None None None None None.
Definition one_bits : N := 0x3ff0000000000000.
Definition two_bits : N := 0x4000000000000000.
Definition two_half_bits : N := 0x4004000000000000.
Theorem C25_double_enum_refuted : forall fi,
  fi one_bits = true -> fi two_bits = true -> fi two_half_bits = false ->
  enum_type fi (ser_type (TEnum [dbl_entry one_bits; dbl_entry two_half_bits])) = Ok "string" /\
  enum_type fi (ser_type (TEnum [dbl_entry one_bits; dbl_entry two_bits])) = Ok "int".
Proof.
  intros fi H1 H2 H3. unfold enum_type. cbn. rewrite H1, H2, H3. split; reflexivity.
Qed.
Print Assumptions C25_double_enum_refuted.

(* A boolean enum is a valid definition but has no type. *)
Theorem C25_bool_enum_refuted : forall fi b,
  exists e, enum_type fi (ser_type (TEnum [Build_enum_entry "m" (VBool b) None None None None None])) = Err e.
Proof. intros fi b. eexists. reflexivity. Qed.
Print Assumptions C25_bool_enum_refuted.

Example C25_ex :
  let e z := Build_enum_entry "m" (VInt z) None None None None None in
  enum_type (fun _ => false) (ser_type (TEnum [e 1%Z; e 2%Z])) = Ok "int" /\
  instantiated_type (fun _ => false) (ser_type (TTemplate PStrings)) = Some (Ok "string[]").
Proof. split; reflexivity. Qed.

(* is_array holds for the array types only. *)
Theorem C25_is_array : forall t, is_array (ser_type t) = true <->
  t = TPrim PStrings \/ t = TPrim PInts \/ t = TPrim PDoubles \/ t = TPrim PBooleans.
Proof.
  intros t. destruct t as [p|p|ms]; [destruct p|destruct p|]; cbn; split; intros H; try discriminate; try reflexivity; auto;
    destruct H as [H|[H|[H|H]]]; discriminate.
Qed.
Print Assumptions C25_is_array.

(* ** C53: stability tests *)

(* Every value is either stable or experimental. *)
Theorem C53_stable_or_experimental : forall v, is_experimental v = negb (is_stable v).
Proof. intros v. unfold is_experimental, is_stable. destruct (as_str _); reflexivity. Qed.
Print Assumptions C53_stable_or_experimental.

Theorem C53_tests_exact : forall ex a,
  (forall k v, In (k, v) ex -> k <> "stability" /\ k <> "deprecated") ->
  (is_stable (ser_attr ex a) = true <-> at_stability a = Some SStable) /\
  (is_deprecated (ser_attr ex a) = true <-> exists d, at_deprecated a = Some d).
Proof.
  intros ex a Hx.
  assert (L : forall k, k = "stability" \/ k = "deprecated" -> lookup String.eqb k ex = None).
  { intros k Hk. destruct (lookup String.eqb k ex) as [v|] eqn:E; [|reflexivity].
    apply (lookup_in String.eqb string_eqb_spec) in E. destruct (Hx _ _ E). destruct Hk; congruence. }
  assert (S : get_attr (ser_attr ex a) "stability" = option_map (fun s => JStr (stability_str s)) (at_stability a)).
  { unfold ser_attr, get_attr, slookup. destruct (at_stability a); destruct (at_deprecated a); cbn; try reflexivity; apply L; auto. }
  assert (D : get_attr (ser_attr ex a) "deprecated" = option_map ser_deprecated_obj (at_deprecated a)).
  { unfold ser_attr, get_attr, slookup. destruct (at_stability a); destruct (at_deprecated a); cbn; try reflexivity; apply L; auto. }
  unfold is_stable, is_deprecated. rewrite S, D. split.
  - destruct (at_stability a) as [[]|]; cbn; split; congruence.
  - destruct (at_deprecated a) as [[]|]; cbn; split; intros H; try congruence; try (destruct H; congruence); eauto.
Qed.
Print Assumptions C53_tests_exact.

Example C53_ex : is_stable (ser_attr [("brief", JStr "x")] (ex_attr "a" RRequired)) = false /\
  is_experimental (ser_attr [("brief", JStr "x")] (ex_attr "a" RRequired)) = true.
Proof. split; reflexivity. Qed.

(* ** C54: namespace and id of an attribute *)

Lemma split_once_some c s a b : split_once c s = Some (a, b) ->
  s = a ++ String c b /\ all_chars (fun d => negb (Ascii.eqb d c)) a = true.
Proof.
  revert a b. induction s as [|d s IH]; intros a b H; cbn in H; [discriminate|].
  destruct (Ascii.eqb_spec d c) as [->|Hne].
  - injection H as <- <-. split; reflexivity.
  - destruct (split_once c s) as [[a' b']|]; [|discriminate]. injection H as <- <-.
    destruct (IH _ _ eq_refl) as [-> Ha]. split; [reflexivity|]. cbn. rewrite Ha.
    apply Ascii.eqb_neq in Hne. rewrite Hne. reflexivity.
Qed.

Lemma split_once_none c s : split_once c s = None <-> all_chars (fun d => negb (Ascii.eqb d c)) s = true.
Proof.
  induction s as [|d s IH]; cbn; [tauto|]. destruct (Ascii.eqb d c); cbn; [split; discriminate|].
  destruct (split_once c s) as [[a b]|]; [|tauto]. rewrite <- IH. split; discriminate.
Qed.

Lemma no_dot_iff s : ~ has_dot s <-> all_chars (fun d => negb (Ascii.eqb d "."%char)) s = true.
Proof.
  pose proof (any_all (fun d => Ascii.eqb d "."%char) s) as A. pose proof (any_char_spec (fun d => Ascii.eqb d "."%char) s) as B.
  destruct (all_chars _ s) eqn:E.
  - split; [reflexivity|]. intros _ (a & b & ->).
    assert (T : any_char (fun d => Ascii.eqb d "."%char) (a ++ String "."%char b) = true) by (apply B; exists a, "."%char, b; auto).
    rewrite A in T. discriminate.
  - split; [|discriminate]. intros H. exfalso. apply H. rewrite A in B.
    destruct (proj1 B eq_refl) as (a & c & b & -> & Hc). apply Ascii.eqb_eq in Hc. subst c. exists a, b. reflexivity.
Qed.

(* The two filters split an attribute id without loss at its first dot; an id without a dot is
   in the namespace "other". *)
Theorem C54_split : forall input ns id,
  (attribute_namespace input = Ok ns /\ attribute_id input = Ok id) <->
  (input = ns ++ "." ++ id /\ ns <> "" /\ id <> "" /\ ~ has_dot ns) \/
  (ns = "other" /\ input = id /\ id <> "" /\ ~ has_dot id).
Proof.
  intros input ns id. unfold attribute_namespace, attribute_id, attribute_split. split.
  - destruct input as [|c s]; [intros [H _]; discriminate H|].
    destruct (split_once "." (String c s)) as [[a b]|] eqn:E.
    + apply split_once_some in E as [E Ha]. destruct b as [|d b].
      * destruct a; intros [H _]; discriminate H.
      * destruct a as [|e a]; [intros [H _]; discriminate H|].
        intros [H1 H2]. injection H1 as <-. injection H2 as <-. left. split; [exact E|].
        split; [discriminate|]. split; [discriminate|]. apply no_dot_iff. exact Ha.
    + apply split_once_none in E. intros [H1 H2]. injection H1 as <-. injection H2 as <-. right.
      repeat split; [discriminate|]. apply no_dot_iff. exact E.
  - assert (F : forall a b, all_chars (fun d => negb (Ascii.eqb d "."%char)) a = true ->
               split_once "." (a ++ "." ++ b) = Some (a, b)).
    { induction a as [|e a IH]; intros b Ha; [reflexivity|]. cbn in Ha. apply andb_true_iff in Ha as [H1 H2].
      apply negb_true_iff in H1. cbn [append split_once]. rewrite H1. cbn [append] in IH. rewrite IH by exact H2. reflexivity. }
    intros [(-> & H1 & H2 & H3)|(-> & -> & H2 & H3)]; apply no_dot_iff in H3.
    + rewrite F by exact H3. destruct ns as [|c ns]; [congruence|]. destruct id as [|d id]; [congruence|].
      split; reflexivity.
    + apply split_once_none in H3. rewrite H3. destruct id; [congruence|]. split; reflexivity.
Qed.
Print Assumptions C54_split.

(* The filters fail only on an empty id, an id starting with a dot, or one ending with its
   first dot. *)
Theorem C54_fails_only : forall input e,
  attribute_namespace input = Err e ->
  input = "" \/ (exists r, input = "." ++ r) \/ (exists a, input = a ++ "." /\ ~ has_dot a).
Proof.
  intros input e. unfold attribute_namespace, attribute_split. destruct input as [|c s]; [auto|].
  destruct (split_once "." (String c s)) as [[a b]|] eqn:E; [|discriminate].
  apply split_once_some in E as [-> Ha]. destruct b as [|d b].
  - intros _. right. right. exists a. split; [reflexivity|apply no_dot_iff, Ha].
  - destruct a as [|e' a]; [|discriminate]. intros _. right. left. exists (String d b). reflexivity.
Qed.
Print Assumptions C54_fails_only.

(* Registry namespaces: the second component of an id that starts with the given word. *)
Theorem C54_registry_namespace : forall kind input ns,
  ~ has_dot kind ->
  (registry_namespace kind input = Ok ns <->
   ~ has_dot ns /\ (input = kind ++ "." ++ ns \/ exists r, input = kind ++ "." ++ ns ++ "." ++ r)).
Proof.
  assert (SO : forall a b, all_chars (fun d => negb (Ascii.eqb d "."%char)) a = true ->
     split_char "." (a ++ "." ++ b) = (a :: split_char "." b)%list).
  { induction a as [|e a IH]; intros b Ha; [reflexivity|]. cbn in Ha. apply andb_true_iff in Ha as [H1 H2].
    apply negb_true_iff in H1. cbn [append split_char]. rewrite H1. cbn [append] in IH. rewrite IH by exact H2. reflexivity. }
  assert (S1 : forall a, all_chars (fun d => negb (Ascii.eqb d "."%char)) a = true -> split_char "." a = [a]).
  { induction a as [|e a IH]; intros Ha; [reflexivity|]. cbn in Ha. apply andb_true_iff in Ha as [H1 H2].
    apply negb_true_iff in H1. cbn [split_char]. rewrite H1, IH by exact H2. reflexivity. }
  intros kind input ns Hk. unfold registry_namespace. split.
  - intros H. pose proof (split_char_join "." input) as J. pose proof (split_char_pieces "." input) as P.
    destruct (split_char "." input) as [|f [|s r]]; try discriminate H.
    destruct (String.eqb_spec f kind) as [->|]; [|discriminate H]. injection H as ->.
    split.
    + apply no_dot_iff. specialize (P ns (or_intror (or_introl eq_refl))). rewrite any_all in P. apply negb_false_iff in P. exact P.
    + destruct r as [|x r]; [left; symmetry; exact J|right]. exists (join "." (x :: r)). symmetry. exact J.
  - intros [Hn Hi]. apply no_dot_iff in Hn. apply no_dot_iff in Hk.
    destruct Hi as [->|(r & ->)].
    + rewrite SO, S1 by assumption. rewrite String.eqb_refl. reflexivity.
    + rewrite SO by assumption. rewrite SO by assumption. rewrite String.eqb_refl. reflexivity.
Qed.
Print Assumptions C54_registry_namespace.

Example C54_ex : attribute_namespace "http.request.method" = Ok "http" /\
  attribute_id "http.request.method" = Ok "request.method" /\
  registry_namespace "registry" "registry.http.client" = Ok "http".
Proof. repeat split. Qed.

(* ** C55: body fields *)

Section BodyInd.
  Variable P : body -> Prop.
  Hypothesis Hl : forall id, P (Body id None).
  Hypothesis Hn : forall id fs, Forall P fs -> P (Body id (Some fs)).
  Fixpoint body_ind2 (b : body) : P b :=
    match b with
    | Body id None => Hl id
    | Body id (Some fs) =>
      Hn id fs ((fix go (l : list body) : Forall P l :=
                   match l with [] => Forall_nil _ | x :: r => Forall_cons _ (body_ind2 x) (go r) end) fs)
    end.
End BodyInd.

Lemma join_snoc_ne ups id : ups <> [] -> join "." (app ups [id]) = join "." ups ++ "." ++ id.
Proof.
  induction ups as [|u ups IH]; intros H; [congruence|]. destruct ups as [|v ups]; [reflexivity|].
  cbn [app join] in *. rewrite IH by discriminate. rewrite !str_app_assoc. reflexivity.
Qed.

Lemma join_ne ups : ups <> [] -> (exists u r, ups = u :: r /\ u <> "") -> join "." ups <> "".
Proof.
  intros _ (u & r & -> & Hu). destruct u; [congruence|]. destruct r; discriminate.
Qed.

Definition good_up (up : list string) (id : string) : Prop :=
  match up with [] => id <> "" | u :: _ => u <> "" end.

Lemma path_of up id : good_up up id ->
  match join "." up with EmptyString => id | String _ _ => join "." up ++ "." ++ id end = join "." (app up [id]).
Proof.
  intros H. destruct up as [|u up]; [reflexivity|]. cbn [good_up] in H.
  rewrite join_snoc_ne by discriminate.
  destruct (join "." (u :: up)) eqn:E; [|reflexivity].
  exfalso. revert E. apply join_ne; [discriminate|eauto].
Qed.

Section Listing.
  Variable leb : body -> body -> bool.
  Hypothesis Tot : forall x y, leb x y = true \/ leb y x = true.
  Hypothesis Tr : forall x y z, leb x y = true -> leb y z = true -> leb x z = true.

  Lemma traverse_listing b : forall up d, good_up up (body_id b) ->
    listing leb up d b (traverse_body_fields leb b (join "." up) d).
  Proof.
    induction b as [id|id fs IH] using body_ind2; intros up d Hg; cbn [body_id] in Hg.
    - cbn [traverse_body_fields]. rewrite path_of by exact Hg. constructor.
    - cbn [traverse_body_fields]. rewrite path_of by exact Hg.
      assert (G : forall f, good_up (app up [id]) (body_id f)).
      { intros f. destruct up as [|u up]; exact Hg. }
      set (tr := fun f => traverse_body_fields leb f (join "." (app up [id])) (S d)).
      change (map (fun f => (f, traverse_body_fields leb f (join "." (app up [id])) (S d))) fs)
        with (map (fun f => (f, tr f)) fs).
      replace (stable_sort (fun a b => leb (fst a) (fst b)) (map (fun f => (f, tr f)) fs))
        with (map (fun f => (f, tr f)) (stable_sort leb fs)).
      2: { symmetry. apply sort_map_aux. intros; reflexivity. }
      rewrite flat_map_concat_map, map_map. cbn [snd].
      apply ls_node with (fs' := stable_sort leb fs).
      + apply stable_sort_perm.
      + apply stable_sort_sorted; [exact Tot|exact Tr].
      + rewrite Forall_forall in IH.
        assert (IH' : forall f, In f (stable_sort leb fs) -> listing leb (app up [id]) (S d) f (tr f)).
        { intros f Hf. apply stable_sort_in in Hf. apply IH; [exact Hf|apply G]. }
        clear IH. induction (stable_sort leb fs) as [|f l IHl]; cbn [map]; constructor.
        * apply IH'. left. reflexivity.
        * apply IHl. intros g Hg'. apply IH'. right. exact Hg'.
  Qed.

  (* The listing of a body: the body first, then, in the requested order, the listings of its
     fields; every entry has the ids on the way to it, joined by dots, and its depth. *)
  Theorem C55_listing : forall b, body_id b <> "" ->
    listing leb [] 0 b (body_fields leb (Some b)).
  Proof. intros b H. apply (traverse_listing b [] 0). exact H. Qed.
End Listing.
Print Assumptions C55_listing.

Lemma listing_nodes leb b : forall up d l, listing leb up d b l ->
  Permutation l (map (fun n => (join "." (app up (fst n)), snd n, d + length (fst n) - 1)) (nodes b)).
Proof.
  induction b as [id|id fs IH] using body_ind2; intros up d l H.
  - inversion H; subst. cbn. replace (d + 1 - 1) with d by lia. reflexivity.
  - inversion H as [|up' d' id' fs0 fs' ls P SS F]; subst. cbn [nodes map fst snd length].
    replace (d + 1 - 1) with d by lia. constructor.
    rewrite Forall_forall in IH.
    assert (Q : Permutation (concat ls)
       (flat_map (fun f => map (fun n => (join "." (app up (id :: fst n)), snd n, d + S (length (fst n)) - 1)) (nodes f)) fs')).
    { assert (IH' : forall f, In f fs' -> forall l, listing leb (app up [id]) (Datatypes.S d) f l ->
         Permutation l (map (fun n => (join "." (app up (id :: fst n)), snd n, d + Datatypes.S (length (fst n)) - 1)) (nodes f))).
      { intros f Hf l Hl. eapply Permutation_trans; [apply IH; [eapply Permutation_in; [symmetry; exact P|exact Hf]|exact Hl]|].
        apply Permutation_refl'. apply map_ext. intros n. rewrite <- app_assoc. cbn [app].
        replace (Datatypes.S d + length (fst n) - 1) with (d + Datatypes.S (length (fst n)) - 1) by lia. reflexivity. }
      clear - F IH'. induction F as [|f l fs ls H F IHF]; cbn [concat flat_map]; [reflexivity|].
      apply Permutation_app; [apply IH'; [left; reflexivity|exact H]|].
      apply IHF. intros g Hg. apply IH'. right. exact Hg. }
    eapply Permutation_trans; [exact Q|].
    eapply Permutation_trans; [apply Permutation_flat_map; symmetry; exact P|].
    apply Permutation_refl'. clear.
    assert (G : flat_map (fun f => map (fun n => (join "." (app up (id :: fst n)), snd n, d + S (length (fst n)) - 1)) (nodes f)) fs
      = map (fun n => (join "." (app up (fst n)), snd n, d + length (fst n) - 1))
          (flat_map (fun f => map (fun n => (id :: fst n, snd n)) (nodes f)) fs)).
    { induction fs as [|f fs IH]; [reflexivity|].
      cbn [flat_map]. rewrite map_app, map_map. apply f_equal2; [reflexivity|exact IH]. }
    exact G.
Qed.

(* Every field of the tree is listed exactly once. *)
Theorem C55_every_field_once : forall leb b,
  (forall x y, leb x y = true \/ leb y x = true) ->
  (forall x y z, leb x y = true -> leb y z = true -> leb x z = true) ->
  body_id b <> "" ->
  Permutation (body_fields leb (Some b))
    (map (fun n => (join "." (fst n), snd n, length (fst n) - 1)) (nodes b)).
Proof.
  intros leb b Tot Tr H. exact (listing_nodes leb b [] 0 _ (C55_listing leb Tot Tr b H)).
Qed.
Print Assumptions C55_every_field_once.

Definition by_id (a b : body) : bool := str_leb (body_id a) (body_id b).
Example C55_ex :
  let leaf i := Body i None in
  map (fun x => (fst (fst x), snd x))
    (body_fields by_id (Some (Body "b" (Some [leaf "z"; Body "a" (Some [leaf "y"; leaf "x"])]))))
  = [("b", 0); ("b.a", 1); ("b.a.x", 2); ("b.a.y", 2); ("b.z", 1)].
Proof. reflexivity. Qed.

Lemma slookup_sinsert' {V} n k (v : V) m : slookup n (sinsert k v m) = if String.eqb n k then Some v else slookup n m.
Proof.
  unfold slookup, sinsert. destruct (String.eqb_spec n k) as [->|N].
  - apply (lookup_insert_eq _ string_eqb_spec).
  - apply (lookup_insert_ne _ string_eqb_spec). congruence.
Qed.

(* ** C56: acronyms *)

Definition k_of (c : char_class) : kind := match c with CSpace => KSpace | CWord => KWord | CPunct => KOther end.

Lemma class_kind c : k_of (class_of c) = kind_of_char c.
Proof. destruct c as [[] [] [] [] [] [] [] []]; vm_compute; reflexivity. Qed.

Lemma k_of_inj a b : k_of a = k_of b -> a = b.
Proof. destruct a, b; cbn; congruence. Qed.

Lemma of_kind_fun k k' t : of_kind k t -> of_kind k' t -> k = k'.
Proof. intros H H'. inversion H; inversion H'; subst; congruence. Qed.

Lemma runs_head t r : runs (t :: r) -> exists k, of_kind k t.
Proof. intros H. inversion H; subst; eauto. Qed.

Lemma runs_tail t r : runs (t :: r) -> runs r.
Proof. intros H. inversion H; subst; [constructor|assumption]. Qed.

Lemma tokens_runs s : runs (tokens s) /\ String.concat "" (tokens s) = s.
Proof.
  induction s as [|c s [R E]]; [split; [constructor|reflexivity]|]. cbn [tokens].
  destruct (tokens s) as [|[|d t] r] eqn:T.
  - cbn in E. subst s. split; [|reflexivity]. apply (runs_one (kind_of_char c)). constructor. reflexivity.
  - exfalso. destruct (runs_head _ _ R) as (k & K). inversion K.
  - destruct (runs_head _ _ R) as (k & K).
    assert (Kd : kind_of_char d = k) by (inversion K; subst; reflexivity).
    destruct (class_eqb (class_of c) (class_of d)) eqn:Ec.
    + assert (Kc : kind_of_char c = k).
      { rewrite <- Kd, <- !class_kind. f_equal. destruct (class_of c), (class_of d); cbn in Ec; congruence. }
      split.
      * inversion R; subst.
        -- apply (runs_one (kind_of_char d)). constructor; [exact Kc|exact K].
        -- apply (runs_cons (kind_of_char d) k'); try assumption.
           ++ constructor; [exact Kc|exact K].
           ++ match goal with H : of_kind ?k0 (String d t), H' : ?k0 <> k' |- _ => rewrite (of_kind_fun _ _ _ K H); exact H' end.
      * rewrite <- E. destruct r; reflexivity.
    + split.
      * apply (runs_cons (kind_of_char c) k); [constructor; reflexivity|exact K| |exact R].
        rewrite <- Kd, <- !class_kind. intros X. apply k_of_inj in X. rewrite X in Ec. destruct (class_of d); discriminate.
      * rewrite <- E. destruct r; reflexivity.
Qed.

(* the division into runs is unique *)
Lemma concat_cons x l : String.concat "" (x :: l) = x ++ String.concat "" l.
Proof. destruct l; cbn; [rewrite str_app_nil_r; reflexivity|reflexivity]. Qed.

Lemma of_kind_app_inv k t : of_kind k t -> forall k' t' r r', of_kind k' t' ->
  t ++ r = t' ++ r' ->
  (forall c x, r = String c x -> kind_of_char c <> k) ->
  (forall c x, r' = String c x -> kind_of_char c <> k') -> t = t' /\ r = r'.
Proof.
  intros H. induction H as [c Hc|c s Hc H IH]; intros k' t' r r' H' E N N'.
  - inversion H' as [d Hd|d t2 Hd H2]; subst; cbn [append] in E.
    + injection E as -> ->. auto.
    + injection E as -> E. exfalso. inversion H2; subst; cbn [append] in N.
      * apply (N c r' eq_refl). congruence.
      * apply (N c (s ++ r') eq_refl). congruence.
  - inversion H' as [d Hd|d t2 Hd H2]; subst; cbn [append] in E.
    + injection E as -> E. exfalso. inversion H; subst; cbn [append] in N'.
      * apply (N' c r eq_refl). congruence.
      * apply (N' c (s0 ++ r) eq_refl). congruence.
    + injection E as -> E. destruct (IH _ _ _ _ H2 E) as [-> ->]; [exact N|intros; apply (N' c x); assumption|auto].
Qed.

Lemma runs_next k t r : of_kind k t -> runs (t :: r) ->
  forall c x, String.concat "" r = String c x -> kind_of_char c <> k.
Proof.
  intros K R c x E. inversion R as [|k0 t0 K0|k0 k' t0 t' r' K0 K' Hne R']; subst; [discriminate|].
  rewrite concat_cons in E. rewrite (of_kind_fun _ _ _ K K0).
  inversion K'; subst; cbn [append] in E; injection E as -> _; congruence.
Qed.

Lemma runs_unique l : runs l -> forall l', runs l' -> String.concat "" l = String.concat "" l' -> l = l'.
Proof.
  induction l as [|t l IH]; intros R l' R' E.
  - destruct l' as [|t' l']; [reflexivity|]. exfalso. rewrite concat_cons in E. destruct (runs_head _ _ R') as (k & K).
    inversion K; subst; discriminate.
  - destruct l' as [|t' l'].
    + exfalso. rewrite concat_cons in E. destruct (runs_head _ _ R) as (k & K). inversion K; subst; discriminate.
    + rewrite !concat_cons in E. destruct (runs_head _ _ R) as (k & K). destruct (runs_head _ _ R') as (k' & K').
      destruct (of_kind_app_inv k t K k' t' _ _ K' E) as [-> E'].
      * exact (runs_next _ _ _ K R).
      * exact (runs_next _ _ _ K' R').
      * f_equal. apply IH; [apply (runs_tail t'), R|apply (runs_tail t'), R'|exact E'].
Qed.

Lemma upper_between c : is_upper c = between 65 90 c.
Proof. reflexivity. Qed.

Lemma lower_code c : nat_of_ascii (lower_char c) = if is_upper c then nat_of_ascii c + 32 else nat_of_ascii c.
Proof. destruct c as [[] [] [] [] [] [] [] []]; vm_compute; reflexivity. Qed.

Lemma lower_lower c : lower_char (lower_char c) = lower_char c.
Proof. destruct c as [[] [] [] [] [] [] [] []]; vm_compute; reflexivity. Qed.

Lemma lower_kind c : kind_of_char (lower_char c) = kind_of_char c.
Proof. destruct c as [[] [] [] [] [] [] [] []]; vm_compute; reflexivity. Qed.

Lemma code_inj a b : nat_of_ascii a = nat_of_ascii b -> a = b.
Proof. intros H. rewrite <- (ascii_nat_embedding a), <- (ascii_nat_embedding b), H. reflexivity. Qed.

Lemma lower_char_eq c d : lower_char c = lower_char d <->
  c = d \/ (between 65 90 c = true /\ nat_of_ascii d = nat_of_ascii c + 32)
        \/ (between 65 90 d = true /\ nat_of_ascii c = nat_of_ascii d + 32).
Proof.
  assert (E : lower_char c = lower_char d <-> nat_of_ascii (lower_char c) = nat_of_ascii (lower_char d)).
  { split; [congruence|apply code_inj]. }
  rewrite E, !lower_code, (upper_between c), (upper_between d).
  assert (B : forall x, between 65 90 x = true <-> 65 <= nat_of_ascii x <= 90).
  { intros x. unfold between. rewrite andb_true_iff, !Nat.leb_le. reflexivity. }
  destruct (between 65 90 c) eqn:Ec; destruct (between 65 90 d) eqn:Ed.
  - split; [intros H; left; apply code_inj; lia|]. apply B in Ec, Ed. intros [->|[[_ H]|[_ H]]]; lia.
  - split; [intros H; right; left; auto|]. intros [->|[[_ H]|[H _]]]; [congruence|lia|congruence].
  - split; [intros H; right; right; auto|]. intros [->|[[H _]|[_ H]]]; [congruence|congruence|lia].
  - split; [intros H; left; apply code_inj; exact H|]. intros [->|[[H _]|[H _]]]; [reflexivity|discriminate|discriminate].
Qed.

Lemma lower_eq s : forall t, lower s = lower t <-> same_letters s t.
Proof.
  induction s as [|c s IH]; intros [|d t]; cbn; split; intros H; try discriminate; try (inversion H; fail); try constructor.
  - injection H as H1 H2. apply lower_char_eq. exact H1.
  - injection H as H1 H2. apply IH. exact H2.
  - inversion H; subst. f_equal; [apply lower_char_eq; assumption|apply IH; assumption].
Qed.

Lemma acronym_lookup l : forall m k,
  (exists a before after, l = app before (a :: after) /\ lower a = k /\
     Forall (fun b => lower b <> k) after /\ slookup k (fold_left (fun m a => sinsert (lower a) a m) l m) = Some a) \/
  (Forall (fun b => lower b <> k) l /\ slookup k (fold_left (fun m a => sinsert (lower a) a m) l m) = slookup k m).
Proof.
  induction l as [|x l IH]; intros m k; [right; split; [constructor|reflexivity]|]. cbn [fold_left].
  destruct (IH (sinsert (lower x) x m) k) as [(a & be & af & -> & Ea & Fa & L)|[F L]].
  - left. exists a, (x :: be), af. auto.
  - rewrite L, slookup_sinsert'. destruct (String.eqb_spec k (lower x)) as [->|Hne].
    + left. exists x, [], l. auto.
    + right. split; [|reflexivity]. constructor; [congruence|exact F].
Qed.

Lemma replaced_lookup acronyms t :
  replaced acronyms t (opt_get (slookup (lower t) (acronym_map acronyms)) t).
Proof.
  unfold acronym_map. destruct (acronym_lookup acronyms [] (lower t)) as [(a & be & af & E & Ea & Fa & L)|[F L]]; rewrite L; cbn.
  - apply (rep_some _ _ be a af); [exact E|apply lower_eq, Ea|]. eapply Forall_impl; [|exact Fa].
    intros b H K. apply H, lower_eq, K.
  - apply rep_none. eapply Forall_impl; [|exact F]. intros b H K. apply H, lower_eq, K.
Qed.

(* The filter divides the text into maximal runs of white space, word characters and other
   characters, in the only possible way, replaces the runs that are acronyms up to case, and
   keeps all others. *)
Theorem C56_acronym : forall acronyms input,
  exists pieces outs,
    String.concat "" pieces = input /\ runs pieces /\
    (forall ps, String.concat "" ps = input -> runs ps -> ps = pieces) /\
    Forall2 (replaced acronyms) pieces outs /\
    acronym acronyms input = String.concat "" outs.
Proof.
  intros acronyms input. destruct (tokens_runs input) as [R E].
  exists (tokens input), (map (fun t => opt_get (slookup (lower t) (acronym_map acronyms)) t) (tokens input)).
  split; [exact E|]. split; [exact R|]. split.
  - intros ps Ep Rp. apply runs_unique; [exact Rp|exact R|congruence].
  - split; [|reflexivity]. induction (tokens input) as [|t l IH]; [constructor|]. cbn [map]. constructor.
    + apply replaced_lookup.
    + apply (runs_tail t) in R. clear E. revert IH.
      assert (G : forall l, Forall2 (replaced acronyms) l (map (fun t => opt_get (slookup (lower t) (acronym_map acronyms)) t) l)).
      { intros l0. induction l0; cbn; constructor; [apply replaced_lookup|assumption]. }
      intros _. apply G.
Qed.
Print Assumptions C56_acronym.

Lemma same_letters_kind s t k : same_letters s t -> of_kind k t -> of_kind k s.
Proof.
  intros H. induction H as [|c d s t Hc H IH]; intros K; [exact K|]. apply lower_char_eq in Hc.
  assert (Kc : kind_of_char c = kind_of_char d) by (rewrite <- (lower_kind c), <- (lower_kind d), Hc; reflexivity).
  inversion K; subst.
  - inversion H; subst. constructor. exact Kc.
  - constructor; [exact Kc|apply IH; assumption].
Qed.

Lemma replaced_kind acronyms t u k : replaced acronyms t u -> of_kind k t -> of_kind k u.
Proof. intros H K. inversion H; subst; [eapply same_letters_kind; eassumption|exact K]. Qed.

Lemma replaced_runs acronyms l : forall outs, Forall2 (replaced acronyms) l outs -> runs l -> runs outs.
Proof.
  intros outs F. induction F as [|t u l outs H F IH]; intros R; [constructor|].
  inversion R as [|k t0 K|k k' t0 t' r K K' Hne R']; subst.
  - inversion F; subst. apply (runs_one k). eapply replaced_kind; eassumption.
  - inversion F as [|x y z w H' F']; subst. apply (runs_cons k k'); [eapply replaced_kind; eassumption|eapply replaced_kind; eassumption|exact Hne|].
    apply IH. exact R'.
Qed.

(* Applying the filter again changes nothing. *)
Theorem C56_idempotent : forall acronyms input,
  acronym acronyms (acronym acronyms input) = acronym acronyms input.
Proof.
  intros acronyms input. set (f := fun t => opt_get (slookup (lower t) (acronym_map acronyms)) t).
  assert (Ef : forall t, f (f t) = f t).
  { intros t. unfold f. destruct (acronym_lookup acronyms [] (lower t)) as [(a & be & af & E & Ea & Fa & L)|[F L]];
      fold (acronym_map acronyms) in L; rewrite L; cbn [opt_get slookup lookup].
    - rewrite Ea, L. reflexivity.
    - rewrite L. reflexivity. }
  assert (G : tokens (acronym acronyms input) = map f (tokens input)).
  { destruct (tokens_runs (acronym acronyms input)) as [R E]. destruct (tokens_runs input) as [R0 _].
    apply runs_unique; [exact R| |exact E]. apply (replaced_runs acronyms (tokens input)); [|exact R0].
    clear. induction (tokens input); cbn; constructor; [apply replaced_lookup|assumption]. }
  unfold acronym at 1. rewrite G. fold f. rewrite map_map. unfold acronym. fold f. f_equal. apply map_ext. exact Ef.
Qed.
Print Assumptions C56_idempotent.

(* An acronym that is not a single run, such as ".NET" or "CI/CD", never has any effect. *)
Theorem C56_mixed_acronym_refuted : forall before a after input,
  (forall k, ~ of_kind k a) ->
  acronym (app before (a :: after)) input = acronym (app before after) input.
Proof.
  intros before a after input Ha. unfold acronym. f_equal. apply map_ext_in. intros t Ht.
  assert (Kt : exists k, of_kind k t).
  { destruct (tokens_runs input) as [R _]. clear - R Ht. induction (tokens input) as [|x l IH]; [destruct Ht|].
    destruct Ht as [->|Ht]; [apply (runs_head _ _ R)|apply IH; [exact Ht|exact (runs_tail _ _ R)]]. }
  destruct Kt as (k & Kt).
  assert (N : lower a <> lower t).
  { intros E. apply lower_eq in E. apply (Ha k). eapply same_letters_kind; eassumption. }
  assert (S : forall l m m', slookup (lower t) m = slookup (lower t) m' ->
     slookup (lower t) (fold_left (fun m a => sinsert (lower a) a m) l m) =
     slookup (lower t) (fold_left (fun m a => sinsert (lower a) a m) l m')).
  { induction l as [|x l IH]; intros m m' E; [exact E|]. cbn [fold_left]. apply IH. rewrite !slookup_sinsert', E. reflexivity. }
  f_equal. unfold acronym_map. rewrite !fold_left_app. cbn [fold_left]. apply S. rewrite slookup_sinsert'.
  destruct (String.eqb_spec (lower t) (lower a)); [congruence|reflexivity].
Qed.
Print Assumptions C56_mixed_acronym_refuted.

Example C56_ex : acronym ["iOS"; "API"] "Use the api-of IOS, apis" = "Use the API-of iOS, apis" /\
  forall k, ~ of_kind k ".NET".
Proof.
  split; [reflexivity|]. intros k H. inversion H as [|c s Hc H1]; subst. inversion H1 as [|c' s' Hc' H2]; subst. discriminate.
Qed.
