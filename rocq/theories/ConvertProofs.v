(* Lemmas for the conversion to version 2. *)
From Coq Require Import String Ascii Bool Arith ZArith NArith Lia Permutation Sorted List.
Import ListNotations.
From Verif Require Import Base BaseProofs BaseProofs2 Json SemTypes Resolved ResolveModel ConvertModel ConvertSpec.
From Verif Require InferProofs.
Local Open Scope string_scope.

(* ---------- small things ---------- *)
Lemma dec_iff {A} (eq : forall a b : A, {a = b} + {a <> b}) a b : dec eq a b = true <-> a = b.
Proof. unfold dec. destruct (eq a b); split; congruence. Qed.
Lemma stab_iff a b : stability_eqb a b = true <-> a = b.
Proof. destruct a, b; cbn; split; congruence. Qed.
Lemma gt_iff a b : group_type_eqb a b = true <-> a = b.
Proof. destruct a, b; cbn; split; congruence. Qed.

Lemma without_fix p id : without p id (fix_group_id p id).
Proof.
  unfold without, fix_group_id. destruct (strip_prefix p id) as [r|] eqn:E.
  - left. exact (proj1 (strip_prefix_spec p id r) E).
  - right. split; [reflexivity|]. intros y Hy.
    assert (E' := proj2 (strip_prefix_spec p id y) Hy). congruence.
Qed.
Lemma without_fun p id x y : without p id x -> without p id y -> x = y.
Proof.
  intros [E|[E N]] [E'|[E' N']].
  - rewrite E in E'. exact (str_app_inj_l _ _ _ E').
  - exfalso. exact (N' _ E).
  - exfalso. exact (N _ E').
  - congruence.
Qed.
Lemma default_get {A} (d : A) o : default d o (opt_get o d).
Proof. destruct o; [left|right]; cbn; auto. Qed.
Lemma default_iff {A} (d : A) o x : default d o x <-> x = opt_get o d.
Proof.
  unfold default. destruct o; cbn; split.
  - intros [E|[E _]]; congruence.
  - intros ->; auto.
  - intros [E|[_ E]]; congruence.
  - intros ->; auto.
Qed.

Lemma refines_iff g : is_refinement_of g = true <-> refines g.
Proof.
  unfold is_refinement_of, refines. destruct (g_lineage g) as [l|].
  - destruct (gl_extends_type l) as [t|] eqn:E.
    + rewrite gt_iff. split; [intros ->; exists l; auto | intros (l' & El & Et); congruence].
    + split; [discriminate | intros (l' & El & Et); congruence].
  - split; [discriminate | intros (l' & El & Et); discriminate].
Qed.
Lemma refines_not g : is_refinement_of g = false <-> ~ refines g.
Proof. rewrite <- refines_iff. destruct (is_refinement_of g); split; congruence. Qed.
Lemma extends_iff g b : extends_group g = Some b <-> extends g b.
Proof.
  unfold extends_group, extends. destruct (g_lineage g) as [l|]; split.
  - intros E; exists l; auto.
  - intros (l' & El & E); congruence.
  - discriminate.
  - intros (l' & El & E); discriminate.
Qed.

(* ---------- lists ---------- *)
Lemma find_first {A} (f : A -> bool) (P : A -> Prop) l x :
  (forall y, f y = true <-> P y) -> find f l = Some x -> first P l x.
Proof.
  intros F. induction l as [|y r IH]; cbn [find]; intros E; [discriminate|].
  destruct (f y) eqn:Fy.
  - injection E as <-. exists [], r. split; [reflexivity|]. split; [apply F; exact Fy | intros z []].
  - destruct (IH E) as (l1 & l2 & -> & Px & N). exists (y :: l1), l2. split; [reflexivity|]. split; [exact Px|].
    intros z [<-|Hz]; [intros Pz; apply F in Pz; congruence | exact (N z Hz)].
Qed.
Lemma find_nothing {A} (f : A -> bool) (P : A -> Prop) l :
  (forall y, f y = true <-> P y) -> find f l = None -> none P l.
Proof. intros F E y Hy Py. apply F in Py. assert (N := List.find_none f l E y Hy). congruence. Qed.

Lemma position_spec p (P : string -> Prop) s :
  (forall y, p y = true <-> P y) -> dep_number s P (position p (so_deps s)).
Proof.
  intros F. unfold dep_number. induction (so_deps s) as [|x r IH]; cbn [position].
  - intros u [].
  - destruct (p x) eqn:Px; cbn.
    + exists x. split; [reflexivity|]. split; [apply F; exact Px | intros j v Hj; lia].
    + destruct (position p r) as [i|]; cbn [option_map].
      * destruct IH as (u & Hu & Pu & N). exists u. split; [exact Hu|]. split; [exact Pu|].
        intros [|j] v Hj Hv; [injection Hv as <-; intros Q; apply F in Q; congruence | apply (N j); [lia | exact Hv]].
      * intros u [<-|Hu]; [intros Q; apply F in Q; congruence | exact (IH u Hu)].
Qed.
Lemma dep_number_fun s P n m : dep_number s P n -> dep_number s P m -> n = m.
Proof.
  destruct n as [i|], m as [j|]; cbn; auto.
  - intros (u & Hu & Pu & N) (v & Hv & Pv & M). f_equal.
    destruct (lt_eq_lt_dec i j) as [[L|E]|L]; [|exact E|]; exfalso; [exact (M i u L Hu Pu) | exact (N j v L Hv Pv)].
  - intros (u & Hu & Pu & N) M. exfalso. exact (M u (nth_error_In _ _ Hu) Pu).
  - intros M (u & Hu & Pu & N). exfalso. exact (M u (nth_error_In _ _ Hu) Pu).
Qed.

Lemma one_each_app {A B} (P : A -> Prop) (R : A -> B -> Prop) l1 m1 l2 m2 :
  one_each P R l1 m1 -> one_each P R l2 m2 -> one_each P R (app l1 l2) (app m1 m2).
Proof.
  intros H1 H2. induction H1; cbn; [exact H2 | apply oe_skip; auto | apply oe_take; auto].
Qed.
Lemma one_each_weaken {A B} (P : A -> Prop) (R R' : A -> B -> Prop) l m :
  (forall a b, In a l -> In b m -> R a b -> R' a b) -> one_each P R l m -> one_each P R' l m.
Proof.
  intros W H. induction H as [|a l m N H IH | a b l m Pa Rab H IH].
  - constructor.
  - apply oe_skip; [exact N|]. apply IH. intros x y Hx Hy. apply W; [right; exact Hx | exact Hy].
  - apply oe_take; [exact Pa | apply W; [left; reflexivity | left; reflexivity | exact Rab] |].
    apply IH. intros x y Hx Hy. apply W; right; assumption.
Qed.
Lemma one_each_in {A B} (P : A -> Prop) (R : A -> B -> Prop) l m b :
  one_each P R l m -> In b m -> exists a, In a l /\ P a /\ R a b.
Proof.
  intros H Hb. induction H as [|a l m N H IH | a c l m Pa Rac H IH].
  - destruct Hb.
  - destruct (IH Hb) as (x & Hx & Q). exists x. split; [right; exact Hx | exact Q].
  - destruct Hb as [<-|Hb]; [exists a; split; [left; reflexivity | auto]|].
    destruct (IH Hb) as (x & Hx & Q). exists x. split; [right; exact Hx | exact Q].
Qed.
Lemma one_each_has {A B} (P : A -> Prop) (R : A -> B -> Prop) l m a :
  one_each P R l m -> In a l -> P a -> exists b, In b m /\ R a b.
Proof.
  intros H Ha Pa. induction H as [|x l m N H IH | x c l m Px Rac H IH].
  - destruct Ha.
  - destruct Ha as [<-|Ha]; [contradiction|]. exact (IH Ha).
  - destruct Ha as [<-|Ha]; [exists c; split; [left; reflexivity | exact Rac]|].
    destruct (IH Ha) as (b & Hb & R1). exists b. split; [right; exact Hb | exact R1].
Qed.
Lemma forall2_one_each {A B} (f : A -> bool) (P : A -> Prop) (R : A -> B -> Prop) l m :
  (forall a, f a = true <-> P a) -> Forall2 R (filter f l) m -> one_each P R l m.
Proof.
  intros F. revert m. induction l as [|a r IH]; cbn [filter]; intros m H.
  - inversion H; subst. constructor.
  - destruct (f a) eqn:Fa.
    + inversion H as [|x y lx ly Rxy H' Ex Ey]; subst. apply oe_take; [apply F; exact Fa | exact Rxy | exact (IH _ H')].
    + apply oe_skip; [intros Q; apply F in Q; congruence | exact (IH _ H)].
Qed.

Lemma conv_map_ok {A B} (f : A -> conv B) l m :
  conv_map f l = Converted m <-> Forall2 (fun a b => f a = Converted b) l m.
Proof.
  revert m. induction l as [|a r IH]; intros m; cbn [conv_map].
  - split; intros H; [injection H as <-; constructor | inversion H; reflexivity].
  - destruct (f a) as [b|e|] eqn:E; cbn [conv_bind].
    + destruct (conv_map f r) as [m'|e|] eqn:E2; cbn [conv_bind].
      * split; intros H.
        -- injection H as <-. constructor; [exact E | apply IH; reflexivity].
        -- inversion H as [|x y lx ly Rxy H' Ex Ey]; subst. apply IH in H'. congruence.
      * split; intros H; [discriminate|]. inversion H as [|x y lx ly Rxy H' Ex Ey]; subst. apply IH in H'. congruence.
      * split; intros H; [discriminate|]. inversion H as [|x y lx ly Rxy H' Ex Ey]; subst. apply IH in H'. congruence.
    + split; intros H; [discriminate|]. inversion H as [|x y lx ly Rxy H' Ex Ey]; subst. congruence.
    + split; intros H; [discriminate|]. inversion H as [|x y lx ly Rxy H' Ex Ey]; subst. congruence.
Qed.

(* ---------- provenance ---------- *)
Lemma eqb_sym_iff a b : String.eqb a b = true <-> b = a.
Proof. rewrite String.eqb_eq. split; congruence. Qed.
Lemma provenance_ok s g : declared s g (get_provenance s g).
Proof.
  unfold declared, get_provenance. destruct (g_lineage g) as [l|]; cbn [p2_source p2_path]; [|auto].
  split; [reflexivity|]. destruct (String.eqb_spec (pv_url (gl_provenance l)) (so_registry_url s)) as [E|N]; [auto|].
  right. split; [exact N|]. apply position_spec. intros y. apply eqb_sym_iff.
Qed.
Lemma declared_fun s g p q : declared s g p -> declared s g q -> p = q.
Proof.
  unfold declared. destruct p as [ps pp], q as [qs qp]; cbn [p2_source p2_path]. destruct (g_lineage g) as [l|].
  - intros (-> & [[E ->]|[N H]]) (-> & [[E' ->]|[N' H']]); try contradiction; [reflexivity|].
    f_equal. exact (dep_number_fun _ _ _ _ H H').
  - intros (-> & ->) (-> & ->). reflexivity.
Qed.
Lemma own_iff name g : defines_attr name g = true <-> own name g.
Proof.
  unfold defines_attr, own, lineage_attribute. destruct (g_lineage g) as [l|].
  - destruct (slookup name (gl_attributes l)) as [al|] eqn:E.
    + rewrite String.eqb_eq. split; [intros H; exists l, al; auto | intros (l' & al' & El & Ea & Es); congruence].
    + split; [discriminate | intros (l' & al' & El & Ea & Es); congruence].
  - split; [discriminate | intros (l' & al' & El & Ea & Es); discriminate].
Qed.
Lemma attr_provenance_ok name_of s name : attr_declared name_of s name (attr_provenance name_of s name).
Proof.
  unfold attr_declared, attr_provenance.
  destruct (find (defines_attr name) (so_groups s)) as [g|] eqn:E1.
  { left. exists g. split; [apply (find_first _ _ _ _ (own_iff name) E1) | apply provenance_ok]. }
  right. split; [apply (find_nothing _ _ _ (own_iff name) E1)|].
  destruct (slookup name (so_roots s)) as [src|] eqn:E2.
  2:{ right; right. split; [intros src H; discriminate | auto]. }
  assert (F : forall y, String.eqb (g_id y) src = true <-> g_id y = src) by (intros y; apply String.eqb_eq).
  destruct (find (fun g => String.eqb (g_id g) src) (so_groups s)) as [g|] eqn:E3.
  { left. exists src, g. split; [reflexivity|]. split; [apply (find_first _ _ _ _ F E3) | apply provenance_ok]. }
  assert (N := find_nothing _ _ _ F E3).
  destruct (strip_prefix "v2_dependency." src) as [dep|] eqn:E4.
  - right; left. exists dep. assert (Es := proj1 (strip_prefix_spec _ _ _) E4). subst src. split; [reflexivity|].
    split; [exact N|]. cbn [p2_path p2_source]. split; [reflexivity|]. apply position_spec. intros y. apply String.eqb_eq.
  - right; right. cbn [p2_path p2_source]. split; [|auto]. intros src' H. injection H as <-. split; [exact N|].
    intros dep Hd. assert (E5 := proj2 (strip_prefix_spec _ _ _) Hd). congruence.
Qed.

(* ---------- the catalog ---------- *)
Lemma matches_iff a b : matches a b = true <-> same_attribute a b.
Proof.
  unfold matches, same_attribute. rewrite !andb_true_iff, !dec_iff, !String.eqb_eq, stab_iff, !default_iff.
  assert (An : match at_annotations a with
     | Some ans => dec annots_eq_dec (c_annotations (a2_common b)) ans
     | None => match c_annotations (a2_common b) with [] => true | _ :: _ => false end
     end = true <-> c_annotations (a2_common b) = opt_get (at_annotations a) []).
  { destruct (at_annotations a) as [ans|]; cbn [opt_get]; [apply dec_iff|].
    destruct (c_annotations (a2_common b)); split; congruence. }
  rewrite An. unfold default_stability. tauto.
Qed.
Lemma same_v2 name_of s a b : same_attribute a b -> a2_provenance b = attr_provenance name_of s (at_name a) ->
  b = attribute_v2 name_of s a.
Proof.
  destruct b as [k ty ex [br no st de an] p]. unfold same_attribute, attribute_v2.
  cbn [a2_key a2_type a2_examples a2_common a2_provenance c_brief c_note c_stability c_deprecated c_annotations].
  rewrite !default_iff. unfold default_stability. intros (-> & -> & -> & -> & -> & -> & -> & ->) ->. reflexivity.
Qed.
Lemma v2_same name_of s a : same_attribute a (attribute_v2 name_of s a).
Proof.
  unfold same_attribute, attribute_v2.
  cbn [a2_key a2_type a2_examples a2_common a2_provenance c_brief c_note c_stability c_deprecated c_annotations].
  rewrite !default_iff. unfold default_stability. tauto.
Qed.

Lemma key_indices_in cat key i : In i (key_indices cat key) <-> exists b, nth_error cat i = Some b /\ a2_key b = key.
Proof.
  unfold key_indices. rewrite filter_In, in_seq. destruct (nth_error cat i) as [b|] eqn:E.
  - assert (L : i < length cat) by (apply nth_error_Some; congruence). rewrite String.eqb_eq. split.
    + intros (_ & K). exists b. auto.
    + intros (b' & Eb & K). injection Eb as <-. split; [lia | exact K].
  - split; [intros (_ & K); discriminate | intros (b' & Eb & _); discriminate].
Qed.
Lemma convert_ref_some cat a i : convert_ref cat a = Some i -> exists b, nth_error cat i = Some b /\ same_attribute a b.
Proof.
  unfold convert_ref. intros E. apply find_some in E as (_ & M). destruct (nth_error cat i) as [b|] eqn:Eb; [|discriminate].
  exists b. split; [reflexivity | apply matches_iff; exact M].
Qed.
Lemma convert_ref_found cat a b : In b cat -> same_attribute a b -> exists i, convert_ref cat a = Some i.
Proof.
  intros Hb Sb. destruct (convert_ref cat a) as [i|] eqn:E; [exists i; reflexivity|]. exfalso.
  apply In_nth_error in Hb as (i & Hi). unfold convert_ref in E.
  assert (K : In i (key_indices cat (at_name a))) by (apply key_indices_in; exists b; split; [exact Hi | apply Sb]).
  assert (N := List.find_none _ _ E i K). cbn beta in N. rewrite Hi in N. apply matches_iff in Sb. congruence.
Qed.

Section Catalog.
Variable hash : attribute2 -> N.
Variable order : list attribute2 -> list attribute2.
Variable name_of : string -> string.
Hypothesis order_perm : forall l, Permutation l (order l).

Lemma catalog_perm s :
  Permutation (nodup attribute2_eq_dec (map (attribute_v2 name_of s) (so_catalog s))) (v2_catalog hash order name_of s).
Proof. unfold v2_catalog. eapply Permutation_trans; [apply order_perm | apply stable_sort_perm]. Qed.
Lemma catalog_nodup s : NoDup (v2_catalog hash order name_of s).
Proof. eapply Permutation_NoDup; [apply catalog_perm | apply NoDup_nodup]. Qed.
Lemma catalog_in s b : In b (v2_catalog hash order name_of s) <-> exists a, In a (so_catalog s) /\ b = attribute_v2 name_of s a.
Proof.
  split.
  - intros H. apply (Permutation_in _ (Permutation_sym (catalog_perm s))) in H. apply nodup_In in H.
    apply in_map_iff in H as (a & E & Ha). exists a. auto.
  - intros (a & Ha & ->). apply (Permutation_in _ (catalog_perm s)). apply nodup_In. apply in_map. exact Ha.
Qed.
Lemma convert_ref_total s a : In a (so_catalog s) -> exists i, convert_ref (v2_catalog hash order name_of s) a = Some i.
Proof.
  intros Ha. apply (convert_ref_found _ a (attribute_v2 name_of s a)); [apply catalog_in; exists a; auto | apply v2_same].
Qed.
(* the only number that stands for it *)
Lemma catalog_unique s a i j b c :
  nth_error (v2_catalog hash order name_of s) i = Some b -> same_attribute a b ->
  nth_error (v2_catalog hash order name_of s) j = Some c -> same_attribute a c -> i = j.
Proof.
  intros Hi Sb Hj Sc.
  assert (F : forall n x, nth_error (v2_catalog hash order name_of s) n = Some x -> same_attribute a x -> x = attribute_v2 name_of s a).
  { intros n x Hn Sx. apply same_v2; [exact Sx|]. apply nth_error_In in Hn. apply catalog_in in Hn as (a' & _ & ->).
    cbn [a2_provenance attribute_v2]. f_equal. destruct Sx as (K & _). exact K. }
  assert (E : b = c) by (rewrite (F _ _ Hi Sb); symmetry; exact (F _ _ Hj Sc)). subst c.
  apply (NoDup_nth_error (v2_catalog hash order name_of s)); [apply catalog_nodup | apply nth_error_Some; congruence | congruence].
Qed.
End Catalog.

Lemma catalog_leb_total hash a b : catalog_leb hash a b = true \/ catalog_leb hash b a = true.
Proof.
  unfold catalog_leb, str_cmp. rewrite (String.compare_antisym (a2_key b) (a2_key a)).
  destruct (String.compare (a2_key a) (a2_key b)); cbn; auto.
  destruct (N.leb_spec (hash a) (hash b)); [auto|]. right. apply N.leb_le. lia.
Qed.
Lemma catalog_leb_iff hash a b : catalog_leb hash a b = true <->
  str_lt (a2_key a) (a2_key b) \/ (a2_key a = a2_key b /\ (hash a <= hash b)%N).
Proof.
  unfold catalog_leb, str_lt. destruct (str_cmp (a2_key a) (a2_key b)) eqn:E.
  - apply str_cmp_eq in E. rewrite N.leb_le. split; [auto|]. intros [H|[_ H]]; [discriminate|exact H].
  - split; auto.
  - split; [discriminate|]. intros [H|[H _]]; [discriminate|]. rewrite H, str_cmp_refl in E. discriminate.
Qed.
Lemma catalog_leb_trans hash a b c : catalog_leb hash a b = true -> catalog_leb hash b c = true -> catalog_leb hash a c = true.
Proof.
  rewrite !catalog_leb_iff. intros [H1|[E1 H1]] [H2|[E2 H2]].
  - left. exact (str_lt_trans _ _ _ H1 H2).
  - left. rewrite <- E2. exact H1.
  - left. rewrite E1. exact H2.
  - right. split; [congruence | lia].
Qed.

(* ---------- attributes of signals ---------- *)
Section Uses.
Variable hash : attribute2 -> N.
Variable order : list attribute2 -> list attribute2.
Variable name_of : string -> string.
Hypothesis order_perm : forall l, Permutation l (order l).
Variable s : source1.
Variable out : schema2.
Let cat := v2_catalog hash order name_of s.
Hypothesis out_cat : s2_catalog out = cat.

Lemma ref_stands a i : convert_ref cat a = Some i -> stands_for out a i.
Proof. intros E. apply convert_ref_some in E as (b & Hb & Sb). exists b. rewrite out_cat. auto. Qed.
Lemma signal_uses_ok sampled l : uses s out sampled l (signal_uses s cat sampled l).
Proof.
  induction l as [|r rest IH]; cbn [signal_uses]; [constructor|].
  destruct (nth_error (so_catalog s) r) as [a|] eqn:E.
  - destruct (convert_ref_total hash order name_of order_perm s a (nth_error_In _ _ E)) as (i & Ei).
    fold cat in Ei. rewrite Ei. apply oe_take; [exists a; exact E| |exact IH].
    exists a. split; [exact E|]. split; [apply ref_stands; exact Ei|]. split; reflexivity.
  - apply oe_skip; [intros (a & Ha); unfold attr_at in Ha; congruence | exact IH].
Qed.

(* ---------- entities ---------- *)
Lemma attr_ref_ok gid r p : convert_attribute_ref s cat gid r = Converted p ->
  attr_at s r (fst p) /\ stands_for out (fst p) (snd p).
Proof.
  unfold convert_attribute_ref. destruct (nth_error (so_catalog s) r) as [a|] eqn:E; [|discriminate].
  destruct (convert_ref cat a) as [b|] eqn:E2; [|discriminate]. intros H; injection H as <-. cbn [fst snd].
  split; [exact E | apply ref_stands; exact E2].
Qed.
Lemma attr_ref_total gid r : (exists p, convert_attribute_ref s cat gid r = Converted p) <-> exists a, attr_at s r a.
Proof.
  unfold convert_attribute_ref, attr_at. destruct (nth_error (so_catalog s) r) as [a|] eqn:E.
  - destruct (convert_ref_total hash order name_of order_perm s a (nth_error_In _ _ E)) as (i & Ei).
    fold cat in Ei. rewrite Ei. split; intros _; eauto.
  - split; intros (x & H); discriminate.
Qed.
Lemma entity_uses_ok gid l m (f : attribute * nat -> bool) (P : option attr_role -> Prop) :
  (forall p, f p = true <-> P (at_role (fst p))) ->
  Forall2 (fun r p => convert_attribute_ref s cat gid r = Converted p) l m ->
  one_each (fun i => exists a, attr_at s i a /\ P (at_role a)) (used s out false) l (map entity_use (filter f m)).
Proof.
  intros F H. induction H as [|r p l m E H IH]; cbn [filter map]; [constructor|].
  destruct (attr_ref_ok gid r p E) as (Ha & Hs). destruct (f p) eqn:Fp.
  - cbn [map]. apply oe_take; [exists (fst p); split; [exact Ha | apply F; exact Fp] | | exact IH].
    exists (fst p). cbn [entity_use u_base u_req u_sampling]. auto.
  - apply oe_skip; [|exact IH]. intros (a & Ha' & Pa). unfold attr_at in Ha, Ha'.
    assert (a = fst p) by congruence. subst a. apply F in Pa. congruence.
Qed.
Lemma identifies_iff p : identifies p = true <-> at_role (fst p) = Some Identifying.
Proof. unfold identifies. destruct (at_role (fst p)) as [[|]|]; split; congruence. Qed.
Lemma identifies_not p : negb (identifies p) = true <-> at_role (fst p) <> Some Identifying.
Proof. rewrite <- identifies_iff, negb_true_iff. destruct (identifies p); split; congruence. Qed.

Lemma entity_name_ok g : entity_name g (entity_type_of g).
Proof.
  unfold entity_name, entity_type_of. destruct (g_name g) as [n|]; [left; reflexivity | right].
  split; [reflexivity | apply without_fix].
Qed.
Lemma entity_name_fun g x y : entity_name g x -> entity_name g y -> x = y.
Proof.
  intros [E|[E W]] [E'|[E' W']]; try congruence. exact (without_fun _ _ _ _ W W').
Qed.
Lemma entity_type_ok g t : entity_type s g = Converted t -> entity_typed s g t.
Proof.
  unfold entity_type, entity_typed. destruct (is_refinement_of g) eqn:R.
  - apply refines_iff in R. destruct (extends_group g) as [b|] eqn:E; [|discriminate].
    apply extends_iff in E. intros H; injection H as <-. right. split; [exact R|]. exists b. split; [exact E|].
    assert (F : forall y, String.eqb (g_id y) b = true <-> g_id y = b) by (intros y; apply String.eqb_eq).
    destruct (find (fun y => String.eqb (g_id y) b) (so_groups s)) as [x|] eqn:E2.
    + left. exists x. split; [apply (find_first _ _ _ _ F E2) | apply entity_name_ok].
    + right. split; [apply (find_nothing _ _ _ F E2) | apply without_fix].
  - apply refines_not in R. intros H; injection H as <-. left. split; [exact R | apply entity_name_ok].
Qed.
Lemma common_ok g : same_common g (group_common g).
Proof.
  unfold same_common, group_common. cbn [c_brief c_note c_stability c_deprecated c_annotations].
  rewrite !default_iff. unfold default_stability. tauto.
Qed.
Lemma convert_entity_ok g e : convert_entity s cat g = Converted e -> is_entity s out g e.
Proof.
  unfold convert_entity. destruct (conv_map (convert_attribute_ref s cat (g_id g)) (g_attributes g)) as [l|?|] eqn:E; try discriminate.
  cbn [conv_bind]. destruct (entity_type s g) as [t|?|] eqn:T; try discriminate. cbn [conv_bind]. intros H; injection H as <-.
  apply conv_map_ok in E. unfold is_entity.
  cbn [en2_type en2_identity en2_description en2_level en2_common en2_provenance].
  split; [apply entity_type_ok; exact T|]. split.
  { intros i Hi. clear T. induction E as [|r p l' m Er H IH]; [destruct Hi|].
    destruct Hi as [<-|Hi]; [exists (fst p); exact (proj1 (attr_ref_ok _ _ _ Er)) | exact (IH Hi)]. }
  split; [apply (entity_uses_ok (g_id g) _ _ identifies (fun r => r = Some Identifying) identifies_iff E)|].
  split; [apply (entity_uses_ok (g_id g) _ _ (fun p => negb (identifies p)) (fun r => r <> Some Identifying) identifies_not E)|].
  split; [reflexivity|]. split; [apply common_ok | apply provenance_ok].
Qed.
Lemma convert_entity_total g : (exists e, convert_entity s cat g = Converted e) <->
  has_base g /\ forall i, In i (g_attributes g) -> exists a, attr_at s i a.
Proof.
  unfold convert_entity. split.
  - intros (e & H). split.
    + intros R. apply refines_iff in R.
      destruct (conv_map (convert_attribute_ref s cat (g_id g)) (g_attributes g)) as [l|?|]; try discriminate.
      cbn [conv_bind] in H. unfold entity_type in H. rewrite R in H.
      destruct (extends_group g) as [b|] eqn:E; [exists b; apply extends_iff; exact E | discriminate].
    + assert (O : is_entity s out g e) by (apply convert_entity_ok; exact H). apply O.
  - intros (B & At).
    assert (M : exists l, conv_map (convert_attribute_ref s cat (g_id g)) (g_attributes g) = Converted l).
    { induction (g_attributes g) as [|r rest IH]; [exists []; reflexivity|].
      destruct (proj2 (attr_ref_total (g_id g) r) (At r (or_introl eq_refl))) as (p & Ep).
      destruct IH as (l & El); [intros i Hi; apply At; right; exact Hi|].
      exists (p :: l). cbn [conv_map]. rewrite Ep. cbn [conv_bind]. rewrite El. reflexivity. }
    destruct M as (l & ->). cbn [conv_bind].
    assert (T : exists t, entity_type s g = Converted t).
    { unfold entity_type. destruct (is_refinement_of g) eqn:R; [|eexists; reflexivity].
      apply refines_iff in R. destruct (B R) as (b & Eb). apply extends_iff in Eb. rewrite Eb. eexists; reflexivity. }
    destruct T as (t & ->). cbn [conv_bind]. eexists; reflexivity.
Qed.
Lemma convert_entity_no_panic g : convert_entity s cat g <> Panicked.
Proof.
  unfold convert_entity. destruct (conv_map (convert_attribute_ref s cat (g_id g)) (g_attributes g)) as [l|?|] eqn:E; cbn [conv_bind]; try discriminate.
  - unfold entity_type. destruct (is_refinement_of g); cbn [conv_bind]; [|discriminate].
    destruct (extends_group g); cbn [conv_bind]; discriminate.
  - exfalso. revert E. induction (g_attributes g) as [|r rest IH]; cbn [conv_map]; [discriminate|].
    unfold convert_attribute_ref at 1. destruct (nth_error (so_catalog s) r) as [a|]; cbn [conv_bind]; [|discriminate].
    destruct (convert_ref cat a); cbn [conv_bind]; [|discriminate].
    destruct (conv_map (convert_attribute_ref s cat (g_id g)) rest); cbn [conv_bind]; try discriminate. exact IH.
Qed.

(* ---------- associations ---------- *)
Lemma local_lookup l name src : slookup name (local_entities l) = Some src <->
  exists l1 e l2, l = app l1 ((name, e) :: l2) /\ ~ In name (map fst l2) /\ p2_source (en2_provenance e) = src.
Proof.
  unfold local_entities. induction l as [|[k e] l IH] using rev_ind.
  - split; [discriminate|]. intros (l1 & e & l2 & E & _). destruct l1; discriminate.
  - rewrite fold_left_app. cbn [fold_left fst snd]. rewrite InferProofs.slookup_insert.
    destruct (String.eqb_spec name k) as [->|N].
    + split.
      * intros H; injection H as <-. exists l, e, []. split; [reflexivity|]. split; [intros [] | reflexivity].
      * intros (l1 & e' & l2 & E & Ni & <-). destruct l2 as [|p l2] using rev_ind.
        -- apply app_inj_tail in E as (_ & E). injection E as <-. reflexivity.
        -- clear IHl2. exfalso. rewrite app_comm_cons, app_assoc in E. apply app_inj_tail in E as (_ & <-).
           apply Ni. rewrite map_app. apply in_or_app. right. left. reflexivity.
    + rewrite IH. split; intros (l1 & e' & l2 & E & Ni & <-).
      * exists l1, e', (app l2 [(k, e)]). subst l. split; [rewrite <- app_assoc; reflexivity|]. split; [|reflexivity].
        rewrite map_app. intros H. apply in_app_or in H as [H|[H|[]]]; [exact (Ni H) | cbn in H; congruence].
      * destruct l2 as [|p l2] using rev_ind.
        -- apply app_inj_tail in E as (_ & E). injection E as <- <-. congruence.
        -- clear IHl2. rewrite app_comm_cons, app_assoc in E. apply app_inj_tail in E as (E & <-).
           exists l1, e', l2. split; [exact E|]. split; [|reflexivity]. intros H. apply Ni. rewrite map_app. apply in_or_app. left; exact H.
Qed.
Lemma source_eqb_iff a b : source_eqb a b = true <-> a = b.
Proof.
  destruct a as [x|], b as [y|]; cbn; try (split; congruence). rewrite Nat.eqb_eq. split; congruence.
Qed.
Let local := local_entities (f2_entities (s2_refinements out)).
Lemma holds_iff name src : slookup name local = Some src <-> holds out name src.
Proof. unfold local, holds. apply local_lookup. Qed.
Lemma origin_iff gid name u :
  (match slookup gid (so_origins s) with Some m => slookup name m | None => None end) = Some u <-> origin s gid name u.
Proof.
  unfold origin. destruct (slookup gid (so_origins s)) as [m|]; split.
  - intros E; exists m; auto.
  - intros (m' & Em & E); congruence.
  - discriminate.
  - intros (m' & Em & E); discriminate.
Qed.
Lemma resolve_ok gid name r : resolve_entity s local gid name = Some r -> refers s out gid name r.
Proof.
  unfold resolve_entity, refers.
  destruct (match slookup gid (so_origins s) with Some m => slookup name m | None => None end) as [u|] eqn:O.
  - apply origin_iff in O. intros H. right. exists u, (position (String.eqb u) (so_deps s)).
    split; [exact O|]. split; [apply position_spec; intros y; apply String.eqb_eq|].
    destruct (slookup name local) as [held|] eqn:L.
    + destruct (source_eqb held (position (String.eqb u) (so_deps s))) eqn:E.
      * apply source_eqb_iff in E. subst held. injection H as <-. left. split; [apply holds_iff; exact L|].
        unfold local_ref, entity_ref_local. cbn. auto.
      * injection H as <-. right. cbn. split; [|auto]. rewrite <- holds_iff, L. intros Q. injection Q as Q.
        apply source_eqb_iff in Q. congruence.
    + injection H as <-. right. cbn. split; [|auto]. rewrite <- holds_iff, L. discriminate.
  - destruct (slookup name local) as [held|] eqn:L; [|discriminate]. intros H; injection H as <-. left.
    split; [intros u Hu; apply origin_iff in Hu; congruence|]. split; [unfold local_ref, entity_ref_local; cbn; auto|].
    exists held. apply holds_iff. exact L.
Qed.
Lemma resolve_total gid name : (exists r, resolve_entity s local gid name = Some r) <->
  (exists u, origin s gid name u) \/ exists src, holds out name src.
Proof.
  unfold resolve_entity.
  destruct (match slookup gid (so_origins s) with Some m => slookup name m | None => None end) as [u|] eqn:O.
  - apply origin_iff in O. split; [intros _; left; exists u; exact O|]. intros _.
    destruct (slookup name local) as [held|]; [|eexists; reflexivity].
    destruct (source_eqb held (position (String.eqb u) (so_deps s))); eexists; reflexivity.
  - destruct (slookup name local) as [held|] eqn:L.
    + split; [intros _; right; exists held; apply holds_iff; exact L | intros _; eexists; reflexivity].
    + split; [intros (r & H); discriminate|]. intros [(u & Hu)|(src & Hs)]; [apply origin_iff in Hu; congruence | apply holds_iff in Hs; congruence].
Qed.

Lemma convert_assoc_eq gid a : convert_assoc s local gid a =
  match a with
  | ARef name => match resolve_entity s local gid name with
                 | Some r => Converted (ARef r)
                 | None => Failed (CAssociation gid name)
                 end
  | AOneOf l => conv_bind (conv_map (convert_assoc s local gid) l) (fun m => Converted (AOneOf m))
  | AAllOf l => conv_bind (conv_map (convert_assoc s local gid) l) (fun m => Converted (AAllOf m))
  end.
Proof.
  destruct a as [n|l|l]; [reflexivity | |]; cbn [convert_assoc]; f_equal;
    (induction l as [|x r IH]; [reflexivity|]; cbn [conv_map]; rewrite <- IH; reflexivity).
Qed.
Lemma convert_assoc_ok gid a b : convert_assoc s local gid a = Converted b -> same_shape (refers s out gid) a b.
Proof.
  revert b. induction a as [n|l IH|l IH] using assoc_ind2; intros b H; rewrite convert_assoc_eq in H.
  - destruct (resolve_entity s local gid n) as [r|] eqn:E; [|discriminate]. injection H as <-. constructor. apply resolve_ok. exact E.
  - destruct (conv_map (convert_assoc s local gid) l) as [m|?|] eqn:E; try discriminate. injection H as <-.
    apply conv_map_ok in E. constructor. induction E as [|x y l' m' Exy E' IH2]; [constructor|].
    inversion IH as [|z lz Pz IH']; subst. constructor; [apply Pz; exact Exy | apply IH2; exact IH'].
  - destruct (conv_map (convert_assoc s local gid) l) as [m|?|] eqn:E; try discriminate. injection H as <-.
    apply conv_map_ok in E. constructor. induction E as [|x y l' m' Exy E' IH2]; [constructor|].
    inversion IH as [|z lz Pz IH']; subst. constructor; [apply Pz; exact Exy | apply IH2; exact IH'].
Qed.
Lemma conv_map_total {A B} (f : A -> conv B) l :
  (exists m, conv_map f l = Converted m) <-> forall a, In a l -> exists b, f a = Converted b.
Proof.
  induction l as [|a r IH]; cbn [conv_map].
  - split; [intros _ a [] | intros _; exists []; reflexivity].
  - split.
    + intros (m & H). destruct (f a) as [b|?|] eqn:E; try discriminate. cbn [conv_bind] in H.
      destruct (conv_map f r) as [m'|?|] eqn:E2; try discriminate.
      intros x [<-|Hx]; [exists b; exact E | apply (proj1 IH); [exists m'; reflexivity | exact Hx]].
    + intros H. destruct (H a (or_introl eq_refl)) as (b & ->). cbn [conv_bind].
      destruct (proj2 IH) as (m & ->); [intros x Hx; apply H; right; exact Hx|]. eexists; reflexivity.
Qed.
Lemma conv_map_panic {A B} (f : A -> conv B) l : (forall a, f a <> Panicked) -> conv_map f l <> Panicked.
Proof.
  intros N. induction l as [|a r IH]; cbn [conv_map]; [discriminate|].
  destruct (f a) eqn:E; cbn [conv_bind]; [|discriminate|exact (fun _ => N a E)].
  destruct (conv_map f r); cbn [conv_bind]; [discriminate|discriminate|exact IH].
Qed.
Lemma convert_assoc_total gid a : (exists b, convert_assoc s local gid a = Converted b) <->
  forall name, leaf name a -> (exists u, origin s gid name u) \/ exists src, holds out name src.
Proof.
  assert (L : forall l (mk : list (assoc entity_ref) -> assoc entity_ref),
    Forall (fun a => (exists b, convert_assoc s local gid a = Converted b) <->
      forall name, leaf name a -> (exists u, origin s gid name u) \/ exists src, holds out name src) l ->
    ((exists b, conv_bind (conv_map (convert_assoc s local gid) l) (fun m => Converted (mk m)) = Converted b) <->
     forall name c, In c l -> leaf name c -> (exists u, origin s gid name u) \/ exists src, holds out name src)).
  { intros l mk IH. rewrite Forall_forall in IH. split.
    - intros (b & H). destruct (conv_map (convert_assoc s local gid) l) as [m|?|] eqn:E; try discriminate.
      intros name c Hc Lc. apply (proj1 (IH c Hc)); [|exact Lc]. apply (proj1 (conv_map_total _ _) (ex_intro _ m E) c Hc).
    - intros H. destruct (proj2 (conv_map_total (convert_assoc s local gid) l)) as (m & ->).
      + intros c Hc. apply (proj2 (IH c Hc)). intros name Lc. exact (H name c Hc Lc).
      + eexists; reflexivity. }
  induction a as [n|l IH|l IH] using assoc_ind2.
  - rewrite convert_assoc_eq. split.
    + intros (b & H) name Ln. inversion Ln; subst. apply resolve_total.
      destruct (resolve_entity s local gid n) as [r|] eqn:E; [exists r; reflexivity | discriminate].
    + intros H. destruct (proj2 (resolve_total gid n) (H n (lf_ref n))) as (r & ->). eexists; reflexivity.
  - rewrite convert_assoc_eq, (L l _ IH). split.
    + intros H name Ln. inversion Ln as [|c l' Hc Lc|]; subst. exact (H name c Hc Lc).
    + intros H name c Hc Lc. apply H. exact (lf_one name c l Hc Lc).
  - rewrite convert_assoc_eq, (L l _ IH). split.
    + intros H name Ln. inversion Ln as [| |c l' Hc Lc]; subst. exact (H name c Hc Lc).
    + intros H name c Hc Lc. apply H. exact (lf_all name c l Hc Lc).
Qed.
Lemma convert_assoc_no_panic gid a : convert_assoc s local gid a <> Panicked.
Proof.
  induction a as [n|l IH|l IH] using assoc_ind2; rewrite convert_assoc_eq.
  - destruct (resolve_entity s local gid n); discriminate.
  - assert (N : conv_map (convert_assoc s local gid) l <> Panicked).
    { induction IH as [|x r Px IH IH2]; cbn [conv_map]; [discriminate|].
      destruct (convert_assoc s local gid x); cbn [conv_bind]; try discriminate; [|intros _; apply Px; reflexivity].
      destruct (conv_map (convert_assoc s local gid) r); cbn [conv_bind]; try discriminate. exact IH2. }
    destruct (conv_map (convert_assoc s local gid) l); cbn [conv_bind]; try discriminate. intros _. apply N; reflexivity.
  - assert (N : conv_map (convert_assoc s local gid) l <> Panicked).
    { induction IH as [|x r Px IH IH2]; cbn [conv_map]; [discriminate|].
      destruct (convert_assoc s local gid x); cbn [conv_bind]; try discriminate; [|intros _; apply Px; reflexivity].
      destruct (conv_map (convert_assoc s local gid) r); cbn [conv_bind]; try discriminate. exact IH2. }
    destruct (conv_map (convert_assoc s local gid) l); cbn [conv_bind]; try discriminate. intros _. apply N; reflexivity.
Qed.
Lemma assocs_ok g m : convert_assocs s local g = Converted m -> associated s out g (g_assocs g) m.
Proof.
  unfold convert_assocs, associated. intros H. apply conv_map_ok in H.
  induction H as [|x y l m' E H IH]; constructor; [apply convert_assoc_ok; exact E | exact IH].
Qed.
Definition resolvable_in (g : group) : Prop :=
  forall c name, In c (g_assocs g) -> leaf name c ->
    (exists u, origin s (g_id g) name u) \/ exists src, holds out name src.
Lemma assocs_total g : (exists m, convert_assocs s local g = Converted m) <-> resolvable_in g.
Proof.
  unfold convert_assocs, resolvable_in. rewrite conv_map_total. split.
  - intros H c name Hc Lc. exact (proj1 (convert_assoc_total (g_id g) c) (H c Hc) name Lc).
  - intros H c Hc. apply convert_assoc_total. intros name Lc. exact (H c name Hc Lc).
Qed.
Lemma assocs_no_panic g : convert_assocs s local g <> Panicked.
Proof. apply conv_map_panic. intros a. apply convert_assoc_no_panic. Qed.

(* ---------- one group ---------- *)
Definition pushes (g : group) (p : pushed) : Prop :=
  one_each (fun g => g_type g = GAttributeGroup /\ g_visibility g = Some Public) (is_group s out) [g] (pu_groups p) /\
  one_each (definition GSpan) (is_span s out) [g] (pu_spans p) /\
  one_each (typed GSpan) (listed "span." sp2_type (is_span s out)) [g] (pu_span_refs p) /\
  one_each (definition GEvent) (is_event s out) [g] (pu_events p) /\
  one_each (typed GEvent) (listed "event." ev2_name (is_event s out)) [g] (pu_event_refs p) /\
  one_each (definition GMetric) (is_metric s out) [g] (pu_metrics p) /\
  one_each (typed GMetric) (listed "metric." me2_name (is_metric s out)) [g] (pu_metric_refs p).
Lemma skip1 {A B} (P : A -> Prop) (R : A -> B -> Prop) a : ~ P a -> one_each P R [a] [].
Proof. intros N. apply oe_skip; [exact N | constructor]. Qed.
Lemma take1 {A B} (P : A -> Prop) (R : A -> B -> Prop) a b : P a -> R a b -> one_each P R [a] [b].
Proof. intros H1 H2. apply oe_take; [exact H1 | exact H2 | constructor]. Qed.
Ltac other T := apply skip1; unfold definition, typed; rewrite T; intuition discriminate.

Lemma span_ok g type l : convert_assocs s local g = Converted l ->
  ((~ refines g /\ without "span." (g_id g) type) \/ (refines g /\ exists base, extends g base /\ without "span." base type)) ->
  is_span s out g (span_of s cat type l g).
Proof.
  intros A T. unfold is_span, span_of.
  cbn [sp2_type sp2_kind sp2_name sp2_attributes sp2_assocs sp2_level sp2_common sp2_provenance].
  split; [exact T|]. split; [apply default_get|].
  split. { destruct (g_span_name g); cbn [opt_get]; [left; reflexivity | right; split; [reflexivity | apply default_get]]. }
  split; [apply signal_uses_ok|]. split; [apply assocs_ok; exact A|].
  split; [reflexivity|]. split; [apply common_ok | apply provenance_ok].
Qed.
Lemma convert_one_ok g p : convert_one s cat local g = Converted p -> pushes g p.
Proof.
  unfold convert_one, pushes. destruct (g_type g) eqn:T; intros H.
  - (* attribute group *)
    injection H as <-. unfold convert_group. destruct (g_visibility g) as [[|]|] eqn:V;
      cbn [pu_groups pu_spans pu_span_refs pu_events pu_event_refs pu_metrics pu_metric_refs nothing push_group];
      (split; [|repeat (split; [other T|]); other T]).
    + apply skip1. intros (_ & Q). congruence.
    + apply take1; [split; [exact T | exact V]|]. unfold is_group. cbn [ag2_id ag2_attributes ag2_common ag2_provenance].
      split; [apply without_fix|]. split; [apply signal_uses_ok|]. split; [apply common_ok | apply provenance_ok].
    + apply skip1. intros (_ & Q). congruence.
  - (* span *)
    unfold convert_span in H. destruct (is_refinement_of g) eqn:R; cbn [negb] in H.
    + apply refines_iff in R. destruct (extends_group g) as [b|] eqn:E; [|discriminate]. apply extends_iff in E.
      destruct (convert_assocs s local g) as [l|?|] eqn:A; try discriminate. injection H as <-.
      cbn [pu_groups pu_spans pu_span_refs pu_events pu_event_refs pu_metrics pu_metric_refs push_span].
      split; [other T|]. split; [apply skip1; intros (_ & Q); contradiction|].
      split; [|repeat (split; [other T|]); other T].
      apply take1; [exact T|]. split; cbn [fst snd]; [|right; split; [exact R | apply without_fix]].
      apply span_ok; [exact A|]. right. split; [exact R|]. exists b. split; [exact E | apply without_fix].
    + apply refines_not in R. destruct (convert_assocs s local g) as [l|?|] eqn:A; try discriminate. injection H as <-.
      cbn [pu_groups pu_spans pu_span_refs pu_events pu_event_refs pu_metrics pu_metric_refs push_span].
      assert (O : is_span s out g (span_of s cat (fix_group_id "span." (g_id g)) l g)).
      { apply span_ok; [exact A|]. left. split; [exact R | apply without_fix]. }
      split; [other T|]. split; [apply take1; [split; [exact T | exact R] | exact O]|].
      split; [|repeat (split; [other T|]); other T].
      apply take1; [exact T|]. split; cbn [fst snd]; [exact O | left; split; [exact R | reflexivity]].
  - (* event *)
    unfold convert_event in H. destruct (g_name g) as [n|] eqn:N; [|discriminate].
    destruct (convert_assocs s local g) as [l|?|] eqn:A; try discriminate. cbn [conv_bind] in H.
    set (ev := {| ev2_name := n; ev2_attributes := signal_uses s cat false (g_attributes g); ev2_assocs := l;
                  ev2_level := g_level g; ev2_common := group_common g; ev2_provenance := get_provenance s g |}) in *.
    assert (O : is_event s out g ev).
    { unfold is_event, ev. cbn [ev2_name ev2_attributes ev2_assocs ev2_level ev2_common ev2_provenance].
      split; [exact N|]. split; [apply signal_uses_ok|]. split; [apply assocs_ok; exact A|].
      split; [reflexivity|]. split; [apply common_ok | apply provenance_ok]. }
    destruct (is_refinement_of g) eqn:R; cbn [negb] in H; injection H as <-;
      cbn [pu_groups pu_spans pu_span_refs pu_events pu_event_refs pu_metrics pu_metric_refs push_event];
      (split; [other T|]); (split; [other T|]); (split; [other T|]).
    + apply refines_iff in R. split; [apply skip1; intros (_ & Q); contradiction|]. split; [|split; other T].
      apply take1; [exact T|]. split; cbn [fst snd]; [exact O | right; split; [exact R | apply without_fix]].
    + apply refines_not in R. split; [apply take1; [split; [exact T | exact R] | exact O]|]. split; [|split; other T].
      apply take1; [exact T|]. split; cbn [fst snd]; [exact O | left; split; [exact R | reflexivity]].
  - (* metric *)
    unfold convert_metric in H. destruct (g_metric_name g) as [n|] eqn:N; [|discriminate].
    destruct (g_instrument g) as [i|] eqn:I; [|discriminate]. destruct (g_unit g) as [u|] eqn:U; [|discriminate].
    destruct (convert_assocs s local g) as [l|?|] eqn:A; try discriminate. cbn [conv_bind] in H.
    set (me := {| me2_name := n; me2_instrument := i; me2_unit := u; me2_attributes := signal_uses s cat false (g_attributes g);
                  me2_assocs := l; me2_level := g_level g; me2_common := group_common g; me2_provenance := get_provenance s g |}) in *.
    assert (O : is_metric s out g me).
    { unfold is_metric, me. cbn [me2_name me2_instrument me2_unit me2_attributes me2_assocs me2_level me2_common me2_provenance].
      split; [exact N|]. split; [exact I|]. split; [exact U|]. split; [apply signal_uses_ok|]. split; [apply assocs_ok; exact A|].
      split; [reflexivity|]. split; [apply common_ok | apply provenance_ok]. }
    destruct (is_refinement_of g) eqn:R; injection H as <-;
      cbn [pu_groups pu_spans pu_span_refs pu_events pu_event_refs pu_metrics pu_metric_refs push_metric];
      (split; [other T|]); (split; [other T|]); (split; [other T|]); (split; [other T|]); (split; [other T|]).
    + apply refines_iff in R. split; [apply skip1; intros (_ & Q); contradiction|].
      apply take1; [exact T|]. split; cbn [fst snd]; [exact O | right; split; [exact R | apply without_fix]].
    + apply refines_not in R. split; [apply take1; [split; [exact T | exact R] | exact O]|].
      apply take1; [exact T|]. split; cbn [fst snd]; [exact O | left; split; [exact R | reflexivity]].
  - injection H as <-. repeat (split; [other T|]). other T.
  - injection H as <-. repeat (split; [other T|]). other T.
  - injection H as <-. repeat (split; [other T|]). other T.
  - injection H as <-. repeat (split; [other T|]). other T.
Qed.
Lemma signal_pass_ok gs p : signal_pass s cat local gs = Converted p ->
  one_each (fun g => g_type g = GAttributeGroup /\ g_visibility g = Some Public) (is_group s out) gs (pu_groups p) /\
  one_each (definition GSpan) (is_span s out) gs (pu_spans p) /\
  one_each (typed GSpan) (listed "span." sp2_type (is_span s out)) gs (pu_span_refs p) /\
  one_each (definition GEvent) (is_event s out) gs (pu_events p) /\
  one_each (typed GEvent) (listed "event." ev2_name (is_event s out)) gs (pu_event_refs p) /\
  one_each (definition GMetric) (is_metric s out) gs (pu_metrics p) /\
  one_each (typed GMetric) (listed "metric." me2_name (is_metric s out)) gs (pu_metric_refs p).
Proof.
  revert p. induction gs as [|g r IH]; cbn [signal_pass]; intros p H.
  - injection H as <-. cbn. repeat split; constructor.
  - destruct (convert_one s cat local g) as [p1|?|] eqn:E1; try discriminate. cbn [conv_bind] in H.
    destruct (signal_pass s cat local r) as [p2|?|] eqn:E2; try discriminate. injection H as <-.
    apply convert_one_ok in E1. destruct E1 as (A1 & A2 & A3 & A4 & A5 & A6 & A7).
    destruct (IH _ eq_refl) as (B1 & B2 & B3 & B4 & B5 & B6 & B7).
    cbn [join pu_groups pu_spans pu_span_refs pu_events pu_event_refs pu_metrics pu_metric_refs].
    change (g :: r) with (app [g] r). split; [|split; [|split; [|split; [|split; [|split]]]]]; apply one_each_app; assumption.
Qed.
Definition convertible_in (g : group) : Prop :=
  match g_type g with
  | GSpan => has_base g /\ resolvable_in g
  | GEvent => (exists n, g_name g = Some n) /\ resolvable_in g
  | GMetric => measured g /\ resolvable_in g
  | _ => True
  end.
Lemma convert_one_total g : (exists p, convert_one s cat local g = Converted p) <-> convertible_in g.
Proof.
  unfold convert_one, convertible_in. destruct (g_type g) eqn:T; try (split; [intros _; exact I | intros _; eexists; reflexivity]).
  - rewrite <- assocs_total. unfold convert_span, has_base. rewrite <- refines_iff. destruct (is_refinement_of g) eqn:R; cbn [negb].
    + split.
      * intros (p & H). destruct (extends_group g) as [b|] eqn:E; [|discriminate].
        destruct (convert_assocs s local g) as [l|?|]; try discriminate.
        split; [intros _; exists b; apply extends_iff; exact E | exists l; reflexivity].
      * intros (B & l & El). destruct (B eq_refl) as (b & Eb). apply extends_iff in Eb. rewrite Eb, El. eexists; reflexivity.
    + split.
      * intros (p & H). destruct (convert_assocs s local g) as [l|?|]; try discriminate.
        split; [discriminate | exists l; reflexivity].
      * intros (_ & l & El). rewrite El. eexists; reflexivity.
  - rewrite <- assocs_total. unfold convert_event. destruct (g_name g) as [n|].
    + split.
      * intros (p & H). destruct (convert_assocs s local g) as [l|?|]; try discriminate. split; eexists; reflexivity.
      * intros (_ & l & El). rewrite El. eexists; reflexivity.
    + split; [intros (p & H); discriminate | intros ((n & H) & _); discriminate].
  - rewrite <- assocs_total. unfold convert_metric, measured. destruct (g_metric_name g) as [n|].
    2:{ split; [intros (p & H); discriminate | intros (((x & H) & _) & _); discriminate]. }
    destruct (g_instrument g) as [i|].
    2:{ split; [intros (p & H); discriminate | intros ((_ & (x & H) & _) & _); discriminate]. }
    destruct (g_unit g) as [u|].
    2:{ split; [intros (p & H); discriminate | intros ((_ & _ & (x & H)) & _); discriminate]. }
    split.
    + intros (p & H). destruct (convert_assocs s local g) as [l|?|]; try discriminate.
      split; [split; [|split]; eexists; reflexivity | exists l; reflexivity].
    + intros (_ & l & El). rewrite El. eexists; reflexivity.
Qed.
Lemma signal_pass_total gs : (exists p, signal_pass s cat local gs = Converted p) <-> forall g, In g gs -> convertible_in g.
Proof.
  induction gs as [|g r IH]; cbn [signal_pass].
  - split; [intros _ g [] | intros _; eexists; reflexivity].
  - split.
    + intros (p & H). destruct (convert_one s cat local g) as [p1|?|] eqn:E1; try discriminate. cbn [conv_bind] in H.
      destruct (signal_pass s cat local r) as [p2|?|]; try discriminate.
      intros x [<-|Hx]; [apply convert_one_total; exists p1; exact E1 | apply (proj1 IH); [exists p2; reflexivity | exact Hx]].
    + intros H. destruct (proj2 (convert_one_total g) (H g (or_introl eq_refl))) as (p1 & ->). cbn [conv_bind].
      destruct (proj2 IH) as (p2 & ->); [intros x Hx; apply H; right; exact Hx | eexists; reflexivity].
Qed.
Lemma convert_one_panic g : convert_one s cat local g = Panicked <-> g_type g = GMetric /\ ~ measured g.
Proof.
  unfold convert_one. destruct (g_type g) eqn:T; try (split; [discriminate | intros (Q & _); discriminate]).
  - unfold convert_span. assert (N := assocs_no_panic g).
    destruct (is_refinement_of g); cbn [negb]; [destruct (extends_group g)|];
      try (destruct (convert_assocs s local g); cbn [conv_bind]; try contradiction);
      (split; [discriminate || (intros _; contradiction N; reflexivity) | intros (Q & _); discriminate]).
  - unfold convert_event. assert (N := assocs_no_panic g).
    destruct (g_name g); [destruct (convert_assocs s local g); cbn [conv_bind]|];
      (split; [discriminate || (intros _; contradiction N; reflexivity) | intros (Q & _); discriminate]).
  - unfold convert_metric, measured. assert (N := assocs_no_panic g). split.
    + intros H. split; [reflexivity|]. intros ((n & En) & (i & Ei) & (u & Eu)). rewrite En, Ei, Eu in H.
      destruct (convert_assocs s local g); cbn [conv_bind] in H; try discriminate. apply N; reflexivity.
    + intros (_ & M). destruct (g_metric_name g) as [n|]; [|reflexivity]. destruct (g_instrument g) as [i|]; [|reflexivity].
      destruct (g_unit g) as [u|]; [|reflexivity]. exfalso. apply M. split; [|split]; eexists; reflexivity.
Qed.
End Uses.

(* ---------- the attribute list of the registry ---------- *)
Lemma dedup_in l x : In x (dedup l) <-> In x l.
Proof.
  induction l as [|a r IH]; [reflexivity|]. destruct r as [|b r']; [reflexivity|].
  change (dedup (a :: b :: r')) with (if Nat.eqb a b then dedup (b :: r') else a :: dedup (b :: r')).
  destruct (Nat.eqb_spec a b) as [->|N].
  - rewrite IH. cbn. tauto.
  - cbn [In]. rewrite IH. reflexivity.
Qed.
Lemma dedup_strict l : StronglySorted (le Nat.leb) l -> StronglySorted lt (dedup l).
Proof.
  induction l as [|a r IH]; intros H; [constructor|]. inversion H as [|? ? Hr Hf]; subst.
  destruct r as [|b r']; [constructor; constructor|].
  change (dedup (a :: b :: r')) with (if Nat.eqb a b then dedup (b :: r') else a :: dedup (b :: r')).
  destruct (Nat.eqb_spec a b) as [->|N]; [apply IH; exact Hr|].
  constructor; [apply IH; exact Hr|]. rewrite Forall_forall in *. intros x Hx. apply (proj1 (dedup_in _ _)) in Hx.
  assert (L1 : a <= b) by (apply Nat.leb_le; apply Hf; left; reflexivity).
  destruct Hx as [<-|Hx]; [lia|]. inversion Hr as [|? ? _ Hb]; subst. rewrite Forall_forall in Hb.
  assert (L2 : b <= x) by (apply Nat.leb_le; apply Hb; exact Hx). lia.
Qed.
Lemma nat_sorted l : StronglySorted (le Nat.leb) (stable_sort Nat.leb l).
Proof.
  apply stable_sort_sorted.
  - intros x y. destruct (Nat.leb_spec x y); [auto|]. right. apply Nat.leb_le. lia.
  - intros x y z. rewrite !Nat.leb_le. lia.
Qed.
Lemma is_def_iff g a : is_def g a = true <-> forall l, g_lineage g = Some l -> slookup (at_name a) (gl_attributes l) = None.
Proof.
  unfold is_def, lineage_attribute. destruct (g_lineage g) as [l|].
  - destruct (slookup (at_name a) (gl_attributes l)) eqn:E; cbn [is_some negb].
    + split; [discriminate|]. intros H. specialize (H l eq_refl). congruence.
    + split; [intros _ l' El; injection El as <-; exact E | reflexivity].
  - split; [intros _ l' El; discriminate | reflexivity].
Qed.

(* ---------- the whole ---------- *)
Section Whole.
Variable hash : attribute2 -> N.
Variable order : list attribute2 -> list attribute2.
Variable name_of : string -> string.
Variable url_ok : string -> bool.
Hypothesis order_perm : forall l, Permutation l (order l).
Variable s : source1.
Let cat := v2_catalog hash order name_of s.

Lemma registry_attributes_in out i : s2_catalog out = cat ->
  In i (registry_attributes s cat) <-> exists a, defined s a /\ stands_for out a i.
Proof.
  intros Hc. unfold registry_attributes. rewrite dedup_in, stable_sort_in, in_flat_map. split.
  - intros (g & Hg & Hi). unfold group_defs in Hi. apply in_flat_map in Hi as (r & Hr & Hi).
    destruct (nth_error (so_catalog s) r) as [a|] eqn:Ea; [|destruct Hi].
    destruct (is_def g a) eqn:D; [|destruct Hi]. destruct (convert_ref cat a) as [b|] eqn:Eb; [|destruct Hi].
    destruct Hi as [<-|[]]. exists a. split.
    + exists g. split; [exact Hg|]. split; [exists r; auto | apply is_def_iff; exact D].
    + apply (ref_stands hash order name_of s out Hc). exact Eb.
  - intros (a & (g & Hg & (r & Hr & Ea) & D) & (b & Hb & Sb)). exists g. split; [exact Hg|].
    unfold group_defs. apply in_flat_map. exists r. split; [exact Hr|]. unfold attr_at in Ea. rewrite Ea.
    rewrite (proj2 (is_def_iff g a) D).
    destruct (convert_ref_total hash order name_of order_perm s a (nth_error_In _ _ Ea)) as (j & Ej). fold cat in Ej. rewrite Ej.
    left. apply convert_ref_some in Ej as (b' & Hb' & Sb'). rewrite Hc in Hb.
    exact (catalog_unique hash order name_of order_perm s a j i b' b Hb' Sb' Hb Sb).
Qed.
Lemma registry_attributes_sorted : StronglySorted lt (registry_attributes s cat).
Proof. apply dedup_strict, nat_sorted. Qed.

Lemma entity_pass_ok out es : s2_catalog out = cat -> entity_pass s cat = Converted es ->
  one_each (definition GEntity) (is_entity s out) (so_groups s) (entity_definitions es) /\
  one_each (typed GEntity) (listed "entity." en2_type (is_entity s out)) (so_groups s) (entity_refinements es).
Proof.
  intros Hc. unfold entity_pass. revert es. induction (so_groups s) as [|g r IH]; cbn [filter]; intros es H.
  - injection H as <-. cbn. split; constructor.
  - destruct (group_type_eqb (g_type g) GEntity) eqn:T.
    + apply gt_iff in T. cbn [conv_map] in H.
      destruct (convert_entity s cat g) as [e|?|] eqn:E; try discriminate. cbn [conv_bind] in H.
      match type of H with conv_bind ?m _ = _ => destruct m as [es'|?|] eqn:E2; try discriminate end.
      injection H as <-. destruct (IH _ eq_refl) as (I1 & I2).
      assert (O : is_entity s out g e) by (apply (convert_entity_ok hash order name_of s out Hc); exact E).
      unfold entity_definitions, entity_refinements. cbn [filter map fst snd].
      destruct (is_refinement_of g) eqn:R; cbn [negb map].
      * apply refines_iff in R. split; [apply oe_skip; [intros (_ & Q); contradiction | exact I1]|].
        apply oe_take; [exact T | | exact I2]. split; cbn [fst snd]; [exact O | right; split; [exact R | apply without_fix]].
      * apply refines_not in R. split; [apply oe_take; [split; [exact T | exact R] | exact O | exact I1]|].
        apply oe_take; [exact T | | exact I2]. split; cbn [fst snd]; [exact O | left; split; [exact R | reflexivity]].
    + assert (N : g_type g <> GEntity) by (intros Q; apply gt_iff in Q; congruence).
      destruct (IH _ H) as (I1 & I2). split; (apply oe_skip; [|assumption]); [intros (Q & _); contradiction | intros Q; contradiction].
Qed.
Lemma last_split {X} (l : list (string * X)) name : In name (map fst l) ->
  exists l1 e l2, l = app l1 ((name, e) :: l2) /\ ~ In name (map fst l2).
Proof.
  induction l as [|[k e] r IH]; intros H; [destruct H|]. destruct (in_dec String.string_dec name (map fst r)) as [I|N].
  - destruct (IH I) as (l1 & e' & l2 & -> & Ni). exists ((k, e) :: l1), e', l2. split; [reflexivity | exact Ni].
  - destruct H as [<-|H]; [|contradiction]. exists [], e, r. split; [reflexivity | exact N].
Qed.
Lemma holds_entity out es : s2_catalog out = cat -> f2_entities (s2_refinements out) = entity_refinements es ->
  entity_pass s cat = Converted es -> forall name,
  (exists src, holds out name src) <-> exists h, In h (so_groups s) /\ g_type h = GEntity /\ entity_id h name.
Proof.
  intros Hc Hf He name. destruct (entity_pass_ok out es Hc He) as (_ & L). rewrite <- Hf in L. split.
  - intros (src & l1 & e & l2 & E & _).
    assert (I : In (name, e) (f2_entities (s2_refinements out))) by (rewrite E; apply in_or_app; right; left; reflexivity).
    destruct (one_each_in _ _ _ _ _ L I) as (h & Hh & T & (O & D)). cbn [fst snd] in D. exists h. split; [exact Hh|]. split; [exact T|].
    destruct D as [(R & ->)|(R & W)]; [right | left; split; assumption]. split; [exact R|].
    destruct O as ([(_ & N)|(R' & _)] & _); [exact N | contradiction].
  - intros (h & Hh & T & D). destruct (one_each_has _ _ _ _ h L Hh T) as ((k & e) & Hk & (O & Q)). cbn [fst snd] in Q.
    assert (k = name).
    { destruct D as [(R & W)|(R & W)], Q as [(R' & Q)|(R' & Q)]; try contradiction.
      - exact (without_fun _ _ _ _ Q W).
      - destruct O as ([(_ & N)|(R'' & _)] & _); [|contradiction]. cbn [snd] in *. subst k. exact (entity_name_fun _ _ _ N W). }
    subst k. destruct (last_split (f2_entities (s2_refinements out)) name) as (l1 & e' & l2 & E & Ni).
    { apply in_map_iff. exists (name, e). auto. }
    exists (p2_source (en2_provenance e')), l1, e', l2. auto.
Qed.
Lemma convertible_iff out es : s2_catalog out = cat -> f2_entities (s2_refinements out) = entity_refinements es ->
  entity_pass s cat = Converted es -> forall g,
  convertible s g <-> convertible_in s out g /\
    (g_type g = GEntity -> has_base g /\ forall i, In i (g_attributes g) -> exists a, attr_at s i a).
Proof.
  intros Hc Hf He g. assert (H := holds_entity out es Hc Hf He).
  assert (RR : resolvable s g <-> resolvable_in s out g).
  { unfold resolvable, resolvable_in. split; intros K c name Hin Hl; destruct (K c name Hin Hl) as [Q|Q]; auto; right; apply H; exact Q. }
  unfold convertible, convertible_in. destruct (g_type g); try rewrite RR; intuition discriminate.
Qed.
Lemma entity_pass_total : (exists es, entity_pass s cat = Converted es) <->
  forall g, In g (so_groups s) -> g_type g = GEntity -> has_base g /\ forall i, In i (g_attributes g) -> exists a, attr_at s i a.
Proof.
  unfold entity_pass. rewrite conv_map_total.
  set (d := {| s2_url := ""; s2_catalog := cat; s2_dependencies := [];
     s2_registry := {| r2_attributes := []; r2_attribute_groups := []; r2_spans := []; r2_metrics := []; r2_events := []; r2_entities := [] |};
     s2_refinements := {| f2_spans := []; f2_metrics := []; f2_events := []; f2_entities := [] |} |}).
  assert (C := convert_entity_total hash order name_of order_perm s d eq_refl). fold cat in C. split.
  - intros H g Hg T. apply C. destruct (H g) as (p & Ep).
    + apply filter_In. split; [exact Hg | apply gt_iff; exact T].
    + destruct (convert_entity s cat g) as [e|?|]; try discriminate. exists e; reflexivity.
  - intros H g Hg. apply filter_In in Hg as (Hg & T). apply gt_iff in T.
    destruct (proj2 (C g) (H g Hg T)) as (e & ->). eexists; reflexivity.
Qed.

(* what a successful conversion is made of *)
Lemma convert_parts out : convert hash order name_of url_ok s = Converted out ->
  exists es p, s2_catalog out = cat /\ f2_entities (s2_refinements out) = entity_refinements es /\
    entity_pass s cat = Converted es /\
    signal_pass s cat (local_entities (f2_entities (s2_refinements out))) (so_groups s) = Converted p /\
    url_ok (so_url s) = true /\ s2_url out = so_url s /\ s2_dependencies out = so_deps s /\
    r2_attributes (s2_registry out) = registry_attributes s cat /\
    r2_attribute_groups (s2_registry out) = pu_groups p /\ r2_spans (s2_registry out) = pu_spans p /\
    r2_metrics (s2_registry out) = pu_metrics p /\ r2_events (s2_registry out) = pu_events p /\
    r2_entities (s2_registry out) = entity_definitions es /\
    f2_spans (s2_refinements out) = pu_span_refs p /\ f2_metrics (s2_refinements out) = pu_metric_refs p /\
    f2_events (s2_refinements out) = pu_event_refs p.
Proof.
  unfold convert. fold cat. destruct (entity_pass s cat) as [es|?|] eqn:E1; try discriminate. cbn [conv_bind].
  destruct (signal_pass s cat (local_entities (entity_refinements es)) (so_groups s)) as [p|?|] eqn:E2; try discriminate.
  cbn [conv_bind]. destruct (url_ok (so_url s)) eqn:U; [|discriminate]. intros H; injection H as <-.
  exists es, p. cbn. repeat (split; [first [reflexivity | assumption]|]). reflexivity.
Qed.
Lemma convert_total : (exists out, convert hash order name_of url_ok s = Converted out) <->
  url_ok (so_url s) = true /\ forall g, In g (so_groups s) -> convertible s g.
Proof.
  split.
  - intros (out & H). destruct (convert_parts out H) as (es & p & Hc & Hf & He & Hs & U & _). split; [exact U|].
    intros g Hg. apply (convertible_iff out es Hc Hf He). split.
    + apply (proj1 (signal_pass_total hash order name_of s out (so_groups s))); [exists p; exact Hs | exact Hg].
    + intros T. apply (proj1 entity_pass_total); [exists es; exact He | exact Hg | exact T].
  - intros (U & H). assert (Ent : exists es, entity_pass s cat = Converted es).
    { apply entity_pass_total. intros g Hg T. specialize (H g Hg). unfold convertible in H. rewrite T in H. exact H. }
    destruct Ent as (es & He).
    set (d := {| s2_url := ""; s2_catalog := cat; s2_dependencies := [];
       s2_registry := {| r2_attributes := []; r2_attribute_groups := []; r2_spans := []; r2_metrics := []; r2_events := []; r2_entities := [] |};
       s2_refinements := {| f2_spans := []; f2_metrics := []; f2_events := []; f2_entities := entity_refinements es |} |}).
    destruct (proj2 (signal_pass_total hash order name_of s d (so_groups s))) as (p & Hp).
    { intros g Hg. apply (convertible_iff d es eq_refl eq_refl He). apply H. exact Hg. }
    unfold convert. fold cat. rewrite He. cbn [conv_bind]. fold cat in Hp. cbn [f2_entities s2_refinements d] in Hp. rewrite Hp. cbn [conv_bind].
    rewrite U. eexists; reflexivity.
Qed.
Lemma convert_panic : convert hash order name_of url_ok s = Panicked <->
  (forall g, In g (so_groups s) -> g_type g = GEntity -> convertible s g) /\
  exists l1 g l2, so_groups s = app l1 (g :: l2) /\ (forall h, In h l1 -> convertible s h) /\ g_type g = GMetric /\ ~ measured g.
Proof.
  assert (EP : entity_pass s cat <> Panicked).
  { apply conv_map_panic. intros g. assert (N := convert_entity_no_panic hash order name_of s g). fold cat in N.
    destruct (convert_entity s cat g); cbn [conv_bind]; try discriminate. congruence. }
  assert (EN : (exists es, entity_pass s cat = Converted es) <-> forall g, In g (so_groups s) -> g_type g = GEntity -> convertible s g).
  { rewrite entity_pass_total. split; intros H g Hg T; specialize (H g Hg T); unfold convertible in *; rewrite T in *; exact H. }
  unfold convert. fold cat. destruct (entity_pass s cat) as [es|?|] eqn:He; cbn [conv_bind].
  - set (d := {| s2_url := ""; s2_catalog := cat; s2_dependencies := [];
       s2_registry := {| r2_attributes := []; r2_attribute_groups := []; r2_spans := []; r2_metrics := []; r2_events := []; r2_entities := [] |};
       s2_refinements := {| f2_spans := []; f2_metrics := []; f2_events := []; f2_entities := entity_refinements es |} |}).
    assert (Ent : forall g, In g (so_groups s) -> g_type g = GEntity -> convertible s g) by (apply EN; exists es; reflexivity).
    change (local_entities (entity_refinements es)) with (local_entities (f2_entities (s2_refinements d))).
    assert (CI := convertible_iff d es eq_refl eq_refl He).
    assert (Q : forall gs, (forall g, In g gs -> In g (so_groups s)) ->
      signal_pass s cat (local_entities (f2_entities (s2_refinements d))) gs = Panicked <->
      exists l1 g l2, gs = app l1 (g :: l2) /\ (forall h, In h l1 -> convertible s h) /\ g_type g = GMetric /\ ~ measured g).
    { induction gs as [|g r IH]; intros Sub; cbn [signal_pass].
      - split; [discriminate|]. intros (l1 & g & l2 & E & _). destruct l1; discriminate.
      - assert (P1 := convert_one_panic hash order name_of s d g). fold cat in P1.
        assert (T1 := convert_one_total hash order name_of s d g). fold cat in T1.
        assert (IH' := IH (fun x Hx => Sub x (or_intror Hx))). clear IH.
        destruct (convert_one s cat (local_entities (f2_entities (s2_refinements d))) g) as [p|e|]; cbn [conv_bind].
        + assert (Cg : convertible s g).
          { apply CI. split; [apply T1; exists p; reflexivity|]. intros T. specialize (Ent g (Sub g (or_introl eq_refl)) T).
            unfold convertible in Ent. rewrite T in Ent. exact Ent. }
          destruct (signal_pass s cat (local_entities (f2_entities (s2_refinements d))) r) as [q|e|]; cbn [conv_bind].
          * split; [discriminate|]. intros (l1 & x & l2 & E & A & T & M). exfalso. destruct l1 as [|y l1]; cbn in E; injection E as <- E.
            -- assert (F := proj2 P1 (conj T M)). discriminate.
            -- assert (F : Converted q = Panicked); [|discriminate]. apply IH'. exists l1, x, l2. split; [exact E|]. split; [|auto].
               intros h Hh. apply A. right; exact Hh.
          * split; [discriminate|]. intros (l1 & x & l2 & E & A & T & M). exfalso. destruct l1 as [|y l1]; cbn in E; injection E as <- E.
            -- assert (F := proj2 P1 (conj T M)). discriminate.
            -- assert (F : Failed e = Panicked (A := pushed)); [|discriminate]. apply IH'. exists l1, x, l2. split; [exact E|]. split; [|auto].
               intros h Hh. apply A. right; exact Hh.
          * split; [intros _|reflexivity]. destruct (proj1 IH' eq_refl) as (l1 & x & l2 & -> & A & R).
            exists (g :: l1), x, l2. split; [reflexivity|]. split; [|exact R]. intros h [<-|Hh]; [exact Cg | exact (A h Hh)].
        + split; [discriminate|]. intros (l1 & x & l2 & E & A & T & M). exfalso. destruct l1 as [|y l1]; cbn in E; injection E as <- E.
          * assert (F := proj2 P1 (conj T M)). discriminate.
          * assert (Cg := A g (or_introl eq_refl)). apply CI in Cg as (Cg & _). apply T1 in Cg as (p & Ep). discriminate.
        + destruct (proj1 P1 eq_refl) as (T & M). split; [intros _|reflexivity]. exists [], g, r. split; [reflexivity|]. split; [intros h []|]. auto. }
    specialize (Q (so_groups s) (fun g Hg => Hg)). fold cat in Q.
    destruct (signal_pass s cat (local_entities (f2_entities (s2_refinements d))) (so_groups s)) as [p|e|]; cbn [conv_bind].
    + split; [destruct (url_ok (so_url s)); discriminate|]. intros (_ & H). apply Q in H. discriminate.
    + split; [discriminate|]. intros (_ & H). apply Q in H. discriminate.
    + split; [intros _|reflexivity]. split; [exact Ent | apply Q; reflexivity].
  - split; [discriminate|]. intros (H & _). apply EN in H as (es & H). discriminate.
  - exfalso. apply EP. reflexivity.
Qed.
End Whole.

(* ---------- why a conversion fails ---------- *)
Lemma conv_map_failed {A B} (f : A -> conv B) l e : conv_map f l = Failed e -> exists a, In a l /\ f a = Failed e.
Proof.
  induction l as [|a r IH]; cbn [conv_map]; [discriminate|].
  destruct (f a) as [b|x|] eqn:E; cbn [conv_bind]; try discriminate.
  - destruct (conv_map f r) as [m|x|]; cbn [conv_bind]; try discriminate. intros H; injection H as <-.
    destruct (IH eq_refl) as (c & Hc & Ec). exists c. split; [right; exact Hc | exact Ec].
  - intros H; injection H as <-. exists a. split; [left; reflexivity | exact E].
Qed.
Section Reason.
Variable hash : attribute2 -> N.
Variable order : list attribute2 -> list attribute2.
Variable name_of : string -> string.
Variable url_ok : string -> bool.
Hypothesis order_perm : forall l, Permutation l (order l).
Variable s : source1.
Let cat := v2_catalog hash order name_of s.

Lemma entity_reason g e : g_type g = GEntity -> convert_entity s cat g = Failed e -> offends s g e.
Proof.
  intros T. unfold convert_entity. destruct (conv_map (convert_attribute_ref s cat (g_id g)) (g_attributes g)) as [l|x|] eqn:E; cbn [conv_bind]; try discriminate.
  - unfold entity_type. destruct (is_refinement_of g) eqn:R; cbn [conv_bind]; [|discriminate].
    destruct (extends_group g) as [b|] eqn:X; cbn [conv_bind]; [discriminate|]. intros H; injection H as <-.
    right; left. split; [reflexivity|]. split; [auto|]. split; [apply refines_iff; exact R|].
    intros b Hb. apply extends_iff in Hb. congruence.
  - intros H; injection H as <-. apply conv_map_failed in E as (i & Hi & E). left. exists i.
    unfold convert_attribute_ref in E. destruct (nth_error (so_catalog s) i) as [a|] eqn:Ea.
    + destruct (convert_ref_total hash order name_of order_perm s a (nth_error_In _ _ Ea)) as (j & Ej). fold cat in Ej. rewrite Ej in E. discriminate.
    + injection E as <-. split; [reflexivity|]. split; [exact T|]. split; [exact Hi|]. intros a Ha. unfold attr_at in Ha. congruence.
Qed.
Variable out : schema2.
Variable es : list (group * entity2).
Hypothesis out_cat : s2_catalog out = cat.
Hypothesis out_es : f2_entities (s2_refinements out) = entity_refinements es.
Hypothesis es_ok : entity_pass s cat = Converted es.
Let local := local_entities (f2_entities (s2_refinements out)).
Lemma assoc_reason gid a e : convert_assoc s local gid a = Failed e ->
  exists name, e = CAssociation gid name /\ leaf name a /\ (forall u, ~ origin s gid name u) /\
    forall h, In h (so_groups s) -> g_type h = GEntity -> ~ entity_id h name.
Proof.
  revert e. induction a as [n|l IH|l IH] using assoc_ind2; intros e; unfold local; rewrite convert_assoc_eq; fold local.
  - assert (RT := resolve_total s out gid n). fold local in RT.
    destruct (resolve_entity s local gid n) as [r|]; [discriminate|]. intros H; injection H as <-. exists n.
    split; [reflexivity|]. split; [constructor|]. split.
    + intros u Hu. destruct (proj2 RT (or_introl (ex_intro _ u Hu))) as (r & Er). discriminate.
    + intros h Hh T Hi. assert (HH := proj2 (holds_entity hash order name_of s out es out_cat out_es es_ok n) (ex_intro _ h (conj Hh (conj T Hi)))).
      destruct (proj2 RT (or_intror HH)) as (r & Er). discriminate.
  - destruct (conv_map (convert_assoc s local gid) l) as [m|x|] eqn:E; cbn [conv_bind]; try discriminate. intros H; injection H as <-.
    apply conv_map_failed in E as (c & Hc & Ec). rewrite Forall_forall in IH. destruct (IH c Hc _ Ec) as (n & -> & L & Q).
    exists n. split; [reflexivity|]. split; [exact (lf_one n c l Hc L) | exact Q].
  - destruct (conv_map (convert_assoc s local gid) l) as [m|x|] eqn:E; cbn [conv_bind]; try discriminate. intros H; injection H as <-.
    apply conv_map_failed in E as (c & Hc & Ec). rewrite Forall_forall in IH. destruct (IH c Hc _ Ec) as (n & -> & L & Q).
    exists n. split; [reflexivity|]. split; [exact (lf_all n c l Hc L) | exact Q].
Qed.
Lemma assocs_reason g e : (g_type g = GSpan \/ g_type g = GEvent \/ g_type g = GMetric) ->
  convert_assocs s local g = Failed e -> offends s g e.
Proof.
  intros T H. unfold convert_assocs in H. apply conv_map_failed in H as (c & Hc & Ec). apply assoc_reason in Ec as (n & -> & L & O & N).
  right; right; right. exists c, n. auto 10.
Qed.
Lemma one_reason g e : convert_one s cat local g = Failed e -> offends s g e.
Proof.
  unfold convert_one. destruct (g_type g) eqn:T; try discriminate.
  - unfold convert_span. destruct (is_refinement_of g) eqn:R; cbn [negb].
    + destruct (extends_group g) as [b|] eqn:X.
      * destruct (convert_assocs s local g) as [l|x|] eqn:A; cbn [conv_bind]; try discriminate. intros H; injection H as <-.
        apply assocs_reason; [auto | exact A].
      * intros H; injection H as <-. right; left. split; [reflexivity|]. split; [auto|]. split; [apply refines_iff; exact R|].
        intros b Hb. apply extends_iff in Hb. congruence.
    + destruct (convert_assocs s local g) as [l|x|] eqn:A; cbn [conv_bind]; try discriminate. intros H; injection H as <-.
      apply assocs_reason; [auto | exact A].
  - unfold convert_event. destruct (g_name g) as [n|] eqn:N.
    + destruct (convert_assocs s local g) as [l|x|] eqn:A; cbn [conv_bind]; try discriminate. intros H; injection H as <-.
      apply assocs_reason; [auto | exact A].
    + intros H; injection H as <-. right; right; left. auto.
  - unfold convert_metric. destruct (g_metric_name g); [|discriminate]. destruct (g_instrument g); [|discriminate]. destruct (g_unit g); [|discriminate].
    destruct (convert_assocs s local g) as [l|x|] eqn:A; cbn [conv_bind]; try discriminate. intros H; injection H as <-.
    apply assocs_reason; [auto | exact A].
Qed.
Lemma signals_reason gs e : signal_pass s cat local gs = Failed e -> exists g, In g gs /\ offends s g e.
Proof.
  induction gs as [|g r IH]; cbn [signal_pass]; [discriminate|].
  destruct (convert_one s cat local g) as [p|x|] eqn:E; cbn [conv_bind]; try discriminate.
  - destruct (signal_pass s cat local r) as [q|x|]; cbn [conv_bind]; try discriminate. intros H; injection H as <-.
    destruct (IH eq_refl) as (h & Hh & O). exists h. split; [right; exact Hh | exact O].
  - intros H; injection H as <-. exists g. split; [left; reflexivity | apply one_reason; exact E].
Qed.
End Reason.

Lemma convert_reason hash order name_of url_ok s e : (forall l, Permutation l (order l)) ->
  convert hash order name_of url_ok s = Failed e ->
  (exists g, In g (so_groups s) /\ offends s g e) \/
  ((forall g, In g (so_groups s) -> convertible s g) /\ e = CInvalidUrl (so_url s) /\ url_ok (so_url s) = false).
Proof.
  intros OP. unfold convert. set (cat := v2_catalog hash order name_of s).
  destruct (entity_pass s cat) as [es|x|] eqn:E1; cbn [conv_bind]; try discriminate.
  - set (d := {| s2_url := ""; s2_catalog := cat; s2_dependencies := [];
       s2_registry := {| r2_attributes := []; r2_attribute_groups := []; r2_spans := []; r2_metrics := []; r2_events := []; r2_entities := [] |};
       s2_refinements := {| f2_spans := []; f2_metrics := []; f2_events := []; f2_entities := entity_refinements es |} |}).
    change (local_entities (entity_refinements es)) with (local_entities (f2_entities (s2_refinements d))).
    destruct (signal_pass s cat (local_entities (f2_entities (s2_refinements d))) (so_groups s)) as [p|x|] eqn:E2; cbn [conv_bind]; try discriminate.
    + destruct (url_ok (so_url s)) eqn:U; [discriminate|]. intros H; injection H as <-. right. split; [|auto].
      apply (convert_total hash order name_of (fun _ => true) OP s). unfold convert. fold cat. rewrite E1. cbn [conv_bind].
      cbn [d f2_entities s2_refinements] in E2. rewrite E2. cbn [conv_bind]. eexists; reflexivity.
    + intros H; injection H as <-. left.
      exact (signals_reason hash order name_of s d es eq_refl eq_refl E1 (so_groups s) x E2).
  - intros H; injection H as <-. left. unfold entity_pass in E1. apply conv_map_failed in E1 as (g & Hg & E).
    apply filter_In in Hg as (Hg & T). apply gt_iff in T.
    destruct (convert_entity s cat g) as [y|y|] eqn:E2; try discriminate. cbn [conv_bind] in E. injection E as <-.
    exists g. split; [exact Hg|]. exact (entity_reason hash order name_of OP s g y T E2).
Qed.

(* ---------- references ---------- *)
Lemma shape_weaken {A B} (R R' : A -> B -> Prop) : (forall a b, R a b -> R' a b) -> forall x y, same_shape R x y -> same_shape R' x y.
Proof.
  intros W. induction x as [n|l IH|l IH] using assoc_ind2; intros y H; inversion H as [a b Rab|l' m F|l' m F]; subst.
  - constructor. apply W. exact Rab.
  - constructor. clear H. induction F as [|a b l' m' Hab F IH2]; [constructor|]. inversion IH; subst. constructor; auto.
  - constructor. clear H. induction F as [|a b l' m' Hab F IH2]; [constructor|]. inversion IH; subst. constructor; auto.
Qed.
Lemma refers_points s out gid name r : refers s out gid name r -> points s out gid name r.
Proof.
  unfold refers, points. intros [(N & (T & S0 & P) & H)|(u & src & O & D & Q)].
  - split; [exact T|]. split; [intros u Hu; destruct (N u Hu)|]. auto.
  - assert (T : er_type r = name) by (destruct Q as [(_ & (T & _))|(_ & T & _)]; exact T). split; [exact T|]. split.
    + intros u' (m & Em & Eu) Hu'. destruct O as (m' & Em' & Eu'). assert (u' = u) by congruence. subst u'.
      unfold denotes. destruct src as [i|]; [|destruct (D u Hu' eq_refl)].
      destruct D as (v & Hv & <- & _). destruct Q as [(H & (_ & S0 & _))|(_ & _ & S0 & _)]; rewrite S0.
      * exists (Some i). rewrite T. split; [exact H | exact Hv].
      * exact Hv.
    + intros N. destruct (N u O).
Qed.
