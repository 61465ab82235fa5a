(* C36: an identifier used twice is reported. *)
From Coq Require Import String Ascii Bool Arith NArith Lia Permutation Sorted List.
Import ListNotations.
From Verif Require Import Base BaseProofs BaseProofs2 Json SemTypes Resolved Semver DefModel DefSpec ResolveModel ResolveSpec ResolveProofs RefProofs
  ExtProofs ImportModel ImportSpec ImportProofs AssocProofs UniqueSpec.
Local Open Scope string_scope.

(* ---- counting ---- *)
Lemma twice_count {A} (P : A -> Prop) (p : A -> bool) (Hp : forall x, p x = true <-> P x) l :
  twice P l <-> 2 <= length (filter p l).
Proof.
  split.
  - intros (l1 & a & l2 & b & l3 & -> & Ha & Hb). apply Hp in Ha, Hb. rewrite filter_app. cbn [filter]. rewrite Ha, filter_app. cbn [filter]. rewrite Hb.
    rewrite !app_length. cbn [length]. rewrite app_length. cbn [length]. lia.
  - assert (One : forall l, 1 <= length (filter p l) -> exists l1 a l2, l = app l1 (a :: l2) /\ P a).
    { clear l. induction l as [|x l IH]; cbn [filter]; [cbn; lia|]. destruct (p x) eqn:X; intros H.
      - exists [], x, l. split; [reflexivity|apply Hp; exact X].
      - destruct (IH H) as (l1 & a & l2 & -> & Ha). exists (x :: l1), a, l2. auto. }
    induction l as [|x l IH]; cbn [filter]; [cbn; lia|]. destruct (p x) eqn:X; cbn [length]; intros H.
    + destruct (One l) as (l1 & a & l2 & -> & Ha); [lia|]. exists [], x, l1, a, l2. split; [reflexivity|]. split; [apply Hp; exact X|exact Ha].
    + destruct (IH H) as (l1 & a & l2 & b & l3 & -> & Ha & Hb). exists (x :: l1), a, l2, b, l3. auto.
Qed.
Lemma filter_perm {A} (p : A -> bool) l l' : Permutation l l' -> Permutation (filter p l) (filter p l').
Proof.
  induction 1 as [|x l l' _ IH|x y l|l l1 l2 _ IH1 _ IH2]; cbn [filter]; [constructor| | |eapply Permutation_trans; eassumption].
  - destruct (p x); [constructor|]; exact IH.
  - destruct (p x), (p y); try apply perm_swap; reflexivity.
Qed.
Lemma twice_perm {A} (P : A -> Prop) l l' : (forall x, {P x} + {~ P x}) -> Permutation l l' -> twice P l -> twice P l'.
Proof.
  intros D H. set (p := fun x => if D x then true else false).
  assert (Hp : forall x, p x = true <-> P x) by (intros x; unfold p; destruct (D x); split; auto; discriminate).
  rewrite !(twice_count P p Hp). rewrite (Permutation_length (filter_perm p _ _ H)). auto.
Qed.
Lemma twice_filter {A} (P : A -> Prop) (q : A -> bool) l : twice (fun x => P x /\ q x = true) l -> twice P (filter q l).
Proof.
  intros (l1 & a & l2 & b & l3 & -> & (Ha & Qa) & Hb & Qb). rewrite filter_app. cbn [filter]. rewrite Qa, filter_app. cbn [filter]. rewrite Qb.
  exists (filter q l1), a, (filter q l2), b, (filter q l3). auto.
Qed.
Lemma forall2_split {A B} (R : A -> B -> Prop) l1 a l2 m : Forall2 R (app l1 (a :: l2)) m ->
  exists m1 b m2, m = app m1 (b :: m2) /\ R a b /\ Forall2 R l2 m2.
Proof.
  revert m. induction l1 as [|x l1 IH]; intros m H; cbn [app] in H; inversion H as [|? y ? m' Hy Hm]; subst.
  - exists [], y, m'. auto.
  - destruct (IH _ Hm) as (m1 & b & m2 & -> & Hb & H2). exists (y :: m1), b, m2. auto.
Qed.
Lemma twice_forall2 {A B} (R : A -> B -> Prop) (P : A -> Prop) (Q : B -> Prop) l m :
  Forall2 R l m -> (forall x y, R x y -> P x -> Q y) -> twice P l -> twice Q m.
Proof.
  intros H HR (l1 & a & l2 & b & l3 & -> & Ha & Hb). destruct (forall2_split _ _ _ _ _ H) as (m1 & y & m2 & -> & Ry & H2).
  destruct (forall2_split _ _ _ _ _ H2) as (m3 & z & m4 & -> & Rz & _). exists m1, y, m3, z, m4. split; [reflexivity|]. split; eapply HR; eassumption.
Qed.
Lemma twice_app_l {A} (P : A -> Prop) l m : twice P l -> twice P (app l m).
Proof.
  intros (l1 & a & l2 & b & l3 & -> & Ha & Hb). exists l1, a, l2, b, (app l3 m). split; [|auto].
  rewrite <- app_assoc. cbn [app]. rewrite <- app_assoc. reflexivity.
Qed.
Lemma twice_impl {A} (P Q : A -> Prop) l : (forall x, P x -> Q x) -> twice P l -> twice Q l.
Proof. intros H (l1 & a & l2 & b & l3 & E & Ha & Hb). exists l1, a, l2, b, l3. auto. Qed.

(* ---- the counting checks ---- *)
Definition has_key (key : group -> option string) (k : string) (g : group) : bool :=
  match key g with Some k' => String.eqb k' k | None => false end && is_some (g_lineage g).
Lemma located_iff g : is_some (g_lineage g) = true <-> located g.
Proof. unfold located. destruct (g_lineage g); cbn; split; intros; congruence. Qed.
Lemma has_key_iff key k g : has_key key k g = true <-> key g = Some k /\ located g.
Proof.
  unfold has_key. rewrite andb_true_iff, located_iff. destruct (key g) as [k'|].
  - rewrite String.eqb_eq. split; intros [A B]; (split; [congruence|exact B]).
  - split; intros [A _]; discriminate.
Qed.
Lemma count_keys_ok key gs k : NoDup (map fst (count_keys key gs)) /\
  match slookup k (count_keys key gs) with
  | Some n => n = length (filter (has_key key k) gs)
  | None => filter (has_key key k) gs = []
  end.
Proof.
  unfold count_keys. induction gs as [|g gs IH] using rev_ind; cbn [fold_left]; [split; [constructor|reflexivity]|].
  rewrite fold_left_app. cbn [fold_left]. set (m := fold_left _ gs []) in *. destruct IH as [Nd IH]. rewrite filter_app. cbn [filter].
  destruct (key g) as [k'|] eqn:K.
  - split; [apply (insert_nodup _ string_eqb_spec); exact Nd|]. rewrite slookup_sinsert.
    assert (Hk : has_key key k g = String.eqb k' k && is_some (g_lineage g)) by (unfold has_key; rewrite K; reflexivity).
    rewrite Hk, (String.eqb_sym k'). destruct (String.eqb k k') eqn:Q; cbn [andb].
    + apply String.eqb_eq in Q. subst k'. rewrite app_length. destruct (slookup k m) as [n|]; cbn [opt_get].
      * rewrite IH. destruct (is_some (g_lineage g)); reflexivity.
      * rewrite IH. destruct (is_some (g_lineage g)); reflexivity.
    + rewrite app_nil_r. exact IH.
  - split; [exact Nd|]. assert (Hk : has_key key k g = false) by (unfold has_key; rewrite K; reflexivity).
    rewrite Hk, app_nil_r. exact IH.
Qed.
Lemma uniqueness_iff key mk order gs k : (forall a b, mk a = mk b -> a = b) -> (forall l, Permutation (order l) l) ->
  (In (mk k) (check_uniqueness key mk order gs) <-> twice (fun g => key g = Some k /\ located g) gs).
Proof.
  intros Inj P. rewrite (twice_count _ _ (has_key_iff key k)). unfold check_uniqueness. rewrite in_map_iff.
  destruct (count_keys_ok key gs k) as [Nd C]. split.
  - intros ((k' & n) & E & H). cbn [fst] in E. apply Inj in E. subst k'. apply filter_In in H. destruct H as [H L]. cbn [snd] in L.
    apply (Permutation_in _ (P _)) in H. apply (proj2 (slookup_in _ _ _ Nd)) in H. rewrite H in C. apply Nat.ltb_lt in L. lia.
  - intros L. destruct (slookup k (count_keys key gs)) as [n|] eqn:S'; [|rewrite C in L; cbn in L; lia].
    exists (k, n). split; [reflexivity|]. apply filter_In. split.
    + apply (Permutation_in _ (Permutation_sym (P _))). apply slookup_in; [exact Nd|exact S'].
    + apply Nat.ltb_lt. cbn [snd]. lia.
Qed.
Lemma uniqueness_other key mk order gs err : (forall k, err <> mk k) -> ~ In err (check_uniqueness key mk order gs).
Proof. intros H X. unfold check_uniqueness in X. apply in_map_iff in X. destruct X as (kv & E & _). exact (H _ (eq_sym E)). Qed.

(* ---- attributes defined by several groups ---- *)
Lemma group_entries_ok es k : NoDup (map fst (group_entries es)) /\
  match slookup k (group_entries es) with
  | Some l => l = map snd (filter (fun kv => String.eqb k (fst kv)) es)
  | None => filter (fun kv => String.eqb k (fst kv)) es = []
  end.
Proof.
  unfold group_entries. induction es as [|[a v] es IH] using rev_ind; cbn [fold_left]; [split; [constructor|reflexivity]|].
  rewrite fold_left_app. cbn [fold_left fst snd]. set (m := fold_left _ es []) in *. destruct IH as [Nd IH]. rewrite filter_app. cbn [filter fst].
  split; [apply (insert_nodup _ string_eqb_spec); exact Nd|]. rewrite slookup_sinsert. destruct (String.eqb k a) eqn:Q.
  - apply String.eqb_eq in Q. subst a. rewrite map_app. cbn [map snd]. destruct (slookup k m) as [l|]; cbn [opt_get]; rewrite IH; reflexivity.
  - rewrite app_nil_r. exact IH.
Qed.
Lemma gl_has_iff l n : gl_has l n = existsb (String.eqb n) (map fst (gl_attributes l)).
Proof.
  unfold gl_has. destruct (slookup n (gl_attributes l)) as [v|] eqn:E; cbn [is_some].
  - symmetry. apply existsb_exists. exists n. split; [|apply String.eqb_refl]. destruct (in_dec String.string_dec n (map fst (gl_attributes l))) as [H|H]; [exact H|].
    apply slookup_none in H. congruence.
  - destruct (existsb (String.eqb n) (map fst (gl_attributes l))) eqn:X; [|reflexivity]. apply existsb_exists in X. destruct X as (y & Hy & Q).
    apply String.eqb_eq in Q. subst y. apply slookup_none in E. contradiction.
Qed.
Lemma root_entries_iff names gs : root_entries names gs = flat_map (fun g => map (fun n => (n, g_id g)) (own_roots names g)) gs.
Proof.
  unfold root_entries. induction gs as [|g gs IH]; [reflexivity|]. cbn [flat_map]. rewrite IH. f_equal. unfold own_roots.
  destruct (g_type g); try reflexivity. change (group_type_eqb GAttributeGroup GAttributeGroup) with true. cbv iota.
  destruct (g_lineage g) as [l|]; [|reflexivity]. induction (g_attributes g) as [|r rs IHr]; [reflexivity|]. cbn [flat_map].
  rewrite filter_app, map_app, <- IHr. f_equal. destruct (nth_error names r) as [n|]; [|reflexivity]. cbn [filter]. rewrite gl_has_iff.
  destruct (existsb (String.eqb n) (map fst (gl_attributes l))); reflexivity.
Qed.
Lemma entries_of names gs k :
  map snd (filter (fun kv => String.eqb k (fst kv)) (root_entries names gs)) =
  flat_map (fun g => map (fun _ => g_id g) (filter (String.eqb k) (own_roots names g))) gs.
Proof.
  rewrite root_entries_iff. induction gs as [|g gs IH]; [reflexivity|]. cbn [flat_map]. rewrite filter_app, map_app, IH. f_equal.
  induction (own_roots names g) as [|n l IHl]; [reflexivity|]. cbn [map filter fst]. destruct (String.eqb k n); cbn [map snd]; rewrite IHl; reflexivity.
Qed.
Lemma root_attrs_iff names order gs ids k : (forall l, Permutation (order l) l) ->
  (In (XDuplicateAttr ids k) (check_root_attrs names order gs) <->
   ids = flat_map (fun g => map (fun _ => g_id g) (filter (String.eqb k) (own_roots names g))) gs /\ 2 <= length ids).
Proof.
  intros P. unfold check_root_attrs. rewrite in_map_iff. destruct (group_entries_ok (root_entries names gs) k) as [Nd C]. split.
  - intros ((k' & l) & E & H). cbn [fst snd] in E. injection E as -> ->. apply filter_In in H. destruct H as [H L]. cbn [snd] in L.
    apply (Permutation_in _ (P _)) in H. apply (proj2 (slookup_in _ _ _ Nd)) in H. rewrite H in C. rewrite entries_of in C. apply Nat.ltb_lt in L.
    split; [exact C|lia].
  - intros (-> & L). rewrite <- entries_of in L |- *. exists (k, map snd (filter (fun kv => String.eqb k (fst kv)) (root_entries names gs))).
    split; [reflexivity|]. apply filter_In. split; [|apply Nat.ltb_lt; exact L]. apply (Permutation_in _ (Permutation_sym (P _))).
    apply slookup_in; [exact Nd|]. destruct (slookup k (group_entries (root_entries names gs))) as [l|] eqn:S'; [congruence|].
    rewrite C in L. cbn in L. lia.
Qed.

(* ---- v2 names ---- *)
Lemma refines_iff g : refines_own_type g = true <-> refines g.
Proof.
  unfold refines_own_type, refines. destruct (g_lineage g) as [l|]; [|split; [discriminate|intros (? & H & _); discriminate]].
  destruct (gl_extends_type l) as [t|] eqn:E.
  - rewrite gtype_eqb_iff. split; [intros ->; exists l; auto|intros (l' & H & T); injection H as <-; congruence].
  - split; [discriminate|intros (l' & H & T); injection H as <-; congruence].
Qed.
Lemma signal_name_iff g n : v2_id g = Some n <-> signal_name g n.
Proof.
  assert (RR : refines_own_type g = true /\ refines g \/ refines_own_type g = false /\ ~ refines g).
  { destruct (refines_own_type g) eqn:E; [left|right]; (split; [reflexivity|]); [apply refines_iff; exact E|].
    intros X. apply refines_iff in X. congruence. }
  unfold v2_id. split.
  - destruct (g_type g) eqn:T; cbv iota; intros H; try discriminate.
    + injection H as H. apply sn_group; [exact T|]. apply fix_id_iff. exact H.
    + injection H as H. apply sn_span; [exact T|]. apply fix_id_iff. exact H.
    + destruct RR as [[Er R]|[Er R]]; rewrite Er in H.
      * injection H as H. apply sn_event; [exact T|exact R|]. apply fix_id_iff. exact H.
      * apply sn_event_named; assumption.
    + destruct RR as [[Er R]|[Er R]]; rewrite Er in H.
      * injection H as H. apply sn_metric; [exact T|exact R|]. apply fix_id_iff. exact H.
      * apply sn_metric_named; assumption.
    + destruct RR as [[Er R]|[Er R]]; rewrite Er in H; injection H as H.
      * apply sn_entity; [exact T|left; exact R|]. apply fix_id_iff. exact H.
      * destruct (g_name g) as [m|] eqn:Nm; cbn [opt_get] in H.
        -- apply sn_entity_named; [assumption|assumption|congruence].
        -- apply sn_entity; [exact T|right; exact Nm|]. apply fix_id_iff. exact H.
  - intros H. destruct H as [n T H|n T H|n T N H|n T R H|n T N H|n T R H|n T N H|n T R H]; rewrite T; cbv iota.
    + f_equal. apply fix_id_iff. exact H.
    + f_equal. apply fix_id_iff. exact H.
    + destruct RR as [[_ X]|[-> _]]; [contradiction|]. rewrite H. reflexivity.
    + destruct RR as [[-> _]|[-> X]]; [f_equal; apply fix_id_iff; exact H|]. destruct R as [R|R]; [contradiction|]. rewrite R. cbn [opt_get].
      f_equal. apply fix_id_iff. exact H.
    + destruct RR as [[_ X]|[-> _]]; [contradiction|]. exact H.
    + destruct RR as [[-> _]|[_ X]]; [|contradiction]. f_equal. apply fix_id_iff. exact H.
    + destruct RR as [[_ X]|[-> _]]; [contradiction|]. exact H.
    + destruct RR as [[-> _]|[_ X]]; [|contradiction]. f_equal. apply fix_id_iff. exact H.
Qed.

(* ---- several groups under one v2 name ---- *)
Lemma pair_eqb_spec a b : pair_eqb a b = true <-> a = b.
Proof.
  destruct a as [a1 a2], b as [b1 b2]. unfold pair_eqb. cbn [fst snd]. rewrite andb_true_iff, !String.eqb_eq. split.
  - intros [-> ->]. reflexivity.
  - intros H. injection H as -> ->. auto.
Qed.
Lemma type_text_inj a b : group_type_text a = group_type_text b -> a = b.
Proof. destruct a, b; intros H; try reflexivity; discriminate H. Qed.
Definition signal_of (t : group_type) (n : string) (g : group) : bool :=
  group_type_eqb t (g_type g) && match v2_id g with Some m => String.eqb n m | None => false end.
Lemma signal_of_iff t n g : signal_of t n g = true <-> g_type g = t /\ signal_name g n.
Proof.
  unfold signal_of. rewrite andb_true_iff, gtype_eqb_iff, <- signal_name_iff. destruct (v2_id g) as [m|].
  - rewrite String.eqb_eq. split; intros [A B]; (split; congruence).
  - split; intros [_ B]; discriminate.
Qed.
Lemma by_signal_ok gs : NoDup (map fst (by_signal gs)) /\
  (forall kk, In kk (map fst (by_signal gs)) -> exists t n, kk = (group_type_text t, n)) /\
  forall t n, match lookup pair_eqb (group_type_text t, n) (by_signal gs) with
              | Some l => l = map g_id (filter (signal_of t n) gs)
              | None => filter (signal_of t n) gs = []
              end.
Proof.
  unfold by_signal. induction gs as [|g gs IH] using rev_ind; cbn [fold_left].
  - split; [constructor|]. split; [intros ? []|]. reflexivity.
  - rewrite fold_left_app. cbn [fold_left]. set (m := fold_left _ gs []) in *. destruct IH as (Nd & Fm & IH).
    destruct (v2_id g) as [id|] eqn:V.
    + set (k := (group_type_text (g_type g), id)). split; [apply (insert_nodup _ pair_eqb_spec); exact Nd|]. split.
      * intros kk H. apply in_map_iff in H. destruct H as ((kk' & l) & E & H). cbn [fst] in E. subst kk'.
        apply (in_lookup _ pair_eqb_spec) in H; [|apply (insert_nodup _ pair_eqb_spec); exact Nd].
        destruct (pair_eqb kk k) eqn:Q.
        -- apply pair_eqb_spec in Q. subst kk. exists (g_type g), id. reflexivity.
        -- rewrite (lookup_insert_ne _ pair_eqb_spec) in H.
           ++ apply (lookup_in _ pair_eqb_spec) in H. apply Fm. apply (in_map fst) in H. exact H.
           ++ intros X. apply pair_eqb_spec in X. congruence.
      * intros t n. rewrite filter_app. cbn [filter]. specialize (IH t n). unfold signal_of at 2 4. rewrite V.
        destruct (pair_eqb (group_type_text t, n) k) eqn:Q.
        -- apply pair_eqb_spec in Q. injection Q as Qt Qn. apply type_text_inj in Qt. subst t n.
           fold k. rewrite (lookup_insert_eq _ pair_eqb_spec). rewrite (proj2 (gtype_eqb_iff _ _) eq_refl), String.eqb_refl. cbn [andb].
           rewrite map_app. cbn [map]. fold k in IH. destruct (lookup pair_eqb k m) as [l|]; cbn [opt_get]; rewrite IH; reflexivity.
        -- rewrite (lookup_insert_ne _ pair_eqb_spec) by (intros X; apply pair_eqb_spec in X; congruence).
           assert (N : group_type_eqb t (g_type g) && String.eqb n id = false).
           { destruct (group_type_eqb t (g_type g) && String.eqb n id) eqn:B; [|reflexivity]. apply andb_true_iff in B. destruct B as [B1 B2].
             apply gtype_eqb_iff in B1. apply String.eqb_eq in B2. subst t n. rewrite (proj2 (pair_eqb_spec _ _) eq_refl) in Q. discriminate. }
           rewrite N, app_nil_r. exact IH.
    + split; [exact Nd|]. split; [exact Fm|]. intros t n. rewrite filter_app. cbn [filter]. unfold signal_of at 2 4. rewrite V, andb_false_r, app_nil_r. apply IH.
Qed.
Lemma unique_nodup l : forall seen, NoDup (unique seen l).
Proof.
  induction l as [|x l IH]; intros seen; cbn [unique]; [constructor|]. destruct (existsb (String.eqb x) seen); [apply IH|].
  constructor; [|apply IH]. intros H. apply unique_iff in H. destruct H as [_ H]. apply H. left. reflexivity.
Qed.
Lemma two_of (l : list string) : NoDup l -> (2 <= length l <-> exists a b, In a l /\ In b l /\ a <> b).
Proof.
  intros Nd. split.
  - destruct l as [|a [|b l]]; cbn [length]; try lia. intros _. exists a, b. inversion Nd as [|? ? Ha]; subst.
    split; [left; reflexivity|]. split; [right; left; reflexivity|]. intros ->. apply Ha. left. reflexivity.
  - intros (a & b & Ha & Hb & N). destruct l as [|x [|y l]]; cbn [length]; [destruct Ha| |lia].
    destruct Ha as [<-|[]], Hb as [<-|[]]. contradiction.
Qed.
Lemma collisions_of order gs n ids : (forall l, Permutation (order l) l) -> In (XCollidingV2Id n ids) (check_collisions order gs) ->
  exists t, ids = unique [] (map g_id (filter (signal_of t n) gs)) /\ 2 <= length ids.
Proof.
  intros P H. unfold check_collisions in H. apply in_flat_map in H. destruct H as ((kk & l) & H & X). cbn [fst snd] in X.
  apply (Permutation_in _ (P _)) in H. destruct (by_signal_ok gs) as (Nd & Fm & L).
  destruct (Fm kk (in_map fst _ _ H)) as (t & m & ->). apply (in_lookup _ pair_eqb_spec) in H; [|exact Nd]. specialize (L t m). rewrite H in L.
  destruct (Nat.ltb (length (unique [] l)) 2) eqn:B; [destruct X|]. destruct X as [X|[]]. injection X as -> <-. subst l.
  exists t. split; [reflexivity|]. apply Nat.ltb_ge in B. exact B.
Qed.
Lemma collisions_iff order gs n : (forall l, Permutation (order l) l) ->
  ((exists ids, In (XCollidingV2Id n ids) (check_collisions order gs)) <->
   exists g g', In g gs /\ In g' gs /\ g_type g = g_type g' /\ signal_name g n /\ signal_name g' n /\ g_id g <> g_id g').
Proof.
  intros P. split.
  - intros (ids & H). destruct (collisions_of _ _ _ _ P H) as (t & -> & L). apply two_of in L; [|apply unique_nodup].
    destruct L as (a & b & Ha & Hb & N). apply unique_iff in Ha, Hb. destruct Ha as [Ha _], Hb as [Hb _]. apply in_map_iff in Ha, Hb.
    destruct Ha as (g & Ea & Ha), Hb as (g' & Eb & Hb). apply filter_In in Ha, Hb. destruct Ha as [Ha Sa], Hb as [Hb Sb].
    apply signal_of_iff in Sa, Sb. destruct Sa as [Ta Sa], Sb as [Tb Sb]. exists g, g'. repeat split; auto; congruence.
  - intros (g & g' & Hg & Hg' & T & Sg & Sg' & N). unfold check_collisions. destruct (by_signal_ok gs) as (Nd & _ & L). specialize (L (g_type g) n).
    assert (Fg : In g (filter (signal_of (g_type g) n) gs)) by (apply filter_In; split; [exact Hg|]; apply signal_of_iff; auto).
    assert (Fg' : In g' (filter (signal_of (g_type g) n) gs)) by (apply filter_In; split; [exact Hg'|]; apply signal_of_iff; auto).
    destruct (lookup pair_eqb (group_type_text (g_type g), n) (by_signal gs)) as [l|] eqn:E; [|rewrite L in Fg; destruct Fg].
    exists (unique [] l). apply in_flat_map. exists ((group_type_text (g_type g), n), l). split.
    + apply (Permutation_in _ (Permutation_sym (P _))). apply (lookup_in _ pair_eqb_spec). exact E.
    + cbn [fst snd]. assert (B : 2 <= length (unique [] l)).
      { apply two_of; [apply unique_nodup|]. exists (g_id g), (g_id g'). subst l. rewrite !unique_iff.
        split; [split; [apply in_map; exact Fg|intros []]|]. split; [split; [apply in_map; exact Fg'|intros []]|exact N]. }
      apply Nat.ltb_ge in B. rewrite B. left. reflexivity.
Qed.

(* ---- the run ---- *)
Lemma run_shape glob o e specs bs inc r : resolve_registry glob o e specs bs inc = Done r ->
  exists gs gs' c w, resolve_extends e (map resolve_prefix (unresolved_groups specs)) = Done gs /\
    resolve_references e gs empty_catalog = Done (gs', c) /\
    resolve_imports glob e (if inc then app bs [everything] else bs) gs' c = Done w /\
    stabilize (or_leb o) (or_refs o) (wi_groups w) (wi_catalog w) = (rs_groups r, rs_catalog r) /\
    rs_errors r =
      app (wi_errors w)
      (app (check_uniqueness (fun g => Some (g_id g)) XDuplicateGroupId (or_keys o) (rs_groups r))
      (app (check_uniqueness metric_key XDuplicateMetricName (or_keys o) (rs_groups r))
      (app (check_uniqueness name_key XDuplicateGroupName (or_keys o) (rs_groups r))
      (app (check_root_attrs (map at_name (rs_catalog r)) (or_attrs o) (rs_groups r))
           (check_collisions (or_signals o) (rs_groups r)))))).
Proof.
  unfold resolve_registry. cbv zeta. intros H.
  destruct (resolve_extends e (map resolve_prefix (unresolved_groups specs))) as [gs|es|]; cbn [run_bind] in H; [|discriminate|discriminate].
  destruct (resolve_references e gs empty_catalog) as [[gs' c]|es|] eqn:Er; cbn [run_bind fst snd] in H; [|discriminate|discriminate].
  destruct (resolve_imports glob e (if inc then app bs [everything] else bs) gs' c) as [w|es|] eqn:Ei; cbn [run_bind] in H; [|discriminate|discriminate].
  destruct (resolve_associations e (wi_groups w) (wi_origins w)) as [origins|es|]; cbn [run_bind] in H; [|discriminate|discriminate].
  destruct (stabilize (or_leb o) (or_refs o) (wi_groups w) (wi_catalog w)) as [out attrs] eqn:Es. inversion H; subst r. cbn [rs_groups rs_catalog rs_errors].
  exists gs, gs', c, w. repeat (split; [solve [reflexivity|assumption]|]). reflexivity.
Qed.
Lemma import_errors glob e bs gs c w err : resolve_imports glob e bs gs c = Done w -> In err (wi_errors w) -> exists p f, err = XUnmatchedImport p f.
Proof.
  unfold resolve_imports. destruct (import_all glob e bs (ev_deps e) [] c) as [p|es|]; cbn [run_bind]; [|discriminate|discriminate].
  intros H. inversion H; subst w; cbn [wi_errors]. unfold unmatched_imports. intros X. apply in_flat_map in X. destruct X as (f & _ & X).
  apply in_map_iff in X. destruct X as (p' & <- & _). eauto.
Qed.
Lemma root_attrs_other names order gs err : In err (check_root_attrs names order gs) -> exists ids k, err = XDuplicateAttr ids k.
Proof. unfold check_root_attrs. intros X. apply in_map_iff in X. destruct X as (kv & <- & _). eauto. Qed.
Lemma collisions_other order gs err : In err (check_collisions order gs) -> exists n ids, err = XCollidingV2Id n ids.
Proof.
  unfold check_collisions. intros X. apply in_flat_map in X. destruct X as (kv & _ & X). destruct (Nat.ltb _ 2); [destruct X|].
  destruct X as [<-|[]]. eauto.
Qed.
(* which check a reported error comes from *)
Lemma reported_by glob o e specs bs inc r err : resolve_registry glob o e specs bs inc = Done r ->
  (In err (rs_errors r) <->
   match err with
   | XDuplicateGroupId _ => In err (check_uniqueness (fun g => Some (g_id g)) XDuplicateGroupId (or_keys o) (rs_groups r))
   | XDuplicateMetricName _ => In err (check_uniqueness metric_key XDuplicateMetricName (or_keys o) (rs_groups r))
   | XDuplicateGroupName _ => In err (check_uniqueness name_key XDuplicateGroupName (or_keys o) (rs_groups r))
   | XDuplicateAttr _ _ => In err (check_root_attrs (map at_name (rs_catalog r)) (or_attrs o) (rs_groups r))
   | XCollidingV2Id _ _ => In err (check_collisions (or_signals o) (rs_groups r))
   | _ => In err (rs_errors r) /\ exists p f, err = XUnmatchedImport p f
   end).
Proof.
  intros H. destruct (run_shape _ _ _ _ _ _ _ H) as (gs & gs' & c & w & _ & _ & Ei & _ & ->). rewrite !in_app_iff.
  assert (Cases : forall x, In x (wi_errors w) \/
     In x (check_uniqueness (fun g => Some (g_id g)) XDuplicateGroupId (or_keys o) (rs_groups r)) \/
     In x (check_uniqueness metric_key XDuplicateMetricName (or_keys o) (rs_groups r)) \/
     In x (check_uniqueness name_key XDuplicateGroupName (or_keys o) (rs_groups r)) \/
     In x (check_root_attrs (map at_name (rs_catalog r)) (or_attrs o) (rs_groups r)) \/
     In x (check_collisions (or_signals o) (rs_groups r)) ->
     (exists p f, x = XUnmatchedImport p f) \/
     (In x (check_uniqueness (fun g => Some (g_id g)) XDuplicateGroupId (or_keys o) (rs_groups r)) /\ exists k, x = XDuplicateGroupId k) \/
     (In x (check_uniqueness metric_key XDuplicateMetricName (or_keys o) (rs_groups r)) /\ exists k, x = XDuplicateMetricName k) \/
     (In x (check_uniqueness name_key XDuplicateGroupName (or_keys o) (rs_groups r)) /\ exists k, x = XDuplicateGroupName k) \/
     (In x (check_root_attrs (map at_name (rs_catalog r)) (or_attrs o) (rs_groups r)) /\ exists ids k, x = XDuplicateAttr ids k) \/
     (In x (check_collisions (or_signals o) (rs_groups r)) /\ exists n ids, x = XCollidingV2Id n ids)).
  { assert (U : forall key mk order gs0 x, In x (check_uniqueness key mk order gs0) -> exists k, x = mk k).
    { intros key mk order gs0 x X. unfold check_uniqueness in X. apply in_map_iff in X. destruct X as (kv & <- & _). eauto. }
    intros x [X|[X|[X|[X|[X|X]]]]].
    - left. eapply import_errors; eassumption.
    - right; left. split; [exact X|eapply U; exact X].
    - right; right; left. split; [exact X|eapply U; exact X].
    - right; right; right; left. split; [exact X|eapply U; exact X].
    - right; right; right; right; left. split; [exact X|eapply root_attrs_other; exact X].
    - right; right; right; right; right. split; [exact X|eapply collisions_other; exact X]. }
  split.
  - intros X. specialize (Cases err X).
    destruct Cases as [(p & f & ->)|[(C & k & ->)|[(C & k & ->)|[(C & k & ->)|[(C & ids & k & ->)|(C & n & ids & ->)]]]]]; try exact C.
    split; [rewrite !in_app_iff; exact X|eauto].
  - destruct err; intros X; try (destruct X as [X _]; rewrite !in_app_iff in X; exact X); tauto.
Qed.
Lemma v2_refinement_iff g : is_v2_refinement g = true <-> v2_refinement g.
Proof.
  unfold is_v2_refinement, v2_refinement. destruct (g_is_v2 g); cbn [andb].
  - destruct (g_lineage g) as [l|].
    + destruct (gl_extends l) as [p|] eqn:E; cbn [is_some].
      * split; [intros _; split; [reflexivity|]; exists l, p; auto|reflexivity].
      * split; [discriminate|]. intros (_ & l' & p & H & X). congruence.
    + split; [discriminate|]. intros (_ & l' & p & H & _). discriminate.
  - split; [discriminate|]. intros [H _]. discriminate.
Qed.
Lemma keyed_iff (key : group -> option string) k g :
  ((if is_v2_refinement g then None else key g) = Some k <-> ~ v2_refinement g /\ key g = Some k).
Proof.
  rewrite <- v2_refinement_iff. destruct (is_v2_refinement g); split.
  - discriminate.
  - intros [H _]. destruct (H eq_refl).
  - intros H. split; [discriminate|exact H].
  - intros [_ H]. exact H.
Qed.

(* An identifier is reported as duplicated exactly when two groups of the resolved registry that know their source have it. *)
Theorem C36_group_ids : forall glob o e specs bs inc r k, real_orders o -> resolve_registry glob o e specs bs inc = Done r ->
  (In (XDuplicateGroupId k) (rs_errors r) <-> twice (fun g => g_id g = k /\ located g) (rs_groups r)).
Proof.
  intros glob o e specs bs inc r k (_ & P & _) H. rewrite (reported_by _ _ _ _ _ _ _ _ H).
  rewrite (uniqueness_iff (fun g => Some (g_id g)) XDuplicateGroupId); [|intros a b X; injection X as ->; reflexivity|exact P].
  split; apply twice_impl; intros g [A B]; (split; [congruence|exact B]).
Qed.
(* The same for the names of metrics, except those that the v2 syntax defines by refining another. *)
Theorem C36_metric_names : forall glob o e specs bs inc r k, real_orders o -> resolve_registry glob o e specs bs inc = Done r ->
  (In (XDuplicateMetricName k) (rs_errors r) <-> twice (fun g => g_metric_name g = Some k /\ ~ v2_refinement g /\ located g) (rs_groups r)).
Proof.
  intros glob o e specs bs inc r k (_ & P & _) H. rewrite (reported_by _ _ _ _ _ _ _ _ H).
  rewrite (uniqueness_iff metric_key XDuplicateMetricName); [|intros a b X; injection X as ->; reflexivity|exact P].
  unfold metric_key. split; apply twice_impl; intros g A.
  - destruct A as [A B]. apply keyed_iff in A. tauto.
  - split; [apply keyed_iff; tauto|tauto].
Qed.
(* And for the names of events and entities. *)
Theorem C36_names : forall glob o e specs bs inc r k, real_orders o -> resolve_registry glob o e specs bs inc = Done r ->
  (In (XDuplicateGroupName k) (rs_errors r) <-> twice (fun g => g_name g = Some k /\ ~ v2_refinement g /\ located g) (rs_groups r)).
Proof.
  intros glob o e specs bs inc r k (_ & P & _) H. rewrite (reported_by _ _ _ _ _ _ _ _ H).
  rewrite (uniqueness_iff name_key XDuplicateGroupName); [|intros a b X; injection X as ->; reflexivity|exact P].
  unfold name_key. split; apply twice_impl; intros g A.
  - destruct A as [A B]. apply keyed_iff in A. tauto.
  - split; [apply keyed_iff; tauto|tauto].
Qed.
(* An attribute that attribute groups define in several places is reported with the groups of all of them. *)
Theorem C36_root_attributes : forall glob o e specs bs inc r ids k, real_orders o -> resolve_registry glob o e specs bs inc = Done r ->
  (In (XDuplicateAttr ids k) (rs_errors r) <->
   ids = flat_map (fun g => map (fun _ => g_id g) (filter (String.eqb k) (own_roots (map at_name (rs_catalog r)) g))) (rs_groups r) /\
   2 <= length ids).
Proof.
  intros glob o e specs bs inc r ids k (_ & _ & P & _) H. rewrite (reported_by _ _ _ _ _ _ _ _ H). apply root_attrs_iff. exact P.
Qed.
(* Two groups of one kind that would share a name in a v2 document are reported, and nothing else is. *)
Theorem C36_colliding : forall glob o e specs bs inc r n, real_orders o -> resolve_registry glob o e specs bs inc = Done r ->
  ((exists ids, In (XCollidingV2Id n ids) (rs_errors r)) <->
   exists g g', In g (rs_groups r) /\ In g' (rs_groups r) /\ g_type g = g_type g' /\ signal_name g n /\ signal_name g' n /\ g_id g <> g_id g').
Proof.
  intros glob o e specs bs inc r n (_ & _ & _ & P) H. rewrite <- (collisions_iff (or_signals o)) by exact P. split.
  - intros (ids & X). exists ids. apply (reported_by _ _ _ _ _ _ _ _ H) in X. exact X.
  - intros (ids & X). exists ids. apply (reported_by _ _ _ _ _ _ _ _ H). exact X.
Qed.
(* The report lists exactly the groups that would share the name, each once. *)
Theorem C36_colliding_ids : forall glob o e specs bs inc r n ids, real_orders o -> resolve_registry glob o e specs bs inc = Done r ->
  In (XCollidingV2Id n ids) (rs_errors r) ->
  NoDup ids /\ exists t, forall i, In i ids <-> exists g, In g (rs_groups r) /\ g_type g = t /\ signal_name g n /\ g_id g = i.
Proof.
  intros glob o e specs bs inc r n ids (_ & _ & _ & P) H X. apply (reported_by _ _ _ _ _ _ _ _ H) in X.
  destruct (collisions_of _ _ _ _ P X) as (t & -> & _). split; [apply unique_nodup|]. exists t. intros i. rewrite unique_iff, in_map_iff. split.
  - intros ((g & E & Hg) & _). apply filter_In in Hg. destruct Hg as [Hg S']. apply signal_of_iff in S'. exists g. tauto.
  - intros (g & Hg & T & S' & E). split; [|intros []]. exists g. split; [exact E|]. apply filter_In. split; [exact Hg|]. apply signal_of_iff. auto.
Qed.

(* ---- what resolution leaves as it was ---- *)
Definition lin_stays (l l' : option group_lineage) : Prop :=
  (l <> None -> l' <> None) /\ option_map gl_extends l' = option_map gl_extends l.
Lemma lin_stays_refl l : lin_stays l l.
Proof. split; [auto|reflexivity]. Qed.
Lemma lin_stays_trans a b c : lin_stays a b -> lin_stays b c -> lin_stays a c.
Proof. intros [A1 A2] [B1 B2]. split; [auto|congruence]. Qed.
Record stays (u v : ugroup) : Prop := {
  st_id : uid v = uid u; st_vis : ug_visibility v = ug_visibility u; st_v2 : ug_is_v2 v = ug_is_v2 u;
  st_gv2 : g_is_v2 (ug_group v) = g_is_v2 (ug_group u);
  st_ext : g_extends (ug_group u) = None -> g_extends (ug_group v) = None;
  st_loc : located (ug_group u) -> located (ug_group v);
  st_lin : g_extends (ug_group u) = None -> option_map gl_extends (g_lineage (ug_group v)) = option_map gl_extends (g_lineage (ug_group u));
  st_names : g_extends (ug_group u) = None \/ ug_is_v2 u = false ->
    g_metric_name (ug_group v) = g_metric_name (ug_group u) /\ g_name (ug_group v) = g_name (ug_group u)
}.
Lemma stays_refl u : stays u u.
Proof. constructor; auto. Qed.
Lemma stays_trans a b c : stays a b -> stays b c -> stays a c.
Proof.
  intros A B. destruct A as [A1 A2 A3 A4 A5 A6 A7 A8], B as [B1 B2 B3 B4 B5 B6 B7 B8]. constructor; try congruence; auto.
  - intros H. rewrite (B7 (A5 H)). apply A7. exact H.
  - intros H. destruct (A8 H) as [X1 X2].
    assert (H' : g_extends (ug_group b) = None \/ ug_is_v2 b = false) by (destruct H as [H|H]; [left; auto|right; congruence]).
    destruct (B8 H') as [Y1 Y2]. split; congruence.
Qed.
Lemma inherit_lineage_stays gid own bases l : gl_extends (inherit_group_lineage gid own bases l) = gl_extends l.
Proof.
  unfold inherit_group_lineage. generalize (inherited_map gid own bases). intros m. revert l. induction m as [|kv m IH]; intros l; cbn [fold_left]; [reflexivity|].
  rewrite IH. destruct (al_is_empty (aw_lineage (snd kv))); reflexivity.
Qed.
Lemma finish_stays u par inc : (g_extends (ug_group u) = None -> par = None) -> stays u (finish_group u par inc).
Proof.
  intros Hp. unfold finish_group.
  assert (V : forall f g, located g -> located (upd_lineage f g)).
  { intros f g H. unfold located in *. unfold upd_lineage. cbn [g_lineage set_lineage]. destruct (g_lineage g); [cbn; discriminate|contradiction]. }
  constructor; cbn [uid clear_include with_attrs with_group ug_group ug_visibility ug_is_v2 set_extends g_id g_is_v2 g_extends g_lineage g_metric_name g_name upd_lineage set_lineage].
  - destruct par as [[pid s]|]; [|reflexivity]. destruct (ug_is_v2 u); reflexivity.
  - reflexivity.
  - reflexivity.
  - destruct par as [[pid s]|]; [|reflexivity]. destruct (ug_is_v2 u); reflexivity.
  - reflexivity.
  - intros L. unfold located. cbn [set_extends g_lineage]. apply V, V. destruct par as [[pid s]|]; [|exact L].
    assert (L' : located (upd_lineage (gl_extend pid (sm_type s)) (ug_group u))) by (apply V; exact L).
    destruct (ug_is_v2 u); exact L'.
  - intros E. rewrite (Hp E). destruct (g_lineage (ug_group u)) as [l|]; [|reflexivity]. cbn [option_map]. f_equal. rewrite inherit_lineage_stays. reflexivity.
  - intros E. destruct par as [[pid s]|]; [|split; reflexivity]. destruct E as [E|E]; [discriminate (Hp E)|]. rewrite E. split; reflexivity.
Qed.
Lemma extends_stays e gs gs' : resolve_extends e gs = Done gs' -> Forall2 stays gs gs'.
Proof.
  unfold resolve_extends. intros H. apply (ext_loop_done e gs) in H; [|apply progress_refl]. destruct H as [H _]. unfold progress in H.
  eapply Forall2_impl; [|exact H]. intros u v [->|(_ & par & inc & -> & Hp & _)]; [apply stays_refl|]. apply finish_stays.
  intros E. unfold par_ok in Hp. rewrite E in Hp. destruct par as [[p s]|]; [destruct Hp|reflexivity].
Qed.
Lemma visit_attrs_lin e b u l : forall c lin v, visit_attrs e b u l c lin = Got v -> lin_stays lin (vs_lineage v).
Proof.
  induction l as [|a l IH]; intros c lin v H; cbn [visit_attrs] in H.
  - inversion H; subst v. apply lin_stays_refl.
  - destruct (b && negb (is_id_spec a)).
    + destruct (visit_attrs e b u l c lin) as [v'|er] eqn:Ev; cbn [rr_bind] in H; [|discriminate]. inversion H; subst v. cbn [vs_lineage]. eapply IH; exact Ev.
    + destruct (resolve_attr e (uid u) (g_prefix (ug_group u)) (ug_excluded u) a c) as [[[[ar c'] entry]|]|err].
      * destruct (visit_attrs e b u l c' (match entry with Some (k, al) => option_map (gl_add k al) lin | None => lin end)) as [v'|er] eqn:Ev;
          cbn [rr_bind] in H; [|discriminate]. inversion H; subst v. cbn [vs_lineage]. apply IH in Ev. eapply lin_stays_trans; [|exact Ev].
        destruct entry as [[k al]|]; [|apply lin_stays_refl]. destruct lin as [l0|]; [|apply lin_stays_refl]. split; [discriminate|reflexivity].
      * destruct (visit_attrs e b u l c lin) as [v'|er] eqn:Ev; cbn [rr_bind] in H; [|discriminate]. inversion H; subst v. cbn [vs_lineage]. eapply IH; exact Ev.
      * destruct (is_excluded_err err); [|discriminate].
        destruct (visit_attrs e b u l c lin) as [v'|er] eqn:Ev; cbn [rr_bind] in H; [|discriminate]. inversion H; subst v. cbn [vs_lineage]. eapply IH; exact Ev.
Qed.
Lemma visit_groups_stays e b gs : forall c p, visit_groups e b gs c = Got p -> Forall2 stays gs (ps_groups p).
Proof.
  induction gs as [|u gs IH]; intros c p H; cbn [visit_groups] in H.
  - inversion H; subst p. constructor.
  - destruct (visit_attrs e b u (ug_attrs u) c (g_lineage (ug_group u))) as [v|er] eqn:Ev; cbn [rr_bind] in H; [|discriminate].
    destruct (visit_groups e b gs (vs_catalog v)) as [q|er] eqn:Eq; cbn [rr_bind] in H; [|discriminate]. inversion H; subst p. cbn [ps_groups].
    constructor; [|eapply IH; exact Eq]. apply visit_attrs_lin in Ev. destruct Ev as [V1 V2]. constructor; try reflexivity; auto.
Qed.
Lemma forall2_trans {A} (R : A -> A -> Prop) : (forall a b c, R a b -> R b c -> R a c) -> forall l m n, Forall2 R l m -> Forall2 R m n -> Forall2 R l n.
Proof.
  intros T l m n H. revert n. induction H as [|x y l m Hx _ IH]; intros n H2; inversion H2; subst; constructor; eauto.
Qed.
Lemma refs_loop_stays e init fuel : forall gs c gs' c', refs_loop fuel e init gs c = Done (gs', c') -> Forall2 stays gs gs'.
Proof.
  induction fuel as [|f IH]; intros gs c gs' c' H; cbn [refs_loop] in H; [discriminate|].
  destruct (visit_groups e false gs c) as [p|err] eqn:Ev; [|discriminate]. apply visit_groups_stays in Ev.
  destruct (app init (ps_errors p)); [inversion H; subst; exact Ev|]. destruct (Nat.eqb (ps_count p) 0); [discriminate|].
  apply IH in H. eapply forall2_trans; [exact stays_trans|exact Ev|exact H].
Qed.
Lemma references_stay e gs c gs' c' : resolve_references e gs c = Done (gs', c') -> Forall2 stays gs gs'.
Proof.
  unfold resolve_references. destruct (visit_groups e true gs c) as [p|err] eqn:Ev; [|discriminate]. intros H.
  apply visit_groups_stays in Ev. apply refs_loop_stays in H. eapply forall2_trans; [exact stays_trans|exact Ev|exact H].
Qed.
Definition published_as (u : ugroup) (g : group) : Prop :=
  g_id g = g_id (ug_group u) /\ g_lineage g = g_lineage (ug_group u) /\ g_metric_name g = g_metric_name (ug_group u) /\
  g_name g = g_name (ug_group u) /\ g_is_v2 g = g_is_v2 (ug_group u).
Lemma stabilize_keeps leb order gs c out cat : stabilize leb order gs c = (out, cat) ->
  exists kept, Permutation (filter (fun u => negb (is_internal u)) gs) kept /\ Forall2 published_as kept out.
Proof.
  unfold stabilize. cbv zeta. intros H. injection H as <- _.
  set (f := fun u => with_group u _). 
  assert (P : Permutation (map f gs) (stable_sort (fun x y => str_leb (uid x) (uid y)) (map f gs))) by apply stable_sort_perm.
  apply Permutation_sym in P. apply Permutation_map_inv in P. destruct P as (gs' & E & P).
  exists (filter (fun u => negb (is_internal u)) gs'). split; [apply filter_perm; exact P|]. rewrite E. clear P E.
  induction gs' as [|u gs' IH]; cbn [map filter]; [constructor|]. change (is_internal (f u)) with (is_internal u).
  destruct (negb (is_internal u)); [|exact IH]. cbn [map]. constructor; [|exact IH]. repeat split.
Qed.
Lemma twice_mapped {A B} (f : A -> B) (P : B -> Prop) l : twice (fun x => P (f x)) l -> twice P (map f l).
Proof.
  intros (l1 & a & l2 & b & l3 & -> & Ha & Hb). rewrite map_app. cbn [map]. rewrite map_app. cbn [map].
  exists (map f l1), (f a), (map f l2), (f b), (map f l3). auto.
Qed.
Lemma specs_start specs : Forall2 (fun s u => exists p, u = group_from_spec s p) (all_specs specs) (unresolved_groups specs).
Proof.
  unfold all_specs, unresolved_groups. induction specs as [|[l p] specs IH]; cbn [flat_map fst snd]; [constructor|].
  apply Forall2_app; [|exact IH]. clear IH. induction l as [|s l IH]; cbn [map]; constructor; eauto.
Qed.
Lemma prefix_stays u : stays u (resolve_prefix u).
Proof. unfold resolve_prefix. destruct (String.eqb (g_prefix (ug_group u)) ""); [apply stays_refl|]. constructor; auto. Qed.
(* what is true of two definitions of the files is true of two published groups *)
Lemma carried glob o e specs bs inc r (P : group_spec -> Prop) (Q : group -> Prop) :
  (forall g, {Q g} + {~ Q g}) ->
  resolve_registry glob o e specs bs inc = Done r ->
  (forall s p v, P s -> shown s -> stays (group_from_spec s p) v -> Q (ug_group v)) ->
  (forall u g, published_as u g -> Q (ug_group u) -> Q g) ->
  twice (fun s => P s /\ shown s) (all_specs specs) -> twice Q (rs_groups r).
Proof.
  intros Dec H HQ HP T. destruct (run_shape _ _ _ _ _ _ _ H) as (gs & gs' & c & w & E1 & E2 & E3 & E4 & _).
  apply extends_stays in E1. apply references_stay in E2.
  assert (S1 : Forall2 (fun s v => exists p, stays (group_from_spec s p) v) (all_specs specs) gs').
  { pose proof (forall2_trans stays stays_trans _ _ _ E1 E2) as S0. pose proof (specs_start specs) as S1. clear - S0 S1.
    revert gs' S0. induction S1 as [|s u ss us (p & ->) _ IH]; intros gs' S0; cbn [map] in S0; inversion S0 as [|? v ? vs Hv Hvs]; subst; constructor.
    - exists p. eapply stays_trans; [apply prefix_stays|exact Hv].
    - apply IH. exact Hvs. }
  assert (T1 : twice (fun v => Q (ug_group v) /\ negb (is_internal v) = true) gs').
  { eapply twice_forall2; [exact S1| |exact T]. cbn. intros s v (p & St) [Ps Sh]. split; [eapply HQ; eassumption|].
    destruct St as [_ V _ _ _ _ _ _]. unfold is_internal. rewrite V. cbn [group_from_spec ug_visibility]. unfold shown in Sh.
    destruct (gs_visibility s) as [[|]|]; try reflexivity. destruct (Sh eq_refl). }
  assert (T2 : twice (fun v => Q (ug_group v)) (filter (fun u => negb (is_internal u)) (wi_groups w))).
  { apply twice_filter. unfold resolve_imports in E3. destruct (import_all _ _ _ _ _ _) as [q|es|]; cbn [run_bind] in E3; [|discriminate|discriminate].
    inversion E3; subst w. cbn [wi_groups]. apply twice_app_l. exact T1. }
  destruct (stabilize_keeps _ _ _ _ _ _ E4) as (kept & Pk & F). eapply twice_forall2; [exact F|exact HP|].
  eapply twice_perm; [|exact Pk|exact T2]. intros v. apply Dec.
Qed.
Lemma located_dec g : {located g} + {~ located g}.
Proof. unfold located. destruct (g_lineage g); [left; discriminate|right; auto]. Qed.
Lemma opt_string_dec (a b : option string) : {a = b} + {a <> b}.
Proof. decide equality. apply String.string_dec. Qed.
Lemma and_dec (A B : Prop) : {A} + {~ A} -> {B} + {~ B} -> {A /\ B} + {~ (A /\ B)}.
Proof. intros [a|a] [b|b]; [left; auto|right; tauto..]. Qed.
Lemma v2_refinement_dec g : {~ v2_refinement g} + {~ ~ v2_refinement g}.
Proof.
  destruct (is_v2_refinement g) eqn:E; [right|left].
  - intros N. apply N, v2_refinement_iff. exact E.
  - intros X. apply v2_refinement_iff in X. congruence.
Qed.

(* Two definitions of the files with one identifier are reported, when they are not for the registry's own use. *)
Theorem C36_files_ids_partial : forall glob o e specs bs inc r k, real_orders o -> resolve_registry glob o e specs bs inc = Done r ->
  twice (fun s => gs_id s = k /\ shown s) (all_specs specs) -> In (XDuplicateGroupId k) (rs_errors r).
Proof.
  intros glob o e specs bs inc r k Ho H T. apply (C36_group_ids _ _ _ _ _ _ _ _ Ho H).
  eapply (carried _ _ _ _ _ _ _ (fun s => gs_id s = k)); [|exact H| | |exact T].
  - intros g. apply and_dec; [apply String.string_dec|apply located_dec].
  - intros s p v Ps _ St. destruct St as [I _ _ _ _ L _ _]. split; [unfold uid in I; rewrite I; exact Ps|]. apply L. discriminate.
  - intros u g (A & B & _) [C D]. split; [congruence|]. unfold located in *. rewrite B. exact D.
Qed.
(* Two metrics of the files with one name are reported likewise, unless the v2 syntax makes one a refinement. *)
Lemma names_kept s p v : stays (group_from_spec s p) v -> gs_extends s = None \/ gs_is_v2 s = false ->
  g_metric_name (ug_group v) = gs_metric_name s /\ g_name (ug_group v) = gs_name s /\ ~ v2_refinement (ug_group v) /\ located (ug_group v).
Proof.
  intros St E. destruct St as [_ _ _ G _ L Li N]. cbn [group_from_spec ug_group g_extends g_is_v2 ug_is_v2 g_lineage g_metric_name g_name option_map] in *.
  destruct (N E) as [N1 N2]. split; [exact N1|]. split; [exact N2|]. split.
  - intros (V & l & q & El & Eq). destruct E as [E|E]; [|congruence]. specialize (Li E). rewrite El in Li. cbn [option_map] in Li. injection Li as Li.
    rewrite Eq in Li. discriminate.
  - apply L. discriminate.
Qed.
Theorem C36_files_metrics_partial : forall glob o e specs bs inc r k, real_orders o -> resolve_registry glob o e specs bs inc = Done r ->
  twice (fun s => (gs_metric_name s = Some k /\ (gs_extends s = None \/ gs_is_v2 s = false)) /\ shown s) (all_specs specs) ->
  In (XDuplicateMetricName k) (rs_errors r).
Proof.
  intros glob o e specs bs inc r k Ho H T. apply (C36_metric_names _ _ _ _ _ _ _ _ Ho H). eapply carried; [|exact H| | |exact T].
  - intros g. apply and_dec; [apply opt_string_dec|]. apply and_dec; [apply v2_refinement_dec|apply located_dec].
  - intros s p v (Ps & E) _ St. destruct (names_kept _ _ _ St E) as (A & _ & B & C). split; [congruence|auto].
  - intros u g (A & B & C & D & E) (F & G & I). split; [congruence|]. unfold v2_refinement, located in *. rewrite B, E. auto.
Qed.
(* And two events or entities. *)
Theorem C36_files_names_partial : forall glob o e specs bs inc r k, real_orders o -> resolve_registry glob o e specs bs inc = Done r ->
  twice (fun s => (gs_name s = Some k /\ (gs_extends s = None \/ gs_is_v2 s = false)) /\ shown s) (all_specs specs) ->
  In (XDuplicateGroupName k) (rs_errors r).
Proof.
  intros glob o e specs bs inc r k Ho H T. apply (C36_names _ _ _ _ _ _ _ _ Ho H). eapply carried; [|exact H| | |exact T].
  - intros g. apply and_dec; [apply opt_string_dec|]. apply and_dec; [apply v2_refinement_dec|apply located_dec].
  - intros s p v (Ps & E) _ St. destruct (names_kept _ _ _ St E) as (_ & A & B & C). split; [congruence|auto].
  - intros u g (A & B & C & D & E) (F & G & I). split; [congruence|]. unfold v2_refinement, located in *. rewrite B, E. auto.
Qed.

(* ---- concrete cases ---- *)
Definition files36 : list (list group_spec * provenance) :=
  [([sample_named "metric.a" GMetric None (Some "a") None; sample_named "span.x" GSpan None None None], sample_file);
   ([sample_named "span.x" GSpan None None None; sample_named "metric.b" GMetric None (Some "a") None;
     sample_named "event.e" GEvent (Some "e") None None; sample_named "event.f" GEvent (Some "e") None None], sample_file)].
Lemma sample_orders_real : real_orders sample_orders.
Proof. repeat split; intros l; apply Permutation_refl. Qed.
Example C36_case : exists r, resolve_registry sample_glob sample_orders (sample_env []) files36 [] false = Done r /\ real_orders sample_orders /\
  rs_errors r = [XDuplicateGroupId "span.x"; XDuplicateMetricName "a"; XDuplicateGroupName "e";
                 XCollidingV2Id "e" ["event.e"; "event.f"]; XCollidingV2Id "a" ["metric.a"; "metric.b"]] /\
  twice (fun s => gs_id s = "span.x" /\ shown s) (all_specs files36).
Proof.
  eexists. split; [vm_compute; reflexivity|]. split; [apply sample_orders_real|]. split; [reflexivity|].
  unfold twice, all_specs, files36. cbn [flat_map fst app]. 
  exists [sample_named "metric.a" GMetric None (Some "a") None], (sample_named "span.x" GSpan None None None), [], (sample_named "span.x" GSpan None None None).
  eexists. split; [reflexivity|]. split; split; try reflexivity; discriminate.
Qed.
Example C36_attributes_case : exists r, resolve_registry sample_glob sample_orders (sample_env [])
    [([sample_defining "a" [sample_id "x" "one"; sample_id "y" "one"]; sample_defining "b" [sample_id "x" "two"]], sample_file)] [] false = Done r /\
  rs_errors r = [XDuplicateAttr ["a"; "b"] "x"] /\ map (own_roots (map at_name (rs_catalog r))) (rs_groups r) = [["x"; "y"]; ["x"]].
Proof. eexists. split; [vm_compute; reflexivity|]. split; reflexivity. Qed.
(* The same identifier in two imported attribute groups goes unreported. *)
Theorem C36_imported_groups_refuted : exists glob o e bs r k, real_orders o /\ resolve_registry glob o e [] bs true = Done r /\
  twice (fun g => g_id g = k) (rs_groups r) /\ rs_errors r = [].
Proof.
  set (ds := [D2 (sample_published_groups "https://a.io/schemas/1.0.0" [sample_attribute_group2 "common"]);
              D2 (sample_published_groups "https://b.io/schemas/1.0.0" [sample_attribute_group2 "common"])]).
  exists sample_glob, sample_orders, (sample_env ds), []. eexists. exists "common". split; [apply sample_orders_real|].
  split; [vm_compute; reflexivity|]. cbn [rs_groups rs_errors]. split; [|reflexivity].
  eexists [], _, [], _, []. split; [reflexivity|]. split; reflexivity.
Qed.
(* So does one in two definitions of the files that are for the registry's own use, although other definitions may include either. *)
Theorem C36_internal_refuted : exists glob o e specs r k, real_orders o /\ resolve_registry glob o e specs [] false = Done r /\
  twice (fun s => gs_id s = k) (all_specs specs) /\ rs_errors r = [].
Proof.
  exists sample_glob, sample_orders, (sample_env []),
    [([sample_named "base" GAttributeGroup None None (Some Internal); sample_named "base" GAttributeGroup None None (Some Internal)], sample_file)].
  eexists. exists "base". split; [apply sample_orders_real|]. split; [vm_compute; reflexivity|]. split; [|reflexivity].
  eexists [], _, [], _, []. split; [reflexivity|]. split; reflexivity.
Qed.
(* An event and an entity may not share a name, although the namespaces of a document are apart by kind. *)
Theorem C36_kinds_refuted : exists glob o e specs r k, real_orders o /\ resolve_registry glob o e specs [] false = Done r /\
  In (XDuplicateGroupName k) (rs_errors r) /\
  ~ (exists g g', In g (rs_groups r) /\ In g' (rs_groups r) /\ g_type g = g_type g' /\ g_name g = Some k /\ g_name g' = Some k /\ g <> g').
Proof.
  exists sample_glob, sample_orders, (sample_env []),
    [([sample_named "event.session" GEvent (Some "session") None None; sample_named "entity.session" GEntity (Some "session") None None], sample_file)].
  eexists. exists "session". split; [apply sample_orders_real|]. split; [vm_compute; reflexivity|]. cbn [rs_groups rs_errors]. split; [left; reflexivity|].
  intros (g & g' & [<-|[<-|[]]] & [<-|[<-|[]]] & T & _ & _ & N); try discriminate; apply N; reflexivity.
Qed.
(* A published metric and a published entity of one name are refused when both are imported. *)
Theorem C36_imported_kinds_refuted : exists glob o e r k, real_orders o /\ resolve_registry glob o e [] [] true = Done r /\
  In (XDuplicateGroupId k) (rs_errors r) /\
  ~ (exists g g', In g (rs_groups r) /\ In g' (rs_groups r) /\ g_type g = g_type g' /\ g_id g = k /\ g_id g' = k /\ g <> g').
Proof.
  set (ds := [D2 (sample_published "https://a.io/schemas/1.0.0" [] [sample_metric2 "session"] [sample_entity2 "session" None] [])]).
  exists sample_glob, sample_orders, (sample_env ds). eexists. exists "session". split; [apply sample_orders_real|].
  split; [vm_compute; reflexivity|]. cbn [rs_groups rs_errors]. split; [left; reflexivity|].
  intros (g & g' & [<-|[<-|[]]] & [<-|[<-|[]]] & T & _ & _ & N); try discriminate; apply N; reflexivity.
Qed.
Print Assumptions C36_group_ids.
Print Assumptions C36_metric_names.
Print Assumptions C36_names.
Print Assumptions C36_root_attributes.
Print Assumptions C36_colliding.
Print Assumptions C36_colliding_ids.
Print Assumptions C36_files_ids_partial.
Print Assumptions C36_files_metrics_partial.
Print Assumptions C36_files_names_partial.
