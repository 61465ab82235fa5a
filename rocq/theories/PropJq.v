(* C109: what templates select with the jq functions of weaver. *)
From Coq Require Import String Ascii Bool Arith Lia Permutation Sorted List.
Import ListNotations.
From Verif Require Import Base BaseProofs BaseProofs2 Json Str JqModel JqSpec JqProofs.
Local Open Scope string_scope.

(* ---------- orders ---------- *)
Lemma get_as k v : get k v = as_key (the k v).
Proof. destruct v; reflexivity. Qed.
Lemma field_or_as a b v : match jhas a v with Some true => get a v | _ => get b v end = as_key (field_or a b v).
Proof.
  destruct v as [| | | | |m]; try reflexivity. cbn [jhas field_or]. rewrite !get_as.
  assert (E : existsb (fun p => String.eqb (fst p) a) m = match slookup a m with Some _ => true | None => false end).
  { induction m as [|[k x] m IH]; [reflexivity|]. cbn [existsb fst slookup lookup]. change (lookup String.eqb a m) with (slookup a m). rewrite String.eqb_sym. destruct (String.eqb a k); [reflexivity|exact IH]. }
  rewrite E. destruct (slookup a m); reflexivity.
Qed.
Lemma text_key a b : key_leb (as_key a) (as_key b) = true <-> text_le a b.
Proof. destruct a, b; cbn; split; intros H; try exact I; try reflexivity; try discriminate; try contradiction; exact H. Qed.
Lemma key_total a b : key_leb a b = true \/ key_leb b a = true.
Proof. destruct a as [x|], b as [y|]; cbn; auto. apply str_leb_total. Qed.
Lemma key_trans a b c : key_leb a b = true -> key_leb b c = true -> key_leb a c = true.
Proof. destruct a as [x|], b as [y|], c as [z|]; cbn; try congruence. apply str_leb_trans. Qed.
Lemma key_antisym a b : key_leb a b = true -> key_leb b a = true -> a = b.
Proof. destruct a as [x|], b as [y|]; cbn; try congruence. intros A B. f_equal. apply str_leb_antisym; assumption. Qed.
Lemma key_eqb_eq a b : key_eqb a b = true <-> a = b.
Proof.
  unfold key_eqb. rewrite andb_true_iff. split; [intros (A & B); apply key_antisym; assumption|]. intros ->. destruct (key_total b b); auto.
Qed.
Section Sorts.
  Variables (f g : json -> json) (kf kg : json -> option string).
  Hypothesis Hf : forall v, kf v = as_key (f v).
  Hypothesis Hg : forall v, kg v = as_key (g v).
  Lemma sort_by_ok l : Permutation l (sort_by kf l) /\ StronglySorted (fun a b => text_le (f a) (f b)) (sort_by kf l).
  Proof.
    unfold sort_by. split; [apply stable_sort_perm|].
    assert (S : StronglySorted (le (fun a b => key_leb (kf a) (kf b))) (stable_sort (fun a b => key_leb (kf a) (kf b)) l)) by (apply stable_sort_sorted; [intros x y; apply key_total|intros x y z; apply key_trans]).
    clear - S Hf. induction S as [|x m _ IH F]; constructor; [exact IH|]. eapply Forall_impl; [|exact F]. intros y H. unfold le in H. rewrite !Hf in H. apply text_key, H.
  Qed.
  Lemma sort_by2_ok l : Permutation l (sort_by2 kf kg l) /\ StronglySorted (by_then f g) (sort_by2 kf kg l).
  Proof.
    unfold sort_by2. set (leb := fun a b => if key_eqb (kf a) (kf b) then key_leb (kg a) (kg b) else key_leb (kf a) (kf b)). split; [apply stable_sort_perm|].
    assert (L : forall a b, leb a b = true <-> key_leb (kf a) (kf b) = true /\ (key_leb (kf b) (kf a) = true -> key_leb (kg a) (kg b) = true)).
    { intros a b. unfold leb. destruct (key_eqb (kf a) (kf b)) eqn:E.
      - apply key_eqb_eq in E. rewrite E. split; [intros H; split; [destruct (key_total (kf b) (kf b)); assumption|auto]|]. intros (H & G). auto.
      - split; [intros H; split; [exact H|]; intros G|intros (H & _); exact H]. unfold key_eqb in E. rewrite H, G in E. discriminate. }
    assert (S : StronglySorted (le leb) (stable_sort leb l)).
    { apply stable_sort_sorted.
      - intros x y. rewrite !L. destruct (key_total (kf x) (kf y)) as [A|A], (key_total (kg x) (kg y)) as [B|B]; destruct (key_leb (kf y) (kf x)) eqn:C; destruct (key_leb (kf x) (kf y)) eqn:D; auto; try congruence; try (left; split; [reflexivity|congruence]); try (right; split; [reflexivity|congruence]).
      - intros x y z. rewrite !L. intros (A & B) (C & D). split; [eapply key_trans; eassumption|]. intros E. eapply key_trans; [apply B; eapply key_trans; eassumption|apply D; eapply key_trans; eassumption]. }
    clear - S L Hf Hg. induction S as [|x m _ IH F]; constructor; [exact IH|]. eapply Forall_impl; [|exact F]. intros y H. unfold le in H. apply L in H. rewrite !Hf, !Hg, !text_key in H. exact H.
  Qed.
  (* sorting again by another key keeps the first order among equals *)
  Lemma sort_again_ok (R : json -> json -> Prop) l : StronglySorted R l ->
    StronglySorted (fun a b => text_le (f a) (f b) /\ (text_le (f b) (f a) -> R a b)) (sort_by kf l).
  Proof.
    intros S. unfold sort_by. set (leb := fun a b => key_leb (kf a) (kf b)).
    induction S as [|x l S IH F]; [constructor|]. cbn [stable_sort fold_right]. change (fold_right (sort_insert leb) [] l) with (stable_sort leb l) in *.
    assert (F' : Forall (R x) (stable_sort leb l)). { eapply Permutation_Forall; [apply stable_sort_perm|exact F]. }
    clear F S. induction IH as [|y m Sm IHm G]; cbn [sort_insert]; [repeat constructor|]. inversion F' as [|? ? Rxy Rxm]; subst. destruct (leb x y) eqn:E.
    - constructor; [constructor; assumption|]. unfold leb in E. rewrite !Hf in E. apply text_key in E. constructor; [split; auto|].
      apply Forall_forall. intros z Hz. rewrite Forall_forall in G, Rxm. specialize (G z Hz). split; [|intros _; exact (Rxm z Hz)]. apply text_key. eapply key_trans; [apply text_key, E|apply text_key, G].
    - constructor; [apply IHm; assumption|]. apply Forall_forall. intros z Hz. apply (Permutation_in _ (Permutation_sym (sort_insert_perm leb x m))) in Hz. destruct Hz as [<-|Hz].
      + unfold leb in E. split; [apply text_key; rewrite <- !Hf; destruct (key_total (kf x) (kf y)); [congruence|assumption]|]. intros H. apply text_key in H. rewrite <- !Hf in H. congruence.
      + rewrite Forall_forall in G. apply G, Hz.
  Qed.
End Sorts.

(* ---------- groups ---------- *)
Lemma cut_concat k l : concat (cut_groups k l) = l.
Proof.
  induction l as [|x l IH]; [reflexivity|]. cbn [cut_groups]. destruct (cut_groups k l) as [|[|y g] gs] eqn:E.
  - cbn. rewrite <- IH. reflexivity.
  - cbn in *. rewrite <- IH. reflexivity.
  - destruct (key_eqb (k x) (k y)); cbn in *; rewrite <- IH; reflexivity.
Qed.
Lemma cut_ok k l : StronglySorted (fun a b => key_leb (k a) (k b) = true) l ->
  Forall (fun g => g <> [] /\ StronglySorted (fun a b => key_leb (k a) (k b) = true) g /\ forall a b, In a g -> In b g -> k a = k b) (cut_groups k l) /\
  StronglySorted (fun g h => forall a b, In a g -> In b h -> key_leb (k a) (k b) = true /\ k a <> k b) (cut_groups k l).
Proof.
  intros S. induction S as [|x l S IH F]; [split; constructor|]. cbn [cut_groups]. destruct IH as (A & B). pose proof (cut_concat k l) as C. destruct (cut_groups k l) as [|[|y g] gs] eqn:E.
  - cbn in C. subst l. split; [constructor; [|constructor]|repeat constructor]. split; [discriminate|]. split; [repeat constructor|]. intros a b [<-|[]] [<-|[]]. reflexivity.
  - inversion A as [|? ? (H & _) _]; subst. congruence.
  - inversion A as [|? ? (Ne & Sg & Eg) A']; subst. inversion B as [|? ? B' Bf]; subst. rewrite Forall_forall in F.
    assert (Fx : forall z, In z (y :: g) \/ In z (concat gs) -> key_leb (k x) (k z) = true) by (intros z Hz; apply F; change (concat ((y :: g) :: gs)) with (app (y :: g) (concat gs)); apply in_app_iff, Hz).
    destruct (key_eqb (k x) (k y)) eqn:K.
    + apply key_eqb_eq in K. split.
      * constructor; [|exact A']. split; [discriminate|]. split.
        -- constructor; [exact Sg|]. apply Forall_forall. intros z Hz. apply Fx. auto.
        -- intros a b [<-|Ha] [<-|Hb]; [reflexivity|rewrite K; apply Eg; [left; reflexivity|exact Hb]|rewrite K; apply Eg; [exact Ha|left; reflexivity]|apply Eg; assumption].
      * constructor; [exact B'|]. apply Forall_forall. intros h Hh a b Ha Hb. rewrite Forall_forall in Bf. destruct Ha as [<-|Ha]; [rewrite K; apply (Bf h Hh y b); [left; reflexivity|exact Hb]|apply (Bf h Hh a b Ha Hb)].
    + assert (N : k x <> k y) by (rewrite <- key_eqb_eq; congruence). split.
      * constructor; [|constructor; [exact (conj Ne (conj Sg Eg))|exact A']]. split; [discriminate|]. split; [repeat constructor|]. intros a b [<-|[]] [<-|[]]. reflexivity.
      * constructor; [constructor; assumption|]. apply Forall_forall. intros h Hh a b [<-|[]] Hb. destruct Hh as [<-|Hh].
        -- split; [apply Fx; auto|]. rewrite (Eg b y); [exact N|exact Hb|left; reflexivity].
        -- split; [apply Fx; right; apply in_concat; exists h; auto|]. intros Eq. rewrite Forall_forall in Bf. destruct (Bf h Hh y b (or_introl eq_refl) Hb) as (L & D). apply N, key_antisym; [apply Fx; left; left; reflexivity|]. rewrite Eq. exact L.
Qed.
Lemma grouped_ok f kf sel : (forall v, kf v = as_key (f v)) -> Forall (fun v => exists ns, the "root_namespace" v = JStr ns) sel ->
  groups_of (fun a b => text_le (f a) (f b)) sel (grouped kf sel).
Proof.
  intros Hf W. unfold grouped, group_by. set (r := get "root_namespace").
  destruct (sort_by_ok (the "root_namespace") r (get_as "root_namespace") sel) as (P & S).
  assert (S' : StronglySorted (fun a b => key_leb (r a) (r b) = true) (sort_by r sel)).
  { clear P W. induction S as [|x m _ IH F]; constructor; [exact IH|]. eapply Forall_impl; [|exact F]. intros y H. unfold r. rewrite !get_as. apply text_key, H. }
  destruct (cut_ok r _ S') as (A & B). pose proof (cut_concat r (sort_by r sel)) as C. set (gs := cut_groups r (sort_by r sel)) in *.
  assert (W' : forall g v, In g gs -> In v g -> exists ns, the "root_namespace" v = JStr ns).
  { intros g v Hg Hv. rewrite Forall_forall in W. apply W. eapply Permutation_in; [symmetry; exact P|]. rewrite <- C. apply in_concat. eauto. }
  split; [|split].
  - rewrite map_map. cbn [snd]. rewrite P, <- C. clear. induction gs as [|g gs IH]; [constructor|]. cbn [map concat]. apply Permutation_app; [symmetry; apply stable_sort_perm|exact IH].
  - clear P C S S'. induction B as [|g gs' B IH F]; [constructor|]. cbn [map]. inversion A as [|? ? (Ne & _ & _) A']; subst. constructor; [apply IH; [exact A'|]; intros h v Hh; apply W'; right; exact Hh|].
    apply Forall_map, Forall_forall. intros h Hh. rewrite Forall_forall in F, A'. destruct (A' h Hh) as (Nh & _). destruct g as [|a g]; [congruence|]. destruct h as [|b h]; [congruence|]. cbn [fst].
    destruct (F _ Hh a b (or_introl eq_refl) (or_introl eq_refl)) as (L & D). destruct (W' (a :: g) a (or_introl eq_refl) (or_introl eq_refl)) as (x & Ex). destruct (W' (b :: h) b (or_intror Hh) (or_introl eq_refl)) as (y & Ey). exists x, y.
    unfold r in *. rewrite !get_as, Ex, Ey in *. cbn in L, D |- *. split; [reflexivity|]. split; [reflexivity|]. split; [exact L|congruence].
  - apply Forall_map. apply Forall_forall. intros g Hg. rewrite Forall_forall in A. destruct (A g Hg) as (Ne & _ & Eq). cbn [fst snd]. destruct (sort_by_ok f kf Hf g) as (Pg & Sg). split; [|split; [exact Sg|]].
    + intros E. rewrite E in Pg. apply Permutation_sym, Permutation_nil in Pg. contradiction.
    + destruct g as [|a g]; [congruence|]. destruct (W' _ a Hg (or_introl eq_refl)) as (ns & E). exists ns. unfold r. rewrite get_as, E. split; [reflexivity|]. intros v Hv. apply (Permutation_in _ (Permutation_sym Pg)) in Hv.
      destruct (W' _ v Hg Hv) as (ns' & E'). specialize (Eq a v (or_introl eq_refl) Hv). unfold r in Eq. rewrite !get_as, E, E' in Eq. cbn in Eq. congruence.
Qed.

(* ---------- selections ---------- *)
Definition bears (NS : json -> string -> Prop) (v v' : json) : Prop :=
  exists ns, NS v ns /\ (forall ns', NS v ns' -> ns' = ns) /\ the "root_namespace" v' = JStr ns /\
    forall k, k <> "root_namespace" -> the k v' = the k v /\ (carries k v' <-> carries k v).
Lemma bears_sim NS v v' : bears NS v v' -> sim v v'.
Proof. intros (ns & _ & _ & _ & H). split; [apply H; discriminate|]. split; [apply H; discriminate|]. apply H; discriminate. Qed.
Lemma assemble o NS (S : json -> json -> Prop) cands named out1 out1' out2 :
  Forall2 (bears NS) cands named -> passed (wanted o) named out1 -> Forall2 S out1 out1' ->
  (forall w w', S w w' -> the "root_namespace" w' = the "root_namespace" w) ->
  chosen (ns_wanted o) out1' out2 ->
  exists kept, chosen (fun v => wanted o v /\ exists ns, NS v ns /\ wanted_namespace o ns) cands kept /\
    Forall2 (fun v v' => exists m w, bears NS v m /\ red (wanted o) m w /\ S w v') kept out2.
Proof.
  intros F (kept1 & C1 & F1) FS RS C2.
  destruct (chosen_back S (ns_wanted o) (ns_wanted o) out1 out1' FS) with (k' := out2) as (k2 & D2 & G2); [|exact C2|].
  { intros w w' H. unfold ns_wanted. rewrite (RS _ _ H). reflexivity. }
  destruct (chosen_back (red (wanted o)) (ns_wanted o) (ns_wanted o) kept1 out1 F1) with (k' := k2) as (k1 & D1 & G1); [|exact D2|].
  { intros w w' (_ & H). unfold ns_wanted. destruct (H "root_namespace") as (-> & _); [discriminate|]. reflexivity. }
  pose proof (chosen_comp _ _ _ _ C1 _ D1) as D.
  destruct (chosen_back (bears NS) (fun v => wanted o v /\ exists ns, NS v ns /\ wanted_namespace o ns) (fun x => wanted o x /\ ns_wanted o x) cands named F) with (k' := k1) as (kept & D0 & G0); [|exact D|].
  { intros v v' H. rewrite (wanted_insens o v v' (bears_sim _ _ _ H)). destruct H as (ns & N & U & R & _). unfold ns_wanted. split; intros (A & ns' & B & E); (split; [exact A|]).
    - exists ns'. split; [rewrite R, (U ns' B); reflexivity|exact E].
    - exists ns. rewrite R in B. injection B as <-. auto. }
  exists kept. split; [exact D0|]. eapply forall2_comp; [|exact G0|eapply forall2_comp with (T := fun m v' => exists w, red (wanted o) m w /\ S w v'); [|exact G1|exact G2]]; cbv beta; [intros x y z A (w & B & E); eauto|eauto].
Qed.
Lemma red_object_type v : well_typed v -> object v.
Proof. intros ((O & _) & _). exact O. Qed.
Lemma shown_has NS o (S : json -> json -> Prop) v v' : (exists m w, bears NS v m /\ red (wanted o) m w /\ S w v') -> (forall w w', S w w' -> the "root_namespace" w' = the "root_namespace" w) -> exists ns, NS v ns /\ the "root_namespace" v' = JStr ns.
Proof. intros (m & w & (ns & N & _ & R & _) & (_ & H) & Sw) RS. exists ns. split; [exact N|]. rewrite (RS _ _ Sw). destruct (H "root_namespace") as (-> & _); [discriminate|]. exact R. Qed.

(* candidates and their namespaces *)
Lemma named_bears k Q (NS : json -> string -> Prop) l f : (forall v ns, NS v ns <-> exists s, the k v = JStr s /\ Q s ns) -> (forall s p q, Q s p -> Q s q -> p = q) ->
  (forall s, exists ns, f s = JStr ns /\ Q s ns) -> Forall (fun v => object v /\ exists s, the k v = JStr s) l ->
  exists l', mapm (add_namespace f k) l = Some l' /\ Forall2 (fun v v' => bears NS v v' /\ object v') l l'.
Proof.
  intros HN HQ Hf F. induction F as [|v l (O & s & E) F IH]; [exists []; split; [reflexivity|constructor]|]. destruct IH as (l' & El & G).
  destruct (add_ok f k Q v s O E (Hf s)) as (v' & Ev & (s' & ns & Es & Qs & R & H) & O'). exists (v' :: l'). cbn [mapm]. rewrite Ev, El. split; [reflexivity|]. constructor; [|exact G]. split; [|exact O'].
  exists ns. split; [apply HN; eauto|]. split; [|split; [exact R|exact H]]. intros ns' N. apply HN in N as (s2 & E2 & Q2). rewrite Es in E2. injection E2 as <-. eapply HQ; eassumption.
Qed.
Lemma bears_well NS v v' : bears NS v v' -> object v' -> well_typed v -> well_typed v'.
Proof.
  intros (ns & _ & _ & _ & H) O (P & T). split.
  - apply (plain_same v); [exact O|apply H; discriminate|exact P].
  - destruct (H "type") as (-> & _); [discriminate|]. exact T.
Qed.
Lemma bears_formed NS v v' : bears NS v v' -> object v' -> well_formed v -> well_formed v'.
Proof. intros B O (W & A). split; [eapply bears_well; eassumption|]. destruct B as (ns & _ & _ & _ & H). destruct (H "attributes") as (-> & _); [discriminate|]. exact A. Qed.
Lemma forall2_forall {A B} (R : A -> B -> Prop) (W : A -> Prop) (W' : B -> Prop) l l' : (forall x y, R x y -> W x -> W' y) -> Forall2 R l l' -> Forall W l -> Forall W' l'.
Proof. intros H F. induction F as [|x y l l' Rx F IH]; intros G; [constructor|]. inversion G; subst. constructor; [eapply H; eassumption|auto]. Qed.
Lemma registry_group_ok g : object g -> (exists s, the "id" g = JStr s) ->
  (registry_group g = Some true /\ (the "type" g = JStr "attribute_group" /\ exists s, the "id" g = JStr ("registry." ++ s))) \/
  (registry_group g = Some false /\ ~ (the "type" g = JStr "attribute_group" /\ exists s, the "id" g = JStr ("registry." ++ s))).
Proof.
  intros O (s & E). unfold registry_group, is_type. rewrite !get_as, E. cbn [as_key option_map].
  destruct (the "type" g) as [| | |t| |]; cbn [as_key]; try (right; split; [reflexivity|intros (X & _); discriminate]).
  destruct (String.eqb_spec t "attribute_group") as [->|N]; [|right; split; [reflexivity|intros (X & _); congruence]].
  destruct (starts_with "registry." s) eqn:St; [left|right]; (split; [reflexivity|]).
  - apply starts_with_spec in St as (r & ->). split; [reflexivity|exists r; reflexivity].
  - intros (_ & r & X). assert (Es : s = "registry." ++ r) by congruence. rewrite Es, starts_with_app in St. discriminate.
Qed.
Lemma select_groups gs : Forall (fun v => well_formed v /\ exists s, the "id" v = JStr s) gs ->
  exists sel, jselect registry_group gs = Some sel /\ chosen (fun g => the "type" g = JStr "attribute_group" /\ exists s, the "id" g = JStr ("registry." ++ s)) gs sel.
Proof.
  intros F. induction F as [|g gs (W & I) F (sel & E & C)]; [exists []; split; [reflexivity|constructor]|]. cbn [jselect]. rewrite E.
  destruct (registry_group_ok g (red_object_type _ (proj1 W)) I) as [(-> & H)|(-> & H)]; eexists; (split; [reflexivity|]); [apply chosen_keep|apply chosen_drop]; assumption.
Qed.
Lemma all_attributes_ok gs : Forall well_formed gs -> all_attributes gs = Some (concat (map (fun g => match the "attributes" g with JArr l => l | _ => [] end) gs)).
Proof.
  intros F. induction F as [|g gs (W & A) F IH]; [reflexivity|]. cbn [all_attributes map concat]. rewrite (jfield_obj _ _ (red_object_type _ W)), IH. destruct (the "attributes" g); try contradiction; reflexivity.
Qed.
Lemma attributes_named d o : good_document d -> exists cands named, candidate_attributes d o cands /\ named_attributes d o = Some named /\
  Forall2 (bears (attribute_namespace o)) cands named /\ Forall well_typed named.
Proof.
  intros (Gg & Gn & Ga & _). unfold named_attributes, candidate_attributes, is_v2.
  assert (V1 : op_v2 o <> Some true -> exists cands named, (exists gs, chosen (fun g => the "type" g = JStr "attribute_group" /\ exists s, the "id" g = JStr ("registry." ++ s)) (dc_groups d) gs /\
     cands = concat (map (fun g => match the "attributes" g with JArr l => l | _ => [] end) gs)) /\
     match jselect registry_group (dc_groups d) with None => None | Some gs => match all_attributes gs with None => None | Some l => mapm (add_namespace (fun s => if contains "." s then part 0 s else JStr "other") "name") l end end = Some named /\
     Forall2 (bears (attribute_namespace o)) cands named /\ Forall well_typed named).
  { intros V. destruct (select_groups _ Gg) as (gs & -> & C).
    assert (Fg : Forall (fun v => well_formed v /\ exists s, the "id" v = JStr s) gs) by (eapply forall_chosen; eassumption).
    rewrite all_attributes_ok by (eapply Forall_impl; [|exact Fg]; intros v (H & _); exact H). set (cands := concat _).
    assert (Fc : Forall (fun v => well_typed v /\ exists s, the "name" v = JStr s) cands).
    { apply Forall_forall. intros v Hv. apply in_concat in Hv as (l & Hl & Hv). apply in_map_iff in Hl as (g & <- & Hg). destruct (chosen_in _ _ _ C g Hg) as (Hg' & _). rewrite Forall_forall in Fg. destruct (Fg g Hg) as ((_ & A) & _).
      destruct (the "attributes" g) as [| | | |l|] eqn:El; try destruct Hv. split; [rewrite Forall_forall in A; apply A; [assumption]|]. all: try (eapply Gn; [exact Hg'|exact El|]; eassumption). all: try (rewrite Forall_forall in A; apply A; assumption). }
    destruct (named_bears "name" (own_piece 0) (attribute_namespace o) cands (fun s => if contains "." s then part 0 s else JStr "other")) as (named & E & F).
    - intros v ns. unfold attribute_namespace. destruct (op_v2 o) as [[]|]; [congruence|reflexivity|reflexivity].
    - apply own_fun.
    - intros s. apply own_ok. auto.
    - eapply Forall_impl; [|exact Fc]. intros v (W & H). split; [apply red_object_type, W|exact H].
    - exists cands, named. split; [exists gs; auto|]. split; [exact E|]. split; [eapply forall2_impl; [|exact F]; intros x y (H & _); exact H|].
      eapply forall2_forall; [|exact F|exact Fc]. intros x y (B & O) (W & _). eapply bears_well; eassumption. }
  destruct (op_v2 o) as [[]|] eqn:V; try (apply V1; discriminate).
  destruct (named_bears "key" (piece 0) (attribute_namespace o) (dc_attributes d) (part 0)) as (named & E & F).
  - intros v ns. unfold attribute_namespace. rewrite V. reflexivity.
  - intros s p q. apply piece_fun.
  - apply part0_ok.
  - eapply Forall_impl; [|exact Ga]. intros v (W & H). split; [apply red_object_type, W|exact H].
  - exists (dc_attributes d), named. split; [reflexivity|]. split; [exact E|]. split; [eapply forall2_impl; [|exact F]; intros x y (H & _); exact H|].
    eapply forall2_forall; [|exact F|exact Ga]. intros x y (B & O) (W & _). eapply bears_well; eassumption.
Qed.
Lemma passed_ns o NS cands named out : Forall2 (bears NS) cands named -> passed (wanted o) named out -> Forall well_typed out -> Forall (fun v => object v /\ exists ns, the "root_namespace" v = JStr ns) out.
Proof.
  intros F (kept & C & G) W. apply Forall_forall. intros v Hv. rewrite Forall_forall in W. split; [apply red_object_type, W, Hv|].
  assert (K : Forall (fun v => exists ns, the "root_namespace" v = JStr ns) kept).
  { eapply forall_chosen; [|exact C]. eapply forall2_forall with (W := fun _ => True); [|exact F|apply Forall_forall; auto]. intros x y (ns & _ & _ & R & _) _. eauto. }
  assert (K' : Forall (fun v => exists ns, the "root_namespace" v = JStr ns) out).
  { eapply forall2_forall; [|exact G|exact K]. intros x y (_ & H) (ns & E). destruct (H "root_namespace") as (-> & _); [discriminate|]. eauto. }
  rewrite Forall_forall in K'. auto.
Qed.

Theorem C109_attributes_partial : forall d o, good_document d ->
  exists out shown, semconv_attributes d o = Some out /\ attribute_selection d o shown /\ Permutation shown out /\
    StronglySorted (by_then (the "root_namespace") (field_or "name" "key")) out.
Proof.
  intros d o G. destruct (attributes_named d o G) as (cands & named & Cd & En & Fb & Wn). destruct (filters_ok o named Wn) as (out1 & Ef & Pf & W1).
  destruct (namespace_ok o out1 (passed_ns _ _ _ _ _ Fb Pf W1)) as (out2 & Es & Cs).
  destruct (sort_by2_ok (the "root_namespace") (field_or "name" "key") (get "root_namespace") attribute_key (get_as _) (field_or_as "name" "key") out2) as (P & S).
  exists (sort_by2 (get "root_namespace") attribute_key out2), out2. split; [|split; [|split; assumption]].
  - unfold semconv_attributes. rewrite En. cbn [then_]. rewrite Ef. cbn [then_]. rewrite Es. reflexivity.
  - destruct (assemble o (attribute_namespace o) eq cands named out1 out1 out2 Fb Pf) as (kept & C & F); [clear; induction out1; constructor; auto|intros w w' <-; reflexivity|exact Cs|].
    exists cands, kept. split; [exact Cd|]. split; [exact C|]. eapply forall2_impl; [|exact F]. intros v v' (m & w & (ns & N & _ & R & H) & (T & K) & <-). exists ns. split; [exact N|]. split; [|split].
    + destruct (H "type") as (E & _); [discriminate|]. rewrite E in T. exact T.
    + destruct (K "root_namespace") as (-> & _); [discriminate|]. exact R.
    + intros k A B. destruct (K k A) as (-> & _). apply H, B.
Qed.
Print Assumptions C109_attributes_partial.

Theorem C109_grouped_attributes : forall d o, good_document d ->
  exists sel gs, semconv_attributes d o = Some sel /\ semconv_grouped_attributes d o = Some gs /\
    groups_of (fun a b => text_le (field_or "name" "key" a) (field_or "name" "key" b)) sel gs.
Proof.
  intros d o G. destruct (C109_attributes_partial d o G) as (out & shown & E & (cands & kept & _ & _ & F) & P & _). exists out, (grouped attribute_key out). split; [exact E|]. unfold semconv_grouped_attributes. rewrite E. split; [reflexivity|].
  apply grouped_ok; [apply field_or_as|]. eapply Permutation_Forall; [exact P|]. eapply forall2_forall with (W := fun _ => True); [|exact F|apply Forall_forall; auto]. intros x y (ns & _ & _ & R & _) _. eauto.
Qed.
Print Assumptions C109_grouped_attributes.

(* ---------- signals ---------- *)
Lemma is_type_ok t g : is_type t g = true <-> the "type" g = JStr t.
Proof. unfold is_type. rewrite get_as. destruct (the "type" g); cbn; try (split; [discriminate|discriminate]). rewrite String.eqb_eq. split; congruence. Qed.
Lemma filter_chosen {A} (p : A -> bool) (P : A -> Prop) l : (forall x, p x = true <-> P x) -> chosen P l (filter p l).
Proof. intros H. induction l as [|x l IH]; cbn [filter]; [constructor|]. destruct (p x) eqn:E; [apply chosen_keep; [apply H, E|exact IH]|apply chosen_drop; [rewrite <- H; congruence|exact IH]]. Qed.
Lemma signals_named k d o : good_document d -> exists cands named, candidate_signals k d o cands /\ named_signals k d o = Some named /\
  Forall2 (bears (signal_namespace k o)) cands named /\ Forall well_formed named.
Proof.
  intros (Gg & _ & _ & Gm & Gs). unfold named_signals, candidate_signals, is_v2.
  assert (V1 : op_v2 o <> Some true -> exists cands named, chosen (fun g => the "type" g = JStr (match k with Metric => "metric" | Span => "span" | Event => "event" | Entity => "entity" end)) (dc_groups d) cands /\
     mapm (add_namespace (fun s => if contains "." s then part 1 s else JStr "other") "id") (filter (is_type (kind_name k)) (dc_groups d)) = Some named /\
     Forall2 (bears (signal_namespace k o)) cands named /\ Forall well_formed named).
  { intros V. set (cands := filter (is_type (kind_name k)) (dc_groups d)).
    assert (C : chosen (fun g => the "type" g = JStr (match k with Metric => "metric" | Span => "span" | Event => "event" | Entity => "entity" end)) (dc_groups d) cands) by (apply filter_chosen; intros x; apply is_type_ok).
    assert (Fc : Forall (fun v => well_formed v /\ exists s, the "id" v = JStr s) cands) by (eapply forall_chosen; eassumption).
    destruct (named_bears "id" (own_piece 1) (signal_namespace k o) cands (fun s => if contains "." s then part 1 s else JStr "other")) as (named & E & F).
    - intros v ns. unfold signal_namespace. destruct (op_v2 o) as [[]|]; [congruence|reflexivity|reflexivity].
    - apply own_fun.
    - intros s. apply own_ok. auto.
    - eapply Forall_impl; [|exact Fc]. intros v (W & H). split; [apply red_object_type, W|exact H].
    - exists cands, named. split; [exact C|]. split; [exact E|]. split; [eapply forall2_impl; [|exact F]; intros x y (H & _); exact H|].
      eapply forall2_forall; [|exact F|exact Fc]. intros x y (B & O) (W & _). eapply bears_formed; eassumption. }
  destruct (op_v2 o) as [[]|] eqn:V; try (apply V1; discriminate). clear V1.
  set (cands := match k with Metric => dc_metrics d | Span => dc_spans d | Event => dc_events d | Entity => dc_entities d end).
  assert (Fc : Forall (fun v => well_formed v /\ exists s, the (id_field k) v = JStr s) cands) by (apply Forall_app in Gm as (Gm1 & Gm2); apply Forall_app in Gs as (Gs1 & Gs2); destruct k; assumption).
  destruct (named_bears (id_field k) (piece 0) (signal_namespace k o) cands (part 0)) as (named & E & F).
  - intros v ns. unfold signal_namespace. rewrite V. destruct k; reflexivity.
  - intros s p q. apply piece_fun.
  - apply part0_ok.
  - eapply Forall_impl; [|exact Fc]. intros v (W & H). split; [apply red_object_type, W|exact H].
  - exists cands, named. split; [reflexivity|]. split; [destruct k; exact E|]. split; [eapply forall2_impl; [|exact F]; intros x y (H & _); exact H|].
    eapply forall2_forall; [|exact F|exact Fc]. intros x y (B & O) (W & _). eapply bears_formed; eassumption.
Qed.
(* the attributes of a signal *)
Definition inner (o : options) (w w' : json) : Prop :=
  (match the "attributes" w with
   | JArr l => exists l', the "attributes" w' = JArr l' /\ attributes_reduced o l l'
   | _ => the "attributes" w' = JNull
   end) /\ forall k, k <> "attributes" -> the k w' = the k w.
Lemma attributes_pass_ok o w : well_formed w -> exists w', attributes_pass o w = Some w' /\ inner o w w' /\ object w'.
Proof.
  intros (W & A). unfold attributes_pass, inner. destruct (red_object_type _ W) as (m & ->). rewrite (jfield_obj "attributes" (JObj m)) by (eexists; reflexivity).
  destruct (the "attributes" (JObj m)) as [| | | |l|] eqn:E; try contradiction; cbn [jset].
  - eexists. split; [reflexivity|]. split; [split; [rewrite the_set; reflexivity|]|eexists; reflexivity]. intros k N. rewrite the_set. destruct (String.eqb_spec k "attributes"); [contradiction|reflexivity].
  - destruct (filters_ok o l A) as (l' & -> & (kept & C & F) & _). cbn [then_ jset]. eexists. split; [reflexivity|]. split; [split|eexists; reflexivity].
    + exists l'. split; [rewrite the_set; reflexivity|]. exists kept. split; [exact C|]. eapply forall2_impl; [|exact F]. intros x y (T & H). split; [exact T|]. intros k N. apply H, N.
    + intros k N. rewrite the_set. destruct (String.eqb_spec k "attributes"); [contradiction|reflexivity].
Qed.
Lemma red_formed P v v' : red P v v' -> well_typed v' -> well_formed v -> well_formed v'.
Proof. intros (_ & H) W (_ & A). split; [exact W|]. destruct (H "attributes") as (-> & _); [discriminate|]. exact A. Qed.
Lemma signal_key_as k v : signal_key k v = as_key (signal_name_of k v).
Proof. destruct k; cbn [signal_key signal_name_of]; [apply field_or_as|apply get_as|apply get_as|apply get_as]. Qed.

Theorem C109_signals_partial : forall k d o, good_document d ->
  exists out shown, semconv_signals k d o = Some out /\ signal_selection k d o shown /\ Permutation shown out /\
    StronglySorted (by_then (signal_name_of k) (the "root_namespace")) out.
Proof.
  intros k d o G. destruct (signals_named k d o G) as (cands & named & Cd & En & Fb & Wn).
  destruct (filters_ok o named) as (out1 & Ef & Pf & W1); [eapply Forall_impl; [|exact Wn]; intros v (H & _); exact H|].
  assert (W1' : Forall well_formed out1).
  { destruct Pf as (kept & C & F). assert (Wk : Forall well_formed kept) by (eapply forall_chosen; eassumption). clear - F Wk W1. induction F as [|x y l l' R F IH]; [constructor|]. inversion Wk; inversion W1; subst. constructor; [eapply red_formed; eassumption|auto]. }
  destruct (mapm_ok (attributes_pass o) well_formed (inner o) object out1 (attributes_pass_ok o) W1') as (out1' & Em & Fi & Oi).
  assert (Nn : Forall (fun v => object v /\ exists ns, the "root_namespace" v = JStr ns) out1').
  { pose proof (passed_ns _ _ _ _ _ Fb Pf W1) as X. clear - Fi Oi X. induction Fi as [|x y l l' (_ & H) F IH]; [constructor|]. inversion Oi; inversion X as [|? ? (_ & ns & E) X']; subst. constructor; [split; [assumption|]; exists ns; rewrite H by discriminate; exact E|auto]. }
  destruct (namespace_ok o out1' Nn) as (out2 & Es & Cs).
  destruct (sort_by_ok (the "root_namespace") (get "root_namespace") (get_as _) out2) as (P1 & S1).
  destruct (sort_by_ok (signal_name_of k) (signal_key k) (signal_key_as k) (sort_by (get "root_namespace") out2)) as (P2 & _).
  exists (sort_by (signal_key k) (sort_by (get "root_namespace") out2)), out2. split; [|split; [|split; [etransitivity; eassumption|]]].
  - unfold semconv_signals, semconv_signal. rewrite En. cbn [then_]. rewrite Ef. cbn [then_]. rewrite Em. cbn [then_]. rewrite Es. reflexivity.
  - destruct (assemble o (signal_namespace k o) (inner o) cands named out1 out1' out2 Fb Pf Fi) as (kept & C & F); [intros w w' (_ & H); apply H; discriminate|exact Cs|].
    exists cands, kept. split; [exact Cd|]. split; [exact C|]. eapply forall2_impl; [|exact F]. intros v v' (m & w & (ns & N & _ & R & H) & (T & K) & (A & B)). exists ns. split; [exact N|]. split; [|split; [|split]].
    + destruct (H "type") as (E & _); [discriminate|]. rewrite E in T. rewrite (B "type") by discriminate. exact T.
    + rewrite (B "root_namespace") by discriminate. destruct (K "root_namespace") as (-> & _); [discriminate|]. exact R.
    + destruct (K "attributes") as (E1 & _); [discriminate|]. destruct (H "attributes") as (E2 & _); [discriminate|]. rewrite E1, E2 in A. exact A.
    + intros n X Y Z. rewrite (B n Z). destruct (K n X) as (-> & _). apply H, Y.
  - apply (sort_again_ok (signal_name_of k) (signal_key k) (signal_key_as k)). exact S1.
Qed.
Print Assumptions C109_signals_partial.

Theorem C109_grouped_signals : forall k d o, good_document d ->
  exists sel gs, semconv_signals k d o = Some sel /\ semconv_grouped_signals k d o = Some gs /\
    groups_of (fun a b => text_le (signal_name_of k a) (signal_name_of k b)) sel gs.
Proof.
  intros k d o G. destruct (C109_signals_partial k d o G) as (out & shown & E & (cands & kept & _ & _ & F) & P & _). exists out, (grouped (signal_key k) out). split; [exact E|]. unfold semconv_grouped_signals. rewrite E. split; [reflexivity|].
  apply grouped_ok; [apply signal_key_as|]. eapply Permutation_Forall; [exact P|]. eapply forall2_forall with (W := fun _ => True); [|exact F|apply Forall_forall; auto]. intros x y (ns & _ & _ & R & _) _. eauto.
Qed.
Print Assumptions C109_grouped_signals.

(* a boolean option set to false should act as if it were left out: this one does not, because
   only its presence is looked at *)
Theorem C109_ignore_refuted :
  let a := with_name "a.b" [("annotations", excluded_from_code)] in
  let o := {| op_v2 := None; op_stable_only := false; op_exclude_stability := None; op_ignore_annotations := Some false;
              op_exclude_deprecated := None; op_exclude_namespace := None |} in
  good_document (registry_of [a]) /\ annotated_away a /\
  semconv_attributes (registry_of [a]) no_options = Some [] /\
  exists out, semconv_attributes (registry_of [a]) o = Some [out] /\ the "name" out = JStr "a.b".
Proof.
  split; [|split; [split; discriminate|split; [reflexivity|eexists; split; reflexivity]]].
  split; [constructor; [|constructor]; split; [|eexists; reflexivity]|].
  - split; [split; [split; [eexists; reflexivity|split; left; reflexivity]|exact I]|]. cbn. constructor; [|constructor]. split; [split; [eexists; reflexivity|split; right; eexists; reflexivity]|exact I].
  - split; [|repeat constructor]. intros g l v [<-|[]] E. injection E as <-. intros [<-|[]]. eexists; reflexivity.
Qed.
Print Assumptions C109_ignore_refuted.

(* the attributes of an entity of a version 2 registry are its identity and its description:
   the options are not applied to them, whatever they are *)
Theorem C109_entity_attributes_refuted : forall identity,
  let e := JObj [("type", JStr "host"); ("stability", JStr "stable"); ("identity", JArr identity)] in
  exists out, semconv_signals Entity (v2_registry_of [] [e]) v2_options = Some [out] /\ the "identity" out = JArr identity.
Proof. intros identity. eexists. split; reflexivity. Qed.
Print Assumptions C109_entity_attributes_refuted.

(* the namespace of a name without a dot depends on the version of the document *)
Theorem C109_namespace_refuted : forall (n : string), (forall a b, n <> a ++ "." ++ b) ->
  exists x y, semconv_attributes (registry_of [with_name n []]) no_options = Some [x] /\ the "root_namespace" x = JStr "other" /\
    semconv_attributes (v2_registry_of [with_key n [("stability", JStr "stable")]] []) v2_options = Some [y] /\ the "root_namespace" y = JStr n.
Proof.
  intros n H. pose proof (proj2 (any_dot n) H) as C. pose proof (split_dotless n H) as S.
  eexists. eexists. split; [|split; [|split]].
  - unfold semconv_attributes, named_attributes. cbn -[contains split_char]. rewrite C. reflexivity.
  - reflexivity.
  - unfold semconv_attributes, named_attributes. cbn -[contains split_char]. unfold part. rewrite S. reflexivity.
  - reflexivity.
Qed.
Print Assumptions C109_namespace_refuted.

(* an annotation of another shape than expected ends every selection of the document *)
Theorem C109_annotation_refuted : forall o names (b : bool), op_ignore_annotations o = None -> op_v2 o = None -> op_stable_only o = false -> op_exclude_stability o = None ->
  semconv_attributes (registry_of (List.app (map (fun n => with_name n []) names) [with_name "a.b" [("annotations", JObj [("code_generation", JBool b)])]])) o = None.
Proof.
  intros o names b E V St Ex. unfold semconv_attributes, named_attributes, is_v2. rewrite V. cbn -[contains split_char mapm List.app map]. rewrite app_nil_r.
  set (f := add_namespace _ _). destruct (mapm f _) as [l|] eqn:M; [|reflexivity]. cbn [then_]. unfold filters, stability_filter. rewrite St, Ex. unfold code_generation_exclude_filter, pass. rewrite E.
  assert (J : jselect not_annotated l = None); [|rewrite J; reflexivity].
  revert l M. induction names as [|n names IH]; intros l M; cbn [map List.app mapm] in M.
  - injection M as <-. destruct b; reflexivity.
  - destruct (f (with_name n [])) eqn:F; [|discriminate]. destruct (mapm f _) as [l'|] eqn:M' in M; [|discriminate]. injection M as <-. cbn [jselect]. rewrite (IH l' M'). destruct (not_annotated j); reflexivity.
Qed.
Print Assumptions C109_annotation_refuted.

(* ---------- cases ---------- *)
Local Ltac a_plain := split; [eexists; reflexivity|split; first [left; reflexivity|right; eexists; reflexivity]].
Local Ltac a_well := split; [a_plain|first [exact I|cbn; eexists; split; [reflexivity|repeat (constructor; [a_plain|]); constructor]]].
Example C109_case_good : good_document sample_document.
Proof.
  split; [|split; [|repeat constructor]].
  - repeat (constructor; [split; [split; [a_well|cbn; first [exact I|repeat (constructor; [a_well|]); constructor]]|eexists; reflexivity]|]). constructor.
  - intros g l v Hg E Hv. destruct Hg as [<-|[<-|[<-|[]]]]; cbn in E; try discriminate E; injection E as <-; cbn in Hv; repeat (destruct Hv as [<-|Hv]; [eexists; reflexivity|]); destruct Hv.
Qed.
Example C109_case_attributes :
  option_map (map (the "name")) (semconv_attributes sample_document sample_options) = Some [JStr "http.method"; JStr "http.route"].
Proof. reflexivity. Qed.
Example C109_case_metrics :
  option_map (map (fun v => (the "metric_name" v, match the "attributes" v with JArr l => map (the "name") l | _ => [] end))) (semconv_signals Metric sample_document sample_options)
  = Some [(JStr "http.duration", [JStr "http.route"])].
Proof. reflexivity. Qed.
Example C109_case_groups :
  option_map (map (fun g => (fst g, map (the "name") (snd g)))) (semconv_grouped_attributes sample_document no_options)
  = Some [(Some "http", [JStr "http.flavor"; JStr "http.method"; JStr "http.route"]); (Some "url", [JStr "url.path"])].
Proof. reflexivity. Qed.
