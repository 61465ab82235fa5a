(* Statistics (C91). *)
From Coq Require Import String Ascii Bool Arith Lia Permutation List.
From Coq Require DecimalString DecimalNat.
Import ListNotations.
From Verif Require Import Base BaseProofs SemTypes Json Resolved ResultModel ResultSpec ResultProofs
  StatsModel StatsSpec.
Local Open Scope string_scope.

(* ------------------------------------------------------------------ counting *)

Lemma number_fun {A} (P : A -> Prop) l n m : number P l n -> number P l m -> n = m.
Proof.
  intros H; revert m; induction H as [|a l n Ha H IH|a l n Ha H IH]; intros m Hm; inversion Hm; subst;
    try contradiction; auto.
Qed.

Lemma number_snoc {A} (P : A -> Prop) l a n :
  number P (app l [a]) n <-> (P a /\ exists m, n = S m /\ number P l m) \/ (~ P a /\ number P l n).
Proof.
  split.
  - revert n; induction l as [|b l IH]; intros n H; cbn [app] in H.
    + inversion H as [|? ? k Ha Hk|? ? k Ha Hk]; subst; inversion Hk; subst.
      * left; split; [exact Ha|]; exists 0; split; [reflexivity|constructor].
      * right; split; [exact Ha|constructor].
    + inversion H as [|? ? k Hb Hk|? ? k Hb Hk]; subst; destruct (IH _ Hk) as [[Ha [m [-> Hm]]]|[Ha Hm]].
      * left; split; [exact Ha|]; exists (S m); split; [reflexivity|now apply num_yes].
      * right; split; [exact Ha|now apply num_yes].
      * left; split; [exact Ha|]; exists m; split; [reflexivity|now apply num_no].
      * right; split; [exact Ha|now apply num_no].
  - intros [[Ha [m [-> H]]]|[Ha H]]; induction H; cbn [app].
    + apply num_yes; [exact Ha|constructor].
    + now apply num_yes.
    + now apply num_no.
    + apply num_no; [exact Ha|constructor].
    + now apply num_yes.
    + now apply num_no.
Qed.

Lemma number_ex {A} (P : A -> Prop) (D : forall a, P a \/ ~ P a) l : exists n, number P l n.
Proof.
  induction l as [|a l [n IH]]; [exists 0; constructor|].
  destruct (D a) as [H|H]; [exists (S n); now apply num_yes|exists n; now apply num_no].
Qed.

Lemma number_ext {A} (P Q : A -> Prop) l n : (forall a, P a <-> Q a) -> number P l n -> number Q l n.
Proof.
  intros E H; induction H as [|a l n Ha H IH|a l n Ha H IH]; [constructor|apply num_yes|apply num_no]; auto.
  - now apply E.
  - rewrite <- E; exact Ha.
Qed.

Lemma number_filter {A} (P : A -> Prop) f l :
  (forall a, f a = true <-> P a) -> number P l (length (filter f l)).
Proof.
  intros E; induction l as [|a l IH]; cbn [filter length]; [constructor|].
  destruct (f a) eqn:F; cbn [length].
  - apply num_yes; [now apply E|exact IH].
  - apply num_no; [|exact IH]. rewrite <- E, F; discriminate.
Qed.

Lemma number_map {A B} (P : B -> Prop) (f : A -> B) l n :
  number P (map f l) n <-> number (fun a => P (f a)) l n.
Proof.
  revert n; induction l as [|a l IH]; intros n; cbn [map].
  - split; intros H; inversion H; constructor.
  - split; intros H; inversion H; subst; (apply num_yes || apply num_no); try assumption; now apply IH.
Qed.

Lemma number_perm {A} (P : A -> Prop) l l' n : Permutation l l' -> number P l n -> number P l' n.
Proof.
  intros H; revert n; induction H as [|x l l' Hp IH|x y l|l l' l'' H1 IH1 H2 IH2]; intros n Hn; auto.
  - inversion Hn; subst; [apply num_yes|apply num_no]; auto.
  - inversion Hn as [|? ? k Hy Hk|? ? k Hy Hk]; subst; inversion Hk as [|? ? j Hx Hj|? ? j Hx Hj]; subst.
    all: first [ apply num_yes; [assumption|apply num_yes; assumption]
               | apply num_yes; [assumption|apply num_no; assumption]
               | apply num_no; [assumption|apply num_yes; assumption]
               | apply num_no; [assumption|apply num_no; assumption] ].
Qed.

Section Breakdown.
  Context {A K : Type} (eqb : K -> K -> bool).
  Hypothesis eqb_spec : forall a b, eqb a b = true <-> a = b.
  Variable f : A -> option K.

  Lemma dec_at k : forall a, f a = Some k \/ f a <> Some k.
  Proof.
    intros a; destruct (f a) as [x|]; [|right; discriminate].
    destruct (eqb x k) eqn:E; [left|right].
    - apply eqb_spec in E; now subst.
    - intros H; injection H as ->; rewrite (proj2 (eqb_spec k k) eq_refl) in E; discriminate.
  Qed.

  Lemma breakdown_lookup l (m : list (K * nat)) :
    breakdown (fun a k => f a = Some k) l m ->
    forall k, number (fun a => f a = Some k) l
      (match lookup eqb k m with Some n => n | None => 0 end).
  Proof.
    intros [Hn H] k. destruct (lookup eqb k m) as [n|] eqn:E.
    - apply (lookup_in eqb eqb_spec) in E. now apply H in E.
    - destruct (number_ex _ (dec_at k) l) as [n Hk]. destruct n as [|n]; [exact Hk|].
      assert (I : In (k, S n) m) by (apply H; split; [exact Hk|discriminate]).
      apply (in_lookup eqb eqb_spec) in I; [|exact Hn]. congruence.
  Qed.

  Lemma breakdown_nil : breakdown (fun a k => f a = Some k) [] [].
  Proof.
    split; [constructor|]. intros k n; split; [intros []|].
    intros [H H0]; inversion H; subst; now destruct H0.
  Qed.

  Lemma breakdown_none l a (m : list (K * nat)) :
    f a = None -> breakdown (fun a k => f a = Some k) l m ->
    breakdown (fun a k => f a = Some k) (app l [a]) m.
  Proof.
    intros E [Hn H]; split; [exact Hn|]. intros k n; rewrite H, number_snoc. split.
    - intros [H1 H2]; split; [|exact H2]. right; split; [rewrite E; discriminate|exact H1].
    - intros [[[E1 _]|[_ H1]] H2]; [congruence|now split].
  Qed.

  Lemma breakdown_bump l a k (m : list (K * nat)) :
    f a = Some k -> breakdown (fun a k => f a = Some k) l m ->
    breakdown (fun a k => f a = Some k) (app l [a]) (bump eqb k m).
  Proof.
    intros E B; assert (L := breakdown_lookup l m B). destruct B as [Hn H].
    assert (N : NoDup (map fst (bump eqb k m))) by (apply insert_nodup; assumption).
    split; [exact N|]. intros k' n.
    assert (Hin : In (k', n) (bump eqb k m) <-> lookup eqb k' (bump eqb k m) = Some n).
    { split; [now apply in_lookup|now apply lookup_in]. }
    rewrite Hin, number_snoc; unfold bump. clear Hin.
    destruct (eqb k' k) eqn:F.
    - apply eqb_spec in F; subst k'. rewrite lookup_insert_eq by assumption. specialize (L k). split.
      + intros X; injection X as <-. split; [|discriminate].
        left; split; [exact E|]. eexists; split; [reflexivity|exact L].
      + intros [[[_ [j [-> Hj]]]|[X _]] _]; [|contradiction]. f_equal; f_equal. exact (number_fun _ _ _ _ L Hj).
    - assert (Hne : k' <> k).
      { intros ->; rewrite (proj2 (eqb_spec k k) eq_refl) in F; discriminate. }
      rewrite lookup_insert_ne by assumption. specialize (H k' n). split.
      + intros X; apply (lookup_in eqb eqb_spec) in X; apply H in X; destruct X as [X1 X2].
        split; [|exact X2]. right; split; [congruence|exact X1].
      + intros [[[X _]|[_ X]] X2]; [congruence|].
        apply in_lookup; [assumption|exact Hn|]. apply H; now split.
  Qed.
End Breakdown.

Lemma breakdown_ext {A K} (p q : A -> K -> Prop) l m :
  (forall a k, p a k <-> q a k) -> breakdown p l m -> breakdown q l m.
Proof.
  intros E [Hn H]; split; [exact Hn|]. intros k n; rewrite H. split; intros [H1 H2]; split; try exact H2.
  - eapply number_ext; [|exact H1]. intros a; apply E.
  - eapply number_ext; [|exact H1]. intros a; symmetry; apply E.
Qed.

Lemma tally_true {A K} (eqb : K -> K -> bool) (E : forall a b, eqb a b = true <-> a = b) (key : A -> K) l :
  breakdown (fun a k => key a = k) l (tally eqb key l).
Proof.
  apply breakdown_ext with (p := fun a k => Some (key a) = Some k).
  { intros a k; split; congruence. }
  unfold tally.
  induction l as [|a l IH] using rev_ind; [apply breakdown_nil|].
  rewrite fold_left_app; cbn [fold_left].
  apply (breakdown_bump eqb E (fun a => Some (key a))); [reflexivity|exact IH].
Qed.

Lemma tally_optional {A K} (eqb : K -> K -> bool) (E : forall a b, eqb a b = true <-> a = b)
    (f : A -> option K) l :
  breakdown (fun a k => f a = Some k) l
    (tally eqb (fun s => s) (flat_map (fun a => match f a with Some s => [s] | None => [] end) l)).
Proof.
  unfold tally. induction l as [|a l IH] using rev_ind; [apply breakdown_nil|].
  rewrite flat_map_app, fold_left_app; cbn [flat_map]. destruct (f a) as [k|] eqn:F; cbn [app fold_left].
  - now apply breakdown_bump.
  - now apply breakdown_none.
Qed.

Lemma stability_eqb_spec a b : stability_eqb a b = true <-> a = b.
Proof. destruct a, b; cbn; split; congruence. Qed.
Lemma span_kind_eqb_spec a b : span_kind_eqb a b = true <-> a = b.
Proof. destruct a, b; cbn; split; congruence. Qed.
Lemma instrument_eqb_spec a b : instrument_eqb a b = true <-> a = b.
Proof. destruct a, b; cbn; split; congruence. Qed.
Lemma group_type_eqb_spec a b : group_type_eqb a b = true <-> a = b.
Proof. destruct a, b; cbn; split; congruence. Qed.

Lemma names_snoc {A} (f : A -> option string) l a n s :
  f a = Some n -> names_of (fun a x => f a = Some x) l s ->
  names_of (fun a x => f a = Some x) (app l [a]) (set_add n s).
Proof.
  intros F [Hn H]. unfold set_add. destruct (existsb (String.eqb n) s) eqn:E.
  - split; [exact Hn|]. intros x; rewrite H. split.
    + intros [b [Hb Hx]]; exists b; split; [apply in_or_app; now left|exact Hx].
    + intros [b [Hb Hx]]. apply in_app_or in Hb. destruct Hb as [Hb|[<-|[]]]; [now exists b|].
      apply H. apply existsb_exists in E. destruct E as [y [Hy E]]. apply String.eqb_eq in E. congruence.
  - assert (Hni : ~ In n s).
    { intros I. assert (X : existsb (String.eqb n) s = true).
      { apply existsb_exists; exists n; split; [exact I|apply String.eqb_refl]. } congruence. }
    split.
    + apply Permutation_NoDup with (l := n :: s); [apply Permutation_cons_append|now constructor].
    + intros x. rewrite in_app_iff, H. split.
      * intros [[b [Hb Hx]]|[<-|[]]].
        { exists b; split; [apply in_or_app; now left|exact Hx]. }
        exists a; split; [apply in_or_app; right; now left|exact F].
      * intros [b [Hb Hx]]. apply in_app_or in Hb. destruct Hb as [Hb|[<-|[]]].
        { left; now exists b. }
        right; left; congruence.
Qed.

Lemma name_set_true {A} (name : A -> string) l :
  names_of (fun a x => name a = x) l (name_set name l).
Proof.
  assert (H : names_of (fun a x => Some (name a) = Some x) l (name_set name l)).
  { unfold name_set. induction l as [|a l IH] using rev_ind.
    - split; [constructor|]. intros x; split; [intros []|intros [b [[] _]]].
    - rewrite fold_left_app; cbn [fold_left].
      apply (names_snoc (fun a => Some (name a))); [reflexivity|exact IH]. }
  destruct H as [Hn H]; split; [exact Hn|]. intros x; rewrite H.
  split; intros [a [Ha Hx]]; exists a; split; congruence || assumption.
Qed.

Lemma total_snoc {A} (f : A -> nat) l a : total f (app l [a]) = total f l + f a.
Proof. induction l as [|b l IH]; cbn [app total]; lia. Qed.

(* ------------------------------------------------------------------ V1 groups *)

Lemma number_one {A} (P : A -> Prop) (b : bool) l a n :
  (b = true <-> P a) -> number P l n -> number P (app l [a]) (n + one_if b).
Proof.
  intros E H. apply number_snoc. destruct b; cbn [one_if].
  - left; split; [now apply E|]. exists n; split; [lia|exact H].
  - right; split; [rewrite <- E; discriminate|]. now rewrite Nat.add_0_r.
Qed.

Lemma non_empty s : negb (String.eqb s "") = true <-> s <> "".
Proof. rewrite negb_true_iff. apply String.eqb_neq. Qed.
Lemma is_some_not_none {A} (o : option A) : is_some o = true <-> o <> None.
Proof. destruct o; cbn; split; congruence. Qed.

Lemma update_true l c g : true_common l c -> true_common (app l [g]) (update_stats c g).
Proof.
  intros (H1 & H2 & H3 & H4 & H5 & H6 & H7).
  unfold true_common, update_stats; cbn [cs_count cs_attributes cs_prefix cs_note cs_stability cs_deprecated cs_cards].
  split; [rewrite app_length; cbn [length]; lia|].
  split; [rewrite total_snoc; lia|].
  split; [apply number_one; [apply non_empty|exact H3]|].
  split; [apply number_one; [apply non_empty|exact H4]|].
  split.
  { destruct (g_stability g) as [s|] eqn:E.
    - apply breakdown_bump; [exact stability_eqb_spec|exact E|exact H5].
    - apply breakdown_none; assumption. }
  split; [apply number_one; [apply is_some_not_none|exact H6]|].
  apply breakdown_ext with (p := fun g k => Some (length (g_attributes g)) = Some k).
  { intros a k; split; congruence. }
  apply (breakdown_bump Nat.eqb Nat.eqb_eq (fun g => Some (length (g_attributes g)))); [reflexivity|].
  eapply breakdown_ext; [|exact H7]. intros a k; split; congruence.
Qed.

Lemma default_true : true_common [] common_default.
Proof.
  unfold true_common, common_default; cbn [cs_count cs_attributes cs_prefix cs_note cs_stability cs_deprecated cs_cards].
  split; [reflexivity|]; split; [reflexivity|]; split; [constructor|]; split; [constructor|].
  split; [apply breakdown_nil|]; split; [constructor|].
  apply breakdown_ext with (p := fun g k => Some (length (g_attributes g)) = Some k).
  { intros a k; split; congruence. }
  apply breakdown_nil.
Qed.

Lemma initial_true t : true_entry t [] (initial_stats t).
Proof.
  assert (D := default_true).
  assert (N : forall f : group -> option string, names_of (fun g n => f g = Some n) [] []).
  { intros f; split; [constructor|]. intros x; split; [intros []|intros [b [[] _]]]. }
  destruct t; cbn [initial_stats true_entry];
    try (split; [discriminate|]; split; [discriminate|exact D]).
  - split; [reflexivity|]; split; [exact D|apply breakdown_nil].
  - split; [reflexivity|]; split; [exact D|]; split; [apply N|]; split; apply breakdown_nil.
Qed.

Lemma entry_true t l e g e' :
  true_entry t l e -> update_entry e g = Some e' -> true_entry t (app l [g]) e'.
Proof.
  intros H U. destruct e as [c|c names ins units|c kinds]; cbn [true_entry update_entry] in *.
  - injection U as <-. cbn [true_entry]. destruct H as (H1 & H2 & H3).
    split; [exact H1|]; split; [exact H2|now apply update_true].
  - destruct (g_metric_name g) as [n|] eqn:En; [|discriminate].
    destruct (g_instrument g) as [i|] eqn:Ei; [|discriminate].
    destruct (g_unit g) as [u|] eqn:Eu; [|discriminate].
    injection U as <-. cbn [true_entry]. destruct H as (H1 & H2 & H3 & H4 & H5).
    split; [exact H1|]; split; [now apply update_true|].
    split; [now apply names_snoc|].
    split; [apply breakdown_bump; [exact instrument_eqb_spec|exact Ei|exact H4]|].
    apply breakdown_bump; [exact String.eqb_eq|exact Eu|exact H5].
  - injection U as <-. cbn [true_entry]. destruct H as (H1 & H2 & H3).
    split; [exact H1|]; split; [now apply update_true|].
    destruct (g_span_kind g) as [k|] eqn:E.
    + apply breakdown_bump; [exact span_kind_eqb_spec|exact E|exact H3].
    + now apply breakdown_none.
Qed.

Lemma of_type_fun t l a b : of_type t l a -> of_type t l b -> a = b.
Proof.
  intros H; revert b; induction H as [|g l l' Hg H IH|g l l' Hg H IH]; intros b Hb; inversion Hb; subst;
    try contradiction; f_equal; auto.
Qed.
Lemma of_type_ex t l : exists l', of_type t l l'.
Proof.
  induction l as [|g l [l' IH]]; [exists []; constructor|].
  destruct (group_type_eqb (g_type g) t) eqn:E.
  - apply group_type_eqb_spec in E. exists (g :: l'); now constructor.
  - exists l'; apply ot_no; [|exact IH]. intros X; apply group_type_eqb_spec in X; congruence.
Qed.
Lemma of_type_snoc_yes t l l' g : g_type g = t -> of_type t l l' -> of_type t (app l [g]) (app l' [g]).
Proof.
  intros E H; induction H; cbn [app].
  - constructor; [exact E|constructor].
  - now constructor.
  - now apply ot_no.
Qed.
Lemma of_type_snoc_no t l l' g : g_type g <> t -> of_type t l l' -> of_type t (app l [g]) l'.
Proof.
  intros E H; induction H; cbn [app].
  - apply ot_no; [exact E|constructor].
  - now constructor.
  - now apply ot_no.
Qed.

(* what the fold has counted so far *)
Definition so_far (done : list group) (m : list (group_type * group_stats)) : Prop :=
  NoDup (map fst m) /\
  forall t l, of_type t done l ->
    match lookup group_type_eqb t m with
    | Some e => l <> [] /\ true_entry t l e
    | None => l = []
    end.

Lemma fold_true gs : forall done acc m,
  so_far done acc -> group_fold gs acc = Some m -> so_far (app done gs) m.
Proof.
  induction gs as [|g gs IH]; intros done acc m H F; cbn [group_fold] in F.
  - injection F as <-. now rewrite app_nil_r.
  - destruct (update_entry _ g) as [e'|] eqn:U; [|discriminate].
    replace (app done (g :: gs)) with (app (app done [g]) gs) by (rewrite <- app_assoc; reflexivity).
    eapply IH; [|exact F]. destruct H as [Hn H]. split.
    + apply insert_nodup; [exact group_type_eqb_spec|exact Hn].
    + intros t l Hl. destruct (group_type_eqb t (g_type g)) eqn:E.
      * apply group_type_eqb_spec in E; subst t.
        rewrite lookup_insert_eq by exact group_type_eqb_spec.
        destruct (of_type_ex (g_type g) done) as [l0 H0].
        assert (X : l = app l0 [g]).
        { eapply of_type_fun; [exact Hl|]. now apply of_type_snoc_yes. }
        subst l. split; [intros Z; destruct l0; discriminate Z|].
        specialize (H _ _ H0). destruct (lookup group_type_eqb (g_type g) acc) as [e|].
        { destruct H as [_ H]. eapply entry_true; eassumption. }
        subst l0. eapply entry_true; [apply initial_true|exact U].
      * assert (Hne : t <> g_type g).
        { intros X; apply group_type_eqb_spec in X; congruence. }
        rewrite lookup_insert_ne by (exact group_type_eqb_spec || exact Hne).
        destruct (of_type_ex t done) as [l0 H0].
        assert (X : l = l0).
        { eapply of_type_fun; [exact Hl|]. apply of_type_snoc_no; [congruence|exact H0]. }
        subst l0. exact (H _ _ H0).
Qed.

Lemma stats1_so_far s st : stats1 s = Some st ->
  rs_url st = s1_url s /\ rs_count st = length (s1_groups s) /\ so_far (s1_groups s) (rs_breakdown st).
Proof.
  unfold stats1; intros H. destruct (group_fold (s1_groups s) []) as [m|] eqn:F; [|discriminate].
  injection H as <-. cbn [rs_url rs_count rs_breakdown]. split; [reflexivity|]; split; [reflexivity|].
  apply (fold_true (s1_groups s) [] [] m); [|exact F].
  split; [constructor|]. intros t l Hl; inversion Hl; reflexivity.
Qed.

(* C91: the statistics of a resolved registry are what a count by hand would give: per
   type of group the numbers, the breakdowns and the names, and a type is listed exactly
   when the registry has a group of it. *)
Theorem C91_groups s st :
  stats1 s = Some st ->
  rs_url st = s1_url s /\ rs_count st = length (s1_groups s) /\
  NoDup (map fst (rs_breakdown st)) /\
  (forall t, In t (map fst (rs_breakdown st)) <-> exists g, In g (s1_groups s) /\ g_type g = t) /\
  (forall t e l, In (t, e) (rs_breakdown st) -> of_type t (s1_groups s) l -> true_entry t l e).
Proof.
  intros H. destruct (stats1_so_far _ _ H) as (H1 & H2 & Hn & H3).
  split; [exact H1|]; split; [exact H2|]; split; [exact Hn|]. split.
  - intros t. destruct (of_type_ex t (s1_groups s)) as [l Hl]. specialize (H3 t l Hl).
    assert (M : forall gs l, of_type t gs l -> (l <> [] <-> exists g, In g gs /\ g_type g = t)).
    { clear. intros gs l Hl; induction Hl as [|g gs l Hg Hl IH|g gs l Hg Hl IH].
      - split; [congruence|intros [g [[] _]]].
      - split; [|discriminate]. intros _; exists g; split; [now left|exact Hg].
      - rewrite IH. split; intros [x [Hx E]]; exists x; split; try exact E; [now right|].
        destruct Hx as [->|Hx]; [contradiction|exact Hx]. }
    rewrite <- (M _ _ Hl). destruct (lookup group_type_eqb t (rs_breakdown st)) as [e|] eqn:E.
    + split; [intros _; apply H3|]. intros _. apply (lookup_in _ group_type_eqb_spec) in E.
      apply in_map_iff; now exists (t, e).
    + subst l. split; [|congruence]. intros I. apply (lookup_none _ group_type_eqb_spec) in E. contradiction.
  - intros t e l I Hl. apply (in_lookup _ group_type_eqb_spec) in I; [|exact Hn].
    specialize (H3 t l Hl). rewrite I in H3. apply H3.
Qed.
Print Assumptions C91_groups.

(* C91: the statistics can be computed exactly when every metric group has its name,
   instrument and unit; otherwise the program panics. *)
Theorem C91_panic s :
  stats1 s = None <-> exists g, In g (s1_groups s) /\ g_type g = GMetric /\ ~ complete_metric g.
Proof.
  assert (U : forall done acc g, so_far done acc ->
    (update_entry (match lookup group_type_eqb (g_type g) acc with Some e => e | None => initial_stats (g_type g) end) g
       = None <-> g_type g = GMetric /\ ~ complete_metric g)).
  { intros done acc g [_ H]. destruct (of_type_ex (g_type g) done) as [l Hl]. specialize (H _ _ Hl).
    assert (T : exists l, true_entry (g_type g) l
      (match lookup group_type_eqb (g_type g) acc with Some e => e | None => initial_stats (g_type g) end)).
    { destruct (lookup group_type_eqb (g_type g) acc) as [e|]; [exists l; apply H|].
      exists []; apply initial_true. }
    destruct T as [l' T]. remember (match lookup group_type_eqb (g_type g) acc with
      | Some e => e | None => initial_stats (g_type g) end) as e. clear Heqe H.
    destruct e as [c|c names ins units|c kinds]; cbn [update_entry true_entry] in *.
    - split; [discriminate|]. destruct T as [T _]. intros [X _]; contradiction.
    - destruct T as [T _]. unfold complete_metric.
      destruct (g_metric_name g), (g_instrument g), (g_unit g);
        split; intros X; try discriminate X; try reflexivity;
          try (split; [exact T|]; intros (Y1 & Y2 & Y3); congruence).
      destruct X as [_ X]. exfalso; apply X. split; [discriminate|]; split; discriminate.
    - split; [discriminate|]. destruct T as [T _]. intros [X _]; congruence. }
  assert (F : forall gs done acc, so_far done acc ->
    (group_fold gs acc = None <-> exists g, In g gs /\ g_type g = GMetric /\ ~ complete_metric g)).
  { induction gs as [|g gs IH]; intros done acc H; cbn [group_fold].
    - split; [discriminate|intros [g [[] _]]].
    - specialize (U done acc g H).
      destruct (update_entry _ g) as [e'|] eqn:E.
      + assert (H' : so_far (app done [g]) (insert group_type_eqb (g_type g) e' acc)).
        { apply (fold_true [g] done acc); [exact H|]. cbn [group_fold]. now rewrite E. }
        rewrite (IH _ _ H'). split.
        * intros [x [Hx P]]; exists x; split; [now right|exact P].
        * intros [x [[<-|Hx] P]]; [|now exists x]. apply U in P; discriminate P.
      + split; [|reflexivity]. intros _; exists g; split; [now left|now apply U]. }
  unfold stats1. rewrite <- (F (s1_groups s) [] []).
  - destruct (group_fold (s1_groups s) []); split; congruence.
  - split; [constructor|]. intros t l Hl; inversion Hl; reflexivity.
Qed.
Print Assumptions C91_panic.

(* the groups of the types in a list without repetition add up *)
Lemma types_add_up gs : forall (m : list (group_type * group_stats)) (count : group_stats -> nat),
  NoDup (map fst m) ->
  (forall t e l, In (t, e) m -> of_type t gs l -> count e = length l) ->
  (forall g, In g gs -> In (g_type g) (map fst m)) ->
  total (fun p => count (snd p)) m = length gs.
Proof.
  intros m count Hn Hc Hall.
  assert (G : forall m gs, NoDup (map fst m) ->
    (forall t e l, In (t, e) m -> of_type t gs l -> count e = length l) ->
    total (fun p : group_type * group_stats => count (snd p)) m =
    length (filter (fun g => existsb (fun t => group_type_eqb t (g_type g)) (map fst m)) gs)).
  { clear. induction m as [|[t e] m IH]; intros gs Hn Hc; cbn [total map fst existsb snd].
    - clear. induction gs as [|g gs IH]; [reflexivity|exact IH].
    - inversion Hn as [|? ? Hni Hn']; subst.
      rewrite (IH gs Hn') by (intros t' e' l I; apply Hc; now right).
      destruct (of_type_ex t gs) as [l Hl]. rewrite (Hc t e l (or_introl eq_refl) Hl).
      clear IH Hc. induction Hl as [|g gs l Hg Hl IHl|g gs l Hg Hl IHl]; cbn [filter length]; [reflexivity| |].
      + subst t. rewrite (proj2 (group_type_eqb_spec _ _) eq_refl). cbn [orb length].
        destruct (existsb (fun t => group_type_eqb t (g_type g)) (map fst m)) eqn:X.
        { apply existsb_exists in X. destruct X as [x [Hx X]]. apply group_type_eqb_spec in X; subst x.
          contradiction. }
        cbn [length]. rewrite <- IHl. lia.
      + destruct (group_type_eqb t (g_type g)) eqn:X.
        { apply group_type_eqb_spec in X; congruence. }
        cbn [orb].
        destruct (existsb (fun t => group_type_eqb t (g_type g)) (map fst m)); cbn [length]; lia. }
  rewrite (G m gs Hn Hc). clear G Hc. induction gs as [|g gs IH]; [reflexivity|]. cbn [filter].
  rewrite (proj2 (existsb_exists _ (map fst m))).
  - cbn [length]. f_equal. apply IH. intros x Hx; apply Hall; now right.
  - exists (g_type g); split; [apply Hall; now left|now apply group_type_eqb_spec].
Qed.

(* the count of an entry *)
Lemma entry_count t l e : true_entry t l e ->
  match e with StPlain c | StMetric c _ _ _ | StSpan c _ => cs_count c end = length l.
Proof. destruct e; cbn [true_entry]; [intros (_ & _ & H & _)|intros (_ & (H & _) & _)|intros (_ & (H & _) & _)]; exact H. Qed.

(* C91: the numbers of groups of the types add up to the number of groups. *)
Theorem C91_adds_up s st :
  stats1 s = Some st ->
  total (fun p => match snd p with StPlain c | StMetric c _ _ _ | StSpan c _ => cs_count c end)
    (rs_breakdown st) = rs_count st.
Proof.
  intros H. destruct (C91_groups _ _ H) as (_ & Hc & Hn & Hk & He). rewrite Hc.
  apply (types_add_up (s1_groups s) (rs_breakdown st)
    (fun e => match e with StPlain c | StMetric c _ _ _ | StSpan c _ => cs_count c end) Hn).
  - intros t e l I Hl. apply (entry_count t). now apply He.
  - intros g Hg. apply Hk. now exists g.
Qed.
Print Assumptions C91_adds_up.

(* ------------------------------------------------------------------ breakdowns *)

Lemma breakdown_perm {A K} (p : A -> K -> Prop) l l' m :
  Permutation l l' -> breakdown p l m -> breakdown p l' m.
Proof.
  intros P [Hn H]; split; [exact Hn|]. intros k n; rewrite H.
  split; intros [H1 H2]; split; try exact H2.
  - now apply (number_perm _ l).
  - now apply (number_perm _ l' l); [apply Permutation_sym|].
Qed.

Lemma breakdown_same {A K} (p : A -> K -> Prop) l m m' :
  breakdown p l m -> breakdown p l m' -> Permutation m m'.
Proof.
  intros [Hn H] [Hn' H']. apply NoDup_Permutation.
  - eapply NoDup_map_inv; exact Hn.
  - eapply NoDup_map_inv; exact Hn'.
  - intros [k n]. now rewrite H, H'.
Qed.

(* C91: a breakdown is determined by what it counts, whatever the order of the things
   counted: two breakdowns of the same things are the same map. *)
Theorem C91_determined {A K} (p : A -> K -> Prop) l l' m m' :
  Permutation l l' -> breakdown p l m -> breakdown p l' m' -> Permutation m m'.
Proof.
  intros P H H'. apply (breakdown_same p l' m m'); [|exact H']. now apply (breakdown_perm p l l').
Qed.
Print Assumptions C91_determined.

Lemma sum_app {K} (a b : list (K * nat)) : sum_of (app a b) = sum_of a + sum_of b.
Proof. unfold sum_of; induction a as [|x a IH]; cbn [app total]; lia. Qed.

Lemma sum_bump {K} (eqb : K -> K -> bool) k (m : list (K * nat)) :
  sum_of (bump eqb k m) = S (sum_of m).
Proof.
  unfold bump, sum_of. induction m as [|[k' v] m IH]; cbn [insert lookup]; [reflexivity|].
  destruct (eqb k k'); cbn [total snd]; [reflexivity|]. rewrite IH. lia.
Qed.

Lemma sum_tally {A K} (eqb : K -> K -> bool) (key : A -> K) l : sum_of (tally eqb key l) = length l.
Proof.
  unfold tally. assert (H : forall m, sum_of (fold_left (fun m a => bump eqb (key a) m) l m) = sum_of m + length l).
  { induction l as [|a l IH]; intros m; cbn [fold_left length]; [lia|]. rewrite IH, sum_bump. lia. }
  rewrite H. reflexivity.
Qed.

(* ------------------------------------------------------------------ labels *)

Lemma dec3_value n : option_map Nat.of_uint (DecimalString.NilEmpty.uint_of_string (dec3 n)) = Some n.
Proof.
  assert (Z : forall s, option_map Nat.of_uint (DecimalString.NilEmpty.uint_of_string (String "0" s)) =
                        option_map Nat.of_uint (DecimalString.NilEmpty.uint_of_string s)).
  { intros s. cbn [DecimalString.NilEmpty.uint_of_string].
    destruct (DecimalString.NilEmpty.uint_of_string s) as [d|]; reflexivity. }
  assert (B : option_map Nat.of_uint (DecimalString.NilEmpty.uint_of_string
                (DecimalString.NilEmpty.string_of_uint (Nat.to_uint n))) = Some n).
  { rewrite DecimalString.NilEmpty.usu. cbn [option_map]. f_equal. apply DecimalNat.Unsigned.of_to. }
  unfold dec3. destruct (String.length _) as [|[|[|j]]]; cbn [append]; rewrite ?Z; exact B.
Qed.

Lemma dec3_inj n m : dec3 n = dec3 m -> n = m.
Proof.
  intros H. assert (X := dec3_value n). rewrite H, dec3_value in X. now injection X.
Qed.

Lemma app_close a b : (a ++ ")") = (b ++ ")") -> a = b.
Proof.
  revert b; induction a as [|x a IH]; intros [|y b] H; cbn [append] in H; try reflexivity.
  - exfalso. injection H as _ H. destruct b; discriminate H.
  - exfalso. injection H as _ H. destruct a; discriminate H.
  - injection H as -> H. f_equal. now apply IH.
Qed.

(* C91: two attributes are counted under the same type exactly when their types are the
   same, except that enumerations with equally many members are counted together. *)
Theorem C91_type_labels a b : type_label a = type_label b <-> counted_together a b.
Proof.
  split.
  - destruct a as [p|p|l], b as [q|q|l']; cbn [type_label counted_together]; intros H;
      try (destruct p, q; cbn in H; congruence || (cbn; reflexivity)).
    + destruct p; discriminate H.
    + destruct p; discriminate H.
    + destruct q; discriminate H.
    + destruct q; discriminate H.
    + cbn [append] in H. injection H as H. apply app_close in H. now apply dec3_inj.
  - destruct a as [p|p|l], b as [q|q|l']; cbn [type_label counted_together]; intros H; try contradiction;
      now rewrite H.
Qed.
Print Assumptions C91_type_labels.

(* C91: the statistics of the catalog are true, and every attribute is counted once by
   type and once by requirement level. *)
Theorem C91_catalog l :
  ks_count (catalog_stats_of l) = length l /\
  breakdown (fun a k => type_label (at_type a) = k) l (ks_types (catalog_stats_of l)) /\
  breakdown (fun a k => match at_req a with
                        | RRequired => k = "required"
                        | RConditional _ => k = "conditionally_required"
                        | RRecommended | RRecommendedText _ => k = "recommended"
                        | ROptIn | ROptInText _ => k = "opt_in"
                        end) l (ks_levels (catalog_stats_of l)) /\
  breakdown (fun a s => at_stability a = Some s) l (ks_stability (catalog_stats_of l)) /\
  number (fun a => at_deprecated a <> None) l (ks_deprecated (catalog_stats_of l)) /\
  sum_of (ks_types (catalog_stats_of l)) = length l /\
  sum_of (ks_levels (catalog_stats_of l)) = length l.
Proof.
  unfold catalog_stats_of; cbn [ks_count ks_types ks_levels ks_stability ks_deprecated].
  split; [reflexivity|].
  split; [apply tally_true; exact String.eqb_eq|].
  split.
  { apply breakdown_ext with (p := fun a k => level_label (at_req a) = k).
    - intros a k. destruct (at_req a); cbn [level_label]; split; intros X; now symmetry.
    - apply (tally_true String.eqb String.eqb_eq (fun a => level_label (at_req a))). }
  split; [apply tally_optional; exact stability_eqb_spec|].
  split; [apply number_filter; intros a; apply is_some_not_none|].
  split; apply sum_tally.
Qed.
Print Assumptions C91_catalog.

(* ------------------------------------------------------------------ V2 *)

Lemma signal_true {A} (c : A -> common) l : true_signals c l (signal_loop c l).
Proof.
  unfold signal_loop.
  set (step := fun (s : signal_stats) (a : A) =>
    {| ss_count := ss_count s;
       ss_stability := bump stability_eqb (c_stability (c a)) (ss_stability s);
       ss_deprecated := ss_deprecated s + one_if (is_some (c_deprecated (c a)));
       ss_note := ss_note s + one_if (negb (String.eqb (c_note (c a)) "")) |}).
  assert (H : forall n l, let s := fold_left step l {| ss_count := n; ss_stability := []; ss_deprecated := 0; ss_note := 0 |} in
    ss_count s = n /\
    breakdown (fun a x => Some (c_stability (c a)) = Some x) l (ss_stability s) /\
    number (fun a => c_deprecated (c a) <> None) l (ss_deprecated s) /\
    number (fun a => c_note (c a) <> "") l (ss_note s)).
  { intros n l'. induction l' as [|a l' IH] using rev_ind; cbv zeta.
    - cbn [fold_left ss_count ss_stability ss_deprecated ss_note].
      split; [reflexivity|]; split; [apply (breakdown_nil (fun a => Some (c_stability (c a))))|]; split; constructor.
    - rewrite fold_left_app; cbn [fold_left]. cbv zeta in IH. destruct IH as (H1 & H2 & H3 & H4).
      unfold step at 1 3 5 7; cbn [ss_count ss_stability ss_deprecated ss_note].
      split; [exact H1|].
      split; [apply (breakdown_bump stability_eqb stability_eqb_spec (fun a => Some (c_stability (c a)))); [reflexivity|exact H2]|].
      split; apply number_one; auto using is_some_not_none, non_empty. }
  destruct (H (length l) l) as (H1 & H2 & H3 & H4).
  split; [exact H1|]. split; [|split; assumption].
  eapply breakdown_ext; [|exact H2]. intros a k; split; congruence.
Qed.

(* C91: the statistics of a V2 schema are true of its metrics, spans, events and
   entities. *)
Theorem C91_signals s :
  true_signals me2_common (r2_metrics (s2_registry s)) (t2_metrics (stats2_of s)) /\
  names_of (fun m x => me2_name m = x) (r2_metrics (s2_registry s)) (t2_metric_names (stats2_of s)) /\
  breakdown (fun m x => me2_instrument m = x) (r2_metrics (s2_registry s)) (t2_instruments (stats2_of s)) /\
  breakdown (fun m x => me2_unit m = x) (r2_metrics (s2_registry s)) (t2_units (stats2_of s)) /\
  true_signals sp2_common (r2_spans (s2_registry s)) (t2_spans (stats2_of s)) /\
  breakdown (fun m x => sp2_kind m = x) (r2_spans (s2_registry s)) (t2_kinds (stats2_of s)) /\
  true_signals ev2_common (r2_events (s2_registry s)) (t2_events (stats2_of s)) /\
  names_of (fun m x => ev2_name m = x) (r2_events (s2_registry s)) (t2_event_names (stats2_of s)) /\
  true_signals en2_common (r2_entities (s2_registry s)) (t2_entities (stats2_of s)) /\
  names_of (fun m x => en2_type m = x) (r2_entities (s2_registry s)) (t2_entity_types (stats2_of s)) /\
  breakdown (fun m n => length (en2_identity m) = n) (r2_entities (s2_registry s)) (t2_identity (stats2_of s)).
Proof.
  unfold stats2_of; cbn [t2_metrics t2_metric_names t2_instruments t2_units t2_spans t2_kinds t2_events
    t2_event_names t2_entities t2_entity_types t2_identity].
  split; [apply signal_true|]; split; [apply name_set_true|].
  split; [apply tally_true; exact instrument_eqb_spec|].
  split; [apply tally_true; exact String.eqb_eq|].
  split; [apply signal_true|]; split; [apply tally_true; exact span_kind_eqb_spec|].
  split; [apply signal_true|]; split; [apply name_set_true|].
  split; [apply signal_true|]; split; [apply name_set_true|].
  apply tally_true; exact Nat.eqb_eq.
Qed.
Print Assumptions C91_signals.

(* C91: the attributes of a V2 schema whose references are all in the catalog are
   counted as they are. *)
Theorem C91_attributes s attrs :
  Forall2 (fun r a => nth_error (s2_catalog s) r = Some a) (r2_attributes (s2_registry s)) attrs ->
  a2s_count (t2_attributes (stats2_of s)) = length attrs /\
  breakdown (fun a k => type_label (a2_type a) = k) attrs (a2s_types (t2_attributes (stats2_of s))) /\
  breakdown (fun a k => c_stability (a2_common a) = k) attrs (a2s_stability (t2_attributes (stats2_of s))) /\
  number (fun a => c_deprecated (a2_common a) <> None) attrs (a2s_deprecated (t2_attributes (stats2_of s))).
Proof.
  intros H. unfold stats2_of, attributes2; cbn [t2_attributes a2s_count a2s_types a2s_stability a2s_deprecated].
  assert (E : flat_map (fun r => match nth_error (s2_catalog s) r with Some a => [a] | None => [] end)
                (r2_attributes (s2_registry s)) = attrs).
  { clear -H. induction H as [|r a rs attrs' E H IH]; cbn [flat_map]; [reflexivity|]. rewrite E, IH. reflexivity. }
  rewrite E. split; [clear -H; induction H; cbn [length]; congruence|].
  split; [apply tally_true; exact String.eqb_eq|].
  split; [apply tally_true; exact stability_eqb_spec|].
  apply number_filter; intros a; apply is_some_not_none.
Qed.
Print Assumptions C91_attributes.

(* C91: the breakdowns of the attributes of a V2 schema add up to the number of
   attributes it gives exactly when every reference is in the catalog. *)
Theorem C91_attributes_add_up s :
  sum_of (a2s_types (t2_attributes (stats2_of s))) = a2s_count (t2_attributes (stats2_of s)) <->
  forall r, In r (r2_attributes (s2_registry s)) -> r < length (s2_catalog s).
Proof.
  unfold stats2_of, attributes2; cbn [t2_attributes a2s_count a2s_types].
  rewrite sum_tally. generalize (r2_attributes (s2_registry s)) as rs; intros rs.
  set (f := fun r => match nth_error (s2_catalog s) r with Some a => [a] | None => [] end).
  assert (B : forall rs, length (flat_map f rs) <= length rs).
  { induction rs0 as [|r rs0 IH]; cbn [flat_map length]; [lia|]. rewrite app_length. unfold f at 1.
    destruct (nth_error _ r); cbn [length]; lia. }
  induction rs as [|r rs IH]; cbn [flat_map length]; [split; [intros _ r []|reflexivity]|].
  rewrite app_length. specialize (B rs). unfold f at 1.
  destruct (nth_error (s2_catalog s) r) as [a|] eqn:E; cbn [length].
  - assert (Hr : r < length (s2_catalog s)) by (apply nth_error_Some; congruence). split.
    + intros X x [<-|Hx]; [exact Hr|]. apply IH; [lia|exact Hx].
    + intros X. rewrite (proj2 IH); [lia|]. intros x Hx; apply X; now right.
  - apply nth_error_None in E. split; [lia|]. intros X. specialize (X r (or_introl eq_refl)). lia.
Qed.
Print Assumptions C91_attributes_add_up.

(* C91 wants the same of attribute groups; only their number is true. *)
Theorem C91_attribute_groups_partial s :
  ss_count (t2_groups (stats2_of s)) = length (r2_attribute_groups (s2_registry s)).
Proof. reflexivity. Qed.
Print Assumptions C91_attribute_groups_partial.

(* C91: the statistics of attribute groups are true exactly when there are none. *)
Theorem C91_attribute_groups_wrong s :
  true_signals ag2_common (r2_attribute_groups (s2_registry s)) (t2_groups (stats2_of s)) <->
  r2_attribute_groups (s2_registry s) = [].
Proof.
  unfold stats2_of; cbn [t2_groups]. generalize (r2_attribute_groups (s2_registry s)) as l; intros l. split.
  - intros (_ & [_ H] & _). destruct l as [|a l]; [reflexivity|]. exfalso.
    assert (D : forall x, c_stability (ag2_common x) = c_stability (ag2_common a) \/
                          c_stability (ag2_common x) <> c_stability (ag2_common a)).
    { intros x. destruct (stability_eqb (c_stability (ag2_common x)) (c_stability (ag2_common a))) eqn:E;
        [left; now apply stability_eqb_spec|right]. intros X; apply stability_eqb_spec in X; congruence. }
    destruct (number_ex _ D l) as [n Hn].
    cbn [ss_stability] in H. apply (proj2 (H (c_stability (ag2_common a)) (S n))).
    split; [apply num_yes; [reflexivity|exact Hn]|discriminate].
  - intros ->. split; [reflexivity|]. split; [|split; constructor].
    split; [constructor|]. intros k n; split; [intros []|]. intros [X Y]; inversion X; subst; now destruct Y.
Qed.
Print Assumptions C91_attribute_groups_wrong.

(* C91 fails for a schema with a stable, deprecated attribute group with a note: it is
   counted, but as neither. *)
Theorem C91_attribute_groups_refuted :
  exists s g, In g (r2_attribute_groups (s2_registry s)) /\
    c_deprecated (ag2_common g) <> None /\ c_note (ag2_common g) <> "" /\
    ss_deprecated (t2_groups (stats2_of s)) = 0 /\ ss_note (t2_groups (stats2_of s)) = 0 /\
    ss_stability (t2_groups (stats2_of s)) = [].
Proof.
  set (g := {| ag2_id := "g"; ag2_attributes := []; ag2_common := stat_common (Some (DObsoleted "old"));
               ag2_provenance := {| p2_source := None; p2_path := "" |} |}).
  exists (stat_schema2 [g] []), g. split; [now left|]. split; [discriminate|]. split; [discriminate|].
  split; [reflexivity|]; split; reflexivity.
Qed.
Print Assumptions C91_attribute_groups_refuted.

(* ------------------------------------------------------------------ the command *)

(* C91: the command succeeds exactly when the registry was loaded without an error and
   the statistics could be written. *)
Theorem C91_command {S E} (loaded : result (S * list (diag E)) (list (diag E))) render r :
  stats_command loaded render = ROk r <->
  r = (0, []) /\ exists s ds u, loaded = ROk (s, ds) /\
    (forall d, In d ds -> ~ counts_as_error d) /\ render s = ROk u.
Proof.
  unfold stats_command. destruct loaded as [[s ds]|ds].
  - destruct (has_error ds) eqn:He.
    + split; [discriminate|]. intros (_ & s' & ds' & u & X & H & _). injection X as <- <-.
      apply has_error_iff in He. destruct He as [d [Hd Hc]]. destruct (H d Hd Hc).
    + assert (Hn : forall d, In d ds -> ~ counts_as_error d).
      { intros d Hd Hc. assert (X : has_error ds = true) by (apply has_error_iff; now exists d). congruence. }
      destruct (render s) as [u|ds'] eqn:R.
      * split.
        { intros X; injection X as <-. split; [reflexivity|]. exists s, ds, u. split; [reflexivity|].
          split; [exact Hn|exact R]. }
        intros [-> _]; reflexivity.
      * split; [discriminate|]. intros (_ & s' & ds'' & u & X & _ & Y). injection X as <- <-. congruence.
  - split; [discriminate|]. intros (_ & s' & ds' & u & X & _). discriminate X.
Qed.
Print Assumptions C91_command.

(* C91: the warnings of loading are not reported: the command returns none, whatever
   the warnings. *)
Theorem C91_warnings_refuted :
  exists (loaded : result (nat * list (diag string)) (list (diag string))) s ds,
    loaded = ROk (s, ds) /\ ds <> [] /\
    stats_command loaded (fun _ => ROk tt) = ROk (0, []).
Proof.
  set (d := mk_diag "empty group" (Some SevWarning)).
  exists (ROk (7, [d])), 7, [d]. split; [reflexivity|]; split; [discriminate|reflexivity].
Qed.
Print Assumptions C91_warnings_refuted.

(* ------------------------------------------------------------------ cases *)

Example C91_case_groups : exists st, stats1 (stat_schema stat_groups) = Some st /\
  exists c names ins units, In (GMetric, StMetric c names ins units) (rs_breakdown st) /\
    cs_count c = 2 /\ cs_attributes c = 4 /\ cs_note c = 1 /\ names = ["a"] /\ units = [("s", 2)].
Proof.
  eexists; split; [reflexivity|]. do 4 eexists. split; [now left|].
  split; [reflexivity|]; split; [reflexivity|]; split; [reflexivity|]; split; reflexivity.
Qed.
Example C91_case_panic : stats1 (stat_schema [stat_group "metric.x" GMetric "" None [] None]) = None.
Proof. reflexivity. Qed.
Example C91_case_labels :
  type_label (TPrim PInt) = "int" /\ type_label (TTemplate PString) = "template[string]" /\
  type_label (TEnum []) = "enum(card:000)" /\ dec3 7 = "007" /\ dec3 42 = "042" /\ dec3 1234 = "1234".
Proof. repeat (split; [reflexivity|]); reflexivity. Qed.
Example C91_case_attributes :
  Forall2 (fun r a => nth_error (s2_catalog (stat_schema2 [] [0])) r = Some a) [0]
    (s2_catalog (stat_schema2 [] [0])) /\
  sum_of (a2s_types (t2_attributes (stats2_of (stat_schema2 [] [0; 5])))) = 1 /\
  a2s_count (t2_attributes (stats2_of (stat_schema2 [] [0; 5]))) = 2.
Proof. split; [repeat constructor|]; split; reflexivity. Qed.
