(* What is imported from the dependencies does not depend on what is already in the catalog (C35). *)
From Coq Require Import String Ascii Bool Arith Lia Permutation Sorted List.
Import ListNotations.
From Verif Require Import Base BaseProofs BaseProofs2 Json SemTypes Resolved Semver DefModel DefSpec ResolveModel ResolveSpec ResolveProofs
  ImportModel ImportSpec ImportProofs PipeProofs.
Local Open Scope string_scope.

(* two groups that differ in the references to their attributes only, which stand for the same ones *)
Definition unref (g : group) : group := set_attributes [] g.
Definition galike (c c' : catalog) (g g' : group) : Prop :=
  unref g = unref g' /\ exists ds, Forall2 (denotes c) (g_attributes g) ds /\ Forall2 (denotes c') (g_attributes g') ds.
Definition ialike (c c' : catalog) (i i' : imported) : Prop :=
  galike c c' (im_group i) (im_group i') /\ im_url i = im_url i' /\ im_origins i = im_origins i'.
Lemma galike_le c c' d d' g g' : cat_le c d -> cat_le c' d' -> galike c c' g g' -> galike d d' g g'.
Proof. intros L L' (B & ds & A & A'). split; [exact B|]. exists ds. split; eapply denotes_all_le; eassumption. Qed.
Lemma ialike_le c c' d d' g g' : cat_le c d -> cat_le c' d' -> ialike c c' g g' -> ialike d d' g g'.
Proof. intros L L' (A & B). split; [eapply galike_le; eassumption|exact B]. Qed.
Lemma forall2_weak {A B} (P Q : A -> B -> Prop) l m : (forall a b, P a b -> Q a b) -> Forall2 P l m -> Forall2 Q l m.
Proof. intros H F. induction F; constructor; auto. Qed.

(* catalogs that grow side by side *)
Definition grows (c c' d d' : catalog) : Prop := cat_ok d /\ cat_ok d' /\ cat_le c d /\ cat_le c' d'.
Lemma grows_refl c c' : cat_ok c -> cat_ok c' -> grows c c' c c'.
Proof. intros A B. split; [exact A|]. split; [exact B|]. split; apply cat_le_refl. Qed.
Lemma grows_trans c c' d d' f f' : grows c c' d d' -> grows d d' f f' -> grows c c' f f'.
Proof. intros (_ & _ & A & B) (C & D & E & F). split; [exact C|]. split; [exact D|]. split; eapply cat_le_trans; eassumption. Qed.

Lemma prov_alike e a src c c' r c1 r' c1' : cat_ok c -> cat_ok c' ->
  attribute_ref_prov e a src c = Got (r, c1) -> attribute_ref_prov e a src c' = Got (r', c1') ->
  grows c c' c1 c1' /\ exists d, denotes c1 r d /\ denotes c1' r' d.
Proof.
  intros O O' H H'. unfold attribute_ref_prov in *. destruct (upgrade_attr e _) as [n|err]; cbn [rr_bind] in *; [|discriminate].
  destruct (attribute_ref (ws_attr n) c) as [x y] eqn:R. destruct (attribute_ref (ws_attr n) c') as [x' y'] eqn:R'.
  destruct (attribute_ref_ok _ _ _ _ O R) as (A1 & A2 & A3 & _). destruct (attribute_ref_ok _ _ _ _ O' R') as (B1 & B2 & B3 & _).
  match type of H with rr_bind ?X _ = _ => destruct X as [root|err] end; cbn [rr_bind] in H; [|discriminate].
  match type of H' with rr_bind ?X _ = _ => destruct X as [root'|err] end; cbn [rr_bind] in H'; [|discriminate].
  inversion H; subst. inversion H'; subst. split; [split; [apply set_root_ok, A1|]; split; [apply set_root_ok, B1|]; split; (eapply cat_le_trans; [eassumption|apply set_root_le])|].
  exists (ws_attr n). split; (eapply denotes_le; [apply set_root_le|assumption]).
Qed.
Lemma both_grow c c' d d' f f' rs rs' : grows c c' d d' -> grows d d' f f' ->
  (exists ds, Forall2 (denotes d) rs ds /\ Forall2 (denotes d') rs' ds) ->
  exists ds, Forall2 (denotes f) rs ds /\ Forall2 (denotes f') rs' ds.
Proof. intros _ (_ & _ & L & L') (ds & A & B). exists ds. split; eapply denotes_all_le; eassumption. Qed.
Lemma intern_alike e l : forall c c' rs c1 rs' c1', cat_ok c -> cat_ok c' ->
  intern e l c = Got (rs, c1) -> intern e l c' = Got (rs', c1') ->
  grows c c' c1 c1' /\ exists ds, Forall2 (denotes c1) rs ds /\ Forall2 (denotes c1') rs' ds.
Proof.
  induction l as [|[a src] l IH]; intros c c' rs c1 rs' c1' O O' H H'; cbn [intern] in *.
  - inversion H; subst. inversion H'; subst. split; [apply grows_refl; assumption|]. exists []. split; constructor.
  - destruct (attribute_ref_prov e a (SDep src) c) as [[r d]|err] eqn:R; cbn [rr_bind fst snd] in H; [|discriminate].
    destruct (attribute_ref_prov e a (SDep src) c') as [[r' d']|err] eqn:R'; cbn [rr_bind fst snd] in H'; [|discriminate].
    destruct (prov_alike _ _ _ _ _ _ _ _ _ O O' R R') as (G & x & X & X').
    destruct (intern e l d) as [[q f]|err] eqn:I; cbn [rr_bind fst snd] in H; [|discriminate].
    destruct (intern e l d') as [[q' f']|err] eqn:I'; cbn [rr_bind fst snd] in H'; [|discriminate].
    destruct (IH _ _ _ _ _ _ (proj1 G) (proj1 (proj2 G)) I I') as (G2 & ds & F & F'). inversion H; subst. inversion H'; subst.
    split; [eapply grows_trans; eassumption|]. exists (x :: ds). destruct G2 as (_ & _ & L & L'). split; constructor; auto; eapply denotes_le; eassumption.
Qed.
Lemma intern2_alike e s l : forall c c' rs c1 rs' c1', cat_ok c -> cat_ok c' ->
  intern2 e s l c = Got (rs, c1) -> intern2 e s l c' = Got (rs', c1') ->
  grows c c' c1 c1' /\ exists ds, Forall2 (denotes c1) rs ds /\ Forall2 (denotes c1') rs' ds.
Proof.
  induction l as [|[[[i req] sa] role] l IH]; intros c c' rs c1 rs' c1' O O' H H'; cbn [intern2] in *.
  - inversion H; subst. inversion H'; subst. split; [apply grows_refl; assumption|]. exists []. split; constructor.
  - destruct (nth_error (s2_catalog s) i) as [a|]; [|discriminate].
    match type of H with rr_bind ?X _ = _ => destruct X as [[r d]|err] eqn:R end; cbn [rr_bind fst snd] in H; [|discriminate].
    match type of H' with rr_bind ?X _ = _ => destruct X as [[r' d']|err] eqn:R' end; cbn [rr_bind fst snd] in H'; [|discriminate].
    destruct (prov_alike _ _ _ _ _ _ _ _ _ O O' R R') as (G & x & X & X').
    destruct (intern2 e s l d) as [[q f]|err] eqn:I; cbn [rr_bind fst snd] in H; [|discriminate].
    destruct (intern2 e s l d') as [[q' f']|err] eqn:I'; cbn [rr_bind fst snd] in H'; [|discriminate].
    destruct (IH _ _ _ _ _ _ (proj1 G) (proj1 (proj2 G)) I I') as (G2 & ds & F & F'). inversion H; subst. inversion H'; subst.
    split; [eapply grows_trans; eassumption|]. exists (x :: ds). destruct G2 as (_ & _ & L & L'). split; constructor; auto; eapply denotes_le; eassumption.
Qed.
Lemma set_alike c c' rs rs' g : (exists ds, Forall2 (denotes c) rs ds /\ Forall2 (denotes c') rs' ds) ->
  galike c c' (set_attributes rs g) (set_attributes rs' g).
Proof. intros (ds & A & B). split; [reflexivity|]. exists ds. auto. Qed.

(* ---- what depends on the rest of a group only ---- *)
Lemma by_rest {A} (f : group -> A) (E : forall g, f g = f (unref g)) g g' : unref g = unref g' -> f g = f g'.
Proof. intros H. rewrite (E g), (E g'), H. reflexivity. Qed.
Lemma rest_origin g g' url : unref g = unref g' -> origin_url g url = origin_url g' url.
Proof. apply (by_rest (fun g => origin_url g url)). reflexivity. Qed.
Lemma rest_same_l g g' h : unref g = unref g' -> same_group g h = same_group g' h.
Proof. apply (by_rest (fun g => same_group g h)). reflexivity. Qed.
Lemma rest_same_r g g' h : unref g = unref g' -> same_group h g = same_group h g'.
Proof. apply (by_rest (fun g => same_group h g)). reflexivity. Qed.
Lemma rest_type g g' : unref g = unref g' -> g_type g = g_type g'.
Proof. apply by_rest. reflexivity. Qed.
Lemma rest_id g g' : unref g = unref g' -> g_id g = g_id g'.
Proof. apply by_rest. reflexivity. Qed.
Lemma rest_keys g g' : unref g = unref g' -> match_keys g = match_keys g'.
Proof. apply by_rest. reflexivity. Qed.
Lemma rest_origins e s g g' : unref g = unref g' -> origins1 e s g = origins1 e s g'.
Proof. apply by_rest. reflexivity. Qed.

Lemma find_same {A} (p q : A -> bool) l : (forall x, p x = q x) -> find p l = find q l.
Proof. intros H. induction l as [|x l IH]; [reflexivity|]. cbn [find]. rewrite H, IH. reflexivity. Qed.
Lemma upgrade_alike e g g' url c c' o c1 o' c1' : cat_ok c -> cat_ok c' -> unref g = unref g' ->
  upgrade_group e g url c = Got (o, c1) -> upgrade_group e g' url c' = Got (o', c1') ->
  grows c c' c1 c1' /\
  match o, o' with Some h, Some h' => galike c1 c1' h h' | None, None => True | _, _ => False end.
Proof.
  intros O O' B H H'. unfold upgrade_group in *. cbv zeta in *. rewrite <- (rest_origin _ _ url B) in H'.
  destruct (ev_chosen e (ev_name e (origin_url g url))) as [ch|]; [|inversion H; inversion H'; subst; split; [apply grows_refl; assumption|exact I]].
  destruct (String.eqb ch (origin_url g url)); [inversion H; inversion H'; subst; split; [apply grows_refl; assumption|exact I]|].
  destruct (latest_major (ev_name e) (ev_semver e) (origin_url g url) ch) as [w|err]; [|inversion H; inversion H'; subst; split; [apply grows_refl; assumption|exact I]].
  destruct (negb (String.eqb w ch)); [inversion H; inversion H'; subst; split; [apply grows_refl; assumption|exact I]|].
  destruct (ev_cached e ch) as [[s roots|s]|]; [|inversion H; inversion H'; subst; split; [apply grows_refl; assumption|exact I]..].
  rewrite (find_same (same_group g') (same_group g)) in H' by (intros x; symmetry; apply rest_same_l, B).
  destruct (find (same_group g) (s1_groups s)) as [up|]; [|inversion H; inversion H'; subst; split; [apply grows_refl; assumption|exact I]].
  destruct (intern e _ c) as [[rs d]|err] eqn:E; cbn [rr_bind fst snd] in H; [|discriminate].
  destruct (intern e _ c') as [[rs' d']|err] eqn:E'; cbn [rr_bind fst snd] in H'; [|discriminate].
  destruct (intern_alike _ _ _ _ _ _ _ _ O O' E E') as (G & X). inversion H; inversion H'; subst. split; [exact G|apply set_alike, X].
Qed.

(* ---- one dependency ---- *)
Lemma import1_alike glob e bs s roots my gs : forall c c' l es c1 l' es' c1', cat_ok c -> cat_ok c' ->
  import1 glob e bs s roots my gs c = Got (l, es, c1) -> import1 glob e bs s roots my gs c' = Got (l', es', c1') ->
  grows c c' c1 c1' /\ es = es' /\ Forall2 (ialike c1 c1') l l'.
Proof.
  induction gs as [|g gs IH]; intros c c' l es c1 l' es' c1' O O' H H'; cbn [import1] in *.
  - inversion H; inversion H'; subst. split; [apply grows_refl; assumption|]. split; [reflexivity|constructor].
  - destruct (negb (matches glob bs g)); [exact (IH _ _ _ _ _ _ _ _ O O' H H')|].
    destruct (match g_annotations g with Some a => import_decision a (matches glob (explicit_blocks bs) g) (g_id g) (g_type g) | None => Include end) as [| |er].
    + destruct (upgrade_group e g my c) as [[o d]|err] eqn:U; cbn [rr_bind] in H; [|discriminate].
      destruct (upgrade_group e g my c') as [[o' d']|err] eqn:U'; cbn [rr_bind] in H'; [|discriminate].
      destruct (upgrade_alike _ _ _ _ _ _ _ _ _ _ O O' eq_refl U U') as (G & X).
      assert (Z : exists h f h' f', (match (o, d) with
                 | (Some g', c1) => Got (g', c1)
                 | (None, c1) => rr_bind (intern e (sourced_attrs e s roots my g) c1) (fun p => Got (set_attributes (fst p) g, snd p))
                 end) = Got (h, f) /\ (match (o', d') with
                 | (Some g', c1) => Got (g', c1)
                 | (None, c1) => rr_bind (intern e (sourced_attrs e s roots my g) c1) (fun p => Got (set_attributes (fst p) g, snd p))
                 end) = Got (h', f') /\ grows d d' f f' /\ galike f f' h h').
      { destruct o as [h|], o' as [h'|]; try contradiction.
        - exists h, d, h', d'. split; [reflexivity|]. split; [reflexivity|]. split; [apply grows_refl; apply G|exact X].
        - destruct (intern e (sourced_attrs e s roots my g) d) as [[rs f]|err] eqn:E; cbn [rr_bind fst snd] in H |- *; [|discriminate].
          destruct (intern e (sourced_attrs e s roots my g) d') as [[rs' f']|err] eqn:E'; cbn [rr_bind fst snd] in H' |- *; [|discriminate].
          destruct (intern_alike _ _ _ _ _ _ _ _ (proj1 G) (proj1 (proj2 G)) E E') as (G2 & Y).
          exists (set_attributes rs g), f, (set_attributes rs' g), f'. split; [reflexivity|]. split; [reflexivity|]. split; [exact G2|apply set_alike, Y]. }
      destruct Z as (h & f & h' & f' & Z & Z' & G2 & A). rewrite Z in H. rewrite Z' in H'. cbn [rr_bind fst snd] in H, H'.
      destruct (import1 glob e bs s roots my gs f) as [[[m ms] k]|err] eqn:E; cbn [rr_bind] in H; [|discriminate].
      destruct (import1 glob e bs s roots my gs f') as [[[m' ms'] k']|err] eqn:E'; cbn [rr_bind] in H'; [|discriminate].
      destruct (IH _ _ _ _ _ _ _ _ (proj1 G2) (proj1 (proj2 G2)) E E') as (G3 & Es & F). inversion H; inversion H'; subst.
      split; [eapply grows_trans; [exact G|]; eapply grows_trans; eassumption|]. split; [reflexivity|]. constructor; [|exact F].
      destruct G3 as (_ & _ & L & L'). split; [eapply galike_le; eassumption|]. split; [reflexivity|]. cbn [im_origins]. apply rest_origins, A.
    + exact (IH _ _ _ _ _ _ _ _ O O' H H').
    + destruct (import1 glob e bs s roots my gs c) as [[[m ms] k]|err] eqn:E; cbn [rr_bind] in H; [|discriminate].
      destruct (import1 glob e bs s roots my gs c') as [[[m' ms'] k']|err] eqn:E'; cbn [rr_bind] in H'; [|discriminate].
      destruct (IH _ _ _ _ _ _ _ _ O O' E E') as (G3 & Es & F). inversion H; inversion H'; subst. auto.
Qed.
Lemma signal_unref s v : In v (v2_signals s) -> forall rs rs', unref (v_group v rs) = unref (v_group v rs').
Proof.
  unfold v2_signals. cbv zeta. rewrite !in_app_iff, !in_map_iff.
  intros [(x & <- & _)|[(x & <- & _)|[(x & <- & _)|[(x & <- & _)|(x & <- & _)]]]] rs rs'; reflexivity.
Qed.
Lemma signal_refs s v : In v (v2_signals s) -> forall rs, g_attributes (v_group v rs) = rs.
Proof.
  unfold v2_signals. cbv zeta. rewrite !in_app_iff, !in_map_iff.
  intros [(x & <- & _)|[(x & <- & _)|[(x & <- & _)|[(x & <- & _)|(x & <- & _)]]]] rs; reflexivity.
Qed.
Lemma import2_alike glob e bs s vs : incl vs (v2_signals s) -> forall m c c' l o es c1 l' o' es' c1', cat_ok c -> cat_ok c' ->
  import2 glob e bs s vs m c = Got (l, o, es, c1) -> import2 glob e bs s vs m c' = Got (l', o', es', c1') ->
  grows c c' c1 c1' /\ es = es' /\ o = o' /\ Forall2 (galike c1 c1') l l'.
Proof.
  induction vs as [|v vs IH]; intros Hin m c c' l o es c1 l' o' es' c1' O O' H H'; cbn [import2] in *.
  - inversion H; inversion H'; subst. split; [apply grows_refl; assumption|]. split; [reflexivity|]. split; [reflexivity|constructor].
  - assert (Hin' : incl vs (v2_signals s)) by (intros y Y; apply Hin; right; exact Y).
    destruct (negb (matches_key glob bs (v_field v) (v_id v))); [exact (IH Hin' _ _ _ _ _ _ _ _ _ _ _ O O' H H')|].
    destruct (import_decision _ _ _ _) as [| |er].
    + destruct (intern2 e s (v_uses v) c) as [[rs d]|err] eqn:U; cbn [rr_bind fst snd] in H; [|discriminate].
      destruct (intern2 e s (v_uses v) c') as [[rs' d']|err] eqn:U'; cbn [rr_bind fst snd] in H'; [|discriminate].
      destruct (intern2_alike _ _ _ _ _ _ _ _ _ O O' U U') as (G & X).
      match type of H with rr_bind ?X _ = _ => destruct X as [[[[q qo] qe] k]|err] eqn:E end; cbn [rr_bind] in H; [|discriminate].
      match type of H' with rr_bind ?X _ = _ => destruct X as [[[[q' qo'] qe'] k']|err] eqn:E' end; cbn [rr_bind] in H'; [|discriminate].
      destruct (IH Hin' _ _ _ _ _ _ _ _ _ _ _ (proj1 G) (proj1 (proj2 G)) E E') as (G3 & Es & Eo & F). inversion H; inversion H'; subst.
      split; [eapply grows_trans; eassumption|]. split; [reflexivity|]. split; [reflexivity|]. constructor; [|exact F].
      assert (Iv : In v (v2_signals s)) by (apply Hin; left; reflexivity).
      split; [exact (signal_unref s v Iv rs rs')|]. rewrite !(signal_refs s v Iv). exact (both_grow _ _ _ _ _ _ _ _ G G3 X).
    + exact (IH Hin' _ _ _ _ _ _ _ _ _ _ _ O O' H H').
    + match type of H with rr_bind ?X _ = _ => destruct X as [[[[q qo] qe] k]|err] eqn:E end; cbn [rr_bind] in H; [|discriminate].
      match type of H' with rr_bind ?X _ = _ => destruct X as [[[[q' qo'] qe'] k']|err] eqn:E' end; cbn [rr_bind] in H'; [|discriminate].
      destruct (IH Hin' _ _ _ _ _ _ _ _ _ _ _ O O' E E') as (G3 & Es & Eo & F). inversion H; inversion H'; subst. auto.
Qed.
Lemma upgrades_alike e url gs gs' : forall c c' l c1 l' c1', cat_ok c -> cat_ok c' -> Forall2 (galike c c') gs gs' ->
  upgrade_all e url gs c = Got (l, c1) -> upgrade_all e url gs' c' = Got (l', c1') ->
  grows c c' c1 c1' /\ Forall2 (galike c1 c1') l l'.
Proof.
  intros c c' l c1 l' c1' O O' F. revert c c' l c1 l' c1' O O' F.
  revert gs'. induction gs as [|g gs IH]; intros [|g' gs'] c c' l c1 l' c1' O O' F H H'; inversion F as [|? ? ? ? A F2]; subst; cbn [upgrade_all] in *.
  - inversion H; inversion H'; subst. split; [apply grows_refl; assumption|constructor].
  - destruct (upgrade_group e g url c) as [[o d]|err] eqn:U; cbn [rr_bind fst snd] in H; [|discriminate].
    destruct (upgrade_group e g' url c') as [[o' d']|err] eqn:U'; cbn [rr_bind fst snd] in H'; [|discriminate].
    destruct (upgrade_alike _ _ _ _ _ _ _ _ _ _ O O' (proj1 A) U U') as (G & X).
    destruct (upgrade_all e url gs d) as [[q k]|err] eqn:E; cbn [rr_bind fst snd] in H; [|discriminate].
    destruct (upgrade_all e url gs' d') as [[q' k']|err] eqn:E'; cbn [rr_bind fst snd] in H'; [|discriminate].
    assert (F3 : Forall2 (galike d d') gs gs') by (eapply forall2_weak; [|exact F2]; intros; eapply galike_le; [apply G|apply G|assumption]).
    destruct (IH _ _ _ _ _ _ _ (proj1 G) (proj1 (proj2 G)) F3 E E') as (G3 & F4). inversion H; inversion H'; subst.
    split; [eapply grows_trans; eassumption|]. constructor; [|exact F4]. eapply galike_le; [apply G3|apply G3|].
    destruct o as [h|], o' as [h'|]; try contradiction; cbn [opt_get]; [exact X|]. eapply galike_le; [apply G|apply G|exact A].
Qed.
Lemma hand_alike c c' url gs gs' : Forall2 (galike c c') gs gs' -> forall m, Forall2 (ialike c c') (hand_out url m gs) (hand_out url m gs').
Proof.
  intros F. induction F as [|g g' l l' A _ IH]; intros m; cbn [hand_out]; constructor.
  - split; [exact A|]. split; [reflexivity|]. cbn [im_origins]. rewrite (rest_id _ _ (proj1 A)). reflexivity.
  - rewrite (rest_id _ _ (proj1 A)). apply IH.
Qed.
Lemma one_alike glob e bs d c c' l c1 l' c1' : cat_ok c -> cat_ok c' ->
  import_one glob e bs d c = Done (l, c1) -> import_one glob e bs d c' = Done (l', c1') ->
  grows c c' c1 c1' /\ Forall2 (ialike c1 c1') l l'.
Proof.
  intros O O' H H'. destruct d as [s roots|s]; cbn [import_one] in *.
  - unfold import_v1 in *. destruct (ev_parse e (s1_url s)) as [my|]; [|discriminate].
    destruct (import1 glob e bs s roots my (s1_groups s) c) as [[[m [|x ms]] k]|err] eqn:E; try discriminate.
    destruct (import1 glob e bs s roots my (s1_groups s) c') as [[[m' [|x ms']] k']|err] eqn:E'; try discriminate.
    destruct (import1_alike _ _ _ _ _ _ _ _ _ _ _ _ _ _ _ O O' E E') as (G & _ & F). inversion H; inversion H'; subst. auto.
  - unfold import_v2 in *.
    destruct (import2 glob e bs s (v2_signals s) [] c) as [[[[q qo] [|x qe]] k]|err] eqn:E; try discriminate.
    destruct (import2 glob e bs s (v2_signals s) [] c') as [[[[q' qo'] [|x qe']] k']|err] eqn:E'; try discriminate.
    destruct (import2_alike _ _ _ _ _ (fun x X => X) _ _ _ _ _ _ _ _ _ _ _ O O' E E') as (G & _ & Eo & F).
    destruct (upgrade_all e (s2_url s) q k) as [[u j]|err] eqn:U; [|discriminate].
    destruct (upgrade_all e (s2_url s) q' k') as [[u' j']|err] eqn:U'; [|discriminate].
    destruct (upgrades_alike _ _ _ _ _ _ _ _ _ _ (proj1 G) (proj1 (proj2 G)) F U U') as (G2 & F2). inversion H; inversion H'; subst.
    split; [eapply grows_trans; eassumption|]. apply hand_alike, F2.
Qed.
(* ---- all of them ---- *)
Lemma duplicate_alike c c' k k' x x' : Forall2 (ialike c c') k k' -> ialike c c' x x' -> is_duplicate k x = is_duplicate k' x'.
Proof.
  intros F ((A & _) & U & _). unfold is_duplicate. induction F as [|y y' l l' ((B & _) & V & _) _ IH]; [reflexivity|]. cbn [existsb].
  rewrite IH, (rest_origin _ _ _ A), (rest_origin _ _ _ B), (rest_type _ _ A), (rest_type _ _ B), (rest_same_l _ _ _ B), (rest_same_r _ _ _ A), U, V. reflexivity.
Qed.
Lemma keep_alike c c' l l' : Forall2 (ialike c c') l l' -> forall k k', Forall2 (ialike c c') k k' ->
  Forall2 (ialike c c') (keep_new k l) (keep_new k' l').
Proof.
  intros F. induction F as [|x x' l l' A _ IH]; intros k k' K; cbn [keep_new]; [exact K|]. apply IH. rewrite (duplicate_alike _ _ _ _ _ _ K A).
  destruct (is_duplicate k' x'); [exact K|]. apply Forall2_app; [exact K|]. constructor; [exact A|constructor].
Qed.
Lemma all_alike glob e bs ds : forall k k' c c' l c1 l' c1', cat_ok c -> cat_ok c' -> Forall2 (ialike c c') k k' ->
  import_all glob e bs ds k c = Done (l, c1) -> import_all glob e bs ds k' c' = Done (l', c1') ->
  grows c c' c1 c1' /\ Forall2 (ialike c1 c1') l l'.
Proof.
  induction ds as [|d ds IH]; intros k k' c c' l c1 l' c1' O O' K H H'; cbn [import_all] in *.
  - inversion H; inversion H'; subst. split; [apply grows_refl; assumption|exact K].
  - destruct (import_one glob e bs d c) as [[q f]|er|] eqn:E; cbn [run_bind fst snd] in H; [|discriminate|discriminate].
    destruct (import_one glob e bs d c') as [[q' f']|er|] eqn:E'; cbn [run_bind fst snd] in H'; [|discriminate|discriminate].
    destruct (one_alike _ _ _ _ _ _ _ _ _ _ O O' E E') as (G & F).
    assert (K2 : Forall2 (ialike f f') k k') by (eapply forall2_weak; [|exact K]; intros; eapply ialike_le; [apply G|apply G|assumption]).
    destruct (IH _ _ _ _ _ _ _ _ (proj1 G) (proj1 (proj2 G)) (keep_alike _ _ _ _ F _ _ K2) H H') as (G2 & F2).
    split; [eapply grows_trans; eassumption|exact F2].
Qed.
Lemma unmatched_alike glob c c' bs l l' : Forall2 (ialike c c') l l' -> unmatched_imports glob bs l = unmatched_imports glob bs l'.
Proof.
  intros F. unfold unmatched_imports. apply flat_map_ext. intros f. f_equal. apply filter_ext. intros p. f_equal.
  unfold pattern_matched. induction F as [|y y' l l' ((B & _) & _) _ IH]; [reflexivity|]. cbn [existsb].
  rewrite IH, (rest_type _ _ B), (rest_keys _ _ B). reflexivity.
Qed.
Lemma recorded_alike c c' l l' : Forall2 (ialike c c') l l' -> record_origins l = record_origins l'.
Proof.
  intros F. unfold record_origins. generalize (@nil (string * list (string * string))) as m.
  induction F as [|y y' l l' ((B & _) & _ & O) _ IH]; intros m; [reflexivity|]. cbn [fold_left]. rewrite (rest_id _ _ B), O. apply IH.
Qed.
