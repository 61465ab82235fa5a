(* C88: what a resolver that keeps resolved schemas answers. *)
From Coq Require Import String Bool Arith Lia Sorted List.
From Verif Require Import Base BaseProofs SemTypes ResultModel CacheModel CacheSpec CacheProofs.
From Verif Require LoadModel LoadSpec PropLoad.
Import ListNotations.
Local Open Scope string_scope.

(* Whatever was asked before, a schema that is returned for a URL is the one of that URL ... *)
Theorem C88_url w cf n xs c rs url c' a s :
  answers w cf n [] xs = Some (c, rs) -> resolve_schema w cf n c url = Some (c', a) -> got a s ->
  sc_url s = url.
Proof.
  intros H E G. apply answers_wf in H; [|apply wf_nil]. unfold resolve_schema in E.
  pose proof (get_peek c url) as P. destruct (get c url) as [c1 [s0|]]; cbn [snd] in P.
  - injection E as <- <-. rewrite <- (got_fun _ _ _ (or_introl eq_refl) G). eapply wf_peek; eauto.
  - destruct (w_open w url (place_of cf url)) as [[r ns]|e]; [|injection E as <- <-; now apply got_not_fatal in G].
    destruct (load_and_resolve w cf n c1 r) as [[c2 [s1|s1 more|e]]|]; [| | |discriminate];
      try (destruct (String.eqb_spec (sc_url s1) url) as [<-|N]); injection E as <- <-;
      try now apply got_not_fatal in G.
    + destruct G as [G|[m G]]; [discriminate|]. now injection G as -> _.
    + destruct G as [G|[m G]]; [discriminate|]. now injection G as -> _.
Qed.
Print Assumptions C88_url.

(* ... no more schemas are held than configured, each once and under its own URL ... *)
Theorem C88_bounded w cf n xs c rs : answers w cf n [] xs = Some (c, rs) ->
  length c <= cf_capacity cf /\ NoDup (map fst c) /\ forall k s, In (k, s) c -> sc_url s = k.
Proof.
  intros H. apply answers_wf in H; [|apply wf_nil]. destruct H as [H1 [H2 H3]]. auto.
Qed.
Print Assumptions C88_bounded.

(* ... and asking again at once gives the same schema, without reading or resolving anything. *)
Theorem C88_again w cf n xs c rs url c' a s : 0 < cf_capacity cf ->
  answers w cf n [] xs = Some (c, rs) -> resolve_schema w cf n c url = Some (c', a) -> got a s ->
  forall open load resolve, exists c'',
    resolve_schema (mk_world (w_body w) (w_repo w) (w_raw w) open (w_computed w) load resolve) cf 0 c' url
      = Some (c'', WOk s).
Proof.
  intros Cap H E G open load resolve. apply answers_wf in H; [|apply wf_nil].
  assert (P : peek c' url = Some s).
  { unfold resolve_schema in E. pose proof (get_same c url url) as PS. pose proof (get_peek c url) as P.
    destruct (get c url) as [c1 [s0|]]; cbn [fst snd] in *.
    - injection E as <- <-. rewrite <- (got_fun _ _ _ (or_introl eq_refl) G), PS. now symmetry.
    - destruct (w_open w url (place_of cf url)) as [[r ns]|e]; [|injection E as <- <-; now apply got_not_fatal in G].
      destruct (load_and_resolve w cf n c1 r) as [[c2 [s1|s1 more|e]]|]; [| | |discriminate];
        try (destruct (String.eqb_spec (sc_url s1) url) as [<-|N]); injection E as <- <-;
        try now apply got_not_fatal in G.
      + destruct G as [G|[m G]]; [discriminate|]. injection G as -> _. now apply peek_put_same.
      + destruct G as [G|[m G]]; [discriminate|]. injection G as -> _. now apply peek_put_same. }
  unfold resolve_schema. cbn [w_body]. pose proof (get_peek c' url) as Q. rewrite P in Q.
  destruct (get c' url) as [c2 o]. cbn [snd] in Q. subst o. eauto.
Qed.
Print Assumptions C88_again.

(* A URL that is not held is looked for at the configured place, or at itself; the registry found
   there is returned with all its warnings if it says it has that URL, and refused otherwise. *)
Theorem C88_checked w cf n c url place r ns c2 x s ws c' a :
  peek c url = None ->
  (slookup url (cf_overrides cf) = Some place \/ slookup url (cf_overrides cf) = None /\ place = url) ->
  w_open w url place = inl (r, ns) ->
  load_and_resolve w cf n c r = Some (c2, x) -> warned x s ws ->
  resolve_schema w cf n c url = Some (c', a) ->
  (sc_url s = url -> warned a s (app ns ws)) /\
  (sc_url s <> url -> a = WFatal (MismatchSchemaUrl url (sc_url s))).
Proof.
  intros P Pl O L W E. unfold resolve_schema, get in E. rewrite P in E.
  assert (PO : place_of cf url = place).
  { unfold place_of. destruct Pl as [->|[-> ->]]; easy. }
  rewrite PO, O, L in E. destruct W as [[-> ->]| ->];
    destruct (String.eqb_spec (sc_url s) url) as [Eu|N]; injection E as <- <-; split; try easy; now right.
Qed.
Print Assumptions C88_checked.

(* A location or registry that cannot be read or resolved gives its own error. *)
Theorem C88_failed w cf n c url e : peek c url = None ->
  (w_open w url (place_of cf url) = inr e -> resolve_schema w cf n c url = Some (c, WFatal e)) /\
  (forall r ns c2, w_open w url (place_of cf url) = inl (r, ns) ->
     load_and_resolve w cf n c r = Some (c2, WFatal e) -> resolve_schema w cf n c url = Some (c2, WFatal e)).
Proof.
  intros P. unfold resolve_schema, get. rewrite P. split.
  - intros ->. easy.
  - intros r ns c2 -> ->. easy.
Qed.
Print Assumptions C88_failed.

(* ---------- every call returns, when nothing is overridden ---------- *)
Theorem C88_ends_partial w cf c xs : cf_overrides cf = [] ->
  exists n c' rs, forall m, n <= m -> answers w cf m c xs = Some (c', rs).
Proof.
  intros H. destruct (answers_end w cf H xs c) as [n [[c' rs] E]]. exists n, c', rs.
  intros m L. eapply answers_more; eauto.
Qed.
Print Assumptions C88_ends_partial.
(* The bound on the recursion that the model uses decides nothing: with more of it every answer
   is the same. *)
Theorem C88_one_answer w cf n m c xs y : n <= m -> answers w cf n c xs = Some y -> answers w cf m c xs = Some y.
Proof. apply answers_more. Qed.
Print Assumptions C88_one_answer.

(* ---------- what a schema is made of ---------- *)
(* A schema, held or returned after any history, is one that is published, or the resolution of
   files that were read with dependencies and known schemas that are so made; it lists, in order
   and once each, all registries it is built from. *)
Theorem C88_made w cf n xs c rs : answers w cf n [] xs = Some (c, rs) ->
  (forall a s, In a rs -> got a s -> made w s) /\ (forall k s, In (k, s) c -> made w s).
Proof.
  intros E.
  set (I := fun c : lru (wschema w) => wf (cf_capacity cf) c /\ forall k s, In (k, s) c -> made w s).
  apply (answers_inv w cf I (made w)
    (fun l => (forall s, below w (Resolved s) l -> made w s) /\
              (forall r files deps, below w (Unresolved r files deps) l -> read w r files))) in E.
  - destruct E as [[_ H] H']. auto.
  - intros c0 k [W M]. split; [now apply wf_get|]. intros j s. unfold get.
    destruct (peek c0 k) as [v|] eqn:P; cbn [fst]; [|apply M].
    intros [J|J]; [injection J as -> ->; eapply M, peek_in, P|]. apply forget_in in J. eapply M, J.
  - intros c0 s [W M] Q. split; [now apply wf_put|]. intros j x J. apply firstn_in in J.
    destruct J as [J|J]; [now injection J as _ <-|]. apply forget_in in J. eapply M, J.
  - intros c0 k s [W M] P. eapply M, peek_in, P.
  - intros c0 r l [W M] G. split.
    + intros s B. apply (mk_published w r l (peek c0)); auto.
      intros u x P. split; [eapply wf_peek; eauto|eapply M, peek_in, P].
    + intros r' files deps B. exists (peek c0), r, l, deps. auto.
  - intros r files deps d [H1 H2] J. split.
    + intros s B. apply H1. now apply bl_dep with d.
    + intros r' f' d' B. apply (H2 r' f' d'). now apply bl_dep with d.
  - intros s [H1 _]. apply H1. constructor.
  - intros c0 r files deps ds u b [W M] [_ H2] F U R.
    apply (mk_resolved w r files ds (peek c0)); cbn [sc_url sc_deps sc_body]; auto.
    + apply (H2 r files deps). constructor.
    + intros v x P. split; [eapply wf_peek; eauto|eapply M, peek_in, P].
    + apply all_deps_sorted.
    + intros v. apply all_deps_in.
  - split; [apply wf_nil|easy].
Qed.
Print Assumptions C88_made.

(* ---------- one schema per URL ---------- *)
(* Nothing overridden, every location says what it is, and room for one more schema than there
   are: all calls of a history get the same schema for the same URL, also those in between that
   went wrong, and what is held afterwards is what was returned. *)
Theorem C88_stable_partial w cf n xs c rs P : uses w xs P -> honest w P -> cf_overrides cf = [] ->
  answers w cf n [] xs = Some (c, rs) -> length c < cf_capacity cf ->
  forall a b s t, In a rs -> In b rs -> got a s -> got b t -> sc_url s = sc_url t -> s = t.
Proof.
  intros [Op Ld] Ho Pl E L a b s t Ia Ib Ga Gb U.
  destruct (answers_kept w cf Pl P Op n xs _ _ _ Ho Ld (wf_nil _) E L) as [_ [K _]].
  pose proof (K a s Ia Ga) as H. pose proof (K b t Ib Gb) as H'. congruence.
Qed.
Print Assumptions C88_stable_partial.

(* If moreover all registries are given by their files, then after a schema has been returned
   every registry it is built from can be asked for, without reading anything. *)
Theorem C88_served_partial w cf n xs c rs P : uses w xs P -> honest w P -> all_raw w P -> cf_overrides cf = [] ->
  answers w cf n [] xs = Some (c, rs) -> length c < cf_capacity cf ->
  forall a s u, In a rs -> got a s -> u = sc_url s \/ In u (sc_deps s) ->
  exists t c', sc_url t = u /\ resolve_schema w cf 0 c u = Some (c', WOk t).
Proof.
  intros [Op Ld] Ho AR Pl E L a s u Ia Ga Hu. pose proof (answers_wf w cf _ _ _ _ _ (wf_nil _) E) as W.
  destruct (answers_kept w cf Pl P Op n xs _ _ _ Ho Ld (wf_nil _) E L) as [_ [K C]].
  assert (H : peek c u <> None).
  { pose proof (K a s Ia Ga) as H. destruct Hu as [->|Hu]; [congruence|].
    apply (C AR ltac:(intros k x v Hk; discriminate) _ _ _ H Hu). }
  destruct (peek c u) as [t|] eqn:Pu; [|easy]. unfold resolve_schema. pose proof (get_peek c u) as G. rewrite Pu in G.
  destruct (get c u) as [c1 o]. cbn [snd] in G. subst o. exists t, c1. split; [|easy]. eapply wf_peek; eauto.
Qed.
Print Assumptions C88_served_partial.

(* ---------- the loader is honest ---------- *)
Scheme la_ind2 := Induction for LoadSpec.loaded_as Sort Prop
  with ll_ind2 := Induction for LoadSpec.loaded_all Sort Prop.
Combined Scheme la_both from la_ind2, ll_ind2.

Lemma nodup_right {A} (a b : list A) : NoDup (app a b) -> NoDup b.
Proof. induction a as [|x a IH]; cbn; [easy|]. intros H. inversion_clear H. auto. Qed.
Section Loader.
  Variable lw : LoadModel.world.
  Variable B : Type.
  Variable pub : string -> B.
  Variable known : string -> option (schema B).
  Notation w' := (with_known lw B known).
  Definition plain_talk (r : LoadModel.repo) : Prop :=
    forall u us, LoadModel.rp_content r = LoadModel.CPublished (inl (u, us)) -> u = LoadModel.rp_url r.
  Hypothesis fetched : forall d r ws, LoadModel.w_fetch lw d = inl (r, ws) -> plain_talk r.

  Inductive under (x : loaded LoadModel.repo LoadModel.repo B) : loaded LoadModel.repo LoadModel.repo B -> Prop :=
  | un_here : under x x
  | un_dep r files deps d : In d deps -> under x d -> under x (Unresolved r files deps).

  Lemma route_cons r r' l x : LoadSpec.declares w' r r' -> LoadSpec.route w' r' l x -> LoadSpec.route w' r (r :: l) x.
  Proof.
    intros D R. induction R as [|l y z R IH D'].
    - apply (LoadSpec.rt_next w' r [] r r'); [constructor|easy].
    - apply (LoadSpec.rt_next w' r (r :: l) y z); easy.
  Qed.

  (* every part of the tree stands for a registry reached on a route *)
  Definition stands (r : LoadModel.repo) (x : loaded LoadModel.repo LoadModel.repo B) : Prop :=
    match x with
    | Unresolved r' files deps => r' = r /\ known (LoadModel.rp_url r) = None /\
        exists ts, LoadSpec.loaded_as w' r (LoadModel.LDefined r ts) /\ deps = map (tree_of B pub known) ts
    | Resolved s => sc_url s = LoadModel.rp_url r /\
        (known (sc_url s) = None \/ known (sc_url s) = Some s)
    end.
  Hypothesis keyed : forall u s, known u = Some s -> sc_url s = u.

  Lemma tree_stands :
    (forall r t (H : LoadSpec.loaded_as w' r t), plain_talk r -> forall x, under x (tree_of B pub known t) ->
       exists l r', LoadSpec.route w' r l r' /\ stands r' x) /\
    (forall ds ts (H : LoadSpec.loaded_all w' ds ts), forall t x, In t ts -> under x (tree_of B pub known t) ->
       exists d r0 ws, In d ds /\ LoadModel.w_fetch lw d = inl (r0, ws) /\
         exists l r', LoadSpec.route w' r0 l r' /\ stands r' x).
  Proof.
    apply (la_both w'
      (fun r t H => plain_talk r -> forall x, under x (tree_of B pub known t) -> exists l r', LoadSpec.route w' r l r' /\ stands r' x)
      (fun ds ts H => forall t x, In t ts -> under x (tree_of B pub known t) ->
         exists d r0 ws, In d ds /\ LoadModel.w_fetch lw d = inl (r0, ws) /\
           exists l r', LoadSpec.route w' r0 l r' /\ stands r' x)).
    - intros r t E TR x U. cbn in E. destruct (known (LoadModel.rp_url r)) as [s|] eqn:K; [|discriminate].
      injection E as <-. cbn in U. rewrite K in U. inversion U; subst. exists [], r. split; [constructor|].
      cbn. pose proof (keyed _ _ K) as Ks. rewrite Ks. auto.
    - intros r u us E Co TR x U. cbn in E. pose proof (TR _ _ Co) as ->.
      destruct (known (LoadModel.rp_url r)) as [s|] eqn:K; [discriminate|].
      cbn in U. rewrite K in U. inversion U; subst. exists [], r. split; [constructor|]. cbn. auto.
    - intros r E Co TR x U. cbn in E. destruct (known (LoadModel.rp_url r)) as [s|] eqn:K; [discriminate|].
      cbn in U. inversion U as [|? ? ? d J]; subst; [|easy]. exists [], r. split; [constructor|]. cbn.
      split; [easy|]. split; [easy|]. exists []. split; [|easy]. apply LoadSpec.la_plain; [cbn; now rewrite K|easy].
    - intros r ds ts E Co H IH TR x U. cbn in E. destruct (known (LoadModel.rp_url r)) as [s|] eqn:K; [discriminate|].
      cbn in U. inversion U as [|? ? ? d J V]; subst.
      + exists [], r. split; [constructor|]. cbn. split; [easy|]. split; [easy|]. exists ts. split; [|easy].
        apply LoadSpec.la_definition with ds; [cbn; now rewrite K|easy|easy].
      + apply in_map_iff in J. destruct J as [t [<- J]].
        destruct (IH t x J V) as [d [r0 [ws [Id [F [l [r' [R St]]]]]]]].
        exists (r :: l), r'. split; [|easy]. apply route_cons with r0; [|easy].
        split; [cbn; now rewrite K|]. exists ds, d, ws. auto.
    - intros t x [].
    - intros d ds r ws t ts F La IHa Ll IHl t' x [<-|J] U.
      + destruct (IHa (fetched _ _ _ F) x U) as [l [r' [R St]]]. exists d, r, ws. split; [now left|]. split; [easy|]. eauto.
      + destruct (IHl t' x J U) as [d' [r0 [ws' [Id [F' K]]]]]. exists d', r0, ws'. split; [now right|]. auto.
  Qed.

  Lemma route_app r l x l' y : LoadSpec.route w' r l x -> LoadSpec.route w' x l' y -> LoadSpec.route w' r (app l l') y.
  Proof.
    intros R R'. induction R' as [|l2 y z R2 IH D].
    - now rewrite app_nil_r.
    - rewrite app_assoc. now apply (LoadSpec.rt_next w' r (app l l2) y z).
  Qed.
  Lemma tree_acyclic order extra main t nfes chosen : plain_talk main ->
    LoadModel.load_registry w' order extra main = LoadModel.Loaded t nfes chosen ->
    forall r files deps, under (Unresolved r files deps) (tree_of B pub known t) ->
    known (LoadModel.rp_url r) = None /\
    forall d y, In d deps -> under y d -> forall r', stands r' y -> LoadModel.rp_url r' <> LoadModel.rp_url r \/
      ~ exists l l0, LoadSpec.route w' main l0 r /\ LoadSpec.route w' r l r' /\ l <> [].
  Proof.
    intros TR E r files deps U. pose proof (PropLoad.C39_everything_loaded _ _ _ _ _ _ _ E) as La.
    destruct (proj1 tree_stands _ _ La TR _ U) as [l0 [r1 [R [-> [K _]]]]]. split; [easy|].
    intros d y Hd Hy r' St. destruct (string_dec (LoadModel.rp_url r') (LoadModel.rp_url r1)) as [Eu|N]; [|now left].
    right. intros [l [l1 [R1 [R2 N]]]].
    destruct (PropLoad.C39_no_cycle_no_overrun _ _ _ _ _ _ _ E _ _ (route_app _ _ _ _ _ R1 R2)) as [ND _].
    destruct l as [|x l]; [easy|].
    assert (Ex : x = r1).
    { clear -R2. remember (x :: l) as xl eqn:Exl. revert x l Exl.
      induction R2 as [|l2 y z R2 IH D]; intros x l Exl; [discriminate|].
      destruct l2 as [|a l2]; cbn in Exl; injection Exl as <- <-.
      - inversion R2; [easy|]. now destruct l.
      - now apply (IH a l2). }
    subst x. unfold LoadSpec.names in ND. rewrite map_app, map_app, <- app_assoc in ND. cbn in ND.
    apply nodup_right in ND. inversion_clear ND as [|? ? N0 _]. apply N0.
    apply in_or_app. right. left. now rewrite Eu.
  Qed.
End Loader.

(* The loader looks every registry up under its URL, and a chain of declarations never meets a
   registry twice; so it is honest wherever the registries that declarations lead to are truthful. *)
Theorem C88_loader lw order extra B pub open computed resolve say :
  (forall d r warns, LoadModel.w_fetch lw d = inl (r, warns) -> truthful computed r) ->
  honest (loader_world lw order extra B pub open computed resolve say) (truthful computed).
Proof.
  intros T known main l TM Ky G. set (w := loader_world lw order extra B pub open computed resolve say) in *.
  assert (HT : exists t nfes chosen,
    LoadModel.load_registry (with_known lw B known) order extra main = LoadModel.Loaded t nfes chosen /\
    l = tree_of B pub known t).
  { cbn in G. destruct (LoadModel.load_registry (with_known lw B known) order extra main) as [t nf ch|e].
    - exists t, nf, ch. split; [easy|]. destruct nf; cbn in G; destruct G as [G|[ns G]]; try discriminate; now injection G as <-.
    - now apply got_not_fatal in G. }
  destruct HT as [t [nfes [chosen [E ->]]]]. pose proof (PropLoad.C39_everything_loaded _ _ _ _ _ _ _ E) as La.
  assert (BU : forall x l, below w x l -> under B x l).
  { intros x l H. induction H as [|r f ds d J H IH]; [constructor|]. now apply un_dep with d. }
  assert (T1 : forall d r ws, LoadModel.w_fetch lw d = inl (r, ws) -> plain_talk r) by (intros d r ws F; exact (proj1 (T d r ws F))).
  pose proof (tree_stands lw B pub known T1 Ky) as TS.
  assert (C : forall l r u, LoadSpec.route (with_known lw B known) main l r -> computed r = Some u -> u = LoadModel.rp_url r).
  { intros l r u R. inversion R as [|l2 r1 r2 R1 [_ [ds [d [ws [_ [_ F]]]]]]]; subst; [apply TM|]. apply (T d r ws F). }
  split.
  - intros x Bx r files deps -> u Hu. apply BU in Bx.
    destruct (proj1 TS _ _ La (proj1 TM) _ Bx) as [l0 [r1 [R [-> [K [ts [La' ->]]]]]]]. apply (C l0 r1 u R) in Hu. subst u.
    split; [easy|]. intros d y Hd Hy Nm. apply BU in Hy.
    assert (D : exists l' r', LoadSpec.route (with_known lw B known) r1 l' r' /\ l' <> [] /\ stands lw B pub known r' y).
    { apply in_map_iff in Hd. destruct Hd as [t0 [<- Ht]].
      inversion La' as [? ? Ca|?|? Ca Co|? ds0 ? Ca Co Ll]; subst.
      - cbn in Ca. rewrite K in Ca. discriminate.
      - easy.
      - destruct (proj2 TS _ _ Ll t0 y Ht Hy) as [d0 [r0 [ws [Id [F [l' [r' [R' St]]]]]]]].
        exists (r1 :: l'), r'. split; [|split; [discriminate|easy]].
        apply route_cons with r0; [|easy]. split; [easy|]. exists ds0, d0, ws. auto. }
    destruct D as [l' [r' [R' [NE St]]]].
    destruct (proj2 (tree_acyclic lw B pub known T1 Ky _ _ _ _ _ _ (proj1 TM) E _ _ _ Bx) d y Hd Hy r' St) as [Ne|No].
    2:{ apply No. eauto. }
    apply Ne. destruct Nm as [[r2 [f2 [d2 [-> Hc]]]]|[s [-> Hs]]].
    + destruct St as [-> _]. apply (C _ _ _ (route_app _ _ _ _ _ _ _ _ R R')) in Hc. now symmetry.
    + destruct St as [Es _]. exact (eq_trans (eq_sym Es) Hs).
  - intros s Bs. apply BU in Bs. destruct (proj1 TS _ _ La (proj1 TM) _ Bs) as [l0 [r1 [R [Es K]]]]. exact K.
Qed.
Print Assumptions C88_loader.

(* Where no registry is published in resolved form, the loader gives resolved schemas only from
   the known ones. *)
Theorem C88_loader_raw lw order extra B pub open computed resolve say :
  (forall d r warns x, LoadModel.w_fetch lw d = inl (r, warns) -> LoadModel.rp_content r <> LoadModel.CPublished x) ->
  all_raw (loader_world lw order extra B pub open computed resolve say)
    (fun r => forall x, LoadModel.rp_content r <> LoadModel.CPublished x).
Proof.
  intros T known main l TM Ky G. set (w := loader_world lw order extra B pub open computed resolve say) in *.
  assert (HT : exists t nfes chosen,
    LoadModel.load_registry (with_known lw B known) order extra main = LoadModel.Loaded t nfes chosen /\
    l = tree_of B pub known t).
  { cbn in G. destruct (LoadModel.load_registry (with_known lw B known) order extra main) as [t nf ch|e].
    - exists t, nf, ch. split; [easy|]. destruct nf; cbn in G; destruct G as [G|[ns G]]; try discriminate; now injection G as <-.
    - now apply got_not_fatal in G. }
  destruct HT as [t [nfes [chosen [E ->]]]]. apply PropLoad.C39_everything_loaded in E. revert TM.
  refine (la_ind2 (with_known lw B known)
    (fun r t H => (forall x, LoadModel.rp_content r <> LoadModel.CPublished x) ->
       forall s, below w (Resolved s) (tree_of B pub known t) -> known (sc_url s) = Some s)
    (fun ds ts H => forall t s, In t ts -> below w (Resolved s) (tree_of B pub known t) -> known (sc_url s) = Some s)
    _ _ _ _ _ _ main t E).
  - intros r t0 Ca _ s Bs. cbn in Ca. destruct (known (LoadModel.rp_url r)) as [s0|] eqn:K; [|discriminate].
    injection Ca as <-. cbn in Bs. rewrite K in Bs. inversion Bs; subst. now rewrite (Ky _ _ K).
  - intros r u us _ Co N. now destruct (N _ Co).
  - intros r _ _ _ s Bs. cbn in Bs. inversion Bs; subst. easy.
  - intros r ds ts _ _ _ IH _ s Bs. cbn in Bs. inversion Bs as [|? ? ? d J V]; subst.
    apply in_map_iff in J. destruct J as [t0 [<- J]]. eauto.
  - intros t0 s [].
  - intros d ds r ws t0 ts F La IHa Ll IHl t1 s [<-|J] Bs; [|eauto]. apply IHa; [|easy]. intros x. eapply T; eauto.
Qed.
Print Assumptions C88_loader_raw.

(* ---------- what is not so ---------- *)
(* A request that is refused, because the registry found has another URL, leaves what was found
   there under that other URL: the next request gets it instead of the registry at its own place. *)
Theorem C88_poisoned_refuted : exists w url other s s' e c1 c2,
  answers w (no_overrides 32) 9 [] [Request url] = Some (c1, [WOkNfe s []]) /\
  answers w (no_overrides 32) 9 [] [Request other; Request url] = Some (c2, [WFatal e; WOk s']) /\
  sc_body s <> sc_body s'.
Proof.
  exists w_moved, "b", "a", (mk_schema "b" [] ["B"]), (mk_schema "b" [] ["A"]), (MismatchSchemaUrl "a" "b").
  eexists. eexists. split; [vm_compute; reflexivity|]. split; [vm_compute; reflexivity|discriminate].
Qed.
Print Assumptions C88_poisoned_refuted.

(* Warnings come with the first request for a URL only, ... *)
Theorem C88_warnings_refuted : exists w url s e c,
  answers w (no_overrides 32) 9 [] [Request url; Request url] = Some (c, [WOkNfe s [e]; WOk s]).
Proof.
  exists w_warn, "b", (mk_schema "b" [] ["B"]), (Outside "in b"). eexists. vm_compute. reflexivity.
Qed.
Print Assumptions C88_warnings_refuted.

(* ... and those of resolving a dependency with none. *)
Theorem C88_dependency_warnings_refuted : exists w s d e e' c c' c'',
  answers w (no_overrides 32) 9 [] [Request "b"] = Some (c, [WOkNfe d [e]]) /\
  In (sc_url d) (sc_deps s) /\ e <> e' /\
  answers w (no_overrides 32) 9 [] [Request "a"] = Some (c', [WOkNfe s [e']]) /\
  answers w (no_overrides 32) 9 [] [Request "a"; Request "b"] = Some (c'', [WOkNfe s [e']; WOk d]).
Proof.
  exists w_warn, (mk_schema "a" ["b"] ["A"; "B"]), (mk_schema "b" [] ["B"]), (Outside "in b"), (Outside "in a").
  eexists. eexists. eexists. split; [vm_compute; reflexivity|]. split; [now left|]. split; [discriminate|].
  split; vm_compute; reflexivity.
Qed.
Print Assumptions C88_dependency_warnings_refuted.

(* Two overrides whose registries depend on one another's URLs: the request never returns, nor
   does any later one. *)
Lemma cycle_runs n m :
  resolve_loaded w_cycle (cycle_overrides n) m [] (Unresolved "p" "P" [Unresolved "at b" "B" []]) = None /\
  resolve_loaded w_cycle (cycle_overrides n) m [] (Unresolved "q" "Q" [Unresolved "at a" "A" []]) = None.
Proof.
  induction m as [|m [IH1 IH2]]; [easy|]. split.
  - cbn. unfold resolve_registry. cbn. cbn in IH2. now rewrite IH2.
  - cbn. unfold resolve_registry. cbn. cbn in IH1. now rewrite IH1.
Qed.
Theorem C88_cycle_refuted : exists w overrides url, forall capacity n,
  resolve_schema w (mk_config capacity overrides) n [] url = None.
Proof.
  exists w_cycle, [("a", "p"); ("b", "q")], "a". intros k n. pose proof (proj1 (cycle_runs k n)) as H.
  change (cycle_overrides k) with (mk_config k [("a", "p"); ("b", "q")]) in H.
  unfold resolve_schema, load_and_resolve. cbn in H |- *. now rewrite H.
Qed.
Print Assumptions C88_cycle_refuted.

(* A registry with as many dependencies as schemas are held by default: it is resolved, and the
   first of its dependencies can no longer be asked for. *)
Theorem C88_evicted_refuted : exists w r s u c e,
  answers w (no_overrides 32) 9 [] [Load r; Request u] = Some (c, [WOk s; WFatal e]) /\ In u (sc_deps s) /\
  length (sc_deps s) = 32.
Proof.
  exists (w_many 32), "main". eexists. exists "d". eexists. eexists.
  split; [vm_compute; reflexivity|]. split; [now left|reflexivity].
Qed.
Print Assumptions C88_evicted_refuted.

(* An override of a URL is refused when the URL is asked for, and not when it is depended on. *)
Theorem C88_override_refuted : exists w cf s c c',
  answers w cf 9 [] [Request "b"] = Some (c, [WFatal (MismatchSchemaUrl "b" "c")]) /\
  answers w cf 9 [] [Request "a"] = Some (c', [WOkNfe s []]) /\ sc_deps s = ["c"] /\
  exists s' c'', answers w (mk_config 32 []) 9 [] [Request "a"] = Some (c'', [WOkNfe s' []]) /\ sc_deps s' = ["b"].
Proof.
  exists w_other, other_override, (mk_schema "a" ["c"] ["A"; "C"]). eexists. eexists.
  split; [vm_compute; reflexivity|]. split; [vm_compute; reflexivity|]. split; [easy|].
  exists (mk_schema "a" ["b"] ["A"; "B"]). eexists. split; [vm_compute; reflexivity|easy].
Qed.
Print Assumptions C88_override_refuted.

(* ---------- the hypotheses are met ---------- *)
(* main depends on x 1.0.0 and on p, which depends on x 1.2.0 *)
Definition real : world :=
  loader_world (PropLoad.sample (fun _ => None) (LoadModel.CDefinition [PropLoad.d_x12])) (fun l => l) [] (list string)
    (fun _ => [])
    (fun url _ => if String.eqb url "https://main/1.0.0" then inl (PropLoad.r_main [PropLoad.d_x1; PropLoad.d_p], [])
                  else inr (Outside url))
    (fun r => Some (LoadModel.rp_url r))
    (fun r _ ds _ => WOk (LoadModel.rp_repr r :: flat_map (fun d => sc_body d) ds))
    (fun _ => Outside "upgraded").
Definition sound (r : LoadModel.repo) : Prop :=
  truthful (fun r => Some (LoadModel.rp_url r)) r /\ forall x, LoadModel.rp_content r <> LoadModel.CPublished x.
Lemma fetched_sound d r warns :
  LoadModel.w_fetch (PropLoad.sample (fun _ => None) (LoadModel.CDefinition [PropLoad.d_x12])) d = inl (r, warns) -> sound r.
Proof.
  cbn. destruct (String.eqb (LoadModel.dc_url d) "https://x/1.0.0"); [|destruct (String.eqb (LoadModel.dc_url d) "https://x/1.2.0")];
    intros E; injection E as <- _; (split; [split; [discriminate|]|discriminate]); intros u H; now injection H as <-.
Qed.
Example C88_nonvacuous :
  let xs := [Request "https://main/1.0.0"; Request "https://nowhere/1.0.0"; Request "https://x/1.2.0"] in
  uses real xs sound /\ honest real sound /\ all_raw real sound /\
  exists c e, answers real (no_overrides 32) 9 [] xs =
    Some (c, [WOkNfe (mk_schema "https://main/1.0.0" ["https://p/1.0.0"; "https://x/1.0.0"; "https://x/1.2.0"]
                        ["main"; "x1"; "p"; "x12"]) [e];
              WFatal (Outside "https://nowhere/1.0.0");
              WOk (mk_schema "https://x/1.2.0" [] ["x12"])]) /\ length c = 4.
Proof.
  split; [|split; [|split]].
  - split.
    + intros url r ns. cbn. destruct (String.eqb url "https://main/1.0.0"); [|discriminate].
      intros E. injection E as <- _. split; [split; [discriminate|]|discriminate]. intros u H. now injection H as <-.
    + intros r [H|[H|[H|[]]]]; discriminate.
  - intros known r l [Hr _]. apply C88_loader; [|exact Hr]. intros d r0 ws F. apply (fetched_sound d r0 ws F).
  - intros known r l [_ Hr]. apply C88_loader_raw; [|exact Hr]. intros d r0 ws x F. apply (fetched_sound d r0 ws F).
  - eexists. eexists. split; [vm_compute; reflexivity|reflexivity].
Qed.
Print Assumptions C88_nonvacuous.
(* a request that is checked, and one that fails *)
Example C88_checked_nonvacuous :
  peek (@nil (string * wschema w_moved)) "a" = None /\
  exists c, load_and_resolve w_moved (no_overrides 32) 9 [] "a" = Some (c, WOk (mk_schema "b" [] ["A"])) /\
  resolve_schema w_moved (no_overrides 32) 9 [] "a" = Some (c, WFatal (MismatchSchemaUrl "a" "b")).
Proof. split; [easy|]. eexists. split; vm_compute; reflexivity. Qed.
(* the chain of three: asked for, and asked for again *)
Example C88_chain_nonvacuous : exists c, answers w_chain (no_overrides 2) 9 [] [Request "a"; Request "a"; Request "c"] =
  Some (c, [WOkNfe (mk_schema "a" ["b"; "c"] ["A"; "B"; "C"]) []; WOk (mk_schema "a" ["b"; "c"] ["A"; "B"; "C"]);
            WOkNfe (mk_schema "c" [] ["C"]) []]) /\ length c = 2.
Proof. eexists. split; vm_compute; reflexivity. Qed.
