(* The view of a registry that templates and policies get (C82, C83). *)
From Coq Require Import String Ascii Bool Arith ZArith NArith Lia Permutation Sorted List.
Import ListNotations.
From Verif Require Import Base BaseProofs BaseProofs2 Json SemTypes Resolved ConvertModel ConvertSpec ConvertProofs ViewModel ViewSpec.
Local Open Scope string_scope.

Section Lists.
  Context {B C : Type} (f : B -> option C) (err : B -> missing).
  Lemma look_ok l : snd (look_all f err l) = [] -> Forall2 (fun b c => f b = Some c) l (fst (look_all f err l)).
  Proof.
    induction l as [|b r IH]; cbn; [constructor|]. destruct (f b) eqn:E; cbn; [|discriminate].
    intros H. constructor; [exact E | apply IH, H].
  Qed.
  Lemma look_err l e : In e (snd (look_all f err l)) <-> exists b, In b l /\ f b = None /\ e = err b.
  Proof.
    induction l as [|b r IH]; cbn; [split; [tauto | intros (b & [] & _)]|].
    destruct (f b) eqn:E; cbn; rewrite IH; split.
    - intros (x & H & H2). exists x. tauto.
    - intros (x & [<-|H] & H1 & H2); [congruence|]. exists x. tauto.
    - intros [<-|(x & H & H2)]; [exists b; auto | exists x; tauto].
    - intros (x & [<-|H] & H1 & H2); [left; congruence|]. right. exists x. tauto.
  Qed.
End Lists.
Lemma arranged_sort {X} (key : X -> string) l : arranged key l (stable_sort (key_leb key) l).
Proof.
  split; [apply stable_sort_perm|]. split.
  - apply stable_sort_sorted; unfold key_leb; [intros a b; apply str_leb_total | intros a b c; apply str_leb_trans].
  - intros k. apply stable_sort_stable. intros x y Hx Hy. apply String.eqb_eq in Hx, Hy. unfold key_leb. rewrite Hx, Hy.
    destruct (str_leb_total k k) as [H|H]; exact H.
Qed.
Lemma no_errs {X Y} (f : X -> Y * list missing) l : errs f l = [] -> forall x, In x l -> snd (f x) = [].
Proof.
  intros H x Hx. destruct (snd (f x)) as [|e r] eqn:E; [reflexivity|]. exfalso.
  assert (In e (errs f l)) by (apply in_flat_map; exists x; split; [exact Hx | rewrite E; left; reflexivity]).
  rewrite H in H0. exact H0.
Qed.
Lemma forall2_fun {X Y} (R : X -> Y -> Prop) (f : X -> Y) l : (forall x, In x l -> R x (f x)) -> Forall2 R l (map f l).
Proof. induction l; intros H; constructor; [apply H; now left | apply IHl; intros; apply H; now right]. Qed.
Lemma views_shown {X Y} (R : X -> Y -> Prop) (f : X -> Y * list missing) key l :
  (forall x, snd (f x) = [] -> R x (fst (f x))) -> errs f l = [] -> shown key R l (views f key l).
Proof.
  intros H He. exists (map (fun x => fst (f x)) l). split; [|apply arranged_sort].
  apply forall2_fun. intros x Hx. apply H, (no_errs f l He x Hx).
Qed.

(* ---------- C82 ---------- *)
Lemma v2_refinement_iff g : is_v2_refinement g = true <-> v2_refinement g.
Proof.
  unfold is_v2_refinement, v2_refinement, extends. rewrite andb_true_iff. destruct (g_lineage g) as [l|].
  - destruct (gl_extends l) as [b|] eqn:E; cbn; split.
    + intros (H & _). split; [exact H|]. exists b, l. auto.
    + tauto.
    + intros (_ & H). discriminate H.
    + intros (_ & b & l' & [= <-] & H). congruence.
  - cbn. split; [intros (_ & H); discriminate H | intros (_ & b & l' & H & _); discriminate H].
Qed.
Lemma view_group_shows cat g : snd (view_group cat g) = [] -> shows_group cat g (fst (view_group cat g)).
Proof. intros H. unfold shows_group. cbn. repeat (split; [|]); try reflexivity. apply look_ok, H. Qed.
Lemma groups_shown cat groups :
  flat_map snd (map (view_group cat) (filter (fun g => negb (is_v2_refinement g)) groups)) = [] ->
  one_each (fun g => ~ v2_refinement g) (shows_group cat) groups (map fst (map (view_group cat) (filter (fun g => negb (is_v2_refinement g)) groups))).
Proof.
  induction groups as [|g r IH]; cbn [filter map flat_map]; [constructor|].
  destruct (is_v2_refinement g) eqn:E; cbn [negb map flat_map].
  - intros H. apply oe_skip; [|apply IH, H]. rewrite <- v2_refinement_iff. congruence.
  - intros H. apply app_eq_nil in H as (H1 & H2). apply oe_take; [|apply view_group_shows, H1|apply IH, H2].
    rewrite <- v2_refinement_iff. congruence.
Qed.
Lemma lacks_in cat groups id r :
  In (id, r) (flat_map snd (map (view_group cat) (filter (fun g => negb (is_v2_refinement g)) groups))) <-> lacks groups cat id r.
Proof.
  rewrite in_flat_map. unfold lacks. split.
  - intros (p & Hp & H). apply in_map_iff in Hp as (g & <- & Hg). apply filter_In in Hg as (Hg & Hr). cbn in H.
    apply look_err in H as (b & Hb & Hn & [= -> ->]). exists g. apply nth_error_None in Hn.
    split; [exact Hg|]. split; [|auto]. rewrite <- v2_refinement_iff. destruct (is_v2_refinement g); [discriminate Hr | congruence].
  - intros (g & Hg & Hr & <- & H & Hn). exists (view_group cat g). split.
    + apply in_map, filter_In. split; [exact Hg|]. rewrite <- v2_refinement_iff in Hr. destruct (is_v2_refinement g); [exfalso; auto | reflexivity].
    + cbn. apply look_err. exists r. split; [exact H|]. split; [apply nth_error_None, Hn | reflexivity].
Qed.
(* the view holds every group that is not a refinement, unchanged, with its attributes looked up, in the order of the ids *)
Theorem C82_view url groups cat v : view_registry url groups cat = inl v ->
  vr_url v = url /\ exists k, one_each (fun g => ~ v2_refinement g) (shows_group cat) groups k /\ arranged vg_id k (vr_groups v).
Proof.
  unfold view_registry. destruct (flat_map snd _) eqn:E; [|discriminate]. intros [= <-]. cbn. split; [reflexivity|].
  eexists. split; [apply groups_shown, E | apply arranged_sort].
Qed.
(* it is refused only for references to nothing, and all of these are named *)
Theorem C82_refused url groups cat l : view_registry url groups cat = inr l ->
  l <> [] /\ forall id r, In (id, r) l <-> lacks groups cat id r.
Proof.
  unfold view_registry. destruct (flat_map snd _) as [|e rest] eqn:E; [discriminate|]. intros [= <-]. split; [discriminate|].
  intros id r. rewrite <- E. apply lacks_in.
Qed.
Theorem C82_success url groups cat : (exists v, view_registry url groups cat = inl v) <-> forall id r, ~ lacks groups cat id r.
Proof.
  split.
  - intros (v & H) id r L. unfold view_registry in H. apply lacks_in in L.
    destruct (flat_map snd _) as [|e rest]; [destruct L | discriminate H].
  - intros H. unfold view_registry. destruct (flat_map snd _) as [|[id r] rest] eqn:E; [eauto|]. exfalso.
    apply (H id r). apply lacks_in. rewrite E. left. reflexivity.
Qed.
Example C82_nonvacuous : exists v, view_registry "u" (so_groups sample_source) (so_catalog sample_source) = inl v /\
  map vg_id (vr_groups v) = ["attribute_group.attrs"; "entity.host"; "entity.process"; "event.boot"; "metric.hits"; "span.http.client"].
Proof. eexists. split; [reflexivity|]. reflexivity. Qed.
Example C82_refused_nonvacuous : view_registry "u" (so_groups sample_twice) (so_catalog sample_twice) = inr [("span.a", 7)].
Proof. reflexivity. Qed.

(* ---------- C83: the parts ---------- *)
Lemma provenance_shows deps p : shows_provenance deps p (view_provenance deps p).
Proof.
  unfold shows_provenance, view_provenance; cbn. split; [destruct (p2_source p); reflexivity|].
  destruct (String.eqb_spec (p2_path p) ""); auto.
Qed.
Lemma attribute_shows deps a : shows_attribute deps a (view_attribute deps a).
Proof. unfold shows_attribute; cbn. repeat (split; [reflexivity|]). apply provenance_shows. Qed.
Lemma assoc_shows deps a : same_shape (shows_ref deps) a (view_assoc deps a).
Proof.
  induction a as [r|l IH|l IH] using assoc_ind2; cbn; constructor.
  - split; [reflexivity | apply provenance_shows].
  - apply forall2_fun. intros x Hx. rewrite Forall_forall in IH. apply IH, Hx.
  - apply forall2_fun. intros x Hx. rewrite Forall_forall in IH. apply IH, Hx.
Qed.
Lemma assocs_shows s l : shows_assocs s l (map (view_assoc (s2_dependencies s)) l).
Proof. apply forall2_fun. intros x _. apply assoc_shows. Qed.
Lemma uses_show s sampled label l : snd (view_uses (s2_catalog s) (s2_dependencies s) sampled label l) = [] ->
  Forall2 (shows_use s sampled) l (fst (view_uses (s2_catalog s) (s2_dependencies s) sampled label l)).
Proof.
  intros H. apply look_ok in H. unfold view_uses. induction H as [|u f l' m' Hu Hr IH]; constructor; [|exact IH].
  unfold view_use in Hu. destruct (nth_error _ _) as [a|] eqn:E; [|discriminate]. injection Hu as <-. unfold shows_use; cbn.
  split; [exists a; split; [exact E | apply attribute_shows]|]. auto.
Qed.
Lemma uses_err s sampled label l e : In e (snd (view_uses (s2_catalog s) (s2_dependencies s) sampled label l)) <->
  fst e = label /\ dangling_in s l (snd e).
Proof.
  unfold view_uses. rewrite look_err. unfold dangling_in. split.
  - intros (u & Hu & Hn & ->). cbn. split; [reflexivity|]. exists u. split; [exact Hu|]. split; [reflexivity|].
    unfold view_use in Hn. destruct (nth_error _ _) eqn:E; [discriminate|]. apply nth_error_None, E.
  - destruct e as (lb & r). cbn. intros (-> & u & Hu & <- & Hn). exists u. split; [exact Hu|]. split; [|reflexivity].
    unfold view_use. apply nth_error_None in Hn. rewrite Hn. reflexivity.
Qed.
Section Schema.
  Variable s : schema2.
  Let cat := s2_catalog s.
  Let d := s2_dependencies s.
  Lemma metric_shows m : snd (view_metric cat d m) = [] -> shows_metric s m (fst (view_metric cat d m)).
  Proof.
    cbn. intros H. unfold shows_metric; cbn. repeat (split; [reflexivity|]). split; [apply uses_show, H|]. split; [apply assocs_shows|].
    repeat (split; [reflexivity|]). apply provenance_shows.
  Qed.
  Lemma span_shows id m : snd (view_span_as cat d id m) = [] -> shows_span s m (fst (view_span_as cat d id m)).
  Proof.
    cbn. intros H. unfold shows_span; cbn. repeat (split; [reflexivity|]). split; [apply uses_show, H|]. split; [apply assocs_shows|].
    repeat (split; [reflexivity|]). apply provenance_shows.
  Qed.
  Lemma event_shows id m : snd (view_event_as cat d id m) = [] -> shows_event s m (fst (view_event_as cat d id m)).
  Proof.
    cbn. intros H. unfold shows_event; cbn. repeat (split; [reflexivity|]). split; [apply uses_show, H|]. split; [apply assocs_shows|].
    repeat (split; [reflexivity|]). apply provenance_shows.
  Qed.
  Lemma entity_shows id m : snd (view_entity_as cat d id m) = [] -> shows_entity s m (fst (view_entity_as cat d id m)).
  Proof.
    cbn. intros H. apply app_eq_nil in H as (H1 & H2). unfold shows_entity; cbn. repeat (split; [reflexivity|]). split; [apply uses_show, H1|]. split; [apply uses_show, H2|].
    repeat (split; [reflexivity|]). apply provenance_shows.
  Qed.
  Lemma attribute_group_shows m : snd (view_attribute_group cat d m) = [] -> shows_attribute_group s m (fst (view_attribute_group cat d m)).
  Proof.
    cbn. intros H. unfold shows_attribute_group; cbn. repeat (split; [reflexivity|]). split; [apply uses_show, H|].
    repeat (split; [reflexivity|]). apply provenance_shows.
  Qed.
  Lemma attributes_shown : exists k, one_each (fun i => i < length cat)
      (fun i f => exists a, nth_error cat i = Some a /\ shows_attribute d a f) (r2_attributes (s2_registry s)) k /\
      arranged af_key k (view_attributes s).
  Proof.
    eexists. split; [|apply arranged_sort]. fold d cat. induction (r2_attributes (s2_registry s)) as [|i r IH]; cbn; [constructor|].
    destruct (nth_error cat i) as [a|] eqn:E; cbn.
    - apply oe_take; [apply nth_error_Some; congruence | exists a; split; [exact E | apply attribute_shows] | exact IH].
    - apply oe_skip; [apply nth_error_None in E; lia | exact IH].
  Qed.
  Lemma local_shows deps : view_errors s = [] -> shows_own s (view_local s deps).
  Proof.
    unfold view_errors. intros H. repeat match type of H with app _ _ = [] => apply app_eq_nil in H; let A := fresh "A" in destruct H as (A & H) end.
    unfold shows_own, view_local; cbn. split; [reflexivity|]. split; [apply attributes_shown|].
    split. { apply forall2_fun. intros x Hx. apply attribute_group_shows, (no_errs _ _ H x Hx). }
    split; [apply views_shown; [apply metric_shows | assumption]|].
    split; [apply views_shown; [intros x; apply span_shows | assumption]|].
    split; [apply views_shown; [intros x; apply event_shows | assumption]|].
    split; [apply views_shown; [intros x; apply entity_shows | assumption]|].
    split; [apply views_shown; [intros (id & x) E; split; [reflexivity | apply metric_shows, E] | assumption]|].
    split; [apply views_shown; [intros (id & x) E; split; [reflexivity | apply span_shows, E] | assumption]|].
    split; [apply views_shown; [intros (id & x) E; split; [reflexivity | apply event_shows, E] | assumption]|].
    apply views_shown; [intros (id & x) E; split; [reflexivity | apply entity_shows, E] | assumption].
  Qed.
  Lemma errors_iff label r : In (label, r) (view_errors s) <-> dangling s label r.
  Proof.
    assert (F : forall (X Y : Type) (f : X -> Y * list missing) (l : list X) (lb : X -> string) (u : X -> nat -> Prop),
      (forall x e, In e (snd (f x)) <-> fst e = lb x /\ u x (snd e)) ->
      (In (label, r) (errs f l) <-> exists x, In x l /\ label = lb x /\ u x r)).
    { intros X Y f l lb u Hf. unfold errs. rewrite in_flat_map. split; intros (x & Hx & H); exists x; (split; [exact Hx|]).
      - apply Hf in H as (H1 & H2). auto.
      - apply Hf. cbn. destruct H as (-> & H). auto. }
    assert (G : forall (X : Type) (l : list (string * X)) (P : string -> X -> Prop),
      (exists x, In x l /\ P (fst x) (snd x)) <-> exists id x, In (id, x) l /\ P id x).
    { intros X l P. split; [intros ((id & x) & H); eauto | intros (id & x & H); exists (id, x); exact H]. }
    unfold view_errors, dangling. rewrite !in_app_iff. fold cat d.
    rewrite (F _ _ _ _ (fun m => append "metric." (me2_name m)) (fun m => dangling_in s (me2_attributes m)))
      by (intros x e; apply uses_err).
    rewrite (F _ _ _ (f2_metrics (s2_refinements s)) (fun p => append "metric." (me2_name (snd p))) (fun p => dangling_in s (me2_attributes (snd p))))
      by (intros x e; apply uses_err).
    rewrite (F _ _ _ (r2_spans (s2_registry s)) (fun m => append "span." (sp2_type m)) (fun m => dangling_in s (sp2_attributes m)))
      by (intros x e; apply uses_err).
    rewrite (F _ _ _ (f2_spans (s2_refinements s)) (fun p => append "span." (fst p)) (fun p => dangling_in s (sp2_attributes (snd p))))
      by (intros x e; apply uses_err).
    rewrite (F _ _ _ (r2_events (s2_registry s)) (fun m => append "event." (ev2_name m)) (fun m => dangling_in s (ev2_attributes m)))
      by (intros x e; apply uses_err).
    rewrite (F _ _ _ (f2_events (s2_refinements s)) (fun p => append "event." (fst p)) (fun p => dangling_in s (ev2_attributes (snd p))))
      by (intros x e; apply uses_err).
    rewrite (F _ _ _ (r2_entities (s2_registry s)) (fun m => append "entity." (en2_type m)) (fun m r => dangling_in s (en2_identity m) r \/ dangling_in s (en2_description m) r))
      by (intros x e; cbn; rewrite in_app_iff; unfold cat, d; rewrite !uses_err; tauto).
    rewrite (F _ _ _ (f2_entities (s2_refinements s)) (fun p => append "entity." (fst p)) (fun p r => dangling_in s (en2_identity (snd p)) r \/ dangling_in s (en2_description (snd p)) r))
      by (intros x e; cbn; rewrite in_app_iff; unfold cat, d; rewrite !uses_err; tauto).
    rewrite (F _ _ _ (r2_attribute_groups (s2_registry s)) (fun m => append "attribute_group." (ag2_id m)) (fun m => dangling_in s (ag2_attributes m)))
      by (intros x e; apply uses_err).
    rewrite (G _ (f2_metrics (s2_refinements s)) (fun id m => label = append "metric." (me2_name m) /\ dangling_in s (me2_attributes m) r)).
    rewrite (G _ (f2_spans (s2_refinements s)) (fun id m => label = append "span." id /\ dangling_in s (sp2_attributes m) r)).
    rewrite (G _ (f2_events (s2_refinements s)) (fun id m => label = append "event." id /\ dangling_in s (ev2_attributes m) r)).
    rewrite (G _ (f2_entities (s2_refinements s)) (fun id m => label = append "entity." id /\ (dangling_in s (en2_identity m) r \/ dangling_in s (en2_description m) r))).
    reflexivity.
  Qed.
  Lemma sound_iff : view_errors s = [] <-> sound s.
  Proof.
    split.
    - intros H lb r D. apply errors_iff in D. rewrite H in D. exact D.
    - intros H. destruct (view_errors s) as [|[lb r] rest] eqn:E; [reflexivity|]. exfalso. apply (H lb r), errors_iff. rewrite E. now left.
  Qed.
End Schema.

Section Forge.
  Variables (conv1 : source1 -> conv schema2) (resolve : string -> resolution).
  Notation gives := (gives conv1 resolve).
  Notation reaches := (reaches conv1 resolve).
  Notation forge_deps b := (forge_deps b conv1 resolve).
  Notation forge n := (forge n conv1 resolve).

  Lemma gives_fun u s t : gives u s -> gives u t -> s = t.
  Proof. intros (b & l & H & E) (b' & l' & H' & E'). rewrite H in H'. injection H' as <- <-. destruct b; congruence. Qed.
  Lemma deps_forged build urls vs nfes : forge_deps build urls = Some (inl (vs, nfes)) ->
    Forall2 (fun u v => exists t more, gives u t /\ build t = Some (Forged v more)) urls vs /\
    forall e, In e nfes <-> exists u b l t v more, In u urls /\ resolve u = Resolves b l /\ gives u t /\ build t = Some (Forged v more) /\ (In e l \/ In e more).
  Proof.
    revert vs nfes. induction urls as [|u rest IH]; cbn; intros vs nfes H.
    - injection H as <- <-. split; [constructor|]. intros e. split; [intros [] | intros (u & _ & _ & _ & _ & _ & [] & _)].
    - destruct (resolve u) as [b l|e] eqn:R; [|discriminate].
      assert (Gv : forall t, match b with Bundle2 s => Converted s | Bundle1 s => conv1 s end = Converted t -> gives u t).
      { intros t Ht. exists b, l. split; [exact R|]. destruct b; [exact Ht | congruence]. }
      destruct (match b with Bundle2 s => Converted s | Bundle1 s => conv1 s end) as [t|e|] eqn:Ec; try discriminate.
      specialize (Gv t eq_refl). destruct (build t) as [[v more|e|]|] eqn:Eb; try discriminate.
      destruct (forge_deps build rest) as [[(vs' & others)|o]|] eqn:Er; try discriminate.
      injection H as <- <-. specialize (IH _ _ eq_refl) as (I1 & I2). split.
      + constructor; [exists t, more; auto | exact I1].
      + intros e. rewrite !in_app_iff, I2. split.
        * intros [H|[H|(u' & b' & l' & t' & v' & m' & H1 & H2)]].
          -- exists u, b, l, t, v, more. tauto.
          -- exists u, b, l, t, v, more. tauto.
          -- exists u', b', l', t', v', m'. tauto.
        * intros (u' & b' & l' & t' & v' & m' & [<-|H1] & H2 & H3 & H4 & H5).
          -- rewrite R in H2. injection H2 as <- <-. rewrite (gives_fun _ _ _ H3 Gv) in H4. rewrite Eb in H4. injection H4 as <- <-. tauto.
          -- right. right. exists u', b', l', t', v', m'. tauto.
  Qed.
  Lemma deps_other build urls r : forge_deps build urls = Some (inr r) ->
    exists u, In u urls /\
      ((exists e, resolve u = Unresolved e /\ r = Refused (FResolver e)) \/
       (exists x l e, resolve u = Resolves (Bundle1 x) l /\ conv1 x = Failed e /\ r = Refused (FConversion e)) \/
       (exists x l, resolve u = Resolves (Bundle1 x) l /\ conv1 x = Panicked /\ r = Crashed) \/
       (exists t, gives u t /\ build t = Some r /\ forall v l, r <> Forged v l)).
  Proof.
    induction urls as [|u rest IH]; cbn; [discriminate|]. destruct (resolve u) as [b l|e] eqn:R.
    - destruct (match b with Bundle2 s => Converted s | Bundle1 s => conv1 s end) as [t|e|] eqn:Ec.
      + assert (Gv : gives u t). { exists b, l. split; [exact R|]. destruct b; [exact Ec | congruence]. }
        destruct (build t) as [[v more|e|]|] eqn:Eb; try discriminate.
        * destruct (forge_deps build rest) as [[(vs' & others)|o]|] eqn:Er; try discriminate.
          intros H. specialize (IH H) as (u' & Hu & H'). exists u'. split; [now right | exact H'].
        * intros [= <-]. exists u. split; [now left|]. right. right. right. exists t. split; [exact Gv|]. split; [exact Eb|]. discriminate.
        * intros [= <-]. exists u. split; [now left|]. right. right. right. exists t. split; [exact Gv|]. split; [exact Eb|]. discriminate.
      + intros [= <-]. exists u. split; [now left|]. right. left. destruct b as [x|x]; [|discriminate]. exists x, l, e. auto.
      + intros [= <-]. exists u. split; [now left|]. right. right. left. destruct b as [x|x]; [|discriminate]. exists x, l. auto.
    - intros [= <-]. exists u. split; [now left|]. left. exists e. auto.
  Qed.
  Lemma deps_mono (b1 b2 : schema2 -> option forged) urls r : (forall s x, b1 s = Some x -> b2 s = Some x) ->
    forge_deps b1 urls = Some r -> forge_deps b2 urls = Some r.
  Proof.
    intros Hb. revert r. induction urls as [|u rest IH]; cbn; intros r; [exact (fun H => H)|]. destruct (resolve u) as [b l|e]; [|exact (fun H => H)].
    destruct (match b with Bundle2 s => Converted s | Bundle1 s => conv1 s end) as [t|e|]; try exact (fun H => H).
    destruct (b1 t) as [x|] eqn:E; [|discriminate]. rewrite (Hb _ _ E). destruct x; try exact (fun H => H).
    destruct (forge_deps b1 rest) as [y|] eqn:Er; [|discriminate]. rewrite (IH _ eq_refl). exact (fun H => H).
  Qed.
  Lemma forge_mono n s r : forge n s = Some r -> forall m, n <= m -> forge m s = Some r.
  Proof.
    revert s r. induction n as [|n IH]; cbn [ViewModel.forge]; intros s r H m Hm; [discriminate|].
    destruct m as [|m]; [lia|]. cbn [ViewModel.forge]. destruct (view_errors s); [|exact H].
    destruct (forge_deps (forge n) (s2_dependencies s)) as [x|] eqn:E; [|discriminate].
    rewrite (deps_mono (forge n) (forge m) _ _ (fun t y Ht => IH t y Ht m ltac:(lia)) E). exact H.
  Qed.
  Lemma reaches_trans a b c : reaches a b -> reaches b c -> reaches a c.
  Proof. intros H1 H2. induction H2; [exact H1|]. eapply reach_dep; eauto. Qed.
  Lemma reaches_first a b : reaches a b -> a = b \/ exists u t, In u (s2_dependencies a) /\ gives u t /\ reaches t b.
  Proof.
    intros H. induction H as [|t u w H IH Hu Hg]; [left; reflexivity|]. right. destruct IH as [<-|(u' & t' & H1 & H2 & H3)].
    - exists u, w. split; [exact Hu|]. split; [exact Hg|]. constructor.
    - exists u', t'. split; [exact H1|]. split; [exact H2|]. eapply reach_dep; eauto.
  Qed.
  Lemma reaches_step a u t b : In u (s2_dependencies a) -> gives u t -> reaches t b -> reaches a b.
  Proof. intros H1 H2 H3. eapply reaches_trans; [|exact H3]. eapply reach_dep; [constructor | exact H1 | exact H2]. Qed.
  Lemma reason_up a u t e : In u (s2_dependencies a) -> gives u t -> reason conv1 resolve t e -> reason conv1 resolve a e.
  Proof.
    intros H1 H2 [t' l H3 H4 H5|t' v e' H3 H4 H5|t' v x l e' H3 H4 H5 H6].
    - eapply r_missing; [eapply reaches_step; eauto | exact H4 | exact H5].
    - eapply r_unresolved; [eapply reaches_step; eauto | exact H4 | exact H5].
    - eapply r_conversion; [eapply reaches_step; eauto | exact H4 | exact H5 | exact H6].
  Qed.

  Lemma forged_parts n s v nfes : forge n s = Some (Forged v nfes) ->
    exists m deps, n = S m /\ view_errors s = [] /\ forge_deps (forge m) (s2_dependencies s) = Some (inl (deps, nfes)) /\ v = view_local s deps.
  Proof.
    destruct n as [|n]; cbn [ViewModel.forge]; [discriminate|]. destruct (view_errors s); [|discriminate].
    destruct (forge_deps (forge n) (s2_dependencies s)) as [[(deps & l)|o]|] eqn:E; intros H; [|exfalso|discriminate].
    - injection H as <- <-. exists n, deps. auto.
    - injection H as ->. apply deps_other in E as (u & _ & [(e & _ & H)|[(x & l & e & _ & _ & H)|[(x & l & _ & _ & H)|(t & _ & _ & H)]]]); try discriminate H.
      apply (H v nfes eq_refl).
  Qed.

  (* the view shows the registry and all its dependencies *)
  Theorem C83_shown n s v nfes : forge n s = Some (Forged v nfes) -> shows conv1 resolve s v.
  Proof.
    revert s v nfes. induction n as [|n IH]; intros s v nfes H; [discriminate|].
    apply forged_parts in H as (m & deps & [= <-] & He & Hd & ->). apply deps_forged in Hd as (Hd & _).
    apply shows_all; [apply local_shows, He|]. cbn. induction Hd as [|u d urls ds (t & more & Hg & Hb) Hr IHd]; constructor; [|exact IHd].
    exists t. split; [exact Hg | eapply IH, Hb].
  Qed.
  (* it is refused only for a reason it names *)
  Theorem C83_refused n s e : forge n s = Some (Refused e) -> reason conv1 resolve s e.
  Proof.
    revert s e. induction n as [|n IH]; cbn [ViewModel.forge]; intros s e H; [discriminate|].
    destruct (view_errors s) as [|x rest] eqn:E.
    - destruct (forge_deps (forge n) (s2_dependencies s)) as [[(deps & l)|o]|] eqn:Ed; try discriminate. injection H as ->.
      apply deps_other in Ed as (u & Hu & [(e' & H & [= ->])|[(x & l & e' & H1 & H2 & [= ->])|[(x & l & _ & _ & H)|(t & H1 & H2 & _)]]]); [| |discriminate H|].
      + eapply r_unresolved; [constructor | exact Hu | exact H].
      + eapply r_conversion; [constructor | exact Hu | exact H1 | exact H2].
      + eapply reason_up; [exact Hu | exact H1 | apply IH, H2].
    - injection H as <-. eapply r_missing; [constructor | discriminate|]. intros lb r. rewrite <- E. apply errors_iff.
  Qed.
  Theorem C83_crash n s : forge n s = Some Crashed ->
    exists t u x l, reaches s t /\ In u (s2_dependencies t) /\ resolve u = Resolves (Bundle1 x) l /\ conv1 x = Panicked.
  Proof.
    revert s. induction n as [|n IH]; cbn [ViewModel.forge]; intros s H; [discriminate|].
    destruct (view_errors s) as [|x rest] eqn:E; [|discriminate].
    destruct (forge_deps (forge n) (s2_dependencies s)) as [[(deps & l)|o]|] eqn:Ed; try discriminate. injection H as ->.
    apply deps_other in Ed as (u & Hu & [(e' & _ & H)|[(x & l & e' & _ & _ & H)|[(x & l & H1 & H2 & _)|(t & H1 & H2 & _)]]]); try discriminate H.
    - exists s, u, x, l. split; [constructor | auto].
    - apply IH in H2 as (t' & u' & x & l & H2 & H3). exists t', u', x, l. split; [eapply reaches_step; eauto | exact H3].
  Qed.
  (* all the dangling references of the registry itself are named, whatever its dependencies are *)
  Theorem C83_dangling n s label r : dangling s label r ->
    exists l, forge (S n) s = Some (Refused (FMissing l)) /\ forall lb i, In (lb, i) l <-> dangling s lb i.
  Proof.
    intros D. apply errors_iff in D. cbn [ViewModel.forge]. destruct (view_errors s) as [|x rest] eqn:E; [destruct D|].
    exists (x :: rest). split; [reflexivity|]. intros lb i. rewrite <- E. apply errors_iff.
  Qed.
  (* the errors that do not stop the work are those of the dependencies *)
  Theorem C83_warnings n s v nfes : forge n s = Some (Forged v nfes) -> forall e,
    In e nfes <-> exists t u b l, reaches s t /\ In u (s2_dependencies t) /\ resolve u = Resolves b l /\ In e l.
  Proof.
    revert s v nfes. induction n as [|n IH]; intros s v nfes H e; [discriminate|].
    apply forged_parts in H as (m & deps & [= <-] & He & Hd & ->). apply deps_forged in Hd as (Hf & Hn). rewrite Hn. split.
    - intros (u & b & l & t & v & more & Hu & Hr & Hg & Hb & [Hi|Hi]).
      + exists s, u, b, l. split; [constructor | auto].
      + apply (IH _ _ _ Hb) in Hi as (t' & u' & b' & l' & H1 & H2). exists t', u', b', l'. split; [eapply reaches_step; eauto | exact H2].
    - intros (t & u & b & l & H1 & H2 & H3 & H4).
      assert (Step : forall u, In u (s2_dependencies s) -> exists t v more, gives u t /\ forge n t = Some (Forged v more)).
      { intros w Hw. clear -Hf Hw. induction Hf as [|x y xs ys (t & more & Hg & Hb) Hr IHf]; [destruct Hw|].
        destruct Hw as [<-|Hw]; [exists t, y, more; auto | apply IHf, Hw]. }
      apply reaches_first in H1 as [<-|(u' & t' & H5 & H6 & H7)].
      + destruct (Step u H2) as (w & v & more & Hg & Hb). exists u, b, l, w, v, more. tauto.
      + destruct (Step u' H5) as (w & v & more & Hg & Hb). pose proof (gives_fun _ _ _ Hg H6) as ->.
        destruct H6 as (b' & l' & R & E). exists u', b', l', t', v, more. split; [exact H5|]. split; [exact R|]. split; [exact Hg|]. split; [exact Hb|].
        right. apply (IH _ _ _ Hb). exists t, u, b, l. auto.
  Qed.
  (* the result does not depend on how long one waits for it *)
  Theorem C83_once n m s a b : forge n s = Some a -> forge m s = Some b -> a = b.
  Proof.
    intros H1 H2. destruct (Nat.le_ge_cases n m) as [L|L].
    - apply (forge_mono _ _ _ H1) in L. congruence.
    - apply (forge_mono _ _ _ H2) in L. congruence.
  Qed.
  Lemma deps_total urls : (forall u t, In u urls -> gives u t -> exists n r, forge n t = Some r) ->
    exists n r, forge_deps (forge n) urls = Some r.
  Proof.
    induction urls as [|u rest IH]; intros H; [exists 0; eexists; reflexivity|].
    destruct IH as (n & r & Hn); [intros w t Hw; apply H; now right|].
    destruct (resolve u) as [b l|e] eqn:R; [|exists 0; eexists; cbn; rewrite R; reflexivity].
    destruct (match b with Bundle2 s => Converted s | Bundle1 s => conv1 s end) as [t|e|] eqn:Ec.
    - assert (Gv : gives u t). { exists b, l. split; [exact R|]. destruct b; [exact Ec | congruence]. }
      destruct (H u t (or_introl eq_refl) Gv) as (k & x & Hk). exists (k + n).
      assert (Hr : forge_deps (forge (k + n)) rest = Some r).
      { eapply deps_mono; [|exact Hn]. intros y z Hy. eapply forge_mono; [exact Hy | lia]. }
      apply forge_mono with (m := k + n) in Hk; [|lia]. cbn. rewrite R, Ec, Hk. destruct x; eauto. rewrite Hr. destruct r as [(p & q)|o]; eauto.
    - exists 0. eexists. cbn. rewrite R, Ec. reflexivity.
    - exists 0. eexists. cbn. rewrite R, Ec. reflexivity.
  Qed.
  (* without an endless chain of dependencies the work ends *)
  Theorem C83_ends_partial s : grounded conv1 resolve s -> exists n r, forge n s = Some r.
  Proof.
    intros H. induction H as [s H IH]. destruct (deps_total (s2_dependencies s)) as (n & r & Hn); [exact IH|].
    exists (S n). cbn [ViewModel.forge]. destruct (view_errors s); [|eauto]. rewrite Hn. destruct r as [(p & q)|o]; eauto.
  Qed.
  (* when a view is made *)
  Theorem C83_success s : (exists n v nfes, forge n s = Some (Forged v nfes)) <->
    grounded conv1 resolve s /\ complete conv1 resolve s /\ forall t, reaches s t -> sound t.
  Proof.
    split.
    - intros (n & v & nfes & H). revert s v nfes H. induction n as [|n IH]; intros s v nfes H; [discriminate|].
      apply forged_parts in H as (m & deps & [= <-] & He & Hd & ->). apply deps_forged in Hd as (Hf & _).
      assert (Step : forall u, In u (s2_dependencies s) -> exists t v more, gives u t /\ forge n t = Some (Forged v more)).
      { intros w Hw. clear -Hf Hw. induction Hf as [|x y xs ys (t & more & Hg & Hb) Hr IHf]; [destruct Hw|].
        destruct Hw as [<-|Hw]; [exists t, y, more; auto | apply IHf, Hw]. }
      split; [|split].
      + constructor. intros u t Hu Hg. destruct (Step u Hu) as (w & v & more & Hw & Hb). rewrite (gives_fun _ _ _ Hg Hw). apply (IH _ _ _ Hb).
      + intros t u Ht Hu. apply reaches_first in Ht as [<-|(u' & t' & H1 & H2 & H3)].
        * destruct (Step u Hu) as (w & _ & _ & Hw & _). eauto.
        * destruct (Step u' H1) as (w & v & more & Hw & Hb). pose proof (gives_fun _ _ _ H2 Hw) as ->. apply (IH _ _ _ Hb) with (t := t); auto.
      + intros t Ht. apply reaches_first in Ht as [<-|(u' & t' & H1 & H2 & H3)]; [apply sound_iff, He|].
        destruct (Step u' H1) as (w & v & more & Hw & Hb). pose proof (gives_fun _ _ _ H2 Hw) as ->. apply (IH _ _ _ Hb); auto.
    - intros (Hg & Hc & Hs). destruct (C83_ends_partial s Hg) as (n & r & Hn). destruct r as [v l|e|]; [eauto| |]; exfalso.
      + apply C83_refused in Hn as [t l Ht Hl Hd|t u e0 Ht Hu Hr|t u x l e0 Ht Hu Hr Hx].
        * destruct l as [|[lb i] l]; [congruence|]. apply (Hs t Ht lb i), Hd. now left.
        * destruct (Hc t u Ht Hu) as (w & b & l & Hw & _). congruence.
        * destruct (Hc t u Ht Hu) as (w & b & l' & Hw & E). rewrite Hr in Hw. injection Hw as <- <-. congruence.
      + apply C83_crash in Hn as (t & u & x & l & Ht & Hu & Hr & Hx).
        destruct (Hc t u Ht Hu) as (w & b & l' & Hw & E). rewrite Hr in Hw. injection Hw as <- <-. congruence.
  Qed.
End Forge.

(* ---------- what does not hold ---------- *)
(* a registry that lists itself: the work never ends *)
Theorem C83_endless_refuted : forall n, forge n (fun _ => Panicked) self_resolver self_dependent = None.
Proof. induction n as [|n IH]; [reflexivity|]. cbn. fold self_dependent. rewrite IH. reflexivity. Qed.
Lemma mark_length n : String.length (mark n) = n.
Proof. induction n; cbn; congruence. Qed.
Lemma chain_resolves k : chain_resolver (mark k) = Resolves (Bundle2 (chain k)) [].
Proof. unfold chain_resolver. rewrite mark_length. reflexivity. Qed.
Lemma chain_forged n : forall k, k <= n -> exists v, forge (S n) (fun _ => Panicked) chain_resolver (chain k) = Some (Forged v []) /\ size v = 2 ^ k.
Proof.
  induction n as [|n IH]; intros k Hk.
  - assert (k = 0) as -> by lia. eexists. split; reflexivity.
  - assert (D : forall j, j <= k -> exists vs, forge_deps (forge (S n) (fun _ => Panicked) chain_resolver) (fun _ => Panicked) chain_resolver (map mark (seq (k - j) j)) = Some (inl (vs, [])) /\
        list_sum (map size vs) + 2 ^ (k - j) = 2 ^ k).
    { induction j as [|j IHj]; intros Hj.
      - exists []. split; [reflexivity|]. cbn. f_equal. lia.
      - destruct IHj as (vs & H1 & H2); [lia|]. destruct (IH (k - S j)) as (v & H3 & H4); [lia|].
        exists (v :: vs). cbn [seq map ViewModel.forge_deps]. rewrite chain_resolves, H3. replace (S (k - S j)) with (k - j) by lia. rewrite H1. split; [reflexivity|]. cbn [map list_sum fold_right].
        rewrite H4. replace (k - j) with (S (k - S j)) in H2 by lia. cbn [Nat.pow] in H2. unfold list_sum in *. lia. }
    destruct (D k (le_n k)) as (vs & H1 & H2). rewrite Nat.sub_diag in H1, H2. cbn [Nat.pow] in H2.
    remember (S n) as f. cbn [ViewModel.forge]. unfold chain at 1 2. cbn [view_errors]. cbn -[ViewModel.forge ViewModel.forge_deps Nat.pow list_sum map].
    rewrite H1. eexists. split; [reflexivity|]. cbn [size vw_deps view_local]. lia.
Qed.
(* registries that each list all the ones before them: the view doubles with each *)
Theorem C83_size_refuted n : exists v, forge (S n) (fun _ => Panicked) chain_resolver (chain n) = Some (Forged v []) /\ size v = 2 ^ n.
Proof. apply chain_forged, le_n. Qed.
(* an attribute the registry lists and does not have is left out, and nothing is said *)
Theorem C83_listed_attribute_refuted : exists s v, forge 1 (fun _ => Panicked) self_resolver s = Some (Forged v []) /\
  In 7 (r2_attributes (s2_registry s)) /\ rf_attributes (vw_registry v) = [].
Proof. exists (listing [7] []). eexists. split; [reflexivity|]. split; [now left | reflexivity]. Qed.
(* a definition from a dependency that is not listed is shown as the registry's own *)
Theorem C83_unlisted_dependency_refuted : exists s v f, forge 1 (fun _ => Panicked) self_resolver s = Some (Forged v []) /\
  rf_attributes (vw_registry v) = [f] /\ s2_catalog s = [sample_attr2 "k" (Some 3)] /\ pf_source (af_provenance f) = None.
Proof. exists (listing [0] [sample_attr2 "k" (Some 3)]). do 2 eexists. repeat split; reflexivity. Qed.

(* ---------- finding the entity a reference names ---------- *)
Lemma first_iff {A} (f : A -> bool) (P : A -> Prop) l x : (forall y, f y = true <-> P y) -> find f l = Some x <-> first P l x.
Proof.
  intros H. split; [apply find_first; exact H|]. intros (l1 & l2 & -> & Hx & Hn). induction l1 as [|y l1 IH]; cbn.
  - apply H in Hx. rewrite Hx. reflexivity.
  - destruct (f y) eqn:E; [exfalso; apply (Hn y); [now left | apply H, E]|]. apply IH. intros z Hz. apply Hn. now right.
Qed.
Lemma defined_iff v name e : defined_entity v name = Some e <-> declares v name e.
Proof.
  unfold defined_entity, declares. destruct (find _ (rf_entities _)) as [x|] eqn:E.
  - pose proof (proj1 (first_iff _ (fun x => enf_type x = name) _ _ (fun x => String.eqb_eq _ _)) E) as F. split.
    + intros [= <-]. left. exact F.
    + intros [H|(H & _)].
      * apply (proj2 (first_iff _ (fun x => enf_type x = name) _ _ (fun x => String.eqb_eq _ _))) in H. congruence.
      * destruct F as (l1 & l2 & El & Hx & _). exfalso. apply (H x); [rewrite El; apply in_elt | exact Hx].
  - pose proof (find_nothing _ (fun x => enf_type x = name) _ (fun x => String.eqb_eq _ _) E) as F. split.
    + destruct (find _ (ff_entities _)) as [(id & x)|] eqn:E2; [|discriminate]. intros [= <-]. right. split; [exact F|]. exists id.
      apply (proj1 (first_iff _ (fun p => fst p = name) _ _ (fun x => String.eqb_eq _ _)) E2).
    + intros [H|(_ & id & H)].
      * apply (proj2 (first_iff _ (fun x => enf_type x = name) _ _ (fun x => String.eqb_eq _ _))) in H. congruence.
      * apply (proj2 (first_iff _ (fun p => fst p = name) _ _ (fun x => String.eqb_eq _ _))) in H. rewrite H. reflexivity.
Qed.
Lemma points_iff v r w : (match pf_source (ef_provenance r) with None => Some v | Some u => find (fun d => String.eqb (vw_url d) u) (vw_deps v) end) = Some w
  <-> points_into v r w.
Proof.
  unfold points_into. destruct (pf_source (ef_provenance r)) as [u|]; [|split; congruence].
  apply (first_iff _ (fun d => vw_url d = u) _ _ (fun x => String.eqb_eq _ _)).
Qed.
(* the entity found is the one the registry that the reference names declares *)
Theorem C83_lookup v r e : lookup_entity v r = inl e <-> exists w, points_into v r w /\ declares w (ef_type r) e.
Proof.
  unfold lookup_entity. split.
  - destruct (match pf_source _ with None => _ | Some u => _ end) as [w|] eqn:E; [|discriminate].
    destruct (defined_entity w (ef_type r)) as [x|] eqn:D; [|discriminate]. intros [= <-]. exists w. split; [apply points_iff, E | apply defined_iff, D].
  - intros (w & Hw & He). apply points_iff in Hw. rewrite Hw. apply defined_iff in He. rewrite He. reflexivity.
Qed.
Theorem C83_lookup_error v r e : lookup_entity v r = inr e -> e = (ef_type r, pf_source (ef_provenance r)).
Proof.
  unfold lookup_entity. destruct (match pf_source _ with None => _ | Some u => _ end) as [w|]; [|congruence].
  destruct (defined_entity w (ef_type r)); congruence.
Qed.
Example C83_nonvacuous : exists v, forge 3 (fun _ => Panicked) chain_resolver (measuring [0]) = Some (Forged v []) /\
  map mef_name (rf_metrics (vw_registry v)) = ["a"; "b"] /\
  map (fun m => map (fun u => (af_key (uf_base u), pf_source (af_provenance (uf_base u)))) (mef_attributes m)) (rf_metrics (vw_registry v))
    = [[("k", Some "x")]; [("k", Some "x")]] /\
  size v = 3.
Proof. eexists. split; [vm_compute; reflexivity|]. repeat split; vm_compute; reflexivity. Qed.
Example C83_dangling_nonvacuous : dangling (measuring [0; 3]) "metric.a" 3 /\
  forge 1 (fun _ => Panicked) chain_resolver (measuring [0; 3]) = Some (Refused (FMissing [("metric.a", 3)])).
Proof.
  split; [|reflexivity]. left. eexists. split; [right; left; reflexivity|]. split; [reflexivity|].
  eexists. split; [right; left; reflexivity|]. split; [reflexivity | cbn; lia].
Qed.
Example C83_unresolved_nonvacuous :
  forge 2 (fun _ => Panicked) (fun _ => Unresolved "gone") (measuring [0]) = Some (Refused (FResolver "gone")) /\
  forge 2 (fun _ => Failed (CInvalidUrl "x")) (fun _ => Resolves (Bundle1 sample_source) []) (measuring [0]) = Some (Refused (FConversion (CInvalidUrl "x"))) /\
  forge 2 (fun _ => Panicked) (fun _ => Resolves (Bundle1 sample_source) []) (measuring [0]) = Some Crashed.
Proof. repeat split; reflexivity. Qed.
Print Assumptions C82_view.
Print Assumptions C82_refused.
Print Assumptions C82_success.
Print Assumptions C83_shown.
Print Assumptions C83_refused.
Print Assumptions C83_crash.
Print Assumptions C83_dangling.
Print Assumptions C83_warnings.
Print Assumptions C83_once.
Print Assumptions C83_ends_partial.
Print Assumptions C83_success.
Print Assumptions C83_endless_refuted.
Print Assumptions C83_size_refuted.
Print Assumptions C83_listed_attribute_refuted.
Print Assumptions C83_unlisted_dependency_refuted.
Print Assumptions C83_lookup.
Print Assumptions C83_lookup_error.
