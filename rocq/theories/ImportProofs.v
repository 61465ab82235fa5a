(* Lemmas on imports: patterns, names, copies of one definition. *)
From Coq Require Import String Ascii Bool Arith NArith Lia Permutation List.
Import ListNotations.
From Verif Require Import Base BaseProofs Json SemTypes Resolved Semver DefModel DefSpec ResolveModel ResolveSpec ResolveProofs RefProofs
  ImportModel ImportSpec.
Local Open Scope string_scope.

Lemma heading_iff t f : heading t f <-> field_of t = Some f.
Proof.
  split.
  - intros H. destruct H; reflexivity.
  - destruct t; cbn; intros H; inversion H; constructor.
Qed.
Lemma field_eqb_iff a b : field_eqb a b = true <-> a = b.
Proof. destruct a, b; cbn; split; intros H; try reflexivity; try discriminate. Qed.
Lemma field_patterns_iff f i p : In p (field_patterns f i) <-> listed f i p.
Proof.
  unfold field_patterns. split.
  - destruct f; intros H.
    + destruct (im_metrics i) eqn:E; [|contradiction]. econstructor; eassumption.
    + destruct (im_events i) eqn:E; [|contradiction]. econstructor; eassumption.
    + destruct (im_spans i) eqn:E; [|contradiction]. econstructor; eassumption.
    + destruct (im_entities i) eqn:E; [|contradiction]. econstructor; eassumption.
    + destruct (im_attribute_groups i) eqn:E; [|contradiction]. econstructor; eassumption.
  - intros H. destruct H as [i l p E H|i l p E H|i l p E H|i l p E H|i l p E H]; rewrite E; exact H.
Qed.
Lemma patterns_iff f bs p : In p (patterns_of f bs) <-> exists b, In b bs /\ listed f (bk_imports b) p.
Proof.
  unfold patterns_of. rewrite in_flat_map. split; intros (b & Hb & H); exists b; (split; [exact Hb|]);
    [apply (proj1 (field_patterns_iff _ _ _)) in H|apply (proj2 (field_patterns_iff _ _ _)) in H]; exact H.
Qed.
Lemma explicit_iff bs b : In b (explicit_blocks bs) <-> In b bs /\ authored b.
Proof.
  unfold explicit_blocks, authored, is_implicit. rewrite filter_In, negb_true_iff, String.eqb_neq. reflexivity.
Qed.
Lemma matches_key_iff glob bs f k : matches_key glob bs f k = true <-> asks glob bs f k.
Proof.
  unfold matches_key, asks. rewrite existsb_exists. split.
  - intros (p & Hp & Hg). apply patterns_iff in Hp. destruct Hp as (b & Hb & Hl). exists b, p. auto.
  - intros (b & p & Hb & Hl & Hg). exists p. split; [|exact Hg]. apply patterns_iff. exists b. auto.
Qed.
Lemma matches_key_named glob bs f k : matches_key glob (explicit_blocks bs) f k = true <-> asks_by_name glob bs f k.
Proof.
  rewrite matches_key_iff. unfold asks, asks_by_name. split.
  - intros (b & p & Hb & Hl & Hg). apply explicit_iff in Hb. destruct Hb as [Hb Ha]. exists b, p. auto.
  - intros (b & p & Hb & Ha & Hl & Hg). exists b, p. split; [apply explicit_iff; auto|auto].
Qed.

Lemma in_opt_list {A} (o : option A) x : In x (opt_list o) <-> o = Some x.
Proof. destruct o; cbn; split; intros H; [destruct H as [->|[]]; reflexivity|inversion H; auto|contradiction|discriminate]. Qed.
Lemma strip_iff p s x : In x (opt_list (strip_prefix p s)) <-> s = p ++ x.
Proof. rewrite in_opt_list. apply strip_prefix_spec. Qed.
Lemma keys_iff g k : In k (match_keys g) <-> answers g k.
Proof.
  unfold match_keys. split.
  - destruct (g_is_v2 g) eqn:V.
    + destruct (g_type g) eqn:T; try (intros []; fail); cbn [group_type_eqb]; cbn [In]; rewrite !in_app_iff, ?strip_iff, ?in_opt_list; cbn [In];
        intros [H|[H|[H|H]]]; try contradiction; try discriminate; subst;
        first [ eapply an_id; [exact V|rewrite T; constructor]
              | eapply an_registry; eassumption
              | eapply an_name; [exact V|rewrite T; cbn; auto|exact H]
              | eapply an_metric; [exact V|rewrite T; cbn; auto|exact H]
              | eapply an_bare; [exact V|rewrite T; cbn; tauto|exact H] ].
    + destruct (g_type g) eqn:T; cbn [In]; try (intros []; fail); rewrite ?in_opt_list.
      * intros [<-|[]]. apply an_v1_id; [exact V|rewrite T; cbn; auto].
      * intros [<-|[]]. apply an_v1_id; [exact V|rewrite T; cbn; auto].
      * intros H. apply an_v1_name; [exact V|rewrite T; cbn; auto|exact H].
      * intros H. apply an_v1_metric; [exact V|exact T|exact H].
      * destruct (g_name g) as [n|] eqn:N.
        -- destruct (existsb (String.eqb n) (g_id g :: opt_list (strip_prefix "entity." (g_id g)))) eqn:X.
           ++ intros [<-|H]; [apply an_v1_id; [exact V|rewrite T; cbn; auto]|].
              apply strip_iff in H. apply an_v1_bare; assumption.
           ++ cbn [app In]. rewrite in_app_iff. cbn [In]. intros [<-|[H|[<-|[]]]].
              ** apply an_v1_id; [exact V|rewrite T; cbn; auto].
              ** apply strip_iff in H. apply an_v1_bare; assumption.
              ** apply an_v1_name; [exact V|rewrite T; cbn; auto|exact N].
        -- intros [<-|H]; [apply an_v1_id; [exact V|rewrite T; cbn; auto]|].
           apply strip_iff in H. apply an_v1_bare; assumption.
  - intros H. destruct H as [f V T|n V T N|n V T N|p n V T N|n V T N|V T|n V T N|n V T N|n V T N]; rewrite V.
    + inversion T; cbn; auto.
    + cbn [In] in T. destruct T as [T|[T|[T|[]]]]; rewrite <- T, N; cbn; auto.
    + cbn [In] in T. destruct T as [T|[T|[]]]; rewrite <- T, N; cbn; auto.
    + cbn [In] in T. repeat (destruct T as [T|T]; [inversion T as [[T1 T2]]; subst p; cbn [group_type_eqb];
        right; rewrite !in_app_iff, ?strip_iff; tauto|]). contradiction.
    + rewrite T. cbn [group_type_eqb]. right. rewrite !in_app_iff, !strip_iff. auto.
    + cbn [In] in T. destruct T as [T|[T|[T|[]]]]; rewrite <- T; [left; reflexivity|left; reflexivity|]. cbv zeta.
      destruct (g_name g); [destruct (existsb _ _)|]; left; reflexivity.
    + rewrite T. destruct (g_name g) as [m|].
      * destruct (existsb _ _); cbn [In app]; rewrite ?in_app_iff; right; [|left]; apply strip_iff; exact N.
      * right. apply strip_iff. exact N.
    + cbn [In] in T. destruct T as [T|[T|[]]]; rewrite <- T, N; [left; reflexivity|]. cbv zeta.
      destruct (existsb _ _) eqn:X.
      * apply existsb_exists in X. destruct X as (y & Hy & E). apply String.eqb_eq in E. subst y. exact Hy.
      * change (In n ((g_id g :: opt_list (strip_prefix "entity." (g_id g))) ++ [n])%list). apply in_app_iff. right. cbn. auto.
    + rewrite T, N. cbn. auto.
Qed.
Lemma matches_iff glob bs g : matches glob bs g = true <-> wanted glob bs (DGroup g).
Proof.
  unfold matches, wanted. cbn [kind_of called]. split.
  - destruct (field_of (g_type g)) as [f|] eqn:F; [|discriminate]. intros H. apply existsb_exists in H.
    destruct H as (k & Hk & Ha). exists f, k. split; [apply heading_iff; exact F|]. split; [apply keys_iff; exact Hk|].
    apply matches_key_iff. exact Ha.
  - intros (f & k & Hf & Hk & Ha). apply heading_iff in Hf. rewrite Hf. apply existsb_exists. exists k.
    split; [apply keys_iff; exact Hk|apply matches_key_iff; exact Ha].
Qed.
Lemma matches_named glob bs g : matches glob (explicit_blocks bs) g = true <-> wanted_by_name glob bs (DGroup g).
Proof.
  rewrite matches_iff. unfold wanted, wanted_by_name. split; intros (f & k & Hf & Hk & Ha); exists f, k; (split; [exact Hf|]);
    (split; [exact Hk|]).
  - apply matches_key_named. apply matches_key_iff. exact Ha.
  - apply matches_key_iff. apply matches_key_named. exact Ha.
Qed.

Lemma excluded_iff a : is_excluded a = true <-> hides a.
Proof.
  unfold is_excluded, hides. split.
  - destruct (slookup "dependency_resolution" a) as [[| | | | |m]|]; try discriminate.
    destruct (slookup "exclude" m) as [[|b| | | |]|] eqn:E; try discriminate. intros ->. exists m. auto.
  - intros (m & -> & ->). reflexivity.
Qed.
Lemma opt_excluded_iff g : opt_excluded (g_annotations g) = true <-> private (DGroup g).
Proof.
  unfold private, opt_excluded. cbn [annotations_on]. destruct (g_annotations g) as [a|]; [apply excluded_iff|].
  split; [discriminate|]. intros (m & H & _). discriminate.
Qed.

(* ---- ids without their type ---- *)
Lemma strip_any_bare ps id : (exists p, In p ps /\ id = p ++ strip_any ps id) \/
  ((forall p r, In p ps -> id <> p ++ r) /\ strip_any ps id = id).
Proof.
  induction ps as [|p ps IH]; cbn [strip_any].
  - right. split; [intros ? ? []|reflexivity].
  - destruct (strip_prefix p id) as [r|] eqn:E.
    + left. exists p. split; [left; reflexivity|]. apply strip_prefix_spec. exact E.
    + destruct IH as [(q & Hq & H)|[H1 H2]].
      * left. exists q. split; [right; exact Hq|exact H].
      * right. split; [|exact H2]. intros q r [<-|Hq]; [|apply H1; exact Hq].
        intros ->. assert (X : strip_prefix p (p ++ r) = Some r) by (apply strip_prefix_spec; reflexivity). congruence.
Qed.
Lemma prefixes_apart p q a b : In p type_prefixes -> In q type_prefixes -> p ++ a = q ++ b -> p = q.
Proof.
  unfold type_prefixes. cbn [In]. intros Hp Hq.
  repeat (destruct Hp as [Hp|Hp]; [|]); try contradiction; subst p;
  repeat (destruct Hq as [Hq|Hq]; [|]); try contradiction; subst q; cbn [append]; intros H; try reflexivity; exfalso; inversion H.
Qed.
Lemma app_inj_l p a b : p ++ a = p ++ b -> a = b.
Proof. induction p as [|c p IH]; cbn; [auto|]. intros H. inversion H. auto. Qed.
Lemma bare_fun id a b : bare id a -> bare id b -> a = b.
Proof.
  intros [(p & Hp & H)|[H1 H2]] [(q & Hq & H')|[H3 H4]].
  - assert (p = q) by (apply (prefixes_apart p q a b); congruence). subst q. apply (app_inj_l p). congruence.
  - exfalso. eapply H3; eassumption.
  - exfalso. eapply H1; eassumption.
  - congruence.
Qed.
Lemma bare_strip id : bare id (strip_type_prefix id).
Proof. destruct (strip_any_bare type_prefixes id) as [H|[H1 H2]]; [left; exact H|right; split; assumption]. Qed.
Lemma opt_str_eqb_iff a b : opt_str_eqb a b = true <-> a = b.
Proof.
  destruct a, b; cbn; rewrite ?String.eqb_eq; split; intros H; try reflexivity; try discriminate; [congruence|inversion H; reflexivity].
Qed.
Lemma type_eqb_iff a b : group_type_eqb a b = true <-> a = b.
Proof. destruct a, b; cbn; split; intros H; try reflexivity; try discriminate. Qed.
Lemma same_group_iff g h : same_group g h = true <-> same_signal g h.
Proof.
  unfold same_group, same_signal. destruct (group_type_eqb (g_type g) (g_type h)) eqn:T; cbn [negb].
  2:{ split; [discriminate|]. intros [H _]. apply type_eqb_iff in H. congruence. }
  apply type_eqb_iff in T.
  destruct (g_metric_name g) as [m|] eqn:M1.
  { cbn [is_some orb]. rewrite opt_str_eqb_iff. split.
    - intros H. split; [exact T|]. left. split; [exact H|discriminate].
    - intros [_ [[H _]|[[H _]|[H _]]]]; [exact H|discriminate|discriminate]. }
  destruct (g_metric_name h) as [m|] eqn:M2; cbn [is_some orb].
  { cbn. split; [discriminate|]. intros [_ [[H _]|[(_ & H & _)|(_ & H & _)]]]; discriminate. }
  destruct (g_name g) as [n|] eqn:N1.
  { cbn [is_some orb]. rewrite opt_str_eqb_iff. split.
    - intros H. split; [exact T|]. right. left. repeat split; auto; discriminate.
    - intros [_ [[_ H]|[(_ & _ & H & _)|(_ & _ & H & _)]]]; [congruence|exact H|discriminate]. }
  destruct (g_name h) as [n|] eqn:N2; cbn [is_some orb].
  { cbn. split; [discriminate|]. intros [_ [[_ H]|[(_ & _ & H & _)|(_ & _ & _ & H & _)]]]; congruence. }
  rewrite String.eqb_eq. split.
  - intros H. split; [exact T|]. right. right. repeat split; auto. exists (strip_type_prefix (g_id g)).
    split; [apply bare_strip|rewrite H; apply bare_strip].
  - intros [_ [[_ H]|[(_ & _ & _ & H)|(_ & _ & _ & _ & b & Hg & Hh)]]]; [congruence|congruence|].
    rewrite (bare_fun _ _ _ (bare_strip (g_id g)) Hg). exact (bare_fun _ _ _ Hh (bare_strip (g_id h))).
Qed.
Lemma origin_iff g r u : declared_at g r u <-> u = origin_url g r.
Proof. unfold declared_at, origin_url, g_url. destruct (g_lineage g); cbn; reflexivity. Qed.
Lemma duplicate_iff kept x : is_duplicate kept x = true <-> exists k, In k kept /\ twins k x.
Proof.
  unfold is_duplicate, twins. rewrite existsb_exists. split; intros (k & Hk & H); exists k; (split; [exact Hk|]).
  - rewrite !andb_true_iff, String.eqb_eq, same_group_iff in H. destruct H as [[Hu _] Hs]. split; [|exact Hs].
    eexists. split; apply origin_iff; [reflexivity|exact Hu].
  - destruct H as [(u & H1 & H2) Hs]. apply (proj1 (origin_iff _ _ _)) in H1. apply (proj1 (origin_iff _ _ _)) in H2.
    rewrite !andb_true_iff, String.eqb_eq, same_group_iff. split; [split; [congruence|]|exact Hs].
    apply type_eqb_iff. destruct Hs as [Ht _]. exact Ht.
Qed.

(* ---- attributes ---- *)
Lemma attr_prov_ok e a src c r c' : cat_ok c -> attribute_ref_prov e a (SDep src) c = Got (r, c') ->
  cat_ok c' /\ cat_le c c' /\ exists a', denotes c' r a' /\ (one_version e -> a' = a).
Proof.
  unfold attribute_ref_prov. intros Hok H.
  destruct (upgrade_attr e {| ws_attr := a; ws_source := SDep src; ws_def := true |}) as [n|err] eqn:U; cbn [rr_bind] in H; [|discriminate].
  destruct (attribute_ref (ws_attr n) c) as [r1 c1] eqn:R.
  destruct (attribute_ref_ok _ _ _ _ Hok R) as (Hok1 & Hle & Hd & _).
  destruct (match slookup (at_name a) (ct_roots c1) with Some existing => resolve_conflict e (at_name a) n existing | None => Got n end) as [root|err];
    cbn [rr_bind] in H; [|discriminate].
  inversion H; subst r c'. split; [apply set_root_ok; exact Hok1|]. split; [eapply cat_le_trans; [exact Hle|apply set_root_le]|].
  exists (ws_attr n). split; [eapply denotes_le; [apply set_root_le|exact Hd]|].
  intros One. unfold upgrade_attr in U. cbn [ws_source] in U.
  destruct (ev_chosen e (ev_name e src)) as [ch|] eqn:Ch; [|inversion U; reflexivity].
  assert (ch = src) by (apply (One src); exact Ch). subst ch. rewrite String.eqb_refl in U. inversion U. reflexivity.
Qed.
Lemma intern_ok e l : forall c rs c', cat_ok c -> intern e l c = Got (rs, c') ->
  cat_ok c' /\ cat_le c c' /\ (one_version e -> Forall2 (denotes c') rs (map fst l)).
Proof.
  induction l as [|[a src] l IH]; intros c rs c' Hok H; cbn [intern] in H.
  - inversion H; subst. split; [exact Hok|]. split; [apply cat_le_refl|]. intros _. constructor.
  - destruct (attribute_ref_prov e a (SDep src) c) as [[r c1]|err] eqn:R; cbn [rr_bind] in H; [|discriminate].
    destruct (attr_prov_ok _ _ _ _ _ _ Hok R) as (Hok1 & Hle1 & a' & Hd & Ha).
    cbn [snd fst] in H. destruct (intern e l c1) as [[rs2 c2]|err] eqn:I; cbn [rr_bind] in H; [|discriminate].
    destruct (IH _ _ _ Hok1 I) as (Hok2 & Hle2 & HF). inversion H; subst.
    split; [exact Hok2|]. split; [eapply cat_le_trans; eassumption|]. intros One. cbn [map fst snd]. constructor; [|apply HF; exact One].
    rewrite <- (Ha One). eapply denotes_le; eassumption.
Qed.
Lemma intern2_ok e s l : forall c rs c', cat_ok c -> intern2 e s l c = Got (rs, c') ->
  cat_ok c' /\ cat_le c c' /\
  (one_version e -> exists ds, Forall2 (denotes c') rs ds /\
     Forall2 (fun u d => exists a, nth_error (s2_catalog s) (fst (fst (fst u))) = Some a /\
                d = attribute_of_v2 a (snd (fst (fst u))) (snd (fst u)) (snd u)) l ds).
Proof.
  induction l as [|[[[i req] sa] role] l IH]; intros c rs c' Hok H; cbn [intern2] in H.
  - inversion H; subst. split; [exact Hok|]. split; [apply cat_le_refl|]. intros _. exists []. split; constructor.
  - destruct (nth_error (s2_catalog s) i) as [a|] eqn:N; [|discriminate].
    destruct (attribute_ref_prov e (attribute_of_v2 a req sa role) _ c) as [[r c1]|err] eqn:R; cbn [rr_bind] in H; [|discriminate].
    destruct (attr_prov_ok _ _ _ _ _ _ Hok R) as (Hok1 & Hle1 & a' & Hd & Ha).
    cbn [snd fst] in H. destruct (intern2 e s l c1) as [[rs2 c2]|err] eqn:I; cbn [rr_bind] in H; [|discriminate].
    destruct (IH _ _ _ Hok1 I) as (Hok2 & Hle2 & HF). inversion H; subst.
    split; [exact Hok2|]. split; [eapply cat_le_trans; eassumption|]. intros One. destruct (HF One) as (ds & H1 & H2).
    exists (a' :: ds). split; constructor; auto.
    + eapply denotes_le; eassumption.
    + exists a. cbn. split; [exact N|apply Ha; exact One].
Qed.
Lemma somes_forall2 {A B} (f : A -> option B) l ds : Forall2 (fun x y => f x = Some y) l ds -> somes (map f l) = ds.
Proof. induction 1 as [|x y l ds H HF IH]; cbn; [reflexivity|]. rewrite H. f_equal. exact IH. Qed.
Lemma somes_total {A B} (f : A -> option B) l : (forall x, In x l -> exists y, f x = Some y) ->
  Forall2 (fun x y => f x = Some y) l (somes (map f l)).
Proof.
  induction l as [|x l IH]; intros H; cbn; [constructor|]. destruct (H x (or_introl eq_refl)) as [y Hy]. rewrite Hy. constructor; [exact Hy|].
  apply IH. intros z Hz. apply H. right. exact Hz.
Qed.

(* ---- upgrades ---- *)
Lemma same_data_refl g : same_data g g.
Proof. unfold same_data, same_fields. repeat split. Qed.
Lemma set_attributes_data l g : same_data (set_attributes l g) g.
Proof. unfold same_data, same_fields. repeat split. Qed.
Lemma latest_got n v a b w : latest_major n v a b = Got w -> w = a \/ w = b.
Proof.
  unfold latest_major. destruct (negb _); [discriminate|]. destruct (v a); [|discriminate]. destruct (v b); [|discriminate].
  destruct (N.eqb _ _); [|discriminate]. destruct (version_gtb _ _); intros H; inversion H; auto.
Qed.
Lemma upgrade_ok e g url c o c' : cat_ok c -> upgrade_group e g url c = Got (o, c') ->
  cat_ok c' /\ cat_le c c' /\
  match o with
  | None => c' = c
  | Some g' => exists h, superseded e g url h /\ same_data g' h
  end /\ (one_version e -> o = None).
Proof.
  unfold upgrade_group. intros Hok H.
  assert (K : forall c0, c0 = c -> cat_ok c0 /\ cat_le c c0 /\ c0 = c /\ (one_version e -> @None group = None)).
  { intros c0 ->. split; [exact Hok|]. split; [apply cat_le_refl|]. auto. }
  destruct (ev_chosen e (ev_name e (origin_url g url))) as [ch|] eqn:Ch; [|inversion H; subst; apply K; reflexivity].
  destruct (String.eqb ch (origin_url g url)) eqn:E; [inversion H; subst; apply K; reflexivity|]. apply String.eqb_neq in E.
  destruct (latest_major (ev_name e) (ev_semver e) (origin_url g url) ch) as [w|err] eqn:L; [|inversion H; subst; apply K; reflexivity].
  destruct (negb (String.eqb w ch)) eqn:W; [inversion H; subst; apply K; reflexivity|].
  apply negb_false_iff, String.eqb_eq in W. subst w.
  destruct (ev_cached e ch) as [[s roots|s]|] eqn:Ca; [|inversion H; subst; apply K; reflexivity|inversion H; subst; apply K; reflexivity].
  destruct (find (same_group g) (s1_groups s)) as [up|] eqn:F; [|inversion H; subst; apply K; reflexivity].
  destruct (intern e (sourced_attrs e s roots ch up) c) as [[rs c1]|err] eqn:I; cbn [rr_bind] in H; [|discriminate].
  destruct (intern_ok _ _ _ _ _ Hok I) as (Hok1 & Hle & _). inversion H; subst. split; [exact Hok1|]. split; [exact Hle|].
  split.
  - exists up. split; [|apply set_attributes_data]. apply find_some in F. destruct F as [F1 F2].
    exists (origin_url g url), ch, s, roots. split; [apply origin_iff; reflexivity|]. split; [exact Ch|]. split; [exact E|].
    split; [exact L|]. split; [exact Ca|]. split; [exact F1|]. apply same_group_iff. exact F2.
  - intros One. exfalso. apply E. apply One. exact Ch.
Qed.

(* ---- importing from one dependency ---- *)
Definition got (e : env) (d : dependency) (x : definition) (c : catalog) (g : group) : Prop :=
  copy_of e d x g /\
  (one_version e -> closed_dependency d -> exists ds, attributes_on d x ds /\ Forall2 (denotes c) (g_attributes g) ds).
Lemma denotes_all_le c c' rs ds : cat_le c c' -> Forall2 (denotes c) rs ds -> Forall2 (denotes c') rs ds.
Proof. intros Hle H. induction H; constructor; auto. eapply denotes_le; eassumption. Qed.
Lemma got_le e d x c c' g : cat_le c c' -> got e d x c g -> got e d x c' g.
Proof.
  intros Hle [H1 H2]. split; [exact H1|]. intros One Cl. destruct (H2 One Cl) as (ds & Ha & Hd). exists ds. split; [exact Ha|].
  eapply denotes_all_le; eassumption.
Qed.
(* what one dependency contributes *)
Record contributes (glob : string -> string -> bool) (e : env) (bs : list block) (d : dependency) (xs : definition -> Prop)
  (gs : list group) (es : list rerr) (c : catalog) : Prop := {
  cb_only : forall g, In g gs -> exists x, xs x /\ wanted glob bs x /\ ~ private x /\ got e d x c g;
  cb_all : forall x, xs x -> wanted glob bs x -> ~ private x -> exists g, In g gs /\ got e d x c g;
  cb_refused : forall x, xs x -> private x -> wanted_by_name glob bs x -> In (refused x) es;
  cb_reason : forall err, In err es -> exists x, xs x /\ private x /\ wanted_by_name glob bs x /\ err = refused x
}.

Lemma import1_ok glob e bs s roots my (P : ev_parse e (s1_url s) = Some my) gs : incl gs (s1_groups s) -> forall c l es c',
  cat_ok c -> import1 glob e bs s roots my gs c = Got (l, es, c') ->
  cat_ok c' /\ cat_le c c' /\
  contributes glob e bs (D1 s roots) (fun x => exists g, x = DGroup g /\ In g gs) (map im_group l) es c'.
Proof.
  induction gs as [|g gs IH]; intros Hin c l es c' Hok H; cbn [import1] in H.
  - inversion H; subst. split; [exact Hok|]. split; [apply cat_le_refl|].
    split; cbn; [intros ? []|intros x (? & _ & [])|intros x (? & _ & [])|intros ? []].
  - assert (Hin' : incl gs (s1_groups s)) by (intros y Hy; apply Hin; right; exact Hy).
    assert (Skip : forall l es c1, ~ (wanted glob bs (DGroup g) /\ ~ private (DGroup g)) ->
              ~ (wanted_by_name glob bs (DGroup g) /\ private (DGroup g)) ->
              contributes glob e bs (D1 s roots) (fun x => exists g, x = DGroup g /\ In g gs) l es c1 ->
              contributes glob e bs (D1 s roots) (fun x => exists h, x = DGroup h /\ In h (g :: gs)) l es c1).
    { intros l0 es0 c0 N1 N2 [H1 H2 H3 H4]. split.
      - intros h Hh. destruct (H1 h Hh) as (x & (h' & Hx & Hi) & R). exists x. split; [exists h'; split; [exact Hx|right; exact Hi]|exact R].
      - intros x (h & -> & [<-|Hi]) W Pr; [exfalso; apply N1; auto|]. apply H2; eauto.
      - intros x (h & -> & [<-|Hi]) Pr W; [exfalso; apply N2; auto|]. apply H3; eauto.
      - intros err He. destruct (H4 err He) as (x & (h' & Hx & Hi) & R). exists x. split; [exists h'; split; [exact Hx|right; exact Hi]|exact R]. }
    assert (WW : wanted_by_name glob bs (DGroup g) -> wanted glob bs (DGroup g)).
    { intros (f & k & Hf & Hk & b & p & Hb & _ & Hl & Hg). exists f, k. split; [exact Hf|]. split; [exact Hk|]. exists b, p. auto. }
    destruct (matches glob bs g) eqn:M; cbn [negb] in H.
    2:{ destruct (IH Hin' _ _ _ _ Hok H) as (A & B & C). split; [exact A|]. split; [exact B|].
        apply Skip; [| |exact C]; intros [W _]; [|apply WW in W]; apply matches_iff in W; congruence. }
    apply matches_iff in M.
    assert (DD : (match g_annotations g with
             | Some a => import_decision a (matches glob (explicit_blocks bs) g) (g_id g) (g_type g)
             | None => Include
             end) = if opt_excluded (g_annotations g) then
                      (if matches glob (explicit_blocks bs) g then Refuse (refused (DGroup g)) else Leave) else Include).
    { unfold opt_excluded, import_decision. destruct (g_annotations g); [|reflexivity]. destruct (is_excluded l0); reflexivity. }
    rewrite DD in H. clear DD.
    destruct (opt_excluded (g_annotations g)) eqn:X.
    + apply opt_excluded_iff in X. destruct (matches glob (explicit_blocks bs) g) eqn:ME.
      * apply matches_named in ME. destruct (import1 glob e bs s roots my gs c) as [[[l1 es1] c1]|err] eqn:I; cbn [rr_bind] in H; [|discriminate].
        inversion H; subst. destruct (IH Hin' _ _ _ _ Hok I) as (A & B & [H1 H2 H3 H4]). split; [exact A|]. split; [exact B|]. split.
        -- intros h Hh. destruct (H1 h Hh) as (x & (h' & Hx & Hi) & R). exists x. split; [exists h'; split; [exact Hx|right; exact Hi]|exact R].
        -- intros x (h & -> & [<-|Hi]) W Pr; [contradiction|]. apply H2; eauto.
        -- intros x (h & -> & [<-|Hi]) Pr W; [left; reflexivity|]. right. apply H3; eauto.
        -- intros err [<-|He]; [exists (DGroup g); split; [exists g; split; [reflexivity|left; reflexivity]|auto]|].
           destruct (H4 err He) as (x & (h' & Hx & Hi) & R). exists x. split; [exists h'; split; [exact Hx|right; exact Hi]|exact R].
      * destruct (IH Hin' _ _ _ _ Hok H) as (A & B & C). split; [exact A|]. split; [exact B|].
        apply Skip; [intros [_ N]; contradiction| |exact C]. intros [W _]. apply matches_named in W. congruence.
    + assert (NP : ~ private (DGroup g)) by (intros Pr; apply opt_excluded_iff in Pr; congruence).
      destruct (upgrade_group e g my c) as [[o c1]|err] eqn:U; cbn [rr_bind] in H; [|discriminate].
      destruct (upgrade_ok _ _ _ _ _ _ Hok U) as (Hok1 & Hle1 & HU & HO).
      assert (Z : exists g' c2, (match (o, c1) with
                 | (Some g', c1) => Got (g', c1)
                 | (None, c1) => rr_bind (intern e (sourced_attrs e s roots my g) c1) (fun p => Got (set_attributes (fst p) g, snd p))
                 end) = Got (g', c2) /\ cat_ok c2 /\ cat_le c1 c2 /\ got e (D1 s roots) (DGroup g) c2 g').
      { destruct o as [g'|].
        - exists g', c1. split; [reflexivity|]. split; [exact Hok1|]. split; [apply cat_le_refl|].
          destruct HU as (h & Hs & Hd). split.
          + exists my, g. split; [exact P|]. split; [apply same_data_refl|]. right. exists h. auto.
          + intros One. specialize (HO One). discriminate.
        - destruct (intern e (sourced_attrs e s roots my g) c1) as [[rs c2]|err] eqn:I.
          2:{ exfalso. cbn in H. discriminate. }
          exists (set_attributes rs g), c2. split; [reflexivity|]. destruct (intern_ok _ _ _ _ _ Hok1 I) as (Hok2 & Hle2 & HF).
          split; [exact Hok2|]. split; [exact Hle2|]. split.
          + exists my, g. split; [exact P|]. split; [apply same_data_refl|]. left. apply set_attributes_data.
          + intros One Cl. exists (map fst (sourced_attrs e s roots my g)). split; [|apply HF; exact One].
            cbn [attributes_on]. unfold sourced_attrs. rewrite map_map. cbn [fst]. rewrite map_id. apply somes_total. intros r Hr.
            assert (Hlt : r < length (s1_catalog s)) by (apply (Cl g r); [apply Hin; left; reflexivity|exact Hr]).
            destruct (nth_error (s1_catalog s) r) as [a|] eqn:N; [exists a; reflexivity|]. apply nth_error_None in N. lia. }
      destruct Z as (g' & c2 & Z & Hok2 & Hle2 & G). rewrite Z in H. cbn [rr_bind snd fst] in H.
      destruct (import1 glob e bs s roots my gs c2) as [[[l1 es1] c3]|err] eqn:I; cbn [rr_bind] in H; [|discriminate].
      inversion H; subst. destruct (IH Hin' _ _ _ _ Hok2 I) as (A & B & [H1 H2 H3 H4]).
      split; [exact A|]. split; [eapply cat_le_trans; [exact Hle1|eapply cat_le_trans; eassumption]|]. cbn [map im_group]. split.
      * intros h [<-|Hh].
        -- exists (DGroup g). split; [exists g; split; [reflexivity|left; reflexivity]|]. split; [exact M|]. split; [exact NP|]. eapply got_le; eassumption.
        -- destruct (H1 h Hh) as (x & (h' & Hx & Hi) & R). exists x. split; [exists h'; split; [exact Hx|right; exact Hi]|exact R].
      * intros x (h & -> & [<-|Hi]) W Pr.
        -- exists g'. split; [left; reflexivity|eapply got_le; eassumption].
        -- destruct (H2 (DGroup h)) as (y & Hy & Gy); [eauto|exact W|exact Pr|]. exists y. split; [right; exact Hy|exact Gy].
      * intros x (h & -> & [<-|Hi]) Pr W; [contradiction|]. apply H3; eauto.
      * intros err He. destruct (H4 err He) as (x & (h' & Hx & Hi) & R). exists x. split; [exists h'; split; [exact Hx|right; exact Hi]|exact R].
Qed.

(* ---- signals of a published registry ---- *)
Record signal_ok (s : schema2) (v : v2_signal) (x : definition) : Prop := {
  so_holds : holds (D2 s) x;
  so_field : heading (kind_of x) (v_field v);
  so_type : v_type v = kind_of x;
  so_id : v_id v = id_of x;
  so_called : forall k, called x k <-> k = id_of x;
  so_ann : c_annotations (v_common v) = annotations_on x;
  so_group : forall rs, carries (D2 s) x (v_group v rs);
  so_refs : forall rs, g_attributes (v_group v rs) = rs;
  so_attrs : forall ds, Forall2 (fun u d => exists a, nth_error (s2_catalog s) (fst (fst (fst u))) = Some a /\
                d = attribute_of_v2 a (snd (fst (fst u))) (snd (fst u)) (snd u)) (v_uses v) ds -> attributes_on (D2 s) x ds
}.
Lemma names_for_named a : names_for a (named a).
Proof.
  induction a as [r|cs IH|cs IH] using assoc_ind2; cbn [named]; constructor;
    induction IH as [|c cs H HF IH2]; cbn [map]; constructor; assumption.
Qed.
Lemma names_for_all l : Forall2 names_for l (map named l).
Proof. induction l; cbn; constructor; [apply names_for_named|assumption]. Qed.
Lemma comes_from_lineage s p g : g_lineage g = lineage2 s p -> comes_from s p g.
Proof.
  unfold lineage2, comes_from. intros ->. eexists. split; [reflexivity|]. unfold gl_new, declared_in, source_url2. cbn.
  split; [|auto]. destruct (p2_source p) as [i|]; [|reflexivity]. destruct (nth_error (s2_dependencies s) i); cbn; auto.
Qed.
Lemma v1_form_of a r sa role : v1_form a r sa role (attribute_of_v2 a r sa role).
Proof. unfold v1_form. cbn. repeat split. Qed.
Lemma plain_used s role l ds : Forall2 (fun u d => exists a, nth_error (s2_catalog s) (fst (fst (fst u))) = Some a /\
                d = attribute_of_v2 a (snd (fst (fst u))) (snd (fst u)) (snd u)) (plain_uses role l) ds -> Forall2 (used_as s false role) l ds.
Proof.
  unfold plain_uses. revert ds. induction l as [|u l IH]; intros ds H; inversion H as [|? ? ? ? (a & N & D) HF]; subst; constructor.
  - exists a. cbn [fst snd] in *. split; [exact N|]. apply v1_form_of.
  - apply IH. exact HF.
Qed.
Lemma span_used s l ds : Forall2 (fun u d => exists a, nth_error (s2_catalog s) (fst (fst (fst u))) = Some a /\
                d = attribute_of_v2 a (snd (fst (fst u))) (snd (fst u)) (snd u))
                (map (fun u => (u_base u, u_req u, u_sampling u, None)) l) ds -> Forall2 (used_as s true None) l ds.
Proof.
  revert ds. induction l as [|u l IH]; intros ds H; inversion H as [|? ? ? ? (a & N & D) HF]; subst; constructor.
  - exists a. cbn [fst snd] in *. split; [exact N|]. apply v1_form_of.
  - apply IH. exact HF.
Qed.
Lemma metric_ok s m : In m (r2_metrics (s2_registry s)) -> signal_ok s (signal_of_metric s m) (DMetric m).
Proof.
  intros Hin. split; cbn [v_field v_type v_id v_common v_group v_uses signal_of_metric kind_of id_of called annotations_on holds]; auto.
  - constructor.
  - reflexivity.
  - intros rs. cbn [carries]. split; [reflexivity|]. split; [reflexivity|]. split; [unfold from_common; cbn; repeat split|].
    split; [apply comes_from_lineage; reflexivity|]. repeat split. apply names_for_all.
  - intros ds H. apply plain_used. exact H.
Qed.
Lemma event_ok s m : In m (r2_events (s2_registry s)) -> signal_ok s (signal_of_event s m) (DEvent m).
Proof.
  intros Hin. split; cbn [v_field v_type v_id v_common v_group v_uses signal_of_event kind_of id_of called annotations_on holds]; auto.
  - constructor.
  - reflexivity.
  - intros rs. cbn [carries]. split; [reflexivity|]. split; [reflexivity|]. split; [unfold from_common; cbn; repeat split|].
    split; [apply comes_from_lineage; reflexivity|]. repeat split. apply names_for_all.
  - intros ds H. apply plain_used. exact H.
Qed.
Lemma entity_ok s m : In m (r2_entities (s2_registry s)) -> signal_ok s (signal_of_entity s m) (DEntity m).
Proof.
  intros Hin. split; cbn [v_field v_type v_id v_common v_group v_uses signal_of_entity kind_of id_of called annotations_on holds]; auto.
  - constructor.
  - reflexivity.
  - intros rs. cbn [carries]. split; [reflexivity|]. split; [reflexivity|]. split; [unfold from_common; cbn; repeat split|].
    split; [apply comes_from_lineage; reflexivity|]. repeat split.
  - intros ds H. apply Forall2_app_inv_l in H. destruct H as (l1 & l2 & F1 & F2 & ->). exists l1, l2. split; [reflexivity|].
    split; apply plain_used; assumption.
Qed.
Lemma span_ok s m : In m (r2_spans (s2_registry s)) -> signal_ok s (signal_of_span s m) (DSpan m).
Proof.
  intros Hin. split; cbn [v_field v_type v_id v_common v_group v_uses signal_of_span kind_of id_of called annotations_on holds]; auto.
  - constructor.
  - reflexivity.
  - intros rs. cbn [carries]. split; [reflexivity|]. split; [reflexivity|]. split; [unfold from_common; cbn; repeat split|].
    split; [apply comes_from_lineage; reflexivity|]. repeat split. apply names_for_all.
  - intros ds H. apply span_used. exact H.
Qed.
Lemma attr_group_ok s m : In m (r2_attribute_groups (s2_registry s)) -> signal_ok s (signal_of_attribute_group s m) (DAttrGroup m).
Proof.
  intros Hin. split; cbn [v_field v_type v_id v_common v_group v_uses signal_of_attribute_group kind_of id_of called annotations_on holds]; auto.
  - constructor.
  - reflexivity.
  - intros rs. cbn [carries]. split; [reflexivity|]. split; [reflexivity|]. split; [unfold from_common; cbn; repeat split|]. repeat split.
  - intros ds H. apply plain_used. exact H.
Qed.
Lemma signals_sound s v : In v (v2_signals s) -> exists x, signal_ok s v x.
Proof.
  unfold v2_signals. cbv zeta. rewrite !in_app_iff, !in_map_iff. intros [(m & <- & H)|[(m & <- & H)|[(m & <- & H)|[(m & <- & H)|(m & <- & H)]]]]; eexists.
  - apply metric_ok; exact H.
  - apply event_ok; exact H.
  - apply entity_ok; exact H.
  - apply span_ok; exact H.
  - apply attr_group_ok; exact H.
Qed.
Lemma signals_complete s x : holds (D2 s) x -> exists v, In v (v2_signals s) /\ signal_ok s v x.
Proof.
  unfold v2_signals. cbv zeta. destruct x as [g|m|m|m|m|m]; cbn [holds]; intros H; [contradiction| | | | | ].
  - eexists. split; [|apply metric_ok; exact H]. rewrite !in_app_iff, !in_map_iff. left. eauto.
  - eexists. split; [|apply event_ok; exact H]. rewrite !in_app_iff, !in_map_iff. right; left. eauto.
  - eexists. split; [|apply entity_ok; exact H]. rewrite !in_app_iff, !in_map_iff. right; right; left. eauto.
  - eexists. split; [|apply span_ok; exact H]. rewrite !in_app_iff, !in_map_iff. right; right; right; left. eauto.
  - eexists. split; [|apply attr_group_ok; exact H]. rewrite !in_app_iff, !in_map_iff. right; right; right; right. eauto.
Qed.
Lemma signal_wanted glob bs s v x : signal_ok s v x -> (matches_key glob bs (v_field v) (v_id v) = true <-> wanted glob bs x).
Proof.
  intros K. rewrite matches_key_iff. unfold wanted. split.
  - intros H. exists (v_field v), (v_id v). split; [apply (so_field _ _ _ K)|]. split; [|exact H]. apply (so_called _ _ _ K). apply (so_id _ _ _ K).
  - intros (f & k & Hf & Hk & Ha). apply (so_called _ _ _ K) in Hk. pose proof (so_field _ _ _ K) as F. apply heading_iff in F. apply heading_iff in Hf.
    rewrite (so_id _ _ _ K). congruence.
Qed.
Lemma signal_named glob bs s v x : signal_ok s v x ->
  (matches_key glob (explicit_blocks bs) (v_field v) (v_id v) = true <-> wanted_by_name glob bs x).
Proof.
  intros K. rewrite matches_key_named. unfold wanted_by_name. split.
  - intros H. exists (v_field v), (v_id v). split; [apply (so_field _ _ _ K)|]. split; [|exact H]. apply (so_called _ _ _ K). apply (so_id _ _ _ K).
  - intros (f & k & Hf & Hk & Ha). apply (so_called _ _ _ K) in Hk. pose proof (so_field _ _ _ K) as F. apply heading_iff in F. apply heading_iff in Hf.
    rewrite (so_id _ _ _ K). congruence.
Qed.
(* before upgrades *)
Definition fresh (e : env) (s : schema2) (x : definition) (c : catalog) (g : group) : Prop :=
  carries (D2 s) x g /\ (one_version e -> exists ds, attributes_on (D2 s) x ds /\ Forall2 (denotes c) (g_attributes g) ds).
Lemma fresh_le e s x c c' g : cat_le c c' -> fresh e s x c g -> fresh e s x c' g.
Proof.
  intros Hle [H1 H2]. split; [exact H1|]. intros One. destruct (H2 One) as (ds & Ha & Hd). exists ds. split; [exact Ha|].
  eapply denotes_all_le; eassumption.
Qed.
Record offers2 (glob : string -> string -> bool) (e : env) (bs : list block) (s : schema2) (vs : list v2_signal)
  (gs : list group) (es : list rerr) (c : catalog) : Prop := {
  o2_only : forall g, In g gs -> exists v x, In v vs /\ signal_ok s v x /\ wanted glob bs x /\ ~ private x /\ fresh e s x c g;
  o2_all : forall v x, In v vs -> signal_ok s v x -> wanted glob bs x -> ~ private x -> exists g, In g gs /\ fresh e s x c g;
  o2_refused : forall v x, In v vs -> signal_ok s v x -> private x -> wanted_by_name glob bs x -> In (refused x) es;
  o2_reason : forall err, In err es -> exists v x, In v vs /\ signal_ok s v x /\ private x /\ wanted_by_name glob bs x /\ err = refused x
}.
Lemma named_wanted glob bs x : wanted_by_name glob bs x -> wanted glob bs x.
Proof. intros (f & k & Hf & Hk & b & p & Hb & _ & Hl & Hg). exists f, k. split; [exact Hf|]. split; [exact Hk|]. exists b, p. auto. Qed.
Lemma import2_ok glob e bs s vs : (forall v, In v vs -> exists x, signal_ok s v x) -> forall c o l o' es c',
  cat_ok c -> import2 glob e bs s vs o c = Got (l, o', es, c') ->
  cat_ok c' /\ cat_le c c' /\ offers2 glob e bs s vs l es c'.
Proof.
  induction vs as [|v vs IH]; intros HS c o l o' es c' Hok H; cbn [import2] in H.
  - inversion H; subst. split; [exact Hok|]. split; [apply cat_le_refl|]. split; cbn; [intros ? []|intros ? ? []|intros ? ? []|intros ? []].
  - assert (HS' : forall v, In v vs -> exists x, signal_ok s v x) by (intros w Hw; apply HS; right; exact Hw).
    assert (Ann : forall x, signal_ok s v x -> (is_excluded (c_annotations (v_common v)) = true <-> private x)).
    { intros x K. unfold private. rewrite <- (so_ann _ _ _ K). apply excluded_iff. }
    assert (Ref : forall x, signal_ok s v x -> XExcluded (v_id v) (group_type_text (v_type v)) "imports" = refused x).
    { intros x K. unfold refused. rewrite (so_id _ _ _ K), (so_type _ _ _ K). reflexivity. }
    assert (Skip : forall l es c1, (forall x, signal_ok s v x -> ~ (wanted glob bs x /\ ~ private x)) ->
              (forall x, signal_ok s v x -> ~ (wanted_by_name glob bs x /\ private x)) ->
              offers2 glob e bs s vs l es c1 -> offers2 glob e bs s (v :: vs) l es c1).
    { intros l0 es0 c0 N1 N2 [H1 H2 H3 H4]. split.
      - intros h Hh. destruct (H1 h Hh) as (w & x & Hw & R). exists w, x. split; [right; exact Hw|exact R].
      - intros w x [<-|Hi] K W Pr; [exfalso; eapply N1; eauto|]. eapply H2; eauto.
      - intros w x [<-|Hi] K Pr W; [exfalso; eapply N2; eauto|]. eapply H3; eauto.
      - intros err He. destruct (H4 err He) as (w & x & Hw & R). exists w, x. split; [right; exact Hw|exact R]. }
    destruct (matches_key glob bs (v_field v) (v_id v)) eqn:M; cbn [negb] in H.
    2:{ destruct (IH HS' _ _ _ _ _ _ Hok H) as (A & B & C). split; [exact A|]. split; [exact B|].
        apply Skip; [| |exact C]; intros x K [W _]; [|apply named_wanted in W]; apply (signal_wanted _ _ _ _ _ K) in W; congruence. }
    unfold import_decision in H. destruct (is_excluded (c_annotations (v_common v))) eqn:X; cbn [negb] in H.
    + destruct (matches_key glob (explicit_blocks bs) (v_field v) (v_id v)) eqn:ME.
      * destruct (import2 glob e bs s vs o c) as [[[[l1 o1] es1] c1]|err] eqn:I; cbn [rr_bind] in H; [|discriminate].
        inversion H; subst. destruct (IH HS' _ _ _ _ _ _ Hok I) as (A & B & [H1 H2 H3 H4]). split; [exact A|]. split; [exact B|]. split.
        -- intros h Hh. destruct (H1 h Hh) as (w & x & Hw & R). exists w, x. split; [right; exact Hw|exact R].
        -- intros w x [<-|Hi] K W Pr; [exfalso; apply Pr; apply (Ann x K); reflexivity|]. eapply H2; eauto.
        -- intros w x [<-|Hi] K Pr W; [left; apply Ref; exact K|]. right. eapply H3; eauto.
        -- intros err [<-|He].
           ++ destruct (HS v (or_introl eq_refl)) as [x K]. exists v, x. split; [left; reflexivity|]. split; [exact K|].
              split; [apply (Ann x K); reflexivity|]. split; [apply (signal_named _ _ _ _ _ K); exact ME|apply Ref; exact K].
           ++ destruct (H4 err He) as (w & x & Hw & R). exists w, x. split; [right; exact Hw|exact R].
      * destruct (IH HS' _ _ _ _ _ _ Hok H) as (A & B & C). split; [exact A|]. split; [exact B|].
        apply Skip; [| |exact C].
        -- intros x K [_ N]. apply N. apply (Ann x K). reflexivity.
        -- intros x K [W _]. apply (signal_named _ _ _ _ _ K) in W. congruence.
    + destruct (intern2 e s (v_uses v) c) as [[rs c1]|err] eqn:I; cbn [rr_bind fst snd] in H; [|discriminate].
      destruct (intern2_ok _ _ _ _ _ _ Hok I) as (Hok1 & Hle1 & HF).
      match type of H with context [import2 glob e bs s vs ?oo c1] => destruct (import2 glob e bs s vs oo c1) as [[[[l1 o1] es1] c2]|err] eqn:I2 end;
        cbn [rr_bind] in H; [|discriminate].
      inversion H; subst. destruct (IH HS' _ _ _ _ _ _ Hok1 I2) as (A & B & [H1 H2 H3 H4]). split; [exact A|].
      split; [eapply cat_le_trans; eassumption|].
      assert (Fr : forall x, signal_ok s v x -> fresh e s x c' (v_group v rs)).
      { intros x K. eapply fresh_le; [exact B|]. split; [apply (so_group _ _ _ K)|]. intros One. destruct (HF One) as (ds & D1' & D2').
        exists ds. split; [apply (so_attrs _ _ _ K); exact D2'|]. rewrite (so_refs _ _ _ K). exact D1'. }
      split.
      * intros h [<-|Hh].
        -- destruct (HS v (or_introl eq_refl)) as [x K]. exists v, x. split; [left; reflexivity|]. split; [exact K|].
           split; [apply (signal_wanted _ _ _ _ _ K); exact M|]. split; [|apply Fr; exact K].
           intros Pr. apply (Ann x K) in Pr. discriminate.
        -- destruct (H1 h Hh) as (w & x & Hw & R). exists w, x. split; [right; exact Hw|exact R].
      * intros w x [<-|Hi] K W Pr.
        -- exists (v_group v rs). split; [left; reflexivity|apply Fr; exact K].
        -- destruct (H2 w x Hi K W Pr) as (h & Hh & G). exists h. split; [right; exact Hh|exact G].
      * intros w x [<-|Hi] K Pr W; [exfalso; apply (Ann x K) in Pr; discriminate|]. eapply H3; eauto.
      * intros err He. destruct (H4 err He) as (w & x & Hw & R). exists w, x. split; [right; exact Hw|exact R].
Qed.
Lemma upgrade_all_ok e url gs : forall c gs' c', cat_ok c -> upgrade_all e url gs c = Got (gs', c') ->
  cat_ok c' /\ cat_le c c' /\ Forall2 (fun g g' => (g' = g \/ exists h, superseded e g url h /\ same_data g' h) /\ (one_version e -> g' = g)) gs gs'.
Proof.
  induction gs as [|g gs IH]; intros c gs' c' Hok H; cbn [upgrade_all] in H.
  - inversion H; subst. split; [exact Hok|]. split; [apply cat_le_refl|constructor].
  - destruct (upgrade_group e g url c) as [[o c1]|err] eqn:U; cbn [rr_bind fst snd] in H; [|discriminate].
    destruct (upgrade_ok _ _ _ _ _ _ Hok U) as (Hok1 & Hle1 & HU & HO).
    destruct (upgrade_all e url gs c1) as [[gs2 c2]|err] eqn:I; cbn [rr_bind fst snd] in H; [|discriminate].
    destruct (IH _ _ _ Hok1 I) as (Hok2 & Hle2 & HF). inversion H; subst. split; [exact Hok2|].
    split; [eapply cat_le_trans; eassumption|]. constructor; [|exact HF]. destruct o as [g'|]; cbn [opt_get]; split; auto.
    intros One. specialize (HO One). discriminate.
Qed.
Lemma hand_out_groups url gs : forall o, map im_group (hand_out url o gs) = gs.
Proof. induction gs; intros o; cbn; [reflexivity|]. rewrite IHgs. reflexivity. Qed.
Lemma forall2_in_l {A B} (R : A -> B -> Prop) l l' x : Forall2 R l l' -> In x l -> exists y, In y l' /\ R x y.
Proof. induction 1 as [|a b l l' H HF IH]; intros []; [subst; exists b; split; [left; reflexivity|exact H]|]. destruct (IH H0) as (y & Hy & Ry). exists y. split; [right; exact Hy|exact Ry]. Qed.
Lemma forall2_in_r {A B} (R : A -> B -> Prop) l l' y : Forall2 R l l' -> In y l' -> exists x, In x l /\ R x y.
Proof. induction 1 as [|a b l l' H HF IH]; intros []; [subst; exists a; split; [left; reflexivity|exact H]|]. destruct (IH H0) as (x & Hx & Rx). exists x. split; [right; exact Hx|exact Rx]. Qed.

Lemma import_one_ok glob e bs d c l c' : cat_ok c -> import_one glob e bs d c = Done (l, c') ->
  cat_ok c' /\ cat_le c c' /\ contributes glob e bs d (holds d) (map im_group l) [] c'.
Proof.
  intros Hok. destruct d as [s roots|s]; cbn [import_one].
  - unfold import_v1. destruct (ev_parse e (s1_url s)) as [my|] eqn:P; [|discriminate].
    destruct (import1 glob e bs s roots my (s1_groups s) c) as [[[l1 es] c1]|err] eqn:I; [|discriminate].
    destruct es as [|er es]; [|discriminate]. intros H. inversion H; subst.
    destruct (import1_ok _ _ _ _ _ _ P _ (incl_refl _) _ _ _ _ Hok I) as (A & B & [H1 H2 H3 H4]).
    split; [exact A|]. split; [exact B|].
    assert (X : forall x, holds (D1 s roots) x <-> exists g, x = DGroup g /\ In g (s1_groups s)).
    { intros x. destruct x; cbn [holds]; split; intros H'; try contradiction; try (destruct H' as (? & ? & ?); discriminate); eauto.
      destruct H' as (g0 & E & H'). inversion E; subst. exact H'. }
    split.
    + intros g Hg. destruct (H1 g Hg) as (x & Hx & R). exists x. split; [apply X; exact Hx|exact R].
    + intros x Hx. apply X in Hx. apply H2; exact Hx.
    + intros x Hx. apply X in Hx. apply H3; exact Hx.
    + intros ? [].
  - unfold import_v2. destruct (import2 glob e bs s (v2_signals s) [] c) as [[[[gs o] es] c1]|err] eqn:I; [|discriminate].
    destruct es as [|er es]; [|discriminate]. destruct (upgrade_all e (s2_url s) gs c1) as [[gs' c2]|err] eqn:U; [|discriminate].
    intros H. inversion H; subst. destruct (import2_ok _ _ _ _ _ (signals_sound s) _ _ _ _ _ _ Hok I) as (A & B & [H1 H2 H3 H4]).
    destruct (upgrade_all_ok _ _ _ _ _ _ A U) as (A' & B' & HF). split; [exact A'|]. split; [eapply cat_le_trans; eassumption|].
    rewrite hand_out_groups.
    assert (G : forall x g g', fresh e s x c1 g -> ((g' = g \/ exists h, superseded e g (s2_url s) h /\ same_data g' h) /\ (one_version e -> g' = g)) ->
                got e (D2 s) x c' g').
    { intros x g g' F [R O]. split.
      - exists (s2_url s), g. split; [reflexivity|]. split; [apply F|]. destruct R as [->|R]; [left; apply same_data_refl|right; exact R].
      - intros One _. rewrite (O One). destruct F as [_ F]. destruct (F One) as (ds & D1' & D2'). exists ds. split; [exact D1'|]. eapply denotes_all_le; eassumption. }
    split.
    + intros g' Hg'. destruct (forall2_in_r _ _ _ _ HF Hg') as (g & Hg & R). destruct (H1 g Hg) as (v & x & Hv & K & W & Pr & F).
      exists x. split; [apply (so_holds _ _ _ K)|]. split; [exact W|]. split; [exact Pr|]. eapply G; eassumption.
    + intros x Hx W Pr. destruct (signals_complete s x Hx) as (v & Hv & K). destruct (H2 v x Hv K W Pr) as (g & Hg & F).
      destruct (forall2_in_l _ _ _ _ HF Hg) as (g' & Hg' & R). exists g'. split; [exact Hg'|]. eapply G; eassumption.
    + intros x Hx Pr W. destruct (signals_complete s x Hx) as (v & Hv & K). eapply H3; eassumption.
    + intros ? [].
Qed.

(* ---- all dependencies ---- *)
Lemma keep_new_ok l : forall kept, incl kept (keep_new kept l) /\
  (forall y, In y (keep_new kept l) -> In y kept \/ In y l) /\
  (forall x, In x l -> In x (keep_new kept l) \/ exists k, In k (keep_new kept l) /\ twins k x).
Proof.
  induction l as [|x l IH]; intros kept; cbn [keep_new].
  - split; [apply incl_refl|]. split; [auto|intros ? []].
  - destruct (IH (if is_duplicate kept x then kept else app kept [x])) as (A & B & C). split; [|split].
    + intros y Hy. apply A. destruct (is_duplicate kept x); [exact Hy|]. apply in_or_app. left. exact Hy.
    + intros y Hy. destruct (B y Hy) as [H|H]; [|right; right; exact H]. destruct (is_duplicate kept x); [left; exact H|].
      apply in_app_iff in H. destruct H as [H|[<-|[]]]; [left; exact H|right; left; reflexivity].
    + intros y [<-|Hy]; [|apply C; exact Hy]. destruct (is_duplicate kept x) eqn:D.
      * apply duplicate_iff in D. destruct D as (k & Hk & T). right. exists k. split; [apply A; exact Hk|exact T].
      * left. apply A. apply in_or_app. right. left. reflexivity.
Qed.
Lemma ordpairs_snoc {A} (R : A -> A -> Prop) l x : ForallOrdPairs R l -> (forall y, In y l -> R y x) -> ForallOrdPairs R (app l [x]).
Proof.
  induction 1 as [|a l Ha HF IH]; intros H; cbn [app].
  - constructor; constructor.
  - constructor.
    + apply Forall_app. split; [exact Ha|]. constructor; [apply H; left; reflexivity|constructor].
    + apply IH. intros y Hy. apply H. right. exact Hy.
Qed.
Lemma keep_new_once l : forall kept, ForallOrdPairs (fun a b => ~ twins a b) kept -> ForallOrdPairs (fun a b => ~ twins a b) (keep_new kept l).
Proof.
  induction l as [|x l IH]; intros kept H; cbn [keep_new]; [exact H|]. apply IH. destruct (is_duplicate kept x) eqn:D; [exact H|].
  apply ordpairs_snoc; [exact H|]. intros y Hy T. assert (X : is_duplicate kept x = true) by (apply duplicate_iff; exists y; auto). congruence.
Qed.
Lemma import_all_ok glob e bs ds : forall kept c l c', cat_ok c -> import_all glob e bs ds kept c = Done (l, c') ->
  cat_ok c' /\ cat_le c c' /\ incl kept l /\
  (forall i, In i l -> In i kept \/ exists d x, In d ds /\ holds d x /\ wanted glob bs x /\ ~ private x /\ got e d x c' (im_group i)) /\
  (forall d x, In d ds -> holds d x -> wanted glob bs x -> ~ private x ->
     exists y, got e d x c' (im_group y) /\ (In y l \/ exists i, In i l /\ twins i y)) /\
  (forall d x, In d ds -> holds d x -> private x -> ~ wanted_by_name glob bs x).
Proof.
  induction ds as [|d ds IH]; intros kept c l c' Hok H; cbn [import_all] in H.
  - inversion H; subst. split; [exact Hok|]. split; [apply cat_le_refl|]. split; [apply incl_refl|]. split; [auto|]. split; intros ? ? [].
  - destruct (import_one glob e bs d c) as [[l1 c1]|es|] eqn:I; cbn [run_bind fst snd] in H; [|discriminate|discriminate].
    destruct (import_one_ok _ _ _ _ _ _ _ Hok I) as (Hok1 & Hle1 & [H1 H2 H3 H4]).
    destruct (IH _ _ _ _ Hok1 H) as (Hok2 & Hle2 & Hin & A & B & C).
    destruct (keep_new_ok l1 kept) as (K1 & K2 & K3).
    split; [exact Hok2|]. split; [eapply cat_le_trans; eassumption|]. split; [intros y Hy; apply Hin; apply K1; exact Hy|]. split; [|split].
    + intros i Hi. destruct (A i Hi) as [Hk|(d' & x & Hd & R)].
      * destruct (K2 i Hk) as [Hk'|Hl]; [left; exact Hk'|right]. destruct (H1 (im_group i)) as (x & Hx & W & Pr & G).
        { apply in_map. exact Hl. }
        exists d, x. split; [left; reflexivity|]. split; [exact Hx|]. split; [exact W|]. split; [exact Pr|]. eapply got_le; eassumption.
      * right. exists d', x. split; [right; exact Hd|exact R].
    + intros d' x [<-|Hd] Hx W Pr; [|apply (B d'); assumption]. destruct (H2 x Hx W Pr) as (g & Hg & G). apply in_map_iff in Hg.
      destruct Hg as (y & <- & Hy). exists y. split; [eapply got_le; eassumption|]. destruct (K3 y Hy) as [K|(k & Hk & T)].
      * left. apply Hin. exact K.
      * right. exists k. split; [apply Hin; exact Hk|exact T].
    + intros d' x [<-|Hd] Hx Pr W; [destruct (H3 x Hx Pr W)|]. apply (C d' x Hd Hx Pr W).
Qed.
Lemma import_all_once glob e bs ds : forall kept c l c', import_all glob e bs ds kept c = Done (l, c') ->
  ForallOrdPairs (fun a b => ~ twins a b) kept -> ForallOrdPairs (fun a b => ~ twins a b) l.
Proof.
  induction ds as [|d ds IH]; intros kept c l c' H K; cbn [import_all] in H.
  - inversion H; subst. exact K.
  - destruct (import_one glob e bs d c) as [[l1 c1]|es|] eqn:I; cbn [run_bind fst snd] in H; [|discriminate|discriminate].
    eapply IH; [exact H|]. apply keep_new_once. exact K.
Qed.

(* ---- failures ---- *)
Lemma attr_prov_err e a src c err : attribute_ref_prov e a src c = Bad err -> conflict_error err.
Proof.
  unfold attribute_ref_prov. destruct (upgrade_attr e _) as [n|er] eqn:U; cbn [rr_bind].
  2:{ intros H. inversion H; subst. eapply upgrade_err; exact U. }
  destruct (attribute_ref (ws_attr n) c) as [r1 c1]. destruct (slookup (at_name a) (ct_roots c1)) as [x|]; cbn [rr_bind]; [|discriminate].
  destruct (resolve_conflict e (at_name a) n x) as [w|er] eqn:R; cbn [rr_bind]; [discriminate|]. intros H. inversion H; subst.
  eapply resolve_conflict_err; exact R.
Qed.
Lemma intern_err e l : forall c err, intern e l c = Bad err -> conflict_error err.
Proof.
  induction l as [|[a src] l IH]; intros c err H; cbn [intern] in H; [discriminate|].
  destruct (attribute_ref_prov e a (SDep src) c) as [[r c1]|er] eqn:R; cbn [rr_bind fst snd] in H.
  - destruct (intern e l c1) as [[rs c2]|er] eqn:I; cbn [rr_bind] in H; [discriminate|]. inversion H; subst. eapply IH; exact I.
  - inversion H; subst. eapply attr_prov_err; exact R.
Qed.
Lemma upgrade_group_err e g u c err : upgrade_group e g u c = Bad err -> conflict_error err.
Proof.
  unfold upgrade_group. destruct (ev_chosen _ _); [|discriminate]. destruct (String.eqb _ _); [discriminate|].
  destruct (latest_major _ _ _ _); [|discriminate]. destruct (negb _); [discriminate|]. destruct (ev_cached _ _) as [[s0 roots0|s0]|]; try discriminate.
  destruct (find _ _) as [up|]; [|discriminate]. destruct (intern e _ c) as [[rs c1]|er] eqn:I; cbn [rr_bind]; [discriminate|].
  intros H. inversion H; subst. eapply intern_err; exact I.
Qed.
Lemma import1_err glob e bs s roots my gs : forall c err, import1 glob e bs s roots my gs c = Bad err -> conflict_error err.
Proof.
  induction gs as [|g gs IH]; intros c err H; cbn [import1] in H; [discriminate|].
  destruct (negb _); [eapply IH; exact H|].
  match type of H with context [match ?x with Include => _ | Leave => _ | Refuse _ => _ end] => destruct x end.
  - destruct (upgrade_group e g my c) as [[o c1]|er] eqn:U; cbn [rr_bind] in H; [|inversion H; subst; eapply upgrade_group_err; exact U].
    destruct o as [g'|]; cbn [rr_bind fst snd] in H.
    + destruct (import1 glob e bs s roots my gs c1) as [[[l1 es1] c3]|er] eqn:I; cbn [rr_bind] in H; [discriminate|]. inversion H; subst. eapply IH; exact I.
    + destruct (intern e (sourced_attrs e s roots my g) c1) as [[rs c2]|er] eqn:N; cbn [rr_bind fst snd] in H.
      * destruct (import1 glob e bs s roots my gs c2) as [[[l1 es1] c3]|er] eqn:I; cbn [rr_bind] in H; [discriminate|]. inversion H; subst. eapply IH; exact I.
      * inversion H; subst. eapply intern_err; exact N.
  - eapply IH; exact H.
  - destruct (import1 glob e bs s roots my gs c) as [[[l1 es1] c3]|er] eqn:I; cbn [rr_bind] in H; [discriminate|]. inversion H; subst. eapply IH; exact I.
Qed.
Definition bad_index (err : rerr) : Prop := exists r i, err = XBadAttributeRef r i.
Lemma intern2_err e s l : forall c err, intern2 e s l c = Bad err -> conflict_error err \/ bad_index err.
Proof.
  induction l as [|[[[i req] sa] role] l IH]; intros c err H; cbn [intern2] in H; [discriminate|].
  destruct (nth_error (s2_catalog s) i) as [a|]; [|inversion H; subst; right; eexists _, _; reflexivity].
  destruct (attribute_ref_prov e _ _ c) as [[r c1]|er] eqn:R; cbn [rr_bind fst snd] in H.
  - destruct (intern2 e s l c1) as [[rs c2]|er] eqn:I; cbn [rr_bind] in H; [discriminate|]. inversion H; subst. eapply IH; exact I.
  - inversion H; subst. left. eapply attr_prov_err; exact R.
Qed.
Lemma import2_err glob e bs s vs : forall o c err, import2 glob e bs s vs o c = Bad err -> conflict_error err \/ bad_index err.
Proof.
  induction vs as [|v vs IH]; intros o c err H; cbn [import2] in H; [discriminate|].
  destruct (negb _); [eapply IH; exact H|]. destruct (import_decision _ _ _ _).
  - destruct (intern2 e s (v_uses v) c) as [[rs c1]|er] eqn:N; cbn [rr_bind fst snd] in H.
    + match type of H with context [import2 glob e bs s vs ?oo c1] => destruct (import2 glob e bs s vs oo c1) as [[[[l1 o1] es1] c2]|er] eqn:I2 end;
        cbn [rr_bind] in H; [discriminate|]. inversion H; subst. eapply IH; exact I2.
    + inversion H; subst. eapply intern2_err; exact N.
  - eapply IH; exact H.
  - destruct (import2 glob e bs s vs o c) as [[[[l1 o1] es1] c2]|er] eqn:I2; cbn [rr_bind] in H; [discriminate|]. inversion H; subst. eapply IH; exact I2.
Qed.
Lemma upgrade_all_err e u gs : forall c err, upgrade_all e u gs c = Bad err -> conflict_error err.
Proof.
  induction gs as [|g gs IH]; intros c err H; cbn [upgrade_all] in H; [discriminate|].
  destruct (upgrade_group e g u c) as [[o c1]|er] eqn:U; cbn [rr_bind fst snd] in H; [|inversion H; subst; eapply upgrade_group_err; exact U].
  destruct (upgrade_all e u gs c1) as [[gs2 c2]|er] eqn:I; cbn [rr_bind] in H; [discriminate|]. inversion H; subst. eapply IH; exact I.
Qed.
Lemma import_one_err glob e bs d c es : cat_ok c -> import_one glob e bs d c = Failed es ->
  (exists err, es = [err] /\ (conflict_error err \/ bad_index err)) \/
  (es <> [] /\ forall err, In err es -> exists x, holds d x /\ private x /\ wanted_by_name glob bs x /\ err = refused x).
Proof.
  intros Hok. destruct d as [s roots|s]; cbn [import_one].
  - unfold import_v1. destruct (ev_parse e (s1_url s)) as [my|] eqn:P.
    2:{ intros H. inversion H; subst. left. eexists. split; [reflexivity|]. left. exact I. }
    destruct (import1 glob e bs s roots my (s1_groups s) c) as [[[l1 es1] c1]|err] eqn:I.
    + destruct es1 as [|er es1]; [discriminate|]. intros H. inversion H; subst. right. split; [discriminate|].
      destruct (import1_ok _ _ _ _ _ _ P _ (incl_refl _) _ _ _ _ Hok I) as (_ & _ & [_ _ _ H4]).
      intros err He. destruct (H4 err He) as (x & (g & -> & Hg) & R). exists (DGroup g). split; [exact Hg|exact R].
    + intros H. inversion H; subst. left. eexists. split; [reflexivity|]. left. eapply import1_err; exact I.
  - unfold import_v2. destruct (import2 glob e bs s (v2_signals s) [] c) as [[[[gs o] es1] c1]|err] eqn:I.
    + destruct es1 as [|er es1].
      * destruct (upgrade_all e (s2_url s) gs c1) as [[gs' c2]|err] eqn:U; [discriminate|]. intros H. inversion H; subst. left.
        eexists. split; [reflexivity|]. left. eapply upgrade_all_err; exact U.
      * intros H. inversion H; subst. right. split; [discriminate|].
        destruct (import2_ok _ _ _ _ _ (signals_sound s) _ _ _ _ _ _ Hok I) as (_ & _ & [_ _ _ H4]).
        intros err He. destruct (H4 err He) as (v & x & Hv & K & R). exists x. split; [apply (so_holds _ _ _ K)|exact R].
    + intros H. inversion H; subst. left. eexists. split; [reflexivity|]. eapply import2_err; exact I.
Qed.
Lemma import_one_stops glob e bs d c : import_one glob e bs d c <> Running.
Proof.
  destruct d as [s roots|s]; cbn [import_one].
  - unfold import_v1. destruct (ev_parse _ _); [|discriminate]. destruct (import1 _ _ _ _ _ _ _ _) as [[[l1 es1] c1]|]; [|discriminate].
    destruct es1; discriminate.
  - unfold import_v2. destruct (import2 _ _ _ _ _ _ _) as [[[[gs o] es1] c1]|]; [|discriminate]. destruct es1; [|discriminate].
    destruct (upgrade_all _ _ _ _) as [[? ?]|]; discriminate.
Qed.
