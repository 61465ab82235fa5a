(* C126: pages of the attribute registry and Prometheus names in templates. *)
From Coq Require Import String Ascii Bool Arith NArith Lia List.
Import ListNotations.
From Verif Require Import Base BaseProofs Str StrProofs CaseModel CaseSpec PromModel OtelSpec PageModel PageSpec.
From Verif Require SemTypes OtelModel PropOtel PropCase PropProm PromSpec.
Local Open Scope string_scope.

(* ---------- pages ---------- *)
Lemma registry_word : ~ has_dot "registry".
Proof. apply PropOtel.no_dot_iff. reflexivity. Qed.
Lemma namespace_iff id ns : OtelModel.registry_namespace "registry" id = SemTypes.Ok ns <-> in_namespace id ns.
Proof. apply (PropOtel.C54_registry_namespace "registry" id ns registry_word). Qed.
Lemma file_iff id f : attribute_registry_file id = Some f <->
  exists ns, in_namespace id ns /\ f = "attributes-registry/" ++ convert KebabCase ns ++ ".md".
Proof.
  assert (E : attribute_registry_file id =
    match OtelModel.registry_namespace "registry" id with
    | SemTypes.Ok ns => Some ("attributes-registry/" ++ convert KebabCase ns ++ ".md") | SemTypes.Err _ => None end).
  { unfold attribute_registry_file, OtelModel.registry_namespace. destruct (split_char "." id) as [|a [|b l]]; try reflexivity. destruct (String.eqb a "registry"); reflexivity. }
  rewrite E. split.
  - destruct (OtelModel.registry_namespace "registry" id) as [ns|] eqn:R; [|discriminate]. intros [= <-]. exists ns. split; [apply namespace_iff, R|reflexivity].
  - intros (ns & R & ->). apply namespace_iff in R. rewrite R. reflexivity.
Qed.
Lemma title_iff id t : attribute_registry_title id = Some t <->
  exists ns, in_namespace id ns /\ t = convert TitleCase ns.
Proof.
  assert (E : attribute_registry_title id =
    match OtelModel.registry_namespace "registry" id with
    | SemTypes.Ok ns => Some (convert TitleCase ns) | SemTypes.Err _ => None end).
  { unfold attribute_registry_title, OtelModel.registry_namespace. destruct (split_char "." id) as [|a [|b l]]; try reflexivity. destruct (String.eqb a "registry"); reflexivity. }
  rewrite E. split.
  - destruct (OtelModel.registry_namespace "registry" id) as [ns|] eqn:R; [|discriminate]. intros [= <-]. exists ns. split; [apply namespace_iff, R|reflexivity].
  - intros (ns & R & ->). apply namespace_iff in R. rewrite R. reflexivity.
Qed.
Lemma small_fun l : forall a b, Forall2 (each to_small) l a -> Forall2 (each to_small) l b -> a = b.
Proof.
  induction l as [|w l IH]; intros a b A B; inversion A; inversion B; subst; [reflexivity|].
  f_equal; [|apply IH; assumption].
  repeat match goal with H : each to_small _ _ |- _ => apply PropCase.each_small in H end. congruence.
Qed.
Lemma capitalised_fun l : forall a b, Forall2 capitalised l a -> Forall2 capitalised l b -> a = b.
Proof.
  induction l as [|w l IH]; intros a b A B; inversion A; inversion B; subst; [reflexivity|].
  f_equal; [|apply IH; assumption].
  repeat match goal with H : capitalised _ _ |- _ => apply PropCase.capitalised_iff in H; destruct H end. congruence.
Qed.

(* The page of a group is that of its namespace: its words in small letters with hyphens; its title has their
   first letters as capitals.  Other ids are refused. *)
Theorem C126_file id f : attribute_registry_file id = Some f <->
  exists ns l ws, in_namespace id ns /\ words ns l /\ Forall2 (each to_small) l ws /\
    f = "attributes-registry/" ++ join "-" ws ++ ".md".
Proof.
  rewrite file_iff. split.
  - intros (ns & R & ->). destruct (PropCase.C103_words_of ns) as (l & W & _).
    destruct (PropCase.C103_words KebabCase ns l W) as (ws & S & E). exists ns, l, ws. rewrite E. auto.
  - intros (ns & l & ws & R & W & S & ->). exists ns. split; [exact R|].
    destruct (PropCase.C103_words KebabCase ns l W) as (ws' & S' & E). rewrite E, (small_fun _ _ _ S S'). reflexivity.
Qed.
Print Assumptions C126_file.
Theorem C126_title id t : attribute_registry_title id = Some t <->
  exists ns l ws, in_namespace id ns /\ words ns l /\ Forall2 capitalised l ws /\ t = join " " ws.
Proof.
  rewrite title_iff. split.
  - intros (ns & R & ->). destruct (PropCase.C103_words_of ns) as (l & W & _).
    destruct (PropCase.C103_words TitleCase ns l W) as (ws & S & E). exists ns, l, ws. rewrite E. auto.
  - intros (ns & l & ws & R & W & S & ->). exists ns. split; [exact R|].
    destruct (PropCase.C103_words TitleCase ns l W) as (ws' & S' & E). rewrite E, (capitalised_fun _ _ _ S S'). reflexivity.
Qed.
Print Assumptions C126_title.
(* the groups with a page have a title, and no others *)
Theorem C126_both id : (exists f, attribute_registry_file id = Some f) <-> (exists t, attribute_registry_title id = Some t).
Proof.
  split; intros (x & H); [apply file_iff in H as (ns & R & _); exists (convert TitleCase ns); apply title_iff|apply title_iff in H as (ns & R & _); eexists; apply file_iff]; exists ns; auto.
Qed.
Print Assumptions C126_both.

Lemma undotted_name s l : CaseSpec.name s l -> ~ has_dot s -> s = join "_" l.
Proof.
  induction 1 as [w W|w c s l W C N IH]; intros D; [reflexivity|].
  destruct C as [->| ->]; [exfalso; apply D; exists w, s; reflexivity|].
  assert (D' : ~ has_dot s). { intros (a & b & ->). apply D. exists (w ++ String "_" a), b. rewrite str_app_assoc. reflexivity. }
  pose proof (PropCase.name_nonempty _ _ N) as Ne. rewrite (IH D'). destruct l; [congruence|]. reflexivity.
Qed.
Lemma app_same_end a : forall b e, (a ++ e = b ++ e)%string -> a = b.
Proof.
  intros b e H. assert (L : String.length a = String.length b).
  { apply (f_equal String.length) in H. rewrite !str_length_app in H. lia. }
  revert b H L. induction a as [|c a IH]; intros [|d b] H L; try discriminate L; [reflexivity|].
  cbn in H. injection H as -> H. f_equal. apply IH; [exact H|]. cbn in L. lia.
Qed.
(* groups share a page exactly when they share a namespace, for namespaces of small letters, digits and underscores *)
Theorem C126_apart id id' ns ns' l l' f f' : in_namespace id ns -> in_namespace id' ns' ->
  CaseSpec.name ns l -> CaseSpec.name ns' l' ->
  attribute_registry_file id = Some f -> attribute_registry_file id' = Some f' -> (f = f' <-> ns = ns').
Proof.
  intros R R' N N' F F'. apply namespace_iff in R as Q, R' as Q'. apply file_iff in F as (n & A & ->), F' as (n' & A' & ->).
  apply namespace_iff in A, A'. assert (n = ns) as -> by congruence. assert (n' = ns') as -> by congruence.
  split; [|intros ->; reflexivity]. intros E. cbn in E. injection E as E.
  apply app_same_end in E. assert (l = l') as <- by (apply (PropCase.C103_distinct KebabCase ns ns'); [discriminate|assumption..]).
  rewrite (undotted_name _ _ N (proj1 R)). symmetry. apply (undotted_name _ _ N' (proj1 R')).
Qed.
Print Assumptions C126_apart.
(* other namespaces may be written over each other *)
Theorem C126_apart_refuted : attribute_registry_file "registry.user_agent" = Some "attributes-registry/user-agent.md" /\
  attribute_registry_file "registry.userAgent" = Some "attributes-registry/user-agent.md".
Proof. split; reflexivity. Qed.
Print Assumptions C126_apart_refuted.

(* ---------- Prometheus names ---------- *)
Lemma lookup_once (kw : kwargs) k v : once kw -> (lookup String.eqb k kw = Some v <-> In (k, v) kw).
Proof.
  unfold once. induction kw as [|[a w] kw IH]; cbn [lookup map fst]; intros O; [split; [discriminate|intros []]|].
  inversion O as [|? ? Ni O']; subst. destruct (String.eqb_spec k a) as [->|Ne].
  - split; [intros [= ->]; left; reflexivity|]. intros [[= ->]|H]; [reflexivity|]. exfalso. apply Ni. apply (in_map fst) in H. exact H.
  - rewrite (IH O'). split; [intros H; right; exact H|]. intros [[= -> ->]|H]; [congruence|exact H].
Qed.
Lemma lookup_none (kw : kwargs) k : lookup String.eqb k kw = None <-> forall v, ~ In (k, v) kw.
Proof.
  induction kw as [|[a w] kw IH]; cbn [lookup]; [split; [intros _ v []|reflexivity]|].
  destruct (String.eqb_spec k a) as [->|Ne].
  - split; [discriminate|]. intros H. exfalso. apply (H w). left. reflexivity.
  - rewrite IH. split; [intros H v [[= -> ->]|I]; [congruence|apply (H v I)]|intros H v I; apply (H v); right; exact I].
Qed.
Lemma left_iff kw k : once kw -> (left_out kw k <-> lookup String.eqb k kw = None \/ lookup String.eqb k kw = Some ANone).
Proof. intros O. unfold left_out. rewrite lookup_none, lookup_once by exact O. reflexivity. Qed.
Lemma given_iff kw k v : once kw -> (given kw k v <-> lookup String.eqb k kw = Some v /\ v <> ANone).
Proof. intros O. unfold given. rewrite lookup_once by exact O. reflexivity. Qed.
Lemma parse_iff s st : parse_translation_strategy s = Done st <-> called s st.
Proof.
  unfold parse_translation_strategy. split.
  - repeat match goal with |- context [String.eqb ?a ?b] => destruct (String.eqb_spec a b) as [->|] end; intros [= <-]; constructor.
  - intros []; reflexivity.
Qed.
Lemma get_str_iff kw k o : once kw -> (get_str k kw = Done o <->
  match o with None => left_out kw k | Some s => given kw k (AStr s) end).
Proof.
  intros O. unfold get_str. destruct o as [s|]; [rewrite given_iff by exact O|rewrite left_iff by exact O];
  destruct (lookup String.eqb k kw) as [[]|]; split; try discriminate; try (intros [= ->]); try (intros [H|H]; congruence); try (intros (H & _); congruence); auto.
  split; [reflexivity|discriminate].
Qed.
Lemma get_bool_iff kw k o : once kw -> (get_bool k kw = Done o <->
  match o with None => left_out kw k | Some b => given kw k (ABool b) end).
Proof.
  intros O. unfold get_bool. destruct o as [s|]; [rewrite given_iff by exact O|rewrite left_iff by exact O];
  destruct (lookup String.eqb k kw) as [[]|]; split; try discriminate; try (intros [= ->]); try (intros [H|H]; congruence); try (intros (H & _); congruence); auto.
  split; [reflexivity|discriminate].
Qed.
Lemma then_iff {A B} (x : answer A) (f : A -> answer B) b : andthen x f = Done b <-> exists a, x = Done a /\ f a = Done b.
Proof. destruct x; cbn; split; [eauto|intros (y & [= <-] & H); exact H|discriminate|intros (y & H & _); discriminate]. Qed.
Lemma attr_iff {A} (o : option A) k a : get_attr o k = Done a <-> o = Some a.
Proof. destruct o; cbn; split; congruence. Qed.

(* one name: exactly when a strategy is given by its word and the metric is described *)
Theorem C126_name alnum m kw r : once kw -> (prom_name alnum m kw = Done r <->
  exists n u i st, described m n u i /\ asked kw (Some st) /\ r = get_name alnum n u i st).
Proof.
  intros O. unfold prom_name. split.
  - intros H. apply then_iff in H as (g & G & H). apply (get_str_iff _ _ _ O) in G. destruct g as [s|]; [|discriminate H]. cbn [andthen] in H.
    apply then_iff in H as (st & P & H). apply parse_iff in P.
    apply then_iff in H as (n & N & H). apply then_iff in H as (u & U & H). apply then_iff in H as (i & I & H).
    apply attr_iff in N, U, I. injection H as <-. exists n, u, i, st. split; [destruct m; cbn in *; subst; reflexivity|]. split; [exists s; auto|reflexivity].
  - intros (n & u & i & st & -> & (w & G & C) & ->). apply (get_str_iff kw _ (Some w) O) in G. rewrite G. cbn [andthen]. apply parse_iff in C. rewrite C. reflexivity.
Qed.
Print Assumptions C126_name.
(* all names: exactly when the strategy, if any, is given by its word, the expansion, if any, by a boolean *)
Theorem C126_names alnum m kw l : once kw -> (prom_names alnum m kw = Done l <->
  exists n u i st b, described m n u i /\ asked kw st /\ expanded kw b /\ l = get_names alnum n u i st b).
Proof.
  intros O. unfold prom_names. split.
  - intros H. apply then_iff in H as (g & G & H). apply (get_str_iff _ _ _ O) in G. apply then_iff in H as (st & P & H).
    apply then_iff in H as (e & B & H). apply (get_bool_iff _ _ _ O) in B.
    apply then_iff in H as (n & N & H). apply then_iff in H as (u & U & H). apply then_iff in H as (i & I & H).
    apply attr_iff in N, U, I. injection H as <-. exists n, u, i, st, (match e with Some b => b | None => false end).
    split; [destruct m; cbn in *; subst; reflexivity|]. split.
    + destruct g as [s|]; [|injection P as <-; exact G]. apply then_iff in P as (x & P & E). injection E as <-. apply parse_iff in P. exists s. auto.
    + split; [|reflexivity]. destruct e as [b|]; [left; exact B|right; auto].
  - intros (n & u & i & st & b & -> & A & B & ->).
    assert (Q : exists e, get_bool "expand_summary_and_histogram" kw = Done e /\ b = match e with Some b => b | None => false end).
    { destruct B as [B|(-> & B)]; [exists (Some b)|exists None]; (split; [apply (get_bool_iff _ _ _ O); exact B|reflexivity]). }
    destruct Q as (e & Q & ->). destruct st as [st|].
    + destruct A as (w & G & C). apply (get_str_iff kw _ (Some w) O) in G. rewrite G. cbn [andthen]. apply parse_iff in C. rewrite C. cbn [andthen]. rewrite Q. reflexivity.
    + apply (get_str_iff kw _ None O) in A. rewrite A. cbn [andthen]. rewrite Q. reflexivity.
Qed.
Print Assumptions C126_names.
(* the two filters agree: where both answer, the one name is among the names, and it is the only one unless
   expansion is asked for *)
Theorem C126_agree alnum m kw r l : once kw -> prom_name alnum m kw = Done r -> prom_names alnum m kw = Done l ->
  In r l /\ (expanded kw false -> l = [r]).
Proof.
  intros O H K. apply C126_name in H as (n & u & i & st & D & (w & G & C) & ->); [|exact O].
  apply C126_names in K as (n' & u' & i' & st' & b & D' & A & B & ->); [|exact O].
  unfold described in *. assert (n' = n /\ u' = u /\ i' = i) as (-> & -> & ->) by (rewrite D in D'; injection D'; auto).
  assert (st' = Some st) as ->.
  { destruct st' as [s|].
    - destruct A as (w' & G' & C'). apply (given_iff _ _ _ O) in G as (G & _), G' as (G' & _). assert (w' = w) as -> by congruence. apply parse_iff in C, C'. congruence.
    - exfalso. apply (left_iff _ _ O) in A. apply (given_iff _ _ _ O) in G as (G & _). destruct A; congruence. }
  assert (E : get_names alnum n u i (Some st) b = expand_name i b (get_name alnum n u i st)).
  { unfold get_names. destruct st; cbn; rewrite app_nil_r; reflexivity. }
  rewrite E. split.
  - unfold expand_name. destruct b; [destruct (String.eqb i "histogram"); [|destruct (String.eqb i "summary")]|]; left; reflexivity.
  - intros X. assert (b = false) as ->; [|reflexivity].
    destruct B as [B|(B & _)]; [|exact B]. apply (given_iff _ _ _ O) in B as (B & _). destruct X as [X|(_ & X)].
    + apply (given_iff _ _ _ O) in X as (X & _). congruence.
    + apply (left_iff _ _ O) in X. destruct X; congruence.
Qed.
Print Assumptions C126_agree.
(* the strategy is asked for before anything else is looked at *)
Theorem C126_required alnum m kw : once kw -> (prom_name alnum m kw = Fail StrategyRequired <-> left_out kw "translation_strategy").
Proof.
  intros O. rewrite <- (get_str_iff kw _ None O). unfold prom_name. split.
  - destruct (get_str "translation_strategy" kw) as [[s|]|f] eqn:G; cbn [andthen]; [|reflexivity|].
    + unfold parse_translation_strategy.
      repeat match goal with |- context [String.eqb ?a ?b] => destruct (String.eqb a b) end; cbn [andthen]; try discriminate;
      destruct m as [[] [] []]; discriminate.
    + intros [= ->]. revert G. unfold get_str. destruct (lookup _ _ _) as [[]|]; discriminate.
  - intros ->. reflexivity.
Qed.
Print Assumptions C126_required.
(* the reasons of a refusal, in the order they are looked at *)
Theorem C126_refused alnum m kw f : once kw -> (prom_names alnum m kw = Fail f <->
  (exists v, given kw "translation_strategy" v /\ (forall s, v <> AStr s) /\ f = BadArgument "translation_strategy") \/
  (exists w, given kw "translation_strategy" (AStr w) /\ (forall st, ~ called w st) /\ f = UnknownStrategy w) \/
  ((exists st, asked kw st) /\
   exists v, given kw "expand_summary_and_histogram" v /\ (forall b, v <> ABool b) /\ f = BadArgument "expand_summary_and_histogram") \/
  ((exists st, asked kw st) /\ (exists b, expanded kw b) /\ unread m f)).
Proof.
  intros O.
  assert (Pf : forall w, (exists st, parse_translation_strategy w = Done st) \/
                         (parse_translation_strategy w = Fail (UnknownStrategy w))).
  { intros w. unfold parse_translation_strategy. repeat match goal with |- context [String.eqb ?a ?b] => destruct (String.eqb a b) end; eauto. }
  assert (Sf : forall k g, get_str k kw = Fail g <-> exists v, given kw k v /\ (forall s, v <> AStr s) /\ g = BadArgument k).
  { intros k g. unfold get_str. split.
    - destruct (lookup String.eqb k kw) as [[s|b| |]|] eqn:E; intros [= <-]; eexists; (split; [apply (given_iff _ _ _ O); split; [exact E|discriminate]|split; [discriminate|reflexivity]]).
    - intros (v & G & N & ->). apply (given_iff _ _ _ O) in G as (-> & G). destruct v; try congruence; exfalso; eapply N; reflexivity. }
  assert (Bf : forall k g, get_bool k kw = Fail g <-> exists v, given kw k v /\ (forall s, v <> ABool s) /\ g = BadArgument k).
  { intros k g. unfold get_bool. split.
    - destruct (lookup String.eqb k kw) as [[s|b| |]|] eqn:E; intros [= <-]; eexists; (split; [apply (given_iff _ _ _ O); split; [exact E|discriminate]|split; [discriminate|reflexivity]]).
    - intros (v & G & N & ->). apply (given_iff _ _ _ O) in G as (-> & G). destruct v; try congruence; exfalso; eapply N; reflexivity. }
  assert (A : (exists st, asked kw st) <-> exists g, get_str "translation_strategy" kw = Done g /\
              match g with None => True | Some w => exists st, parse_translation_strategy w = Done st end).
  { split.
    - intros ([st|] & H); [destruct H as (w & G & C); exists (Some w); split; [apply (get_str_iff kw _ (Some w) O), G|exists st; apply parse_iff, C]|exists None; split; [apply (get_str_iff kw _ None O), H|exact I]].
    - intros ([w|] & G & C); apply (get_str_iff _ _ _ O) in G; [destruct C as (st & C); exists (Some st), w; split; [exact G|apply parse_iff, C]|exists None; exact G]. }
  assert (B : (exists b, expanded kw b) <-> exists g, get_bool "expand_summary_and_histogram" kw = Done g).
  { split.
    - intros (b & [H|(_ & H)]); [exists (Some b)|exists None]; apply (get_bool_iff _ _ _ O); exact H.
    - intros ([b|] & G); apply (get_bool_iff _ _ _ O) in G; [exists b; left; exact G|exists false; right; auto]. }
  rewrite A, B. rewrite <- (Sf "translation_strategy" f), <- (Bf "expand_summary_and_histogram" f). unfold prom_names.
  assert (U : (exists w, given kw "translation_strategy" (AStr w) /\ (forall st, ~ called w st) /\ f = UnknownStrategy w) <->
              exists w, get_str "translation_strategy" kw = Done (Some w) /\ parse_translation_strategy w = Fail f).
  { split; intros (w & G & H); exists w.
    - destruct H as (N & ->). split; [apply (get_str_iff kw _ (Some w) O), G|]. destruct (Pf w) as [(st & P)|P]; [exfalso; apply (N st), parse_iff, P|exact P].
    - apply (get_str_iff kw _ (Some w) O) in G. split; [exact G|]. split; [intros st C; apply parse_iff in C; congruence|]. destruct (Pf w) as [(st & P)|P]; congruence. }
  rewrite U. clear A B U Sf Bf.
  assert (R : forall e st, andthen (get_attr (m_name m) "metric_name") (fun n => andthen (get_attr (m_unit m) "unit") (fun u =>
     andthen (get_attr (m_instrument m) "instrument") (fun i => Done (get_names alnum n u i st e)))) = Fail f <-> unread m f).
  { intros e st. unfold unread. destruct m as [[n|] [u|] [i|]]; cbn; split; intros H; try discriminate H; try (injection H as <-); intuition congruence. }
  destruct (get_str "translation_strategy" kw) as [[w|]|g]; cbn [andthen].
  - destruct (Pf w) as [(st & P)|P]; rewrite P; cbn [andthen].
    + destruct (get_bool "expand_summary_and_histogram" kw) as [e|g]; cbn [andthen].
      * rewrite R. split; [intros H; right; right; right; split; [exists (Some w); eauto|split; [eauto|exact H]]|].
        intros [H|[(x & [= <-] & H)|[(_ & H)|(_ & _ & H)]]]; [discriminate H|congruence|discriminate H|exact H].
      * split; [intros H; right; right; left; split; [exists (Some w); eauto|congruence]|].
        intros [H|[(x & [= <-] & H)|[(_ & H)|(_ & (x & H) & _)]]]; [discriminate H|congruence|congruence|discriminate H].
    + split; [intros H; right; left; exists w; split; [reflexivity|rewrite P; congruence]|].
      intros [H|[(x & [= <-] & H)|[((x & [= <-] & (y & H)) & _)|((x & [= <-] & (y & H)) & _)]]]; congruence.
  - destruct (get_bool "expand_summary_and_histogram" kw) as [e|g]; cbn [andthen].
    + rewrite R. split; [intros H; right; right; right; split; [exists None; auto|split; [eauto|exact H]]|].
      intros [H|[(x & H & _)|[(_ & H)|(_ & _ & H)]]]; [discriminate H|discriminate H|discriminate H|exact H].
    + split; [intros H; right; right; left; split; [exists None; auto|congruence]|].
      intros [H|[(x & H & _)|[(_ & H)|(_ & (x & H) & _)]]]; [discriminate H|discriminate H|congruence|discriminate H].
  - split; [intros H; left; congruence|]. intros [H|[(x & H & _)|[((x & H & _) & _)|((x & H & _) & _)]]]; [congruence|discriminate H..].
Qed.
Print Assumptions C126_refused.
(* a misspelt argument is not reported: the names are those without it *)
Theorem C126_misspelt_refuted alnum m kw k v : k <> "translation_strategy" -> k <> "expand_summary_and_histogram" ->
  prom_names alnum m ((k, v) :: kw) = prom_names alnum m kw /\ prom_name alnum m ((k, v) :: kw) = prom_name alnum m kw.
Proof.
  intros A B. unfold prom_names, prom_name, get_str, get_bool. cbn [lookup].
  rewrite (proj2 (String.eqb_neq "translation_strategy" k)) by congruence.
  rewrite (proj2 (String.eqb_neq "expand_summary_and_histogram" k)) by congruence. split; reflexivity.
Qed.
Print Assumptions C126_misspelt_refuted.

(* the unit: the word for a known unit, other units as they are *)
Theorem C126_unit m r : prom_unit m = Done r <->
  exists u, m_unit m = Some u /\
    (In (u, r) PromSpec.known_units \/ ((forall w, ~ In (u, w) PromSpec.known_units) /\ r = u)).
Proof.
  assert (D : NoDup (map fst PromSpec.known_units)).
  { cbn. repeat (constructor; [intros X; repeat (destruct X as [X|X]; [discriminate X|]); exact X|]). constructor. }
  assert (L : forall (t : list (string * string)) u w, NoDup (map fst t) -> (lookup String.eqb u t = Some w <-> In (u, w) t)).
  { induction t as [|[a b] t IH]; intros u w N; cbn [lookup]; [split; [discriminate|intros []]|].
    inversion N as [|? ? Ni N']; subst. destruct (String.eqb_spec u a) as [->|Ne].
    - split; [intros [= ->]; left; reflexivity|]. intros [[= ->]|H]; [reflexivity|]. exfalso. apply Ni. apply (in_map fst) in H. exact H.
    - rewrite (IH _ _ N'). split; [intros H; right; exact H|]. intros [[= -> ->]|H]; [congruence|exact H]. }
  unfold prom_unit. rewrite then_iff. split.
  - intros (u & A & E). apply attr_iff in A. exists u. split; [exact A|]. injection E as <-.
    unfold get_prom_units, slookup. change prom_units with PromSpec.known_units.
    destruct (lookup String.eqb u PromSpec.known_units) as [w|] eqn:K; [left; apply (L _ _ _ D), K|].
    right. split; [|reflexivity]. intros w I. apply (L _ _ _ D) in I. congruence.
  - intros (u & A & C). exists u. split; [apply attr_iff, A|]. f_equal.
    unfold get_prom_units, slookup. change prom_units with PromSpec.known_units. destruct C as [C|(C & ->)].
    + apply (L _ _ _ D) in C. rewrite C. reflexivity.
    + destruct (lookup String.eqb u PromSpec.known_units) as [w|] eqn:K; [|reflexivity]. exfalso. apply (C w), (L _ _ _ D), K.
Qed.
Print Assumptions C126_unit.
(* it is not always the unit in the name *)
Theorem C126_unit_in_name_refuted : exists m,
  prom_unit m = Done "By/s" /\
  prom_name (fun c => c_ascii_alnum c) m [("translation_strategy", AStr "UnderscoreEscapingWithSuffixes")] = Done (chars "io_bytes_per_second").
Proof. exists (Metric (Some (chars "io")) (Some "By/s") (Some "gauge")). split; reflexivity. Qed.
Print Assumptions C126_unit_in_name_refuted.

(* ---------- a case ---------- *)
Example C126_ex_page : attribute_registry_file "registry.user_agent.os" = Some "attributes-registry/user-agent.md" /\
  attribute_registry_title "registry.user_agent.os" = Some "User Agent" /\ attribute_registry_file "registry" = None /\
  attribute_registry_file "metric.http" = None /\ in_namespace "registry.user_agent.os" "user_agent".
Proof.
  repeat split. - apply PropOtel.no_dot_iff. reflexivity. - right. exists "os". reflexivity.
Qed.
Definition latency := Metric (Some (chars "http.latency")) (Some "s") (Some "histogram").
Definition ascii_table (c : N) : bool := c_ascii_alnum c.
Example C126_ex_prom :
  prom_name ascii_table latency [("translation_strategy", AStr "UnderscoreEscapingWithSuffixes")] = Done (chars "http_latency_seconds") /\
  prom_names ascii_table latency [("translation_strategy", AStr "UnderscoreEscapingWithSuffixes"); ("expand_summary_and_histogram", ABool true)]
    = Done (map chars ["http_latency_seconds"; "http_latency_seconds_bucket"; "http_latency_seconds_count"; "http_latency_seconds_sum"]) /\
  prom_name ascii_table latency [("translation_strategy", AStr "Escape")] = Fail (UnknownStrategy "Escape") /\
  prom_names ascii_table latency [("translation_stategy", AStr "NoTranslation")] = prom_names ascii_table latency [] /\
  once [("translation_strategy", AStr "NoTranslation"); ("expand_summary_and_histogram", ABool true)].
Proof. repeat split. constructor; [intros [H|[]]; discriminate|]. constructor; [intros []|constructor]. Qed.
