(* Lemmas on the cache and on the resolution of loaded registries. *)
From Coq Require Import String Bool Arith Lia Sorted List.
From Verif Require Import Base BaseProofs SemTypes ResultModel CacheModel CacheSpec.
Import ListNotations.
Local Open Scope string_scope.

Local Arguments forget {V} k c : simpl never.
Section LruFacts.
  Context {V : Type}.
  Implicit Types (c : lru V) (k : string) (v : V).
  Lemma forget_cons k k' v c :
    forget k ((k', v) :: c) = if String.eqb k' k then forget k c else (k', v) :: forget k c.
  Proof. unfold forget. cbn. now destruct (String.eqb k' k). Qed.
  Lemma peek_in c k v : peek c k = Some v -> In (k, v) c.
  Proof.
    induction c as [|[k' v'] r IH]; cbn; [discriminate|]. destruct (String.eqb_spec k' k) as [->|N].
    - intros E. injection E as ->. now left.
    - intros E. right. auto.
  Qed.
  Lemma in_peek c k v : NoDup (map fst c) -> In (k, v) c -> peek c k = Some v.
  Proof.
    induction c as [|[k' v'] r IH]; cbn; [easy|]. intros ND I. inversion_clear ND as [|? ? N0 ND'].
    destruct (String.eqb_spec k' k) as [->|N].
    - destruct I as [E|I]; [now injection E as ->|]. destruct N0. apply (in_map fst) in I. exact I.
    - destruct I as [E|I]; [now injection E as -> ->|]. auto.
  Qed.
  Lemma peek_none c k : peek c k = None <-> ~ In k (map fst c).
  Proof.
    induction c as [|[k' v'] r IH]; cbn; [easy|]. destruct (String.eqb_spec k' k) as [->|N].
    - split; [discriminate|]. intros J. destruct J. now left.
    - rewrite IH. split; [intros J [E|I]; auto|tauto].
  Qed.
  Lemma peek_forget c k j : peek (forget k c) j = if String.eqb j k then None else peek c j.
  Proof.
    induction c as [|[k' v'] r IH]; [cbn; now destruct (String.eqb j k)|]. rewrite forget_cons. cbn.
    destruct (String.eqb_spec k' k) as [->|N].
    - rewrite IH. destruct (String.eqb_spec j k) as [E|N']; [easy|].
      destruct (String.eqb_spec k j); [congruence|easy].
    - cbn. rewrite IH. destruct (String.eqb_spec k' j) as [E|N']; [|easy].
      destruct (String.eqb_spec j k); [congruence|easy].
  Qed.
  Lemma forget_in c k j v : In (j, v) (forget k c) <-> In (j, v) c /\ j <> k.
  Proof.
    unfold forget. rewrite filter_In. cbn. destruct (String.eqb_spec j k) as [->|N]; cbn; split; try easy.
  Qed.
  Lemma forget_nodup c k : NoDup (map fst c) -> NoDup (map fst (forget k c)).
  Proof.
    induction c as [|[k' v'] r IH]; cbn; [easy|]. intros ND. inversion_clear ND as [|? ? N0 ND'].
    rewrite forget_cons. destruct (String.eqb k' k); cbn; [auto|]. constructor; [|auto].
    intros I. apply in_map_iff in I. destruct I as [[j v] [E I]]. cbn in E. subst j.
    apply forget_in in I. destruct N0. apply (in_map fst _ _ (proj1 I)).
  Qed.
  Lemma forget_notin c k : ~ In k (map fst (forget k c)).
  Proof.
    intros I. apply in_map_iff in I. destruct I as [[j v] [E I]]. cbn in E. subst j.
    apply forget_in in I. now destruct I.
  Qed.
  Lemma forget_other c k : ~ In k (map fst c) -> forget k c = c.
  Proof.
    induction c as [|[k' v'] r IH]; cbn; [easy|]. intros N.
    rewrite forget_cons. destruct (String.eqb_spec k' k) as [->|N']; [destruct N; now left|]. f_equal. apply IH. auto.
  Qed.
  Lemma forget_length c k v : NoDup (map fst c) -> peek c k = Some v -> S (length (forget k c)) = length c.
  Proof.
    induction c as [|[k' v'] r IH]; cbn; [discriminate|]. intros ND E. inversion_clear ND as [|? ? N0 ND'].
    rewrite forget_cons. destruct (String.eqb_spec k' k) as [->|N].
    - rewrite forget_other by easy. easy.
    - cbn. f_equal. now apply IH.
  Qed.
  Lemma forget_length_ge c k : NoDup (map fst c) -> length c <= S (length (forget k c)).
  Proof.
    intros ND. destruct (peek c k) as [v|] eqn:E.
    - now rewrite (forget_length _ _ _ ND E).
    - apply peek_none in E. rewrite (forget_other _ _ E). lia.
  Qed.
  Lemma firstn_in {A} n (l : list A) x : In x (firstn n l) -> In x l.
  Proof. intros I. rewrite <- (firstn_skipn n l). apply in_or_app. now left. Qed.
  Lemma firstn_nodup {A} n (l : list A) : NoDup l -> NoDup (firstn n l).
  Proof.
    revert n. induction l as [|a r IH]; intros n ND; [now rewrite firstn_nil|].
    destruct n; cbn; [constructor|]. inversion_clear ND as [|? ? N0 ND']. constructor; [|auto].
    intros I. now apply firstn_in in I.
  Qed.
  Lemma get_peek c k : snd (get c k) = peek c k.
  Proof. unfold get. now destruct (peek c k). Qed.
  Lemma get_same c k j : peek (fst (get c k)) j = peek c j.
  Proof.
    unfold get. destruct (peek c k) as [v|] eqn:E; cbn [fst]; [|easy].
    cbn. rewrite peek_forget. destruct (String.eqb_spec k j) as [->|N]; [now rewrite E|].
    now destruct (String.eqb_spec j k); [congruence|].
  Qed.
  Lemma get_length c k : NoDup (map fst c) -> length (fst (get c k)) = length c.
  Proof.
    intros ND. unfold get. destruct (peek c k) as [v|] eqn:E; cbn [fst]; [|easy].
    cbn. now rewrite (forget_length _ _ _ ND E).
  Qed.
  Lemma put_fits n c k v : length (put n c k v) < n -> put n c k v = (k, v) :: forget k c.
  Proof.
    unfold put. rewrite firstn_length. intros H. apply firstn_all2. lia.
  Qed.
  Lemma put_length n c k v : NoDup (map fst c) -> length c <= n -> length c <= length (put n c k v) <= n.
  Proof.
    intros ND L. unfold put. rewrite firstn_length. cbn. pose proof (forget_length_ge c k ND). lia.
  Qed.
  Lemma peek_put_fits n c k v j : length (put n c k v) < n ->
    peek (put n c k v) j = if String.eqb k j then Some v else peek c j.
  Proof.
    intros H. rewrite (put_fits _ _ _ _ H). cbn. rewrite peek_forget.
    destruct (String.eqb_spec k j) as [->|N]; [easy|]. now destruct (String.eqb_spec j k); [congruence|].
  Qed.
  Lemma peek_put_same n c k v : 0 < n -> peek (put n c k v) k = Some v.
  Proof. destruct n; [lia|]. intros _. cbn. now rewrite String.eqb_refl. Qed.
End LruFacts.

(* the cache holds schemas under their own URLs, once each, and no more than fit *)
Definition wf {B} (n : nat) (c : lru (schema B)) : Prop :=
  (forall k s, In (k, s) c -> sc_url s = k) /\ NoDup (map fst c) /\ length c <= n.

Lemma wf_nil {B} n : wf n (@nil (string * schema B)).
Proof. split; [easy|]. split; [constructor|cbn; lia]. Qed.
Lemma wf_get {B} n (c : lru (schema B)) k : wf n c -> wf n (fst (get c k)).
Proof.
  intros [H1 [H2 H3]]. split; [|split].
  - intros j s. unfold get. destruct (peek c k) as [v|] eqn:E; cbn [fst]; [|apply H1].
    intros [I|I]; [injection I as -> ->; apply H1, peek_in, E|]. apply forget_in in I. now apply H1.
  - unfold get. destruct (peek c k) as [v|] eqn:E; cbn [fst]; [|easy]. cbn.
    constructor; [apply forget_notin|now apply forget_nodup].
  - now rewrite get_length.
Qed.
Lemma wf_put {B} n (c : lru (schema B)) s : wf n c -> wf n (put n c (sc_url s) s).
Proof.
  intros [H1 [H2 H3]]. split; [|split].
  - intros j x I. apply firstn_in in I. destruct I as [I|I]; [now injection I as <- <-|].
    apply forget_in in I. now apply H1.
  - unfold put. rewrite <- firstn_map. apply firstn_nodup. cbn.
    constructor; [apply forget_notin|now apply forget_nodup].
  - apply put_length; easy.
Qed.
Lemma wf_peek {B} n (c : lru (schema B)) k s : wf n c -> peek c k = Some s -> sc_url s = k.
Proof. intros [H _] E. apply H, peek_in, E. Qed.

Lemma set_insert_in x l u : In u (set_insert x l) <-> u = x \/ In u l.
Proof.
  induction l as [|y r IH]; cbn; [firstorder|]. destruct (str_cmp x y) eqn:E.
  - apply str_cmp_eq in E. subst. cbn. split; [auto|]. intros [->|H]; [now left|easy].
  - cbn. split; [intros [J|[J|J]]|intros [J|[J|J]]]; auto.
  - cbn. rewrite IH. split; [intros [J|[J|J]]|intros [J|[J|J]]]; auto.
Qed.
Notation increasing := (StronglySorted (fun a b : string => str_cmp a b = Lt)).
Lemma set_insert_sorted x l : increasing l -> increasing (set_insert x l).
Proof.
  induction l as [|y r IH]; cbn; intros HS; [repeat constructor|].
  inversion_clear HS as [|? ? HS' F]. destruct (str_cmp x y) eqn:E.
  - now constructor.
  - constructor; [now constructor|]. constructor; [easy|].
    eapply Forall_impl; [|exact F]. intros a Ha. eapply str_cmp_trans_lt; eauto.
  - constructor; [auto|]. apply Forall_forall. intros a I. apply set_insert_in in I.
    destruct I as [->|I]; [rewrite str_cmp_antisym, E; easy|]. now apply (proj1 (Forall_forall _ _) F).
Qed.
Lemma add_all_in us acc u : In u (fold_left (fun acc u => set_insert u acc) us acc) <-> In u us \/ In u acc.
Proof.
  revert acc. induction us as [|x r IH]; intros acc; cbn; [firstorder|]. rewrite IH, set_insert_in.
  split; [intros [J|[J|J]]|intros [[J|J]|J]]; auto.
Qed.
Lemma add_all_sorted us acc : increasing acc -> increasing (fold_left (fun acc u => set_insert u acc) us acc).
Proof.
  revert acc. induction us as [|x r IH]; intros acc HS; cbn; [easy|]. apply IH. now apply set_insert_sorted.
Qed.
Lemma all_deps_in (w : world) (ds : list (wschema w)) u : In u (all_deps ds) <-> built_from w ds u.
Proof.
  unfold all_deps, built_from.
  assert (H : forall acc, In u (fold_left (fun acc d => fold_left (fun acc u => set_insert u acc) (sc_deps d) (set_insert (sc_url d) acc)) ds acc)
     <-> In u acc \/ exists d, In d ds /\ (u = sc_url d \/ In u (sc_deps d))).
  { induction ds as [|d r IH]; intros acc; cbn.
    - split; [auto|]. intros [J|[x [[] _]]]. exact J.
    - rewrite IH, add_all_in, set_insert_in. split.
      + intros [[J|[J|J]]|[x [J K]]]; eauto 7.
      + intros [J|[x [[<-|J] K]]]; eauto 7. destruct K; auto. }
  rewrite H. cbn. split; [intros [[]|J]; exact J|auto].
Qed.
Lemma all_deps_sorted {B} (ds : list (schema B)) : increasing (all_deps ds).
Proof.
  unfold all_deps. assert (H : increasing []) by constructor. revert H. generalize (@nil string).
  induction ds as [|d r IH]; intros acc HS; cbn; [easy|]. apply IH. apply add_all_sorted. now apply set_insert_sorted.
Qed.

Section Facts.
  Variable w : world.
  Variable cf : config.
  Notation cache := (lru (wschema w)).
  Notation res A := (wresult A cerr).
  Notation resolve_loaded := (resolve_loaded w cf).
  Notation resolve_dependencies := (resolve_dependencies w cf).
  Notation resolve_dependency := (resolve_dependency w cf).
  Notation cap := (cf_capacity cf).

  Lemma dep_values_got rs ds : dep_values w rs = inl ds -> Forall2 (fun r d => got r d) rs ds.
  Proof.
    revert ds. induction rs as [|r rest IH]; cbn; intros ds E.
    - injection E as <-. constructor.
    - destruct r as [d|d ns|e]; [| |discriminate]; destruct (dep_values w rest) as [ds'|e'] eqn:E'; try discriminate;
        injection E as <-; constructor; auto; [now left|right; eauto].
  Qed.

  (* one node *)
  Lemma node_inv n c r files deps c' a : resolve_loaded (S n) c (Unresolved r files deps) = Some (c', a) ->
    exists c1 rs, resolve_dependencies (resolve_loaded n) c deps = Some (c1, rs) /\
      ((exists e, a = WFatal e /\ c' = c1) \/
       exists ds u b s, Forall2 (fun r d => got r d) rs ds /\ w_computed w r = Some u /\
         got (w_resolve w r files ds (peek c1)) b /\ s = mk_schema u (all_deps ds) b /\
         got a s /\ c' = put cap c1 u s).
  Proof.
    cbn. unfold resolve_registry.
    destruct (CacheModel.resolve_dependencies w cf _ c deps) as [[c1 rs]|] eqn:E; [|discriminate].
    intros H. exists c1, rs. split; [easy|].
    destruct (dep_values w rs) as [ds|e] eqn:D; [|left; injection H as <- <-; eauto].
    apply dep_values_got in D.
    destruct (w_computed w r) as [u|] eqn:U; [|left; injection H as <- <-; eauto].
    destruct (w_resolve w r files ds (peek c1)) as [b|b ns|e] eqn:R.
    - right. injection H as <- <-. exists ds, u, b, (mk_schema u (all_deps ds) b).
      split; [easy|]. split; [easy|]. split; [now left|]. split; [easy|]. split; [now left|easy].
    - right. injection H as <- <-. exists ds, u, b, (mk_schema u (all_deps ds) b).
      split; [easy|]. split; [easy|]. split; [right; eauto|]. split; [easy|]. split; [right; eauto|easy].
    - left. injection H as <- <-. eauto.
  Qed.

  Lemma got_fun {T} (a : res T) t t' : got a t -> got a t' -> t = t'.
  Proof. intros [->|[ns ->]] [E|[ns' E]]; congruence. Qed.
  Lemma got_not_fatal {T} e (t : T) : ~ got (WFatal e) t.
  Proof. intros [E|[ns E]]; discriminate. Qed.

  (* ---------- what holds of every cache and every schema ---------- *)
  Section Invariant.
    Variable I : cache -> Prop.
    Variable Q : wschema w -> Prop.
    Variable T : wloaded w -> Prop.
    Hypothesis Iget : forall c k, I c -> I (fst (get c k)).
    Hypothesis Iput : forall c s, I c -> Q s -> I (keep w cf c s).
    Hypothesis Ipeek : forall c k s, I c -> peek c k = Some s -> Q s.
    Hypothesis Tload : forall c r l, I c -> got (w_load w (peek c) r) l -> T l.
    Hypothesis Tdeps : forall r files deps d, T (Unresolved r files deps) -> In d deps -> T d.
    Hypothesis Tres : forall s, T (Resolved s) -> Q s.
    Hypothesis Tnode : forall c r files deps ds u b, I c -> T (Unresolved r files deps) -> Forall Q ds ->
      w_computed w r = Some u -> got (w_resolve w r files ds (peek c)) b -> Q (mk_schema u (all_deps ds) b).

    Lemma dependency_inv rec c l c' a :
      (forall c l c' a, I c -> T l -> rec c l = Some (c', a) -> I c' /\ forall s, got a s -> Q s) ->
      I c -> T l -> resolve_dependency rec c l = Some (c', a) -> I c' /\ forall s, got a s -> Q s.
    Proof.
      intros HR Ic Tl. unfold CacheModel.resolve_dependency. destruct (loaded_url w l) as [u|] eqn:U.
      2:{ intros E. injection E as <- <-. split; [easy|]. intros s G. now apply got_not_fatal in G. }
      pose proof (Iget c u Ic) as I1. pose proof (get_peek c u) as P. destruct (get c u) as [c1 [s0|]] eqn:G; cbn [fst snd] in *.
      - intros E. injection E as <- <-. split; [easy|]. intros s Gs.
        rewrite <- (got_fun _ _ _ (or_introl eq_refl) Gs). apply (Ipeek c u); auto.
      - destruct (slookup u (cf_overrides cf)) as [path|]; [|apply HR; auto].
        destruct (w_open w u path) as [[r ns]|e].
        2:{ intros E. injection E as <- <-. split; [easy|]. intros s Gs. now apply got_not_fatal in Gs. }
        destruct (w_load w (peek c1) r) as [l'|l' ns'|e] eqn:L.
        + apply HR; auto. apply (Tload c1 r); auto. rewrite L. now left.
        + apply HR; auto. apply (Tload c1 r); auto. rewrite L. right. eauto.
        + intros E. injection E as <- <-. split; [easy|]. intros s Gs. now apply got_not_fatal in Gs.
    Qed.

    Lemma dependencies_inv rec c ls c' rs :
      (forall c l c' a, I c -> T l -> rec c l = Some (c', a) -> I c' /\ forall s, got a s -> Q s) ->
      I c -> (forall l, In l ls -> T l) -> resolve_dependencies rec c ls = Some (c', rs) ->
      I c' /\ forall a s, In a rs -> got a s -> Q s.
    Proof.
      intros HR. revert c c' rs. induction ls as [|l r IH]; cbn; intros c c' rs Ic Tl E.
      - injection E as <- <-. split; [easy|]. intros a s [].
      - destruct (resolve_dependency rec c l) as [[c1 x]|] eqn:D; [|discriminate].
        destruct (resolve_dependencies rec c1 r) as [[c2 xs]|] eqn:D2; [|discriminate].
        injection E as <- <-. destruct (dependency_inv _ _ _ _ _ HR Ic (Tl l (or_introl eq_refl)) D) as [I1 Q1].
        destruct (IH c1 c2 xs I1 (fun l H => Tl l (or_intror H)) D2) as [I2 Q2].
        split; [easy|]. intros a s [<-|J]; eauto.
    Qed.

    Lemma loaded_inv n : forall c l c' a, I c -> T l -> resolve_loaded n c l = Some (c', a) ->
      I c' /\ forall s, got a s -> Q s.
    Proof.
      induction n as [|n IH]; intros c l c' a Ic Tl E; [discriminate|].
      destruct l as [r files deps|s0].
      - apply node_inv in E. destruct E as [c1 [rs [D K]]].
        destruct (dependencies_inv _ _ _ _ _ IH Ic (fun l H => Tdeps _ _ _ _ Tl H) D) as [I1 Q1].
        destruct K as [[e [-> ->]]|[ds [u [b [s0 [F [U [R [-> [G ->]]]]]]]]]].
        + split; [easy|]. intros s Gs. now apply got_not_fatal in Gs.
        + assert (Q0 : Q (mk_schema u (all_deps ds) b)).
          { eapply Tnode; eauto. clear -F Q1. induction F as [|x y l1 l2 J F IH]; constructor.
            - eapply Q1; [left; reflexivity|exact J].
            - apply IH. intros a s I0. apply Q1. now right. }
          split; [apply (Iput c1 _ I1 Q0)|]. intros s Gs. now rewrite <- (got_fun _ _ _ G Gs).
      - cbn in E. injection E as <- <-. split; [apply Iput; auto|].
        intros s Gs. rewrite <- (got_fun _ _ _ (or_introl eq_refl) Gs). auto.
    Qed.

    Lemma load_inv n c r c' a : I c -> load_and_resolve w cf n c r = Some (c', a) ->
      I c' /\ forall s, got a s -> Q s.
    Proof.
      intros Ic. unfold load_and_resolve.
      assert (H : forall l ns, T l ->
        match resolve_loaded n c l with
        | Some (c1, WOk s) => Some (c1, with_nfes s ns)
        | Some (c1, WOkNfe s more) => Some (c1, WOkNfe s (app ns more))
        | Some (c1, WFatal e) => Some (c1, WFatal e)
        | None => None
        end = Some (c', a) -> I c' /\ forall s, got a s -> Q s).
      { intros l ns Tl E. destruct (resolve_loaded n c l) as [[c1 [s|s more|e]]|] eqn:L; [| | |discriminate].
        - destruct (loaded_inv _ _ _ _ _ Ic Tl L) as [I1 Q1]. injection E as <- <-. split; [easy|].
          intros x G. apply Q1. destruct ns; cbn in G; [easy|]. destruct G as [G|[m G]]; [discriminate|].
          injection G as -> _. now left.
        - destruct (loaded_inv _ _ _ _ _ Ic Tl L) as [I1 Q1]. injection E as <- <-. split; [easy|].
          intros x G. apply Q1. destruct G as [G|[m G]]; [discriminate|]. injection G as -> _. right. eauto.
        - destruct (loaded_inv _ _ _ _ _ Ic Tl L) as [I1 Q1]. injection E as <- <-. split; [easy|].
          intros x G. now apply got_not_fatal in G. }
      destruct (w_load w (peek c) r) as [l|l ns|e] eqn:L.
      - apply H. apply (Tload c r); auto. rewrite L. now left.
      - apply H. apply (Tload c r); auto. rewrite L. right. eauto.
      - intros E. injection E as <- <-. split; [easy|]. intros x G. now apply got_not_fatal in G.
    Qed.

    Lemma request_inv n c url c' a : I c -> resolve_schema w cf n c url = Some (c', a) ->
      I c' /\ forall s, got a s -> Q s.
    Proof.
      intros Ic. unfold resolve_schema.
      pose proof (Iget c url Ic) as I1. pose proof (get_peek c url) as P.
      destruct (get c url) as [c1 [s0|]] eqn:G; cbn [fst snd] in *.
      - intros E. injection E as <- <-. split; [easy|]. intros s Gs.
        rewrite <- (got_fun _ _ _ (or_introl eq_refl) Gs). apply (Ipeek c url); auto.
      - destruct (w_open w url (place_of cf url)) as [[r ns]|e].
        2:{ intros E. injection E as <- <-. split; [easy|]. intros s Gs. now apply got_not_fatal in Gs. }
        destruct (load_and_resolve w cf n c1 r) as [[c2 [s|s more|e]]|] eqn:L; [| | |discriminate].
        + destruct (load_inv _ _ _ _ _ I1 L) as [I2 Q2]. destruct (String.eqb_spec (sc_url s) url) as [<-|N].
          * intros E. injection E as <- <-. assert (Q s) by (apply Q2; now left). split; [apply Iput; auto|].
            intros x [Gx|[m Gx]]; [discriminate|]. now injection Gx as -> _.
          * intros E. injection E as <- <-. split; [easy|]. intros x Gs. now apply got_not_fatal in Gs.
        + destruct (load_inv _ _ _ _ _ I1 L) as [I2 Q2]. destruct (String.eqb_spec (sc_url s) url) as [<-|N].
          * intros E. injection E as <- <-. assert (Q s) by (apply Q2; right; eauto). split; [apply Iput; auto|].
            intros x [Gx|[m Gx]]; [discriminate|]. now injection Gx as -> _.
          * intros E. injection E as <- <-. split; [easy|]. intros x Gs. now apply got_not_fatal in Gs.
        + destruct (load_inv _ _ _ _ _ I1 L) as [I2 Q2]. intros E. injection E as <- <-. split; [easy|].
          intros x Gs. now apply got_not_fatal in Gs.
    Qed.

    Lemma answer_inv n c x c' a : I c -> answer w cf n c x = Some (c', a) -> I c' /\ forall s, got a s -> Q s.
    Proof. destruct x; [apply request_inv|apply load_inv]. Qed.
    Lemma answers_inv n c xs c' rs : I c -> answers w cf n c xs = Some (c', rs) ->
      I c' /\ forall a s, In a rs -> got a s -> Q s.
    Proof.
      revert c c' rs. induction xs as [|x r IH]; cbn; intros c c' rs Ic E.
      - injection E as <- <-. split; [easy|]. intros a s [].
      - destruct (answer w cf n c x) as [[c1 a1]|] eqn:A; [|discriminate].
        destruct (answers w cf n c1 r) as [[c2 rest]|] eqn:A2; [|discriminate]. injection E as <- <-.
        destruct (answer_inv _ _ _ _ _ Ic A) as [I1 Q1]. destruct (IH _ _ _ I1 A2) as [I2 Q2].
        split; [easy|]. intros a s [<-|J]; eauto.
    Qed.
  End Invariant.

  Lemma answers_wf n c xs c' rs : wf cap c -> answers w cf n c xs = Some (c', rs) -> wf cap c'.
  Proof.
    intros H E. apply (answers_inv (wf cap) (fun _ => True) (fun _ => True)) in E; auto; [apply E| |].
    - intros. now apply wf_get.
    - intros. now apply wf_put.
  Qed.

  (* ---------- more fuel does not matter ---------- *)
  Definition more (f g : cache -> wloaded w -> option (cache * res (wschema w))) : Prop :=
    forall c l x, f c l = Some x -> g c l = Some x.
  Lemma dependency_more f g c l x : more f g -> resolve_dependency f c l = Some x -> resolve_dependency g c l = Some x.
  Proof.
    intros M. unfold CacheModel.resolve_dependency. destruct (loaded_url w l) as [u|]; [|easy].
    destruct (get c u) as [c1 [s|]]; [easy|]. destruct (slookup u (cf_overrides cf)) as [p|]; [|apply M].
    destruct (w_open w u p) as [[r ns]|e]; [|easy]. destruct (w_load w (peek c1) r); auto.
  Qed.
  Lemma dependencies_more f g c ls x : more f g -> resolve_dependencies f c ls = Some x -> resolve_dependencies g c ls = Some x.
  Proof.
    intros M. revert c x. induction ls as [|l r IH]; cbn; intros c x E; [easy|].
    destruct (resolve_dependency f c l) as [[c1 a]|] eqn:D; [|discriminate].
    rewrite (dependency_more _ _ _ _ _ M D).
    destruct (resolve_dependencies f c1 r) as [[c2 xs]|] eqn:D2; [|discriminate]. now rewrite (IH _ _ D2).
  Qed.
  Lemma loaded_more n m : n <= m -> more (resolve_loaded n) (resolve_loaded m).
  Proof.
    revert m. induction n as [|n IH]; intros m L c l x E; [discriminate|]. destruct m as [|m]; [lia|].
    destruct l as [r files deps|s]; [|exact E]. cbn in *. unfold resolve_registry in *.
    destruct (CacheModel.resolve_dependencies w cf (resolve_loaded n) c deps) as [[c1 rs]|] eqn:D; [|discriminate].
    rewrite (dependencies_more _ _ _ _ _ (IH m (le_S_n _ _ L)) D). exact E.
  Qed.
  Lemma load_more n m c r x : n <= m -> load_and_resolve w cf n c r = Some x -> load_and_resolve w cf m c r = Some x.
  Proof.
    intros L. unfold load_and_resolve. destruct (w_load w (peek c) r) as [l|l ns|e]; [| |easy];
      (destruct (resolve_loaded n c l) as [y|] eqn:E; [|discriminate]; now rewrite (loaded_more _ _ L _ _ _ E)).
  Qed.
  Lemma answer_more n m c x y : n <= m -> answer w cf n c x = Some y -> answer w cf m c x = Some y.
  Proof.
    intros L. destruct x as [url|r]; [|apply load_more, L]. cbn. unfold resolve_schema.
    destruct (get c url) as [c1 [s|]]; [easy|]. destruct (w_open w url _) as [[r ns]|e]; [|easy].
    destruct (load_and_resolve w cf n c1 r) as [z|] eqn:E; [|discriminate]. now rewrite (load_more _ _ _ _ _ L E).
  Qed.
  Lemma answers_more n m c xs y : n <= m -> answers w cf n c xs = Some y -> answers w cf m c xs = Some y.
  Proof.
    intros L. revert c y. induction xs as [|x r IH]; cbn; intros c y E; [easy|].
    destruct (answer w cf n c x) as [[c1 a]|] eqn:A; [|discriminate]. rewrite (answer_more _ _ _ _ _ L A).
    destruct (answers w cf n c1 r) as [[c2 rest]|] eqn:A2; [|discriminate]. now rewrite (IH _ _ A2).
  Qed.

  (* ---------- without overrides it ends ---------- *)
  Fixpoint height (l : wloaded w) : nat :=
    match l with Resolved _ => 1 | Unresolved _ _ deps => S (list_max (map height deps)) end.
  Hypothesis Plain : cf_overrides cf = [].
  Lemma loaded_ends n : forall c l, height l <= n -> resolve_loaded n c l <> None.
  Proof.
    induction n as [|n IH]; intros c l L; [destruct l; cbn in L; lia|].
    destruct l as [r files deps|s]; [|discriminate]. cbn [height] in L. apply le_S_n in L.
    assert (D : forall c, resolve_dependencies (resolve_loaded n) c deps <> None).
    { assert (F : forall d, In d deps -> height d <= n).
      { intros d Hd. apply Nat.le_trans with (2 := L).
        pose proof (proj1 (list_max_le (map height deps) _) (le_n _)) as F.
        apply (proj1 (Forall_forall _ _) F). now apply in_map. }
      clear -F IH Plain. induction deps as [|d r IHd]; intros c; [discriminate|]. cbn.
      assert (E : resolve_dependency (resolve_loaded n) c d <> None).
      { unfold CacheModel.resolve_dependency. destruct (loaded_url w d); [|discriminate]. destruct (get c s) as [c1 [x|]]; [discriminate|].
        rewrite Plain. cbn. apply IH. apply F. now left. }
      destruct (resolve_dependency (resolve_loaded n) c d) as [[c1 a]|]; [|easy].
      specialize (IHd (fun d H => F d (or_intror H)) c1).
      destruct (resolve_dependencies (resolve_loaded n) c1 r) as [[c2 xs]|]; [discriminate|easy]. }
    cbn. unfold resolve_registry. specialize (D c).
    destruct (CacheModel.resolve_dependencies w cf (resolve_loaded n) c deps) as [[c1 rs]|]; [|easy].
    destruct (dep_values w rs); [|discriminate]. destruct (w_computed w r); [|discriminate].
    destruct (w_resolve w r files _ _); discriminate.
  Qed.
  Lemma load_ends c r : exists n, load_and_resolve w cf n c r <> None.
  Proof.
    unfold load_and_resolve. destruct (w_load w (peek c) r) as [l|l ns|e]; [| |now exists 0];
      (exists (height l); pose proof (loaded_ends (height l) c l (le_n _)) as H;
       destruct (resolve_loaded (height l) c l) as [[c1 [s|s more|e]]|]; easy).
  Qed.
  Lemma answer_ends c x : exists n, answer w cf n c x <> None.
  Proof.
    destruct x as [url|r]; [|apply load_ends]. cbn. unfold resolve_schema.
    destruct (get c url) as [c1 [s|]]; [now exists 0|]. destruct (w_open w url _) as [[r ns]|e]; [|now exists 0].
    destruct (load_ends c1 r) as [n H]. exists n.
    destruct (load_and_resolve w cf n c1 r) as [[c2 [s|s more|e]]|]; [| |easy|easy]; now destruct (String.eqb (sc_url s) url).
  Qed.
  Lemma answers_end xs : forall c, exists n y, answers w cf n c xs = Some y.
  Proof.
    induction xs as [|x r IH]; intros c; [exists 0; cbn; eauto|].
    destruct (answer_ends c x) as [n H]. destruct (answer w cf n c x) as [[c1 a]|] eqn:A; [|easy].
    destruct (IH c1) as [m [[c2 rest] E]]. exists (max n m), (c2, a :: rest). cbn.
    rewrite (answer_more _ _ _ _ _ (Nat.le_max_l n m) A), (answers_more _ _ _ _ _ (Nat.le_max_r n m) E). easy.
  Qed.

  (* ---------- without overrides, and with room for all: what is kept stays ---------- *)
  Definition acyclic (l : wloaded w) : Prop := forall r files deps, below w (Unresolved r files deps) l ->
    forall u, w_computed w r = Some u -> forall d y, In d deps -> below w y d -> ~ names_url w y u.
  Definition startable (c : cache) (l : wloaded w) : Prop :=
    match l with
    | Unresolved r _ _ => forall u, w_computed w r = Some u -> peek c u = None
    | Resolved s => peek c (sc_url s) = None \/ peek c (sc_url s) = Some s
    end.
  Definition ext (c c' : cache) : Prop := forall k s, peek c k = Some s -> peek c' k = Some s.
  Definition only (c c' : cache) (ls : list (wloaded w)) : Prop :=
    forall k, peek c k = None -> peek c' k <> None -> exists l y, In l ls /\ below w y l /\ names_url w y k.
  Definition held (c : cache) (l : wloaded w) : Prop := forall s, below w (Resolved s) l -> peek c (sc_url s) = Some s.
  Definition closed (c : cache) : Prop := forall k s u, peek c k = Some s -> In u (sc_deps s) -> peek c u <> None.

  Lemma loaded_grows n c l c' a : wf cap c -> resolve_loaded n c l = Some (c', a) -> wf cap c' /\ length c <= length c'.
  Proof.
    intros W E. apply (loaded_inv (fun x => wf cap x /\ length c <= length x) (fun _ => True) (fun _ => True)) in E; auto.
    - apply E.
    - intros x k [Wx L]. split; [now apply wf_get|]. rewrite get_length; [easy|apply Wx].
    - intros x s [Wx L] _. split; [now apply wf_put|]. unfold keep.
      pose proof (put_length cap x (sc_url s) s (proj1 (proj2 Wx)) (proj2 (proj2 Wx))). lia.
  Qed.
  Lemma dependencies_grow n c ls c' rs : wf cap c -> resolve_dependencies (resolve_loaded n) c ls = Some (c', rs) ->
    wf cap c' /\ length c <= length c'.
  Proof.
    intros W E.
    apply (dependencies_inv (fun x => wf cap x /\ length c <= length x) (fun _ => True) (fun _ => True)) in E; auto.
    - apply E.
    - intros x k [Wx L]. split; [now apply wf_get|]. rewrite get_length; [easy|apply Wx].
    - intros x l x' b [Wx L] _ E'. split; [|auto]. destruct (loaded_grows _ _ _ _ _ Wx E') as [W' L']. split; [easy|lia].
  Qed.
  Lemma dependency_grows n c l c' a : wf cap c -> resolve_dependency (resolve_loaded n) c l = Some (c', a) ->
    wf cap c' /\ length c <= length c'.
  Proof.
    intros W E. apply (dependencies_grow n c [l] c' [a] W). cbn. now rewrite E.
  Qed.
  Lemma ext_trans a b c : ext a b -> ext b c -> ext a c.
  Proof. unfold ext. auto. Qed.

  Definition kept (c : cache) (ls : list (wloaded w)) (c' : cache) (rs : list (res (wschema w))) : Prop :=
    ext c c' /\ only c c' ls /\ (forall a s, In a rs -> got a s -> peek c' (sc_url s) = Some s) /\
    ((forall l, In l ls -> held c l) -> closed c -> closed c').

  Section Kept.
    Variable n : nat.
    Hypothesis IH : forall c l c' a, wf cap c -> acyclic l -> startable c l ->
      resolve_loaded n c l = Some (c', a) -> length c' < cap -> kept c [l] c' [a].

    Lemma dependency_kept c l c' a : wf cap c -> acyclic l ->
      resolve_dependency (resolve_loaded n) c l = Some (c', a) -> length c' < cap -> kept c [l] c' [a].
    Proof.
      intros W A. unfold CacheModel.resolve_dependency.
      destruct (loaded_url w l) as [u|] eqn:U.
      2:{ intros E _. injection E as <- <-. split; [|split; [|split]].
          - now intros k s.
          - intros k N N'. now destruct N'.
          - intros a s [<-|[]] G. now apply got_not_fatal in G.
          - auto. }
      pose proof (get_same c u) as P. pose proof (get_peek c u) as P0. pose proof (wf_get cap c u W) as W1.
      destruct (get c u) as [c1 [s0|]] eqn:G; cbn [fst snd] in *.
      - intros E _. injection E as <- <-. symmetry in P0. pose proof (wf_peek _ _ _ _ W P0) as Us.
        split; [|split; [|split]].
        + intros k s Hk. now rewrite P.
        + intros k N N'. rewrite P in N'. now destruct N'.
        + intros a s [<-|[]] Gs. rewrite <- (got_fun _ _ _ (or_introl eq_refl) Gs), P, Us. exact P0.
        + intros _ C k s v Hk Hv. rewrite P in Hk |- *. eapply C; eauto.
      - rewrite Plain. cbn. intros E L. symmetry in P0.
        assert (St : startable c1 l).
        { destruct l as [r files deps|s]; cbn in U |- *.
          - intros u' Hu. rewrite P. congruence.
          - left. rewrite P. injection U as ->. exact P0. }
        destruct (IH _ _ _ _ W1 A St E L) as [K1 [K2 [K3 K4]]]. split; [|split; [|split]].
        + intros k s Hk. apply K1. now rewrite P.
        + intros k N N'. apply K2; [now rewrite P|easy].
        + exact K3.
        + intros H C. apply K4.
          * intros l' Hl s B. rewrite P. now apply (H l').
          * intros k s v Hk Hv. rewrite P in Hk |- *. eapply C; eauto.
    Qed.

    Lemma dependencies_kept ls : forall c c' rs, wf cap c -> (forall l, In l ls -> acyclic l) ->
      resolve_dependencies (resolve_loaded n) c ls = Some (c', rs) -> length c' < cap -> kept c ls c' rs.
    Proof.
      induction ls as [|l r IHl]; cbn; intros c c' rs W A E L.
      - injection E as <- <-. split; [|split; [|split]].
        + now intros k s.
        + intros k N N'. now destruct N'.
        + intros a s [].
        + auto.
      - destruct (resolve_dependency (resolve_loaded n) c l) as [[c1 a]|] eqn:D; [|discriminate].
        destruct (resolve_dependencies (resolve_loaded n) c1 r) as [[c2 xs]|] eqn:D2; [|discriminate].
        injection E as <- <-. destruct (dependency_grows _ _ _ _ _ W D) as [W1 L1].
        destruct (dependencies_grow _ _ _ _ _ W1 D2) as [W2 L2].
        destruct (dependency_kept _ _ _ _ W (A l (or_introl eq_refl)) D ltac:(lia)) as [K1 [K2 [K3 K4]]].
        destruct (IHl _ _ _ W1 (fun x H => A x (or_intror H)) D2 L) as [J1 [J2 [J3 J4]]].
        split; [|split; [|split]].
        + eapply ext_trans; eauto.
        + intros k N N'. destruct (peek c1 k) as [s|] eqn:E.
          * destruct (K2 k N) as [x [y [[<-|[]] HB]]]; [congruence|]. exists l, y. split; [now left|easy].
          * destruct (J2 k E N') as [x [y [Hx HB]]]. exists x, y. split; [now right|easy].
        + intros b s [<-|J] G; [|eauto]. apply J1. apply (K3 a s); [now left|easy].
        + intros H C. apply J4.
          * intros x Hx s HB. apply K1. apply (H x); [now right|easy].
          * apply K4; [|easy]. intros x [<-|[]]. apply H. now left.
    Qed.
  End Kept.

  Lemma loaded_kept n : forall c l c' a, wf cap c -> acyclic l -> startable c l ->
      resolve_loaded n c l = Some (c', a) -> length c' < cap -> kept c [l] c' [a].
  Proof.
    induction n as [|n IH]; intros c l c' a W A St E L; [discriminate|].
    destruct l as [r files deps|s0].
    - apply node_inv in E. destruct E as [c1 [rs [D K]]].
      destruct (dependencies_grow _ _ _ _ _ W D) as [W1 L1].
      assert (A' : forall l, In l deps -> acyclic l).
      { intros l Hl r' f' d' B. apply (A r' f' d'). now apply bl_dep with l. }
      assert (LL : length c1 < cap).
      { destruct K as [[e [-> ->]]|[ds [u [b [s [_ [_ [_ [_ [_ ->]]]]]]]]]]; [easy|].
        pose proof (put_length cap c1 u s (proj1 (proj2 W1)) (proj2 (proj2 W1))). lia. }
      destruct (dependencies_kept n IH _ _ _ _ W A' D LL) as [K1 [K2 [K3 K4]]].
      destruct K as [[e [-> ->]]|[ds [u [b [s [F [U [R [Es [G ->]]]]]]]]]].
      + split; [easy|split; [|split]].
        * intros k N N'. destruct (K2 k N N') as [l [y [Hl [HB HN]]]]. exists (Unresolved r files deps), y.
          split; [now left|]. split; [now apply bl_dep with l|easy].
        * intros a s [<-|[]] G. now apply got_not_fatal in G.
        * intros H. apply K4. intros l Hl s B. apply (H _ (or_introl eq_refl)). now apply bl_dep with l.
      + pose proof (peek_put_fits cap c1 u s) as PP. specialize (fun j => PP j L) as PP.
        assert (N1 : peek c1 u = None).
        { destruct (peek c1 u) as [x|] eqn:Ex; [|easy]. exfalso.
          destruct (K2 u (St u U) ltac:(congruence)) as [l [y [Hl [HB HN]]]].
          exact (A r files deps (bl_here w _) u U l y Hl HB HN). }
        assert (X1 : ext c1 (put cap c1 u s)).
        { intros k x Hk. rewrite PP. destruct (String.eqb_spec u k) as [<-|N]; [congruence|easy]. }
        split; [|split; [|split]].
        * eapply ext_trans; eauto.
        * intros k N N'. rewrite PP in N'. destruct (String.eqb_spec u k) as [<-|Nk].
          -- exists (Unresolved r files deps), (Unresolved r files deps). split; [now left|]. split; [constructor|].
             left. eauto.
          -- destruct (K2 k N N') as [l [y [Hl [HB HN]]]]. exists (Unresolved r files deps), y.
             split; [now left|]. split; [now apply bl_dep with l|easy].
        * intros a' s' [<-|[]] G'. rewrite <- (got_fun _ _ _ G G'), PP, Es. cbn [sc_url].
          now rewrite String.eqb_refl.
        * intros H C. assert (C1 : closed c1).
          { apply K4; [|easy]. intros l Hl x B. apply (H _ (or_introl eq_refl)). now apply bl_dep with l. }
          assert (N2 : forall v, peek c1 v <> None -> peek (put cap c1 u s) v <> None).
          { intros v Hv. destruct (peek c1 v) as [x|] eqn:Ex; [|easy]. now rewrite (X1 _ _ Ex). }
          intros k x v Hk Hv. rewrite PP in Hk. destruct (String.eqb_spec u k) as [<-|Nk].
          -- injection Hk as <-. rewrite Es in Hv. cbn [sc_deps] in Hv. apply all_deps_in in Hv.
             destruct Hv as [d [Id Hd]].
             assert (Pd : peek c1 (sc_url d) = Some d).
             { clear -F Id K3. induction F as [|x0 y0 l1 l2 J F IHF]; [easy|].
               destruct Id as [<-|Id]; [apply (K3 x0); [now left|easy]|]. apply IHF; [|easy].
               intros a s Ia. apply K3. now right. }
             apply N2. destruct Hd as [->|Hd]; [congruence|]. eapply C1; eauto.
          -- apply N2. eapply C1; eauto.
    - cbn in E. injection E as <- <-. unfold keep in *. cbn in St.
      pose proof (peek_put_fits cap c (sc_url s0) s0) as PP. specialize (fun j => PP j L) as PP.
      split; [|split; [|split]].
      + intros k s Hk. rewrite PP. destruct (String.eqb_spec (sc_url s0) k) as [<-|N]; [|easy].
        destruct St as [St|St]; congruence.
      + intros k N N'. rewrite PP in N'. destruct (String.eqb_spec (sc_url s0) k) as [Ek|Nk]; [|now destruct N'].
        exists (Resolved s0), (Resolved s0). split; [now left|]. split; [constructor|]. right. eauto.
      + intros a s [<-|[]] G. rewrite <- (got_fun _ _ _ (or_introl eq_refl) G), PP. now rewrite String.eqb_refl.
      + intros H C k x v Hk Hv.
        assert (P0 : peek c (sc_url s0) = Some s0) by (apply (H _ (or_introl eq_refl)); constructor).
        assert (Hc : peek c v <> None).
        { rewrite PP in Hk. destruct (String.eqb_spec (sc_url s0) k) as [Ek|Nk]; [|exact (C _ _ _ Hk Hv)].
          injection Hk as <-. exact (C _ _ _ P0 Hv). }
        rewrite PP. destruct (String.eqb (sc_url s0) v); [discriminate|exact Hc].
  Qed.

  (* one call *)
  Variable P : w_repo w -> Prop.
  Hypothesis Opens : forall url r nfes, w_open w url url = inl (r, nfes) -> P r.
  Definition kept1 (c c' : cache) (a : res (wschema w)) : Prop :=
    ext c c' /\ (forall s, got a s -> peek c' (sc_url s) = Some s) /\ (all_raw w P -> closed c -> closed c').
  Lemma load_kept n c r c' a : honest w P -> P r -> wf cap c -> load_and_resolve w cf n c r = Some (c', a) -> length c' < cap ->
    kept1 c c' a.
  Proof.
    intros Ho Pr W E L. unfold load_and_resolve in E.
    assert (H : forall l ns, got (w_load w (peek c) r) l ->
        match resolve_loaded n c l with
        | Some (c1, WOk s) => Some (c1, with_nfes s ns)
        | Some (c1, WOkNfe s more) => Some (c1, WOkNfe s (app ns more))
        | Some (c1, WFatal e) => Some (c1, WFatal e)
        | None => None
        end = Some (c', a) -> kept1 c c' a).
    { intros l ns Gl E'. destruct (Ho _ _ _ Pr (fun u s => wf_peek _ _ u s W) Gl) as [H1 H2].
      assert (A : acyclic l).
      { intros r' f' d' B u Hu d y Hd Hy. apply (proj2 (H1 _ B _ _ _ eq_refl u Hu) d y Hd Hy). }
      assert (St : startable c l).
      { destruct l as [r' f' d'|s]; cbn.
        - intros u Hu. apply (proj1 (H1 _ (bl_here w _) _ _ _ eq_refl u Hu)).
        - apply H2. constructor. }
      assert (HH : all_raw w P -> forall x, In x [l] -> held c x).
      { intros AR x [<-|[]] s B. apply (AR _ _ _ Pr (fun u s => wf_peek _ _ u s W) Gl s B). }
      destruct (resolve_loaded n c l) as [[c1 x]|] eqn:Lo; [|discriminate].
      assert (c1 = c' /\ forall s, got a s -> got x s) as [-> Gx].
      { destruct x as [s|s more0|e]; injection E' as -> <-; (split; [easy|]); intros s' G.
        - destruct ns; cbn in G; [easy|]. destruct G as [G|[m G]]; [discriminate|]. injection G as -> _. now left.
        - destruct G as [G|[m G]]; [discriminate|]. injection G as -> _. right. eauto.
        - now apply got_not_fatal in G. }
      destruct (loaded_kept _ _ _ _ _ W A St Lo L) as [K1 [_ [K3 K4]]]. split; [easy|]. split; [|auto].
      intros s G. apply (K3 x); [now left|auto]. }
    destruct (w_load w (peek c) r) as [l|l ns|e] eqn:Ld.
    - apply (H l []); [now left|exact E].
    - apply (H l ns); [right; eauto|exact E].
    - injection E as <- <-. split; [now intros k s|]. split; [|auto]. intros s G. now apply got_not_fatal in G.
  Qed.
  Lemma load_grows n c r c' a : wf cap c -> load_and_resolve w cf n c r = Some (c', a) -> wf cap c' /\ length c <= length c'.
  Proof.
    intros W E. apply (load_inv (fun x => wf cap x /\ length c <= length x) (fun _ => True) (fun _ => True)) in E; auto.
    - apply E.
    - intros x k [Wx L]. split; [now apply wf_get|]. rewrite get_length; [easy|apply Wx].
    - intros x s [Wx L] _. split; [now apply wf_put|]. unfold keep.
      pose proof (put_length cap x (sc_url s) s (proj1 (proj2 Wx)) (proj2 (proj2 Wx))). lia.
  Qed.
  Lemma answer_grows n c x c' a : wf cap c -> answer w cf n c x = Some (c', a) -> wf cap c' /\ length c <= length c'.
  Proof.
    intros W E. apply (answer_inv (fun x => wf cap x /\ length c <= length x) (fun _ => True) (fun _ => True)) in E; auto.
    - apply E.
    - intros y k [Wx L]. split; [now apply wf_get|]. rewrite get_length; [easy|apply Wx].
    - intros y s [Wx L] _. split; [now apply wf_put|]. unfold keep.
      pose proof (put_length cap y (sc_url s) s (proj1 (proj2 Wx)) (proj2 (proj2 Wx))). lia.
  Qed.
  Lemma answers_grow n c xs c' rs : wf cap c -> answers w cf n c xs = Some (c', rs) -> wf cap c' /\ length c <= length c'.
  Proof.
    revert c c' rs. induction xs as [|x r IH]; cbn; intros c c' rs W E.
    - injection E as <- <-. auto.
    - destruct (answer w cf n c x) as [[c1 a]|] eqn:A; [|discriminate].
      destruct (answers w cf n c1 r) as [[c2 rest]|] eqn:A2; [|discriminate]. injection E as <- <-.
      destruct (answer_grows _ _ _ _ _ W A) as [W1 L1]. destruct (IH _ _ _ W1 A2). split; [easy|lia].
  Qed.
  Lemma answer_kept n c x c' a : honest w P -> (forall r, x = Load r -> P r) -> wf cap c ->
    answer w cf n c x = Some (c', a) -> length c' < cap -> kept1 c c' a.
  Proof.
    intros Ho Px W. destruct x as [url|r]; [|now apply load_kept; auto]. cbn. unfold resolve_schema.
    pose proof (get_same c url) as PS. pose proof (get_peek c url) as P0. pose proof (wf_get cap c url W) as W1.
    destruct (get c url) as [c1 [s0|]] eqn:G; cbn [fst snd] in *; symmetry in P0.
    - intros E _. injection E as <- <-. pose proof (wf_peek _ _ _ _ W P0) as Us. split; [|split].
      + intros k s Hk. now rewrite PS.
      + intros s Gs. rewrite <- (got_fun _ _ _ (or_introl eq_refl) Gs), PS, Us. exact P0.
      + intros _ C k s v Hk Hv. rewrite PS in Hk |- *. eapply C; eauto.
    - assert (Base : forall c2 a2, kept1 c1 c2 a2 -> kept1 c c2 a2).
      { intros c2 a2 [K1 [K2 K3]]. split; [|split; [easy|]].
        - intros k s Hk. apply K1. now rewrite PS.
        - intros R C. apply K3; [easy|]. intros k s v Hk Hv. rewrite PS in Hk |- *. eapply C; eauto. }
      assert (PO : place_of cf url = url) by (unfold place_of; now rewrite Plain). rewrite PO.
      destruct (w_open w url url) as [[r ns]|e] eqn:Op.
      2:{ intros E _. injection E as <- <-. apply Base. split; [now intros k s|]. split; [|auto].
          intros s Gs. now apply got_not_fatal in Gs. }
      destruct (load_and_resolve w cf n c1 r) as [[c2 a2]|] eqn:Lo; [|discriminate].
      destruct (load_grows _ _ _ _ _ W1 Lo) as [W2 L2].
      assert (Fin : forall s more, got a2 s ->
        (if String.eqb (sc_url s) url then Some (put cap c2 url s, WOkNfe s (app ns more))
         else Some (c2, WFatal (MismatchSchemaUrl url (sc_url s)))) = Some (c', a) -> length c' < cap -> kept1 c c' a).
      { intros s more0 Gs. destruct (String.eqb_spec (sc_url s) url) as [<-|N]; intros E L; injection E as <- <-.
        - pose proof (put_length cap c2 (sc_url s) s (proj1 (proj2 W2)) (proj2 (proj2 W2))) as PL.
          destruct (load_kept _ _ _ _ _ Ho (Opens _ _ _ Op) W1 Lo ltac:(lia)) as [K1 [K2 K3]]. apply Base.
          pose proof (fun j => peek_put_fits cap c2 (sc_url s) s j L) as PP. pose proof (K2 s Gs) as Ps.
          assert (Q : forall j, peek (put cap c2 (sc_url s) s) j = peek c2 j).
          { intros j. rewrite PP. destruct (String.eqb_spec (sc_url s) j) as [<-|]; congruence. }
          split; [|split].
          + intros k x Hk. rewrite Q. auto.
          + intros x Gx. rewrite Q. destruct Gx as [Gx|[m Gx]]; [discriminate|]. injection Gx as <- _. exact Ps.
          + intros R C k x v Hk Hv. rewrite Q in Hk |- *. eapply (K3 R C); eauto.
        - destruct (load_kept _ _ _ _ _ Ho (Opens _ _ _ Op) W1 Lo L) as [K1 [K2 K3]]. apply Base. split; [easy|]. split; [|easy].
          intros x Gx. now apply got_not_fatal in Gx. }
      destruct a2 as [s|s more0|e].
      + apply (Fin s []). now left.
      + apply (Fin s more0). right. eauto.
      + intros E L. injection E as <- <-. apply Base. eapply load_kept; eauto.
  Qed.

  Lemma answers_kept n xs : forall c c' rs, honest w P -> (forall r, In (Load r) xs -> P r) -> wf cap c -> answers w cf n c xs = Some (c', rs) -> length c' < cap ->
    ext c c' /\ (forall a s, In a rs -> got a s -> peek c' (sc_url s) = Some s) /\ (all_raw w P -> closed c -> closed c').
  Proof.
    induction xs as [|x r IH]; cbn; intros c c' rs Ho Px W E L.
    - injection E as <- <-. split; [now intros k s|]. split; [intros a s []|auto].
    - destruct (answer w cf n c x) as [[c1 a]|] eqn:A; [|discriminate].
      destruct (answers w cf n c1 r) as [[c2 rest]|] eqn:A2; [|discriminate]. injection E as <- <-.
      destruct (answer_grows _ _ _ _ _ W A) as [W1 L1]. destruct (answers_grow _ _ _ _ _ W1 A2) as [W2 L2].
      destruct (answer_kept _ _ _ _ _ Ho (fun r0 H => Px r0 (or_introl H)) W A ltac:(lia)) as [K1 [K2 K3]].
      destruct (IH _ _ _ Ho (fun r0 H => Px r0 (or_intror H)) W1 A2 L) as [J1 [J2 J3]]. split; [eapply ext_trans; eauto|]. split; [|auto].
      intros b s [<-|J] G; [apply J1; auto|eauto].
  Qed.
End Facts.
