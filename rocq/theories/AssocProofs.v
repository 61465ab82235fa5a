(* Lemmas for C71: entity associations. *)
From Coq Require Import String Ascii Bool Arith NArith Lia Permutation Sorted List.
Import ListNotations.
From Verif Require Import Base BaseProofs BaseProofs2 Json SemTypes Resolved Semver DefModel DefSpec ResolveModel ResolveSpec ResolveProofs RefProofs
  ExtProofs ImportModel ImportSpec ImportProofs PropDef.
Local Open Scope string_scope.

(* ---- the entities of the registry ---- *)
Lemma fix_id_iff p id n : fix_id p id = n <-> (id = p ++ n \/ ((forall r, id <> p ++ r) /\ n = id)).
Proof.
  unfold fix_id. destruct (strip_prefix p id) as [t|] eqn:E; cbn [opt_get].
  - apply strip_prefix_spec in E. split.
    + intros <-. left. exact E.
    + intros [H|(H & _)]; [|destruct (H t E)]. assert (X : strip_prefix p id = Some n) by (apply strip_prefix_spec; exact H).
      apply strip_prefix_spec in E. congruence.
  - split.
    + intros <-. right. split; [|reflexivity]. intros r H. apply strip_prefix_spec in H. congruence.
    + intros [H|(_ & ->)]; [|reflexivity]. apply strip_prefix_spec in H. congruence.
Qed.
Lemma gtype_eqb_iff a b : group_type_eqb a b = true <-> a = b.
Proof. destruct a, b; split; intros H; try reflexivity; discriminate. Qed.
Lemma entity_name_iff g n : g_type g = GEntity -> (v2_id g = Some n <-> entity_name g n).
Proof.
  intros T. unfold v2_id, entity_name. rewrite T. unfold refines_own_type. rewrite T.
  set (R := exists l, g_lineage g = Some l /\ gl_extends_type l = Some GEntity).
  destruct (match g_lineage g with Some l => match gl_extends_type l with Some t => group_type_eqb t GEntity | None => false end | None => false end) eqn:E.
  - assert (HR : exists l, g_lineage g = Some l /\ gl_extends_type l = Some GEntity).
    { destruct (g_lineage g) as [l|]; [|discriminate]. destruct (gl_extends_type l) as [t|] eqn:Et; [|discriminate]. apply gtype_eqb_iff in E.
      subst t. exists l. auto. }
    destruct HR as (l & Hl & Ht). split.
    + intros H. split; [reflexivity|]. left. exists l. split; [exact Hl|]. split; [exact Ht|]. apply fix_id_iff. injection H as H. exact H.
    + intros (_ & [(l' & _ & _ & H)|(H & _)]); [|destruct (H l Hl Ht)]. f_equal. apply fix_id_iff. exact H.
  - assert (HR : forall l, g_lineage g = Some l -> gl_extends_type l <> Some GEntity).
    { intros l Hl Ht. rewrite Hl, Ht in E. discriminate. }
    split.
    + intros H. injection H as H. split; [reflexivity|]. right. split; [exact HR|]. destruct (g_name g) as [m|]; cbn [opt_get] in H.
      * left. congruence.
      * right. split; [reflexivity|]. apply fix_id_iff. exact H.
    + intros (_ & [(l & Hl & Ht & _)|(_ & [H|(H0 & H)])]); [destruct (HR l Hl Ht)| |].
      * rewrite H. reflexivity.
      * rewrite H0. cbn [opt_get]. f_equal. apply fix_id_iff. exact H.
Qed.
Lemma kept_back_iff u : ug_excluded u = true <-> kept_back u.
Proof.
  unfold ug_excluded, is_group_excluded, kept_back. rewrite orb_true_iff, andb_true_iff, gtype_eqb_iff, opt_excluded_iff.
  unfold private. cbn [annotations_on]. split.
  - intros [H|(T & V)].
    + left. destruct (g_annotations (ug_group u)) as [a|]; [exists a; auto|]. destruct H as (m & H & _). discriminate.
    + right. split; [exact T|]. destruct (ug_visibility u) as [[|]|]; discriminate.
  - intros [(a & E & H)|(T & V)].
    + left. rewrite E. exact H.
    + right. split; [exact T|]. destruct (ug_visibility u) as [[|]|]; try reflexivity. destruct (V eq_refl).
Qed.
Lemma local_iff gs n : match slookup n (local_entities gs) with
  | Some b => exists w, own_entity gs n w /\ (b = true <-> kept_back w)
  | None => no_own_entity gs n
  end.
Proof.
  unfold local_entities. induction gs as [|u gs IH] using rev_ind; cbn [fold_left].
  - intros w [].
  - rewrite fold_left_app. cbn [fold_left]. set (m := fold_left _ gs []) in *.
    assert (Keep : ~ entity_name (ug_group u) n -> match slookup n m with
        | Some b => exists w, own_entity (app gs [u]) n w /\ (b = true <-> kept_back w)
        | None => no_own_entity (app gs [u]) n end).
    { intros Hn. destruct (slookup n m) as [b|].
      - destruct IH as (w & (bf & af & E & Hw & Ha) & K). exists w. split; [|exact K]. exists bf, (app af [u]).
        split; [rewrite E, <- app_assoc; reflexivity|]. split; [exact Hw|]. intros w' Hw'. apply in_app_iff in Hw'.
        destruct Hw' as [Hw'|[<-|[]]]; [apply Ha; exact Hw'|exact Hn].
      - intros w Hw. apply in_app_iff in Hw. destruct Hw as [Hw|[<-|[]]]; [apply IH; exact Hw|exact Hn]. }
    destruct (group_type_eqb (g_type (ug_group u)) GEntity) eqn:T.
    + apply gtype_eqb_iff in T. destruct (v2_id (ug_group u)) as [id|] eqn:V.
      * rewrite slookup_sinsert. destruct (String.eqb n id) eqn:Q.
        -- apply String.eqb_eq in Q. subst id. exists u. split; [|apply kept_back_iff]. exists gs, [].
           split; [reflexivity|]. split; [apply entity_name_iff; assumption|intros ? []].
        -- apply Keep. intros H. apply entity_name_iff in H; [|exact T]. rewrite V in H. injection H as ->. rewrite String.eqb_refl in Q. discriminate.
      * apply Keep. intros H. apply entity_name_iff in H; [|exact T]. congruence.
    + apply Keep. intros (H & _). rewrite H in T. discriminate.
Qed.
Lemma own_fun gs n w w' : own_entity gs n w -> own_entity gs n w' -> w = w'.
Proof.
  intros (b & a & E & Hw & Ha) (b' & a' & E' & Hw' & Ha'). rewrite E in E'. clear E gs. revert b' E'.
  induction b as [|x b IH]; intros [|x' b'] E'; cbn [app] in E'; injection E' as E1 E2.
  - exact E1.
  - subst. destruct (Ha w'); [|exact Hw']. apply in_or_app. right. left. reflexivity.
  - subst. destruct (Ha' w); [|exact Hw]. apply in_or_app. right. left. reflexivity.
  - exact (IH b' E2).
Qed.
Lemma own_in gs n w : own_entity gs n w -> In w gs /\ entity_name (ug_group w) n.
Proof. intros (b & a & -> & H & _). split; [apply in_or_app; right; left; reflexivity|exact H]. Qed.

(* ---- the entities of a dependency ---- *)
Lemma find_first {A} (f : A -> bool) (P : A -> Prop) (Hf : forall x, f x = true <-> P x) l :
  forall x, find f l = Some x <-> first_in P l x.
Proof.
  induction l as [|a l IH]; intros x; cbn [find].
  - split; [discriminate|]. intros (b & r & E & _). destruct b; discriminate.
  - destruct (f a) eqn:F.
    + split.
      * intros H. injection H as <-. exists [], l. split; [reflexivity|]. split; [apply Hf; exact F|intros ? []].
      * intros (b & r & E & Hx & Hb). destruct b as [|a' b]; cbn [app] in E; injection E as E1 E2; [congruence|].
        exfalso. apply (Hb a'); [left; reflexivity|]. apply Hf. congruence.
    + rewrite IH. split.
      * intros (b & r & -> & Hx & Hb). exists (a :: b), r. split; [reflexivity|]. split; [exact Hx|]. intros y [<-|Hy]; [|apply Hb; exact Hy].
        intros Hp. apply Hf in Hp. congruence.
      * intros (b & r & E & Hx & Hb). destruct b as [|a' b]; cbn [app] in E; injection E as E1 E2.
        -- exfalso. apply Hf in Hx. congruence.
        -- exists b, r. split; [exact E2|]. split; [exact Hx|]. intros y Hy. apply Hb. right. exact Hy.
Qed.
Lemma find_none {A} (f : A -> bool) (P : A -> Prop) (Hf : forall x, f x = true <-> P x) l :
  find f l = None <-> forall x, In x l -> ~ P x.
Proof.
  split.
  - intros H x Hx Hp. apply Hf in Hp. rewrite (find_none _ _ H x Hx) in Hp. discriminate.
  - intros H. destruct (find f l) as [x|] eqn:E; [|reflexivity]. apply find_some in E. destruct (H x (proj1 E)). apply Hf. exact (proj2 E).
Qed.
Lemma bool_iff_eq (a b : bool) (P : Prop) : (a = true <-> P) -> (b = true <-> P) -> a = b.
Proof.
  intros [A1 A2] [B1 B2]. destruct a, b; try reflexivity.
  - symmetry. apply B2, A1. reflexivity.
  - apply A2, B1. reflexivity.
Qed.
Lemma declared_in_iff s p u : declared_in s p u <-> u = source_url2 s (p2_source p).
Proof.
  unfold declared_in, source_url2. destruct (p2_source p) as [i|]; cbn; [|reflexivity].
  destruct (nth_error (s2_dependencies s) i) as [v|] eqn:E; cbn.
  - split; [intros [H|(H & _)]; [injection H as ->; reflexivity|discriminate]|intros ->; left; reflexivity].
  - split; [intros [H|(_ & H)]; [discriminate|exact H]|intros ->; right; auto].
Qed.
Lemma has_entity_iff e d n u p : lookup_entity e n d = Some (u, p) <-> has_entity e d n u p.
Proof.
  destruct d as [s roots|s]; cbn [lookup_entity has_entity].
  - unfold lookup_entity1. destruct (ev_parse e (s1_url s)) as [my|]; [|split; [discriminate|intros (? & ? & H & _); discriminate]].
    set (f := fun g => group_type_eqb (g_type g) GEntity && existsb (String.eqb n) (match_keys g)).
    assert (Hf : forall g, f g = true <-> (g_type g = GEntity /\ answers g n)).
    { intros g. unfold f. rewrite andb_true_iff, gtype_eqb_iff, existsb_exists. split; intros [A B]; (split; [exact A|]).
      - destruct B as (k & Hk & Q). apply String.eqb_eq in Q. subst k. apply keys_iff. exact Hk.
      - exists n. split; [apply keys_iff; exact B|apply String.eqb_refl]. }
    assert (Ex : forall g, opt_excluded (g_annotations g) = true <-> exists a, g_annotations g = Some a /\ hides a).
    { intros g. unfold opt_excluded. destruct (g_annotations g) as [a|].
      - rewrite excluded_iff. split; [intros H; exists a; auto|intros (a' & E & H); injection E as ->; exact H].
      - split; [discriminate|intros (? & H & _); discriminate]. }
    destruct (find f (s1_groups s)) as [g|] eqn:E; cbn [option_map].
    + apply (find_first f _ Hf) in E. split.
      * intros H. injection H as Hu Hp. exists my, g. split; [reflexivity|]. split; [exact E|]. split; [apply origin_iff; symmetry; exact Hu|].
        rewrite <- Hp. apply Ex.
      * intros (my' & g' & M & E' & Hu & Hp). injection M as <-. apply (find_first f _ Hf) in E'. apply (find_first f _ Hf) in E.
        assert (g = g') by congruence. subst g'. apply origin_iff in Hu. subst u. f_equal. f_equal. eapply bool_iff_eq; [apply Ex|exact Hp].
    + split; [discriminate|]. intros (my' & g' & M & E' & _). apply (find_first f _ Hf) in E'. congruence.
  - unfold lookup_entity2. set (f := fun en => String.eqb (en2_type en) n). set (h := fun r : string * entity2 => String.eqb (fst r) n).
    assert (Hf : forall x, f x = true <-> en2_type x = n) by (intros x; apply String.eqb_eq).
    assert (Hh : forall x, h x = true <-> fst x = n) by (intros x; apply String.eqb_eq).
    set (o := match find f _ with Some en => Some en | None => _ end).
    assert (Ho : forall en, o = Some en <->
       (first_in (fun x => en2_type x = n) (r2_entities (s2_registry s)) en \/
        (forall x, In x (r2_entities (s2_registry s)) -> en2_type x <> n) /\
        first_in (fun x => fst x = n) (f2_entities (s2_refinements s)) (n, en))).
    { intros en. unfold o. destruct (find f (r2_entities (s2_registry s))) as [x|] eqn:E.
      - rewrite <- (find_first f _ Hf). rewrite E. split; [intros H; left; exact H|]. intros [H|(H & _)]; [exact H|].
        apply find_some in E. destruct (H x (proj1 E)). apply Hf. exact (proj2 E).
      - rewrite <- (find_first f _ Hf), <- (find_first h _ Hh), <- (find_none f _ Hf), E.
        destruct (find h (f2_entities (s2_refinements s))) as [[k x]|] eqn:F; cbn [option_map snd].
        + assert (k = n) by (apply find_some in F; exact (proj1 (Hh (k, x)) (proj2 F))). subst k. split.
          * intros H. injection H as ->. right. auto.
          * intros [H|(_ & H)]; [discriminate|injection H as ->; reflexivity].
        + split; [discriminate|]. intros [H|(_ & H)]; discriminate. }
    split.
    + destruct o as [en|]; cbn [option_map]; [|discriminate]. intros H. injection H as Hu Hp. exists en. split; [apply Ho; reflexivity|].
      split; [apply declared_in_iff; symmetry; exact Hu|]. rewrite <- Hp. apply excluded_iff.
    + intros (en & He & Hu & Hp). apply Ho in He. rewrite He. cbn [option_map]. apply declared_in_iff in Hu. subst u. f_equal. f_equal.
      eapply bool_iff_eq; [apply excluded_iff|exact Hp].
Qed.
Lemma origins_ok l : forall os pr os' pr', NoDup os -> entity_origins l os pr = (os', pr') ->
  NoDup os' /\ (forall u, In u os' <-> In u os \/ In (u, false) l) /\ (pr' = true <-> pr = true \/ exists u, In (u, true) l).
Proof.
  induction l as [|[u ex] l IH]; intros os pr os' pr' Nd H; cbn [entity_origins] in H.
  - injection H as <- <-. split; [exact Nd|]. split; [intros u; cbn [In]; tauto|]. split; [auto|intros [H|(u & [])]; exact H].
  - destruct ex.
    + destruct (IH _ _ _ _ Nd H) as (A & B & C). split; [exact A|]. split.
      * intros v. rewrite B. cbn [In]. split; [intros [?|?]; auto|]. intros [?|[X|?]]; auto. discriminate.
      * rewrite C. split; [intros _; right; exists u; left; reflexivity|auto].
    + assert (Nd' : NoDup (if existsb (String.eqb u) os then os else app os [u])).
      { destruct (existsb (String.eqb u) os) eqn:X; [exact Nd|]. apply Permutation_NoDup with (l := u :: os).
        - apply Permutation_cons_append.
        - constructor; [|exact Nd]. intros Hin. assert (Y : existsb (String.eqb u) os = true); [|congruence].
          apply existsb_exists. exists u. split; [exact Hin|apply String.eqb_refl]. }
      destruct (IH _ _ _ _ Nd' H) as (A & B & C). split; [exact A|]. split.
      * intros v. rewrite B. cbn [In]. destruct (existsb (String.eqb u) os) eqn:X.
        -- apply existsb_exists in X. destruct X as (u' & Hu & Q). apply String.eqb_eq in Q. subst u'.
           split; [intros [?|?]; auto|]. intros [?|[Y|?]]; auto. injection Y as <-. auto.
        -- rewrite in_app_iff. cbn [In]. split.
           ++ intros [[?|[<-|[]]]|?]; auto.
           ++ intros [?|[Y|?]]; auto. injection Y as <-. auto.
      * rewrite C. split; [intros [?|(v & ?)]; [auto|right; exists v; right; assumption]|].
        intros [?|(v & [Y|?])]; [auto|discriminate|]. right. exists v. assumption.
Qed.
Lemma in_somes {A} (x : A) l : In x (somes l) <-> In (Some x) l.
Proof.
  induction l as [|[y|] l IH]; cbn [somes In]; [reflexivity| |].
  - rewrite IH. split; [intros [<-|H]; auto|intros [H|H]; [injection H as ->; auto|auto]].
  - rewrite IH. split; [auto|intros [H|H]; [discriminate|exact H]].
Qed.
Lemma entity_in e n u p : In (u, p) (somes (map (lookup_entity e n) (ev_deps e))) <-> exists d, In d (ev_deps e) /\ has_entity e d n u p.
Proof.
  rewrite in_somes, in_map_iff. split; intros (d & H).
  - destruct H as [E Hd]. exists d. split; [exact Hd|]. apply has_entity_iff. exact E.
  - destruct H as [Hd E]. exists d. split; [apply has_entity_iff; exact E|exact Hd].
Qed.
Lemma resolve_entity_ok e n : match resolve_entity e (ev_deps e) n with
  | EFound u => offers_entity e n u /\ forall v, offers_entity e n v -> v = u
  | EPrivate => (forall v, ~ offers_entity e n v) /\ hides_entity e n
  | EAmbiguous us => NoDup us /\ 1 < length us /\ forall v, In v us <-> offers_entity e n v
  | EUnknown => (forall v, ~ offers_entity e n v) /\ ~ hides_entity e n
  end.
Proof.
  unfold resolve_entity. destruct (entity_origins (somes (map (lookup_entity e n) (ev_deps e))) [] false) as [os pr] eqn:E.
  destruct (origins_ok _ _ _ _ _ (NoDup_nil _) E) as (A & B & C).
  assert (B' : forall v, In v os <-> offers_entity e n v).
  { intros v. rewrite B. rewrite entity_in. unfold offers_entity. cbn [In]. tauto. }
  assert (C' : pr = true <-> hides_entity e n).
  { rewrite C. unfold hides_entity. split.
    - intros [H|(u & H)]; [discriminate|]. apply entity_in in H. destruct H as (d & H). exists d, u. exact H.
    - intros (d & u & H). right. exists u. apply entity_in. exists d. exact H. }
  destruct os as [|u [|u' os]].
  - destruct pr; (split; [intros v H; apply B' in H; destruct H|]); [apply C'; reflexivity|].
    intros H. apply C' in H. discriminate.
  - split; [apply B'; left; reflexivity|]. intros v H. apply B' in H. destruct H as [<-|[]]. reflexivity.
  - split; [exact A|]. split; [cbn [length]; lia|exact B'].
Qed.

(* ---- one pass over the names ---- *)
Lemma unique_iff l : forall seen x, In x (unique seen l) <-> In x l /\ ~ In x seen.
Proof.
  induction l as [|y l IH]; intros seen x; cbn [unique In]; [tauto|].
  destruct (existsb (String.eqb y) seen) eqn:E.
  - apply existsb_exists in E. destruct E as (z & Hz & Q). apply String.eqb_eq in Q. subst z. rewrite IH. split; [tauto|].
    intros [[<-|H] N]; [contradiction|auto].
  - assert (Hy : ~ In y seen).
    { intros H. assert (X : existsb (String.eqb y) seen = true); [|congruence]. apply existsb_exists. exists y. split; [exact H|apply String.eqb_refl]. }
    cbn [In]. rewrite IH. cbn [In]. split.
    + intros [<-|[H N]]; [auto|]. split; [auto|]. intros X. apply N. auto.
    + intros [[<-|H] N]; [auto|]. destruct (String.string_dec y x) as [->|D]; [auto|]. right. split; [exact H|]. intros [X|X]; auto.
Qed.
Definition pairs (gs : list ugroup) : list (ugroup * string) :=
  flat_map (fun u => map (pair u) (unique [] (flat_map referenced_entities (g_assocs (ug_group u))))) gs.
Lemma pairs_iff gs u n : In (u, n) (pairs gs) <-> In u gs /\ names_entity u n.
Proof.
  unfold pairs. rewrite in_flat_map. split.
  - intros (w & Hw & H). apply in_map_iff in H. destruct H as (m & E & H). injection E as <- <-. split; [exact Hw|].
    apply unique_iff in H. destruct H as [H _]. apply in_flat_map in H. destruct H as (a & Ha & Hm). exists a. split; [exact Ha|]. apply C30_set. exact Hm.
  - intros (Hu & a & Ha & Hm). exists u. split; [exact Hu|]. apply in_map. apply unique_iff. split; [|intros []]. apply in_flat_map. exists a.
    split; [exact Ha|]. apply C30_set. exact Hm.
Qed.
Definition step (e : env) (local : list (string * bool)) (recorded : list (string * list (string * string))) (st : assoc_state) (p : ugroup * string) :=
  assoc_name e local (slookup (uid (fst p)) recorded) (uid (fst p)) (ug_excluded (fst p)) st (snd p).
Lemma fold_pairs e local recorded gs : forall st, fold_left (assoc_group e local recorded) gs st = fold_left (step e local recorded) (pairs gs) st.
Proof.
  induction gs as [|u gs IH]; intros st; [reflexivity|]. cbn [fold_left]. unfold pairs. cbn [flat_map]. rewrite fold_left_app.
  rewrite IH. f_equal. unfold assoc_group. generalize (unique [] (flat_map referenced_entities (g_assocs (ug_group u)))) as ns.
  intros ns. revert st. induction ns as [|n ns IHn]; intros st; [reflexivity|]. cbn [fold_left map]. apply IHn.
Qed.
Definition get2 (m : list (string * list (string * string))) (g n : string) : option string :=
  match slookup g m with Some om => slookup n om | None => None end.
Lemma get2_put g n u m g' n' : get2 (put_origin g n u m) g' n' =
  if String.eqb g' g && String.eqb n' n then Some u else get2 m g' n'.
Proof.
  unfold get2, put_origin. rewrite bt_insert_lookup. destruct (String.eqb g' g) eqn:Q; cbn [andb]; [|reflexivity].
  apply String.eqb_eq in Q. subst g'. rewrite bt_insert_lookup. destruct (String.eqb n' n); [reflexivity|].
  destruct (slookup g m); reflexivity.
Qed.
(* what a name of a group comes to *)
Inductive outcome := ONothing | OOrigin (u : string) | OWrong (err : rerr).
Definition outcome_of (e : env) (local : list (string * bool)) (recorded : list (string * list (string * string))) (u : ugroup) (n : string) : outcome :=
  if is_some (get2 recorded (uid u) n) then ONothing
  else match slookup n local with
       | Some false => ONothing
       | Some true => if ug_excluded u then ONothing else OWrong (XExcluded n "entity" (uid u))
       | None => match resolve_entity e (ev_deps e) n with
                 | EFound v => OOrigin v
                 | EPrivate => OWrong (XExcluded n "entity" (uid u))
                 | EAmbiguous us => OWrong (XAmbiguousEntity (uid u) n us)
                 | EUnknown => OWrong (XUnresolvedEntity (uid u) n)
                 end
       end.
Record pass (e : env) local recorded (ps : list (ugroup * string)) (st : assoc_state) : Prop := {
  pa_found : forall n u, slookup n (as_found st) = Some u -> resolve_entity e (ev_deps e) n = EFound u;
  pa_sorted : bt_sorted (as_origins st) /\ (forall g om, slookup g (as_origins st) = Some om -> bt_sorted om);
  pa_errors : forall err, In err (as_errors st) <-> exists u n, In (u, n) ps /\ outcome_of e local recorded u n = OWrong err;
  pa_origins : forall g n v, get2 (as_origins st) g n = Some v <-> exists u, In (u, n) ps /\ uid u = g /\ outcome_of e local recorded u n = OOrigin v
}.
Lemma step_shape e local recorded st u n :
  (forall m v, slookup m (as_found st) = Some v -> resolve_entity e (ev_deps e) m = EFound v) ->
  let st' := step e local recorded st (u, n) in
  (as_origins st' = match outcome_of e local recorded u n with OOrigin v => put_origin (uid u) n v (as_origins st) | _ => as_origins st end) /\
  (as_errors st' = match outcome_of e local recorded u n with OWrong err => app (as_errors st) [err] | _ => as_errors st end) /\
  (as_found st' = as_found st \/ exists v, resolve_entity e (ev_deps e) n = EFound v /\ as_found st' = sinsert n v (as_found st)).
Proof.
  intros Hf. unfold step, assoc_name, outcome_of, get2. cbn [fst snd].
  replace (is_some match slookup (uid u) recorded with Some om => slookup n om | None => None end)
    with (match slookup (uid u) recorded with Some m => is_some (slookup n m) | None => false end)
    by (destruct (slookup (uid u) recorded); reflexivity).
  destruct (match slookup (uid u) recorded with Some m => is_some (slookup n m) | None => false end); [cbn; auto|].
  destruct (slookup n local) as [[|]|]; [destruct (ug_excluded u); cbn; auto|cbn; auto|].
  destruct (slookup n (as_found st)) as [v|] eqn:F.
  - rewrite (Hf _ _ F). cbn. auto.
  - destruct (resolve_entity e (ev_deps e) n) as [v| |us|] eqn:R; cbn; [|auto|auto|auto]. split; [reflexivity|]. split; [reflexivity|]. right. exists v. auto.
Qed.
Lemma pass_ok e local recorded ps : pass e local recorded ps
  (fold_left (step e local recorded) ps {| as_origins := []; as_errors := []; as_found := [] |}).
Proof.
  induction ps as [|[u n] ps IH] using rev_ind; cbn [fold_left].
  - constructor; cbn.
    + discriminate.
    + split; [constructor|discriminate].
    + intros err. split; [intros []|intros (? & ? & [] & _)].
    + intros g n v. split; [discriminate|intros (? & [] & _)].
  - rewrite fold_left_app. cbn [fold_left]. set (st := fold_left _ ps _) in *. destruct IH as [F [S1 S2] E O].
    destruct (step_shape e local recorded st u n F) as (A & B & C). cbv zeta in A, B, C. set (st' := step e local recorded st (u, n)) in *.
    constructor.
    + intros m v H. destruct C as [C|(w & R & C)]; rewrite C in H; [apply F; exact H|].
      rewrite slookup_sinsert in H. destruct (String.eqb m n) eqn:Q; [|apply F; exact H]. apply String.eqb_eq in Q. congruence.
    + rewrite A. destruct (outcome_of e local recorded u n); try (split; assumption). split.
      * apply bt_insert_sorted. exact S1.
      * intros g om H. unfold put_origin in H. rewrite bt_insert_lookup in H. destruct (String.eqb g (uid u)); [|apply (S2 g); exact H].
        injection H as <-. apply bt_insert_sorted. destruct (slookup (uid u) (as_origins st)) as [om'|] eqn:L; cbn [opt_get]; [apply (S2 (uid u)); exact L|constructor].
    + intros err. rewrite B. split.
      * intros H. destruct (outcome_of e local recorded u n) as [|v|er] eqn:Oc.
        -- apply E in H. destruct H as (u' & n' & Hp & H). exists u', n'. split; [apply in_or_app; auto|exact H].
        -- apply E in H. destruct H as (u' & n' & Hp & H). exists u', n'. split; [apply in_or_app; auto|exact H].
        -- apply in_app_iff in H. destruct H as [H|[<-|[]]].
           ++ apply E in H. destruct H as (u' & n' & Hp & H). exists u', n'. split; [apply in_or_app; auto|exact H].
           ++ exists u, n. split; [apply in_or_app; right; left; reflexivity|exact Oc].
      * intros (u' & n' & Hp & H). apply in_app_iff in Hp. destruct Hp as [Hp|[Hp|[]]].
        -- assert (X : In err (as_errors st)) by (apply E; exists u', n'; auto).
           destruct (outcome_of e local recorded u n); try exact X. apply in_or_app. left. exact X.
        -- injection Hp as <- <-. rewrite H. apply in_or_app. right. left. reflexivity.
    + intros g m v. rewrite A. split.
      * intros H. assert (Old : get2 (as_origins st) g m = Some v -> exists u', In (u', m) (app ps [(u, n)]) /\ uid u' = g /\ outcome_of e local recorded u' m = OOrigin v).
        { intros X. apply O in X. destruct X as (u' & Hp & X). exists u'. split; [apply in_or_app; auto|exact X]. }
        destruct (outcome_of e local recorded u n) as [|w|er] eqn:Oc; [apply Old; exact H| |apply Old; exact H].
        rewrite get2_put in H. destruct (String.eqb g (uid u) && String.eqb m n) eqn:Q; [|apply Old; exact H].
        apply andb_prop in Q. destruct Q as [Q1 Q2]. apply String.eqb_eq in Q1, Q2. subst. injection H as ->.
        exists u. split; [apply in_or_app; right; left; reflexivity|]. auto.
      * intros (u' & Hp & <- & H). apply in_app_iff in Hp. destruct Hp as [Hp|[Hp|[]]].
        -- assert (X : get2 (as_origins st) (uid u') m = Some v) by (apply O; exists u'; auto).
           destruct (outcome_of e local recorded u n) as [|w|er] eqn:Oc; try exact X. rewrite get2_put.
           destruct (String.eqb (uid u') (uid u) && String.eqb m n) eqn:Q; [|exact X]. apply andb_prop in Q. destruct Q as [Q1 Q2].
           apply String.eqb_eq in Q1, Q2. subst m. clear -Q1 Oc H. f_equal. unfold outcome_of in Oc, H.
           rewrite Q1 in H. destruct (is_some (get2 recorded (uid u) n)); [discriminate|].
           destruct (slookup n local) as [[|]|].
           ++ destruct (ug_excluded u); discriminate.
           ++ discriminate.
           ++ destruct (resolve_entity e (ev_deps e) n); congruence.
        -- injection Hp as <- <-. rewrite H, get2_put, !String.eqb_refl. reflexivity.
Qed.

(* ---- what the outcome says ---- *)
Lemma brought_iff recorded u n : is_some (get2 recorded (uid u) n) = true <-> brought recorded u n.
Proof.
  unfold get2, brought. split.
  - destruct (slookup (uid u) recorded) as [m|]; [|discriminate]. destruct (slookup n m) as [v|] eqn:E; [|discriminate]. intros _. exists m, v. auto.
  - intros (m & v & -> & ->). reflexivity.
Qed.
Lemma outcome_ok e gs recorded u n : match outcome_of e (local_entities gs) recorded u n with
  | ONothing => brought recorded u n \/ meant_here gs u n
  | OOrigin v => ~ brought recorded u n /\ meant_there e gs n v
  | OWrong err => ~ brought recorded u n /\ wrong_name e gs u n err
  end.
Proof.
  unfold outcome_of. destruct (is_some (get2 recorded (uid u) n)) eqn:Br; [left; apply brought_iff; exact Br|].
  assert (Nb : ~ brought recorded u n) by (intros X; apply brought_iff in X; congruence).
  pose proof (local_iff gs n) as L. destruct (slookup n (local_entities gs)) as [[|]|].
  - destruct L as (w & Hw & [K _]). specialize (K eq_refl). destruct (ug_excluded u) eqn:X.
    + right. exists w. split; [exact Hw|]. right. apply kept_back_iff. exact X.
    + split; [exact Nb|]. eapply wn_private; [exact Hw|exact K|]. intros Y. apply kept_back_iff in Y. congruence.
  - destruct L as (w & Hw & [_ K]). right. exists w. split; [exact Hw|]. left. intros X. specialize (K X). discriminate.
  - pose proof (resolve_entity_ok e n) as R. destruct (resolve_entity e (ev_deps e) n) as [v| |us|].
    + split; [exact Nb|]. destruct R as (R1 & R2). split; [exact L|]. split; [exact R1|exact R2].
    + split; [exact Nb|]. destruct R as (R1 & R2). apply wn_hidden; assumption.
    + split; [exact Nb|]. destruct R as (R1 & R2 & R3). apply wn_ambiguous; assumption.
    + split; [exact Nb|]. destruct R as (R1 & R2). apply wn_unknown; assumption.
Qed.

(* ---- merging with what the imports recorded ---- *)
Lemma slookup_cons {V} n k (v : V) m : slookup n ((k, v) :: m) = if String.eqb n k then Some v else slookup n m.
Proof. reflexivity. Qed.
Lemma slookup_notin {V} n (m : list (string * V)) : ~ In n (map fst m) -> slookup n m = None.
Proof. apply slookup_none. Qed.
Lemma extend_lookup extra : forall m n, NoDup (map fst extra) ->
  slookup n (extend_map m extra) = match slookup n extra with Some v => Some v | None => slookup n m end.
Proof.
  induction extra as [|[k v] extra IH]; intros m n Hs; [reflexivity|]. unfold extend_map in *. cbn [fold_left fst snd].
  cbn [map fst] in Hs. inversion Hs as [|? ? Hk Hs']; subst. rewrite (IH _ _ Hs'), bt_insert_lookup, slookup_cons.
  destruct (String.eqb n k) eqn:Q; [|reflexivity]. apply String.eqb_eq in Q. subst k. rewrite (slookup_notin _ _ Hk). reflexivity.
Qed.
Definition merge (origins recorded : list (string * list (string * string))) : list (string * list (string * string)) :=
  fold_left (fun m kv => bt_insert (fst kv) (extend_map (opt_get (slookup (fst kv) m) []) (snd kv)) m) origins recorded.
Lemma merge_lookup os : forall recorded g, NoDup (map fst os) ->
  slookup g (merge os recorded) = match slookup g os with
                                  | Some om => Some (extend_map (opt_get (slookup g recorded) []) om)
                                  | None => slookup g recorded
                                  end.
Proof.
  induction os as [|[k om] os IH]; intros recorded g Hs; [reflexivity|]. unfold merge in *. cbn [fold_left fst snd].
  cbn [map fst] in Hs. inversion Hs as [|? ? Hk Hs']; subst. rewrite (IH _ _ Hs'), bt_insert_lookup, slookup_cons.
  destruct (String.eqb g k) eqn:Q; [|reflexivity]. apply String.eqb_eq in Q. subst k. rewrite (slookup_notin _ _ Hk). reflexivity.
Qed.
Lemma merge_get2 os recorded g n : bt_sorted os -> (forall g om, slookup g os = Some om -> bt_sorted om) ->
  get2 (merge os recorded) g n = match get2 os g n with Some v => Some v | None => get2 recorded g n end.
Proof.
  intros H1 H2. unfold get2 at 1 2. rewrite merge_lookup by (apply bt_sorted_nodup; exact H1).
  destruct (slookup g os) as [om|] eqn:E; [|reflexivity]. rewrite extend_lookup by (apply bt_sorted_nodup; exact (H2 _ _ E)).
  destruct (slookup n om) as [v|]; [reflexivity|]. unfold get2. destruct (slookup g recorded); reflexivity.
Qed.
