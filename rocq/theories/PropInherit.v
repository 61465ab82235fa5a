(* C33, C34 (extends and includes), C68: inheritance between groups. *)
From Coq Require Import String Ascii Bool Arith Lia Permutation Sorted List.
Import ListNotations.
From Verif Require Import Base BaseProofs BaseProofs2 Json SemTypes Resolved Semver DefModel ResolveModel
  ResolveSpec ResolveProofs ExtProofs.
Local Open Scope string_scope.

(* ---------- one attribute ---------- *)
Lemma opt_or_first {A} (a b : option A) : opt_or a b = first_set a b.
Proof. destruct a; reflexivity. Qed.
Lemma inherit_attr_overrides a p : spec_id p = spec_id a -> overrides a p (inherit_attr a p).
Proof.
  intros Hid. destruct a as [r|i]; [|reflexivity]. unfold overrides, inherit_attr. destruct p as [q|q]; cbn.
  - repeat (split; [first [reflexivity | apply opt_or_first]|]). intros _. destruct (rs_prefix r); reflexivity.
  - split; [reflexivity|]. split; [reflexivity|].
    repeat (split; [first [reflexivity | apply opt_or_first | (destruct (rs_req r); reflexivity) | (destruct (rs_note r); reflexivity)]|]).
    discriminate.
Qed.
Lemma inherit_attr_id a p : spec_id (inherit_attr a p) = spec_id a.
Proof. destruct a as [r|i]; [|reflexivity]. destruct p; reflexivity. Qed.

(* ---------- the attributes of one group ---------- *)
Lemma about_app x l m : about x (app l m) = app (about x l) (about x m).
Proof. unfold about. rewrite map_app. induction (map ua_spec l) as [|a r IH]; cbn [filter app]; [reflexivity|].
  destruct (String.eqb (spec_id a) x); cbn [app]; rewrite IH; reflexivity. Qed.
Lemma about_one x a : about x [a] = if String.eqb (ua_id a) x then [ua_spec a] else [].
Proof. reflexivity. Qed.

Definition lay (m : list (string * awl)) (acc : list uattr) : Prop :=
  bt_sorted m /\
  forall x, match slookup x m with
            | Some aw => spec_id (aw_spec aw) = x /\ layered (about x acc) (aw_spec aw)
            | None => about x acc = []
            end.
Lemma lay_insert m acc a aw : lay m acc -> spec_id (aw_spec aw) = ua_id a ->
  layered (app (about (ua_id a) acc) [ua_spec a]) (aw_spec aw) ->
  lay (bt_insert (ua_id a) aw m) (app acc [a]).
Proof.
  intros [Hs H] Hid Hl. split; [apply bt_insert_sorted, Hs|]. intros x. rewrite bt_insert_lookup, about_app, about_one.
  destruct (String.eqb_spec x (ua_id a)) as [->|N].
  - rewrite String.eqb_refl. split; [exact Hid|exact Hl].
  - destruct (String.eqb_spec (ua_id a) x); [congruence|]. rewrite app_nil_r. apply H.
Qed.
Lemma lay_add_base gid m acc a : lay m acc -> lay (add_base gid m a) (app acc [a]).
Proof.
  intros H. unfold add_base. destruct H as [Hs H]. pose proof (H (ua_id a)) as Hx.
  destruct (slookup (ua_id a) m) as [aw|].
  - destruct Hx as [H1 H2]. apply lay_insert; [split; assumption| |].
    + apply inherit_attr_id.
    + cbn [aw_spec]. eapply layer_more; [exact H2|]. apply inherit_attr_overrides. exact H1.
  - apply lay_insert; [split; assumption|reflexivity|]. rewrite Hx. cbn [app aw_spec]. constructor.
Qed.
Lemma lay_add_own gid m acc a : lay m acc -> lay (add_own gid m a) (app acc [a]).
Proof.
  intros [Hs H]. unfold add_own. destruct (ua_spec a) as [r|i] eqn:Ea.
  - assert (Hk : ua_id a = rs_ref r) by (unfold ua_id; rewrite Ea; reflexivity).
    pose proof (H (ua_id a)) as Hx. rewrite <- Hk. rewrite <- Ea. destruct (slookup (ua_id a) m) as [aw|].
    + destruct Hx as [H1 H2]. apply lay_insert; [split; assumption| |].
      * apply inherit_attr_id.
      * cbn [aw_spec]. eapply layer_more; [exact H2|]. apply inherit_attr_overrides. exact H1.
    + apply lay_insert; [split; assumption|reflexivity|]. rewrite Hx. cbn [app aw_spec]. constructor.
  - assert (Hk : ua_id a = is_id i) by (unfold ua_id; rewrite Ea; reflexivity).
    pose proof (H (ua_id a)) as Hx. rewrite <- Hk. apply lay_insert; [split; assumption|cbn [aw_spec]; symmetry; exact Hk|].
    rewrite Ea. cbn [aw_spec]. destruct (slookup (ua_id a) m) as [aw|].
    + eapply layer_more; [apply Hx|reflexivity].
    + rewrite Hx. constructor.
Qed.
Lemma lay_fold (f : list (string * awl) -> uattr -> list (string * awl)) :
  (forall m acc a, lay m acc -> lay (f m a) (app acc [a])) ->
  forall l m acc, lay m acc -> lay (fold_left f l m) (app acc l).
Proof.
  intros Hf l. induction l as [|a l IH]; intros m acc H; cbn [fold_left]; [rewrite app_nil_r; exact H|].
  replace (app acc (a :: l)) with (app (app acc [a]) l) by (rewrite <- app_assoc; reflexivity).
  apply IH, Hf, H.
Qed.
Lemma lay_bases bases : forall m acc, lay m acc ->
  lay (fold_left (fun m b => fold_left (add_base (fst b)) (snd b) m) bases m) (app acc (concat (map snd bases))).
Proof.
  induction bases as [|[i l] bases IH]; intros m acc H; cbn [fold_left map concat fst snd]; [rewrite app_nil_r; exact H|].
  rewrite app_assoc. apply IH. apply lay_fold; [|exact H]. intros. apply lay_add_base. assumption.
Qed.
Lemma lay_inherited gid own bases : lay (inherited_map gid own bases) (app (concat (map snd bases)) own).
Proof.
  unfold inherited_map. apply lay_fold; [intros; apply lay_add_own; assumption|].
  change (concat (map snd bases)) with (app [] (concat (map snd bases))). apply lay_bases.
  split; [constructor|]. intros x. reflexivity.
Qed.
Lemma about_nil x l : about x l = [] <-> ~ In x (map ua_id l).
Proof.
  unfold about. induction l as [|a l IH]; cbn [map filter]; [split; [intros _ []|reflexivity]|].
  cbn [In]. fold (ua_id a). destruct (String.eqb_spec (ua_id a) x) as [->|N].
  - split; [discriminate|]. intros H. exfalso. apply H. left. reflexivity.
  - rewrite IH. split; [intros H [E|E]; [contradiction|apply H, E]|intros H E; apply H; right; exact E].
Qed.
Lemma inherit_attrs_spec gid own bases :
  let l := app (concat (map snd bases)) own in
  NoDup (map ua_id (inherit_attrs gid own bases)) /\
  (forall x, In x (map ua_id (inherit_attrs gid own bases)) <-> In x (map ua_id l)) /\
  (forall a, In a (inherit_attrs gid own bases) -> layered (about (ua_id a) l) (ua_spec a)).
Proof.
  cbv zeta. destruct (lay_inherited gid own bases) as [Hs H].
  unfold inherit_attrs. rewrite map_map. unfold ua_id at 1 2. cbn [ua_spec].
  set (m := inherited_map gid own bases) in *.
  assert (Hn : NoDup (map fst m)) by (apply bt_sorted_nodup, Hs).
  assert (Hkey : forall k aw, In (k, aw) m -> spec_id (aw_spec aw) = k /\
            layered (about k (app (concat (map snd bases)) own)) (aw_spec aw)).
  { intros k aw Hin. apply (slookup_in m k aw Hn) in Hin. specialize (H k). rewrite Hin in H. exact H. }
  assert (Emap : map (fun x => spec_id (aw_spec (snd x))) m = map fst m).
  { apply map_ext_in. intros [k aw] Hin. apply (Hkey k aw Hin). }
  rewrite Emap. split; [exact Hn|]. split.
  - intros x. specialize (H x). split.
    + intros Hx. destruct (slookup x m) as [aw|] eqn:E; [|apply slookup_none in E; contradiction].
      destruct (in_dec string_dec x (map ua_id (app (concat (map snd bases)) own))) as [Hi|Hi]; [exact Hi|].
      apply about_nil in Hi. rewrite Hi in H. destruct H as [_ H]. inversion H as [|l r s r' Hl Ho E']. 
      destruct l; discriminate.
    + intros Hx. destruct (slookup x m) as [aw|] eqn:E.
      * apply (slookup_in m x aw Hn) in E. apply in_map_iff. exists (x, aw). auto.
      * apply about_nil in H. contradiction.
  - intros a Ha. apply in_map_iff in Ha as ([k aw] & <- & Hin). destruct (Hkey k aw Hin) as [H1 H2].
    unfold ua_id. cbn [ua_spec snd]. rewrite H1. exact H2.
Qed.

(* ---------- the groups ---------- *)
Lemma avail_settled gs k s : avail gs k s -> settled_in gs k (sm_attributes s).
Proof.
  intros (w & Hw & Hs & <- & ->). apply is_settled_spec in Hs as [H1 H2].
  exists w. repeat split; try assumption.
Qed.
Lemma targets_settled u : is_settled u = true <-> targets u = [].
Proof.
  rewrite is_settled_spec. unfold targets. destruct (g_extends (ug_group u)); cbn [app]; split.
  - intros [H _]. discriminate.
  - discriminate.
  - intros [_ H]. exact H.
  - intros H. split; [reflexivity|exact H].
Qed.

(* After resolving extends and includes, a group that extends or includes nothing is as it
   was; any other has exactly the attributes of its bases and its own, each once, and each
   attribute is what its own specification makes of the inherited ones, field by field.
   What is missing: the prefix flag of a reference is dropped when the inherited attribute is
   a definition (see the refutation below). *)
Theorem C33_inheritance_partial : forall e gs gs', resolve_extends e gs = Done gs' ->
  Forall2 (fun u u' =>
     g_id (ug_group u') = g_id (ug_group u) /\ targets u' = [] /\
     (targets u = [] -> u' = u) /\
     (targets u <> [] ->
       exists bases, base_lists e gs' u bases /\
         NoDup (attr_ids u') /\
         (forall x, In x (attr_ids u') <-> In x (map (fun a => spec_id (ua_spec a)) (app (concat bases) (ug_attrs u)))) /\
         (forall a, In a (ug_attrs u') -> layered (about (spec_id (ua_spec a)) (app (concat bases) (ug_attrs u))) (ua_spec a))))
    gs gs'.
Proof.
  intros e gs gs' H. unfold resolve_extends in H.
  destruct (ext_loop_done e gs _ _ _ _ (progress_refl e gs) H) as [Hp Hs].
  unfold progress in Hp.
  assert (G : forall l l', Forall2 (fun u v => v = u \/ (is_settled u = false /\ built e gs' u v)) l l' ->
     Forall (fun v => is_settled v = true) l' -> Forall2 (fun u u' =>
     g_id (ug_group u') = g_id (ug_group u) /\ targets u' = [] /\
     (targets u = [] -> u' = u) /\
     (targets u <> [] ->
       exists bases, base_lists e gs' u bases /\
         NoDup (attr_ids u') /\
         (forall x, In x (attr_ids u') <-> In x (map (fun a => spec_id (ua_spec a)) (app (concat bases) (ug_attrs u)))) /\
         (forall a, In a (ug_attrs u') -> layered (about (spec_id (ua_spec a)) (app (concat bases) (ug_attrs u))) (ua_spec a)))) l l').
  { induction 1 as [|u v l l' Huv _ IH]; intros Hst; [constructor|].
    inversion Hst as [|? ? Hv Hst']; subst. constructor; [|apply IH, Hst'].
    destruct Huv as [->|[Hu (par & inc & -> & Hpar & Hinc)]].
    - apply targets_settled in Hv. split; [reflexivity|]. split; [exact Hv|]. split; [reflexivity|]. contradiction.
    - split; [apply (finish_uid u par inc)|]. split; [apply targets_settled, Hv|]. split.
      + intros Ht. apply targets_settled in Ht. congruence.
      + intros _.
        set (pb := match par with Some (pid, s) => [(pid, sm_attributes s)] | None => [] end).
        exists (map snd (app pb inc)). split.
        * exists (map snd pb), (map snd inc). split; [apply map_app|]. split.
          -- unfold par_ok in Hpar. destruct (g_extends (ug_group u)) as [p|], par as [[p' s]|]; try contradiction.
             ++ destruct Hpar as [-> Hpar]. exists (sm_attributes s). split; [reflexivity|].
                destruct Hpar as [Ha|(d & H1 & H2 & H3)]; [left; apply avail_settled, Ha|].
                right. exists d, s. auto.
             ++ reflexivity.
          -- clear -Hinc. unfold inc_ok in Hinc. induction Hinc as [|i b is bs [Hb (s & H1 & H2)] _ IH]; cbn [map]; constructor.
             ++ rewrite H2. apply avail_settled, H1.
             ++ exact IH.
        * pose proof (inherit_attrs_spec (uid u) (ug_attrs u) (app pb inc)) as (A & B & C).
          split; [exact A|]. split; [exact B|exact C]. }
  apply G; assumption.
Qed.
Print Assumptions C33_inheritance_partial.

(* ---------- grounding ---------- *)
Lemma offered_offered_by e p s : offered e p s -> exists l, offered_by e p l.
Proof. intros (d & H1 & H2 & H3). exists (sm_attributes s), d, s. auto. Qed.
Lemma ext_step_grounded e gs idx u v es fs : In u gs ->
  (forall k s, slookup k idx = Some s -> grounded e gs k) ->
  ext_step e idx u = Finish v es fs -> grounded e gs (uid u) /\ uid v = uid u.
Proof.
  intros Hu Hidx. unfold ext_step. destruct (is_settled u) eqn:Es; [discriminate|].
  destruct (collect_included u idx [] (ug_include u)) as [[|e1 l] inc] eqn:Ec; [|discriminate].
  apply collect_included_ok in Ec.
  assert (Hinc : forall i, In i (ug_include u) -> grounded e gs i).
  { intros i Hi. clear -Ec Hi Hidx. induction Ec as [|j b is bs [_ (s & H1 & _)] _ IH]; [destruct Hi|].
    destruct Hi as [->|Hi]; [eapply Hidx, H1|apply IH, Hi]. }
  destruct (g_extends (ug_group u)) as [p|] eqn:Ee.
  - destruct (lookup_group e idx p) as [s| |t] eqn:El; try discriminate.
    destruct (excluded_parent u p s); [discriminate|]. intros H. injection H as <- _ _.
    split; [|apply finish_uid]. apply gr_group; [exact Hu| |exact Hinc].
    intros q Hq. rewrite Ee in Hq. injection Hq as <-. apply lookup_group_spec in El as [El|El].
    + left. eapply Hidx, El.
    + right. eapply offered_offered_by, El.
  - intros H. injection H as <- _ _. split; [|apply finish_uid]. apply gr_group; [exact Hu| |exact Hinc].
    intros q Hq. rewrite Ee in Hq. discriminate.
Qed.
Lemma ext_groups_grounded e gs l : forall idx,
  (forall u, In u l -> is_settled u = false -> In u gs) ->
  (forall u, In u l -> is_settled u = true -> grounded e gs (uid u)) ->
  (forall k s, slookup k idx = Some s -> grounded e gs k) ->
  forall v, In v (rd_groups (ext_groups e idx l)) ->
    (is_settled v = false -> In v gs) /\ (is_settled v = true -> grounded e gs (uid v)).
Proof.
  induction l as [|u l IH]; intros idx H1 H2 H3 v Hv; cbn [ext_groups] in Hv; [destruct Hv|].
  assert (H1' : forall u, In u l -> is_settled u = false -> In u gs) by (intros; apply H1; [right|]; assumption).
  assert (H2' : forall u, In u l -> is_settled u = true -> grounded e gs (uid u)) by (intros; apply H2; [right|]; assumption).
  destruct (ext_step e idx u) as [|es|w es fs] eqn:E; cbn [rd_groups] in Hv; destruct Hv as [<-|Hv];
    try (eapply IH; eassumption).
  - split; intros; [apply H1|apply H2]; try assumption; left; reflexivity.
  - split; intros; [apply H1|apply H2]; try assumption; left; reflexivity.
  - destruct (ext_step_finish _ _ _ _ _ _ E) as [Hu Hw]. split; [congruence|]. intros _.
    destruct (ext_step_grounded e gs idx u w es fs) as [G ->]; try assumption. apply H1; [left; reflexivity|exact Hu].
  - destruct (ext_step_finish _ _ _ _ _ _ E) as [Hu Hw].
    destruct (ext_step_grounded e gs idx u w es fs) as [G Eid]; try assumption.
    { apply H1; [left; reflexivity|exact Hu]. }
    eapply IH; [exact H1'|exact H2'| |exact Hv]. intros k s Hk. rewrite slookup_sinsert in Hk.
    destruct (String.eqb_spec k (uid w)) as [->|N]; [rewrite Eid; exact G|eapply H3, Hk].
Qed.
Definition gr_inv (e : env) (gs cur : list ugroup) : Prop :=
  forall v, In v cur -> (is_settled v = false -> In v gs) /\ (is_settled v = true -> grounded e gs (uid v)).
Lemma gr_inv_start e gs : gr_inv e gs gs.
Proof.
  intros v Hv. split; [intros _; exact Hv|]. intros Hs. apply is_settled_spec in Hs as [H1 H2].
  apply gr_group; [exact Hv| |].
  - intros p Hp. rewrite H1 in Hp. discriminate.
  - intros i Hi. rewrite H2 in Hi. destruct Hi.
Qed.
Lemma gr_inv_index e gs cur k s : gr_inv e gs cur -> slookup k (start_index cur) = Some s -> grounded e gs k.
Proof. intros H Hk. apply start_index_sound in Hk as (w & Hw & Hs & <- & _). apply (H w Hw), Hs. Qed.
Lemma gr_inv_step e gs cur : gr_inv e gs cur -> gr_inv e gs (rd_groups (ext_groups e (start_index cur) cur)).
Proof.
  intros H v Hv. eapply ext_groups_grounded; [| | |exact Hv].
  - intros u Hu. apply (H u Hu).
  - intros u Hu. apply (H u Hu).
  - intros k s. apply gr_inv_index, H.
Qed.
Lemma gr_inv_done e gs n : forall cur fatal gs', gr_inv e gs cur -> ext_loop n e cur fatal = Done gs' -> gr_inv e gs gs'.
Proof.
  induction n as [|n IH]; intros cur fatal gs' Hg H; cbn [ext_loop] in H; [discriminate|].
  pose proof (gr_inv_step _ _ _ Hg) as Hg'.
  set (d := ext_groups e (start_index cur) cur) in *.
  destruct (rd_errors d) as [|e1 es].
  - destruct (app fatal (rd_fatal d)); [|discriminate]. injection H as <-. exact Hg'.
  - destruct (Nat.eqb (rd_count d) 0); [discriminate|]. eapply IH; eassumption.
Qed.
(* the fatal errors are about entity identity *)
Definition identity_err (err : rerr) : Prop := exists r t a role, err = XIdentity r t a role.
Lemma identity_errors_kind u p s err : In err (identity_errors u p s) -> identity_err err.
Proof.
  unfold identity_errors. destruct (ug_is_v2 u && _ && _); [|intros []].
  intros H. assert (Hs : exists x, In x (ug_attrs u) /\ identity_error u p (sm_attributes s) x = Some err).
  { induction (ug_attrs u) as [|x l IH]; cbn [map somes] in H; [destruct H|].
    destruct (identity_error u p (sm_attributes s) x) as [e0|] eqn:E.
    - destruct H as [->|H]; [exists x; split; [left; reflexivity|exact E]|].
      destruct (IH H) as (y & Hy & Ey). exists y. split; [right; exact Hy|exact Ey].
    - destruct (IH H) as (y & Hy & Ey). exists y. split; [right; exact Hy|exact Ey]. }
  destruct Hs as (x & _ & Ex). unfold identity_error in Ex. destruct (ua_spec x) as [r|]; [|discriminate].
  destruct (rs_role r) as [role|]; [|discriminate].
  match type of Ex with (if ?b then _ else _) = _ => destruct b end; [|discriminate].
  injection Ex as <-. exists (uid u), p, (rs_ref r), role. reflexivity.
Qed.
Lemma ext_groups_fatal e l : forall idx err, In err (rd_fatal (ext_groups e idx l)) -> identity_err err.
Proof.
  induction l as [|u l IH]; intros idx err H; cbn [ext_groups] in H; [destruct H|].
  destruct (ext_step e idx u) as [|es|v es fs] eqn:E; cbn [rd_fatal] in H; try (eapply IH, H).
  apply in_app_or in H as [H|H]; [|eapply IH, H].
  unfold ext_step in E. destruct (is_settled u); [discriminate|].
  destruct (collect_included u idx [] (ug_include u)) as [[|] inc]; [|discriminate].
  destruct (g_extends (ug_group u)) as [p|].
  - destruct (lookup_group e idx p) as [s| |t]; try discriminate. destruct (excluded_parent u p s); [discriminate|].
    injection E as _ _ <-. eapply identity_errors_kind, H.
  - injection E as _ _ <-. destruct H.
Qed.
(* failing: in a stuck round, or because of fatal errors only, everything being settled *)
Lemma ext_failed e gs n : forall cur fatal es, gr_inv e gs cur -> progress e gs cur -> Forall identity_err fatal ->
  ext_loop n e cur fatal = Failed es ->
  exists cur' fatal', gr_inv e gs cur' /\ progress e gs cur' /\ Forall identity_err fatal' /\
   ((rd_errors (ext_groups e (start_index cur') cur') = [] /\ es = fatal' /\ es <> []) \/
    (rd_errors (ext_groups e (start_index cur') cur') <> [] /\
     rd_count (ext_groups e (start_index cur') cur') = 0 /\ es = app fatal' (rd_errors (ext_groups e (start_index cur') cur')))).
Proof.
  induction n as [|n IH]; intros cur fatal es Hg Hp Hf H; cbn [ext_loop] in H; [discriminate|].
  pose proof (progress_step _ _ _ Hp) as Hp'. pose proof (gr_inv_step _ _ _ Hg) as Hg'.
  assert (Hf' : Forall identity_err (app fatal (rd_fatal (ext_groups e (start_index cur) cur)))).
  { apply Forall_app. split; [exact Hf|]. apply Forall_forall. intros x Hx. eapply ext_groups_fatal, Hx. }
  set (d := ext_groups e (start_index cur) cur) in *.
  destruct (rd_errors d) as [|e1 es1] eqn:Ee.
  - destruct (app fatal (rd_fatal d)) as [|f fs] eqn:Ef; [discriminate|]. injection H as <-.
    exists cur, (f :: fs). split; [exact Hg|]. split; [exact Hp|]. split; [exact Hf'|]. left. fold d.
    split; [exact Ee|]. split; [reflexivity|discriminate].
  - destruct (Nat.eqb_spec (rd_count d) 0) as [E0|N].
    + injection H as <-. exists cur, (app fatal (rd_fatal d)). split; [exact Hg|]. split; [exact Hp|].
      split; [exact Hf'|]. right. fold d. rewrite Ee. split; [discriminate|]. split; [exact E0|reflexivity].
    + eapply IH; eassumption.
Qed.
(* a finished group has no dangling reference *)
Lemma built_no_dangling e gs cur u v p : gr_inv e gs cur -> built e cur u v -> ~ dangling e gs u p.
Proof.
  intros Hg (par & inc & -> & Hpar & Hinc) [[Hin Hn]|(He & Hn & Ho)].
  - apply Hn. unfold inc_ok in Hinc. clear -Hinc Hin Hg.
    induction Hinc as [|i b is bs [_ (s & (w & Hw & Hws & <- & _) & _)] _ IH]; [destruct Hin|].
    destruct Hin as [<-|Hin]; [apply (Hg w Hw), Hws|apply IH, Hin].
  - unfold par_ok in Hpar. rewrite He in Hpar. destruct par as [[p' s]|]; [|contradiction].
    destruct Hpar as [_ [(w & Hw & Hws & <- & _)|Hof]].
    + apply Hn. apply (Hg w Hw), Hws.
    + apply Ho. eapply offered_offered_by, Hof.
Qed.
Lemma settled_no_dangling e gs u p : is_settled u = true -> ~ dangling e gs u p.
Proof.
  intros Hs [[Hin _]|(He & _)]; apply is_settled_spec in Hs as [H1 H2].
  - rewrite H2 in Hin. destruct Hin.
  - congruence.
Qed.
Lemma grounded_inv e gs id : grounded e gs id -> exists u, In u gs /\ uid u = id /\
  (forall p, g_extends (ug_group u) = Some p -> grounded e gs p \/ (exists l, offered_by e p l)) /\
  (forall i, In i (ug_include u) -> grounded e gs i).
Proof. intros H. destruct H as [u H1 H2 H3]. exists u. auto. Qed.

(* Resolving extends and includes always ends. *)
Theorem C34_extends_terminates : forall e gs, resolve_extends e gs <> Running.
Proof.
  intros e gs. unfold resolve_extends. apply ext_loop_ends.
  unfold unsettled. pose proof (count_if_le (fun u => negb (is_settled u)) gs). lia.
Qed.
Print Assumptions C34_extends_terminates.

(* It succeeds only when nothing is left to resolve, and then every chain of extends and
   includes ends at a group of the registry or of a dependency. *)
Theorem C34_extends_complete : forall e gs gs', resolve_extends e gs = Done gs' ->
  (forall u, In u gs' -> targets u = []) /\
  (forall u p, In u gs -> ~ dangling e gs u p).
Proof.
  intros e gs gs' H. unfold resolve_extends in H.
  destruct (ext_loop_done e gs _ _ _ _ (progress_refl e gs) H) as [Hp Hs].
  pose proof (gr_inv_done _ _ _ _ _ _ (gr_inv_start e gs) H) as Hg.
  split.
  - intros u Hu. apply targets_settled. rewrite Forall_forall in Hs. apply Hs, Hu.
  - intros u p Hu. destruct (forall2_left _ _ _ _ Hp Hu) as (v & Hv & [->|[_ Hb]]).
    + apply settled_no_dangling. rewrite Forall_forall in Hs. apply Hs, Hv.
    + eapply built_no_dangling; eassumption.
Qed.
Print Assumptions C34_extends_complete.

(* When following the extends and includes of a group never ends (a dangling reference or a
   cycle), resolution fails, and the errors name that group and reference, or a conflict
   between the groups it includes. *)
Theorem C34_extends_unresolvable : forall e gs u p,
  In u gs -> dangling e gs u p ->
  exists es, resolve_extends e gs = Failed es /\
    (In p (ug_include u) -> In (XUnresolvedInclude (g_id (ug_group u)) p) es) /\
    (g_extends (ug_group u) = Some p -> ~ (exists l, offered_by e p l) ->
       In (XUnresolvedExtends (g_id (ug_group u)) p) es \/
       (exists t, In (XExcluded p t (g_id (ug_group u))) es) \/
       (exists err, In err es /\ include_error u err)).
Proof.
  intros e gs u p Hu Hd.
  assert (Hng : ~ grounded e gs p) by (destruct Hd as [[_ H]|(_ & H & _)]; exact H).
  destruct (resolve_extends e gs) as [gs'|es|] eqn:E.
  - exfalso. destruct (C34_extends_complete _ _ _ E) as [_ H]. apply (H u p Hu Hd).
  - exists es. split; [reflexivity|]. unfold resolve_extends in E.
    destruct (ext_failed e gs _ _ _ _ (gr_inv_start e gs) (progress_refl e gs) (Forall_nil _) E)
      as (cur & fatal & Hg & Hp & _ & Hcase).
    assert (Hs : is_settled u = false).
    { destruct (is_settled u) eqn:Es; [|reflexivity]. exfalso. apply (settled_no_dangling e gs u p Es Hd). }
    assert (Hcur : In u cur).
    { destruct (forall2_left _ _ _ _ Hp Hu) as (v & Hv & [->|[_ Hb]]); [exact Hv|]. exfalso.
      apply (built_no_dangling _ _ _ _ _ _ Hg Hb Hd). }
    assert (Hnone : slookup p (start_index cur) = None).
    { destruct (slookup p (start_index cur)) as [s|] eqn:El; [|reflexivity].
      exfalso. apply Hng. eapply gr_inv_index; eassumption. }
    destruct Hcase as [(He & _ & _)|(_ & H0 & Hes)].
    + exfalso. assert (Hall := ext_groups_clean e cur (start_index cur) He).
      destruct (ext_groups_inv e cur [] (start_index cur)) as [_ B].
      { intros k s Hk. apply start_index_sound, Hk. }
      cbv zeta in B. cbn [app] in B.
      assert (Gr := gr_inv_step _ _ _ Hg).
      destruct (forall2_left _ _ _ _ B Hcur) as (v & Hv & [->|[_ Hb]]).
      * rewrite Forall_forall in Hall. specialize (Hall u Hv). congruence.
      * apply (built_no_dangling _ _ _ _ _ _ Gr Hb Hd).
    + destruct (ext_groups_stuck e cur (start_index cur) H0) as (_ & _ & C & _).
      destruct (C u Hcur Hs) as (es1 & Hstep & Hincl).
      assert (Hall : incl es1 es) by (intros x Hx; rewrite Hes; apply in_or_app; right; apply Hincl, Hx).
      unfold ext_step in Hstep. rewrite Hs in Hstep.
      pose proof (collect_included_missing u (start_index cur) (ug_include u) p) as Hmiss.
      pose proof (collect_included_errors u (start_index cur) (ug_include u) (fun x H => H) []) as Herrs.
      destruct (collect_included u (start_index cur) [] (ug_include u)) as [ces inc] eqn:Ec. cbn [fst] in *.
      split.
      * intros Hpi. specialize (Hmiss Hpi Hnone []). rewrite Ec in Hmiss. cbn [fst] in Hmiss.
        destruct ces as [|e1 es2]; [destruct Hmiss|]. injection Hstep as <-. apply Hall, Hmiss.
      * intros He Hno. destruct ces as [|e1 es2].
        -- rewrite He in Hstep. unfold lookup_group in Hstep. rewrite Hnone in Hstep.
           destruct (find_in_deps e p (ev_deps e) None) as [s| |t] eqn:Ef.
           ++ exfalso. apply Hno.
              apply find_in_deps_spec in Ef as (d & H1 & H2 & H3). exists (sm_attributes s), d, s. auto.
           ++ injection Hstep as <-. left. apply Hall. left. reflexivity.
           ++ injection Hstep as <-. right. left. exists (group_type_text t). apply Hall. left. reflexivity.
        -- injection Hstep as <-. right. right. exists e1. split; [apply Hall; left; reflexivity|].
           apply (Herrs e1). left. reflexivity.
  - exfalso. apply (C34_extends_terminates e gs E).
Qed.
Print Assumptions C34_extends_unresolvable.

(* what a group that has to wait reports *)
Lemma ext_step_wait e idx u es err : ext_step e idx u = Wait es -> In err es ->
  include_error u err \/ (exists p, g_extends (ug_group u) = Some p /\ slookup p idx = None /\
     err = XUnresolvedExtends (uid u) p /\ (forall l, ~ offered_by e p l)) \/ (exists i t g, err = XExcluded i t g).
Proof.
  unfold ext_step. destruct (is_settled u); [discriminate|].
  pose proof (collect_included_errors u idx (ug_include u) (fun x H => H) []) as Herrs.
  destruct (collect_included u idx [] (ug_include u)) as [ces inc]. cbn [fst] in Herrs.
  destruct ces as [|e1 es2].
  - destruct (g_extends (ug_group u)) as [p|]; [|discriminate].
    destruct (lookup_group e idx p) as [s| |t] eqn:El.
    + destruct (excluded_parent u p s) as [err0|] eqn:Ex; [|discriminate]. intros H. injection H as <-.
      intros [<-|[]]. apply excluded_parent_err in Ex as [t ->]. right. right. exists p, t, (uid u). reflexivity.
    + intros H. injection H as <-. intros [<-|[]]. right. left. exists p. split; [reflexivity|].
      unfold lookup_group in El. destruct (slookup p idx); [discriminate|]. split; [reflexivity|].
      split; [reflexivity|]. intros l (d & s & H1 & H2 & H3 & _).
      destruct (find_in_deps_complete _ _ _ _ _ H1 H2 H3 None) as [s' Hs']. congruence.
    + intros H. injection H as <-. intros [<-|[]]. right. right. exists p, (group_type_text t), (uid u). reflexivity.
  - intros H. injection H as <-. intros Hin. left. apply (Herrs err Hin).
Qed.

(* Conversely, a failure is always due to such a reference, or reports an excluded group, an
   attribute contributed twice by included groups, or a changed entity identity. *)
Theorem C34_extends_failure_justified : forall e gs es, resolve_extends e gs = Failed es ->
  (exists u p, In u gs /\ dangling e gs u p) \/
  (exists err, In err es /\
     ((exists i t g, err = XExcluded i t g) \/ (exists gs a, err = XDuplicateAttr gs a) \/
      (exists r t a role, err = XIdentity r t a role))).
Proof.
  intros e gs es E. unfold resolve_extends in E.
  destruct (ext_failed e gs _ _ _ _ (gr_inv_start e gs) (progress_refl e gs) (Forall_nil _) E)
    as (cur & fatal & Hg & Hp & Hf & [(_ & -> & Hne)|(Hne & H0 & Hes)]).
  { right. destruct fatal as [|err r]; [contradiction|]. exists err. split; [left; reflexivity|].
    right. right. inversion Hf as [|? ? H _]; subst. exact H. }
  destruct (ext_groups_stuck e cur (start_index cur) H0) as (_ & _ & C & D).
  set (errs := rd_errors (ext_groups e (start_index cur) cur)) in *.
  (* either some error is of another kind, or all of them are about missing groups *)
  assert (Dec : (exists err, In err errs /\ ((exists i t g, err = XExcluded i t g) \/ (exists gs a, err = XDuplicateAttr gs a))) \/
                (forall err, In err errs -> (exists g i, err = XUnresolvedInclude g i) \/ (exists g p, err = XUnresolvedExtends g p))).
  { assert (K : forall err, In err errs ->
       ((exists i t g, err = XExcluded i t g) \/ (exists gs a, err = XDuplicateAttr gs a)) \/
       ((exists g i, err = XUnresolvedInclude g i) \/ (exists g p, err = XUnresolvedExtends g p))).
    { intros err Herr. destruct (D err Herr) as (u & es0 & _ & Hst & Hin).
      destruct (ext_step_wait _ _ _ _ _ Hst Hin) as [[(i & _ & ->)|[(i & t & _ & ->)|(a & ->)]]|[(p & _ & _ & -> & _)|H]].
      - right. left. eauto.
      - left. left. eauto.
      - left. right. eauto.
      - right. right. eauto.
      - left. left. exact H. }
    clear -K. induction errs as [|x l IH]; [right; intros err []|].
    destruct IH as [(err & H1 & H2)|IH].
    - intros err H. apply K. right. exact H.
    - left. exists err. split; [right; exact H1|exact H2].
    - destruct (K x (or_introl eq_refl)) as [Hx|Hx].
      + left. exists x. split; [left; reflexivity|exact Hx].
      + right. intros err [<-|Herr]; [exact Hx|apply IH, Herr]. }
  destruct Dec as [(err & H1 & H2)|Honly].
  { right. exists err. split; [rewrite Hes; apply in_or_app; right; exact H1|]. tauto. }
  left.
  (* all grounded ids are in the index *)
  assert (Hstuck : forall u, In u cur -> is_settled u = false ->
            (forall p, g_extends (ug_group u) = Some p -> (exists s, slookup p (start_index cur) = Some s) \/ (exists l, offered_by e p l)) ->
            (forall i, In i (ug_include u) -> exists s, slookup i (start_index cur) = Some s) -> False).
  { intros u Hu Hs Hext Hinc. destruct (C u Hu Hs) as (es1 & Hst & Hincl).
    assert (Hall : forall err, In err es1 -> False).
    { intros err Herr. destruct (Honly err (Hincl err Herr)) as [(g & i & Eq)|(g & p & Eq)].
      - unfold ext_step in Hst. rewrite Hs in Hst.
        pose proof (collect_included_errors u (start_index cur) (ug_include u) (fun x H => H) []) as Herrs.
        destruct (collect_included u (start_index cur) [] (ug_include u)) as [ces inc]. cbn [fst] in Herrs.
        destruct ces as [|e1 es2].
        + destruct (g_extends (ug_group u)) as [p|]; [|discriminate].
          destruct (lookup_group e (start_index cur) p) as [s| |t].
          * destruct (excluded_parent u p s) as [e0|] eqn:Ex; [|discriminate]. injection Hst as <-.
            destruct Herr as [<-|[]]. apply excluded_parent_err in Ex as [t Ht]. congruence.
          * injection Hst as <-. destruct Herr as [<-|[]]. discriminate.
          * injection Hst as <-. destruct Herr as [<-|[]]. discriminate.
        + injection Hst as <-. destruct (Herrs err Herr) as [Hk Hno]. subst err.
          destruct Hk as [(j & Hj & Eq)|[(j & t & _ & Eq)|(a & Eq)]]; try discriminate.
          injection Eq as Eq1 Eq2. subst i g. destruct (Hinc j Hj) as [s Hs']. specialize (Hno j eq_refl). congruence.
      - destruct (ext_step_wait _ _ _ _ _ Hst Herr) as [[(i & _ & Eq')|[(i & t & _ & Eq')|(a & Eq')]]|[(q & Hq & Hn & Eq' & Hoff)|(i & t & g' & Eq')]]; try congruence.
        destruct (Hext q Hq) as [[s Hs']|[l Hl]]; [congruence|]. apply (Hoff l Hl). }
    destruct es1 as [|e1 r]; [|apply (Hall e1); left; reflexivity].
    unfold ext_step in Hst. rewrite Hs in Hst.
    destruct (collect_included u (start_index cur) [] (ug_include u)) as [[|] inc]; [|discriminate].
    destruct (g_extends (ug_group u)) as [p|]; [|discriminate].
    destruct (lookup_group e (start_index cur) p) as [s| |t]; try discriminate.
    destruct (excluded_parent u p s); discriminate. }
  assert (Hidx : forall id, grounded e gs id -> exists s, slookup id (start_index cur) = Some s).
  { fix IHg 2. intros id Hid. destruct Hid as [u Hu Hext Hinc].
    destruct (forall2_left _ _ _ _ Hp Hu) as (v & Hv & Hcase).
    destruct (is_settled v) eqn:Es.
    - assert (Eid : uid v = g_id (ug_group u)).
      { destruct Hcase as [->|[_ (par & inc & -> & _)]]; [reflexivity|apply finish_uid]. }
      rewrite <- Eid. apply start_index_complete; assumption.
    - destruct Hcase as [->|[_ (par & inc & -> & _)]]; [|rewrite finish_settled in Es; discriminate].
      exfalso. apply (Hstuck u Hv Es).
      + intros p Hp'. destruct (Hext p Hp') as [Hgp|Hof]; [left; apply IHg, Hgp|right; exact Hof].
      + intros i Hi. apply IHg, Hinc, Hi. }
  (* some group is stuck, so one of its targets is missing *)
  destruct errs as [|e1 r] eqn:Eerr; [contradiction|].
  destruct (D e1) as (u & es0 & Hu & Hst & Hin); [left; reflexivity|].
  assert (Hs : is_settled u = false).
  { unfold ext_step in Hst. destruct (is_settled u); [discriminate|reflexivity]. }
  assert (Hugs : In u gs) by (apply (Hg u Hu), Hs).
  destruct (ext_step_wait _ _ _ _ _ Hst Hin) as [Hinc|[(p & He & Hn & -> & Hoff)|(i & t & g & ->)]].
  - destruct (Honly e1 (or_introl eq_refl)) as [(g & i & Eq)|(g & p & Eq)].
    + exists u, i. assert (Hi : In i (ug_include u)).
      { destruct Hinc as [(j & Hj & Eq')|[(j & t & _ & Eq')|(a & Eq')]]; congruence. }
      split; [exact Hugs|]. left. split; [exact Hi|].
      assert (Hnone : slookup i (start_index cur) = None).
      { unfold ext_step in Hst. rewrite Hs in Hst.
        pose proof (collect_included_errors u (start_index cur) (ug_include u) (fun x H => H) []) as Herrs.
        destruct (collect_included u (start_index cur) [] (ug_include u)) as [ces inc]. cbn [fst] in Herrs.
        destruct ces as [|c1 ces].
        - destruct (g_extends (ug_group u)) as [p|]; [|discriminate].
          destruct (lookup_group e (start_index cur) p) as [s| |t].
          + destruct (excluded_parent u p s) as [e0|] eqn:Ex; [|discriminate]. injection Hst as <-.
            destruct Hin as [<-|[]]. apply excluded_parent_err in Ex as [t Ht]. congruence.
          + injection Hst as <-. destruct Hin as [<-|[]]. discriminate.
          + injection Hst as <-. destruct Hin as [<-|[]]. discriminate.
        - injection Hst as <-. destruct (Herrs e1 Hin) as [Hk Hno].
          destruct Hk as [(j & Hj & Eq')|[(j & t & _ & Eq')|(a & Eq')]]; try congruence.
          rewrite Eq' in Eq. injection Eq as _ <-. apply Hno. exact Eq'. }
      intros Hgr; destruct (Hidx i Hgr) as [s Hs']; congruence.
    + exfalso. destruct Hinc as [(j & Hj & Eq')|[(j & t & _ & Eq')|(a & Eq')]]; congruence.
  - exists u, p. split; [exact Hugs|]. right. split; [exact He|].
    split; [intros Hgr; destruct (Hidx p Hgr) as [s Hs']; congruence|].
    intros [l Hl]. apply (Hoff l Hl).
  - exfalso. destruct (Honly _ (or_introl eq_refl)) as [(g' & j & Eq)|(g' & q & Eq)]; discriminate.
Qed.
Print Assumptions C34_extends_failure_justified.

(* ---------- all ancestors ---------- *)
Lemma forall2_combine {A B} (R : A -> B -> Prop) l l' : Forall2 R l l' ->
  (forall x y, In (x, y) (combine l l') -> R x y /\ In x l /\ In y l') /\
  (forall x, In x l -> exists y, In (x, y) (combine l l')) /\
  (forall y, In y l' -> exists x, In (x, y) (combine l l')).
Proof.
  induction 1 as [|a b l l' Hab _ (IH1 & IH2 & IH3)]; cbn [combine].
  - repeat split; intros; contradiction.
  - split; [|split].
    + intros x y [H|H].
      * injection H as <- <-. split; [exact Hab|]. split; left; reflexivity.
      * destruct (IH1 x y H) as (H1 & H2 & H3). split; [exact H1|]. split; right; assumption.
    + intros x [->|H]; [exists b; left; reflexivity|]. destruct (IH2 x H) as [y Hy]. exists y. right. exact Hy.
    + intros y [->|H]; [exists a; left; reflexivity|]. destruct (IH3 y H) as [x Hx]. exists x. right. exact Hx.
Qed.
Lemma combine_of_forall2 {A B} (R : A -> B -> Prop) l l' : length l = length l' ->
  (forall x y, In (x, y) (combine l l') -> R x y) -> Forall2 R l l'.
Proof.
  revert l'. induction l as [|a l IH]; intros [|b l'] Hl H; try discriminate; constructor.
  - apply H. left. reflexivity.
  - apply IH; [injection Hl as Hl; exact Hl|]. intros x y Hxy. apply H. right. exact Hxy.
Qed.
Lemma forall2_length {A B} (R : A -> B -> Prop) l l' : Forall2 R l l' -> length l = length l'.
Proof. induction 1; cbn [length]; congruence. Qed.
Lemma nodup_uid_eq (gs : list ugroup) u v : NoDup (map (fun u => g_id (ug_group u)) gs) -> In u gs -> In v gs ->
  g_id (ug_group u) = g_id (ug_group v) -> u = v.
Proof.
  induction gs as [|w gs IH]; cbn [map]; intros Hn Hu Hv E; [destruct Hu|].
  inversion Hn as [|? ? Hw Hn']; subst. destruct Hu as [->|Hu], Hv as [->|Hv]; try reflexivity.
  - exfalso. apply Hw. rewrite E. apply in_map_iff. exists v. auto.
  - exfalso. apply Hw. rewrite <- E. apply in_map_iff. exists u. auto.
  - apply IH; assumption.
Qed.
Lemma base_lists_members e gs u bases : base_lists e gs u bases -> ev_deps e = [] ->
  (forall l, In l bases -> exists p, In p (targets u) /\ settled_in gs p l) /\
  (forall p, In p (targets u) -> exists l, In l bases /\ settled_in gs p l).
Proof.
  intros (par & inc & -> & Hpar & Hinc) Hd.
  assert (Hof : forall p l, ~ offered_by e p l) by (intros p l (d & s & H & _); rewrite Hd in H; destruct H).
  unfold targets. split.
  - intros l Hl. apply in_app_or in Hl as [Hl|Hl].
    + destruct (g_extends (ug_group u)) as [p|].
      * destruct Hpar as (l0 & -> & [H|H]); [|exfalso; apply (Hof _ _ H)].
        destruct Hl as [->|[]]. exists p. split; [left; reflexivity|exact H].
      * subst par. destruct Hl.
    + destruct (forall2_right _ _ _ _ Hinc Hl) as (i & Hi & H). exists i. split; [apply in_or_app; right; exact Hi|exact H].
  - intros p Hp. apply in_app_or in Hp as [Hp|Hp].
    + destruct (g_extends (ug_group u)) as [q|]; [|destruct Hp]. destruct Hp as [->|[]].
      destruct Hpar as (l0 & -> & [H|H]); [|exfalso; apply (Hof _ _ H)].
      exists l0. split; [left; reflexivity|exact H].
    + destruct (forall2_left _ _ _ _ Hinc Hp) as (l & Hl & H). exists l. split; [apply in_or_app; right; exact Hl|exact H].
Qed.

(* In a registry without dependencies whose group ids are distinct, a resolved group has
   exactly the attributes it or one of its ancestors, at any depth, lists. *)
Theorem C33_ancestors : forall e gs gs', ev_deps e = [] -> NoDup (map (fun u => g_id (ug_group u)) gs) ->
  resolve_extends e gs = Done gs' ->
  Forall2 (fun u u' => forall x, In x (attr_ids u') <-> provides gs u x) gs gs'.
Proof.
  intros e gs gs' Hd Hn H. pose proof (C33_inheritance_partial _ _ _ H) as F.
  pose proof (forall2_length _ _ _ F) as Hlen.
  destruct (forall2_combine _ _ _ F) as (P1 & P2 & P3).
  assert (Hids : map (fun u => g_id (ug_group u)) gs' = map (fun u => g_id (ug_group u)) gs).
  { clear -F. induction F as [|u u' l l' (E & _) _ IH]; cbn [map]; [reflexivity|]. rewrite E, IH. reflexivity. }
  assert (Hn' : NoDup (map (fun u => g_id (ug_group u)) gs')) by (rewrite Hids; exact Hn).
  assert (Hpair : forall v w, In (v, w) (combine gs gs') -> g_id (ug_group w) = g_id (ug_group v)) by (intros v w Hvw; apply (P1 v w Hvw)).
  apply combine_of_forall2; [exact Hlen|]. intros u u' Huu x. split.
  - (* from the result to the ancestors, along the grounding *)
    assert (G : forall p, grounded e gs p -> forall v v', In (v, v') (combine gs gs') -> g_id (ug_group v) = p ->
              forall y, In y (attr_ids v') -> provides gs v y).
    { fix IH 2. intros p Hp. destruct Hp as [w Hw Hext Hinc]. intros v v' Hvv Eid y Hy.
      destruct (P1 v v' Hvv) as ((_ & _ & Hsame & Hinh) & Hv & Hv').
      assert (v = w) by (apply (nodup_uid_eq gs); assumption). subst w.
      destruct (targets v) as [|t ts] eqn:Et.
      - rewrite (Hsame eq_refl) in Hy. unfold attr_ids in Hy. apply in_map_iff in Hy as (a & <- & Ha). apply pv_own, Ha.
      - destruct Hinh as (bases & Hb & _ & Hin & _); [discriminate|].
        apply Hin in Hy. rewrite map_app in Hy. apply in_app_or in Hy as [Hy|Hy].
        + apply in_map_iff in Hy as (a & <- & Ha). apply in_concat in Ha as (l & Hl & Ha).
          destruct (base_lists_members _ _ _ _ Hb Hd) as [M _]. destruct (M l Hl) as (q & Hq & (z & Hz & Ez & _ & _ & El)).
          destruct (P3 z Hz) as [z0 Hzz]. pose proof (Hpair _ _ Hzz) as Ez0. destruct (P1 _ _ Hzz) as (_ & Hz0 & _).
          apply (pv_inherit gs v z0); [rewrite <- Ez0, Ez; exact Hq|exact Hz0|].
          assert (Hya : In (spec_id (ua_spec a)) (attr_ids z)).
          { unfold attr_ids. rewrite <- El. apply in_map_iff. exists a. auto. }
          assert (Eq : g_id (ug_group z0) = q) by congruence.
          unfold targets in Hq. apply in_app_or in Hq as [Hq|Hq].
          * destruct (g_extends (ug_group v)) as [q'|] eqn:Ee; [|destruct Hq]. destruct Hq as [->|[]].
            destruct (Hext q eq_refl) as [Hgq|(l' & d & s & Hdd & _)]; [|rewrite Hd in Hdd; destruct Hdd].
            exact (IH q Hgq z0 z Hzz Eq _ Hya).
          * exact (IH q (Hinc q Hq) z0 z Hzz Eq _ Hya).
        + apply in_map_iff in Hy as (a & <- & Ha). apply pv_own, Ha. }
    intros Hx. destruct (P1 u u' Huu) as (_ & Hu & _).
    assert (Hgr : grounded e gs (g_id (ug_group u))).
    { destruct (C34_extends_complete _ _ _ H) as [Hall _].
      unfold resolve_extends in H. pose proof (gr_inv_done _ _ _ _ _ _ (gr_inv_start e gs) H) as Hg.
      destruct (P1 u u' Huu) as (_ & _ & Hu'). specialize (Hg u' Hu'). rewrite <- (Hpair _ _ Huu).
      apply Hg, targets_settled, Hall, Hu'. }
    apply (G _ Hgr u u' Huu eq_refl x Hx).
  - intros Hp. revert u' Huu. induction Hp as [u a Ha|u v x Hin Hv Hp IH]; intros u' Huu;
      destruct (P1 u u' Huu) as ((_ & _ & Hsame & Hinh) & Hu & Hu').
    + destruct (targets u) as [|t ts] eqn:Et.
      * rewrite (Hsame eq_refl). unfold attr_ids. apply in_map_iff. exists a. auto.
      * destruct Hinh as (bases & _ & _ & Hids' & _); [discriminate|]. apply Hids'. rewrite map_app.
        apply in_or_app. right. apply in_map_iff. exists a. auto.
    + assert (Ht : targets u <> []) by (intros E; rewrite E in Hin; destruct Hin).
      destruct (Hinh Ht) as (bases & Hb & _ & Hids' & _). apply Hids'. rewrite map_app. apply in_or_app. left.
      destruct (base_lists_members _ _ _ _ Hb Hd) as [_ M]. destruct (M _ Hin) as (l & Hl & (z & Hz & Ez & _ & _ & El)).
      destruct (P2 v Hv) as [v' Hvv]. destruct (P1 _ _ Hvv) as (_ & _ & Hv').
      assert (z = v') by (apply (nodup_uid_eq gs'); try assumption; rewrite (Hpair _ _ Hvv); exact Ez). subst z.
      specialize (IH v' Hvv). unfold attr_ids in IH. apply in_map_iff in IH as (a & <- & Ha).
      apply in_map_iff. exists a. split; [reflexivity|]. apply in_concat. exists l. split; [exact Hl|].
      rewrite El. exact Ha.
Qed.
Print Assumptions C33_ancestors.

(* ---------- concrete registries ---------- *)
(* a chain of three groups, listed children first, with an include *)
Definition reg33 : list ugroup :=
  [sample_group "c" GSpan None (Some "b") ["extra"] [sample_ref "x" (Some "from c"); sample_id "own" "c only"];
   sample_group "b" GSpan None (Some "a") [] [sample_ref "x" (Some "from b"); sample_ref "y" None];
   sample_group "a" GAttributeGroup None None [] [sample_id "x" "from a"; sample_id "y" "why"];
   sample_group "extra" GAttributeGroup None None [] [sample_ref "z" None]].
Example C33_case : exists gs', resolve_extends no_env reg33 = Done gs' /\
  map attr_ids gs' = [["own"; "x"; "y"; "z"]; ["x"; "y"]; ["x"; "y"]; ["z"]] /\
  map (fun u => map (fun a => brief_of (ua_spec a)) (ug_attrs u)) gs' =
    [[Some "c only"; Some "from c"; Some "why"; None]; [Some "from b"; Some "why"]; [Some "from a"; Some "why"]; [None]] /\
  NoDup (map (fun u => g_id (ug_group u)) reg33) /\ ev_deps no_env = [].
Proof.
  eexists. split; [vm_compute; reflexivity|]. split; [reflexivity|]. split; [reflexivity|]. split; [|reflexivity].
  repeat constructor; cbn; intuition discriminate.
Qed.

(* a cycle and a dangling include *)
Definition reg34 : list ugroup :=
  [sample_group "a" GSpan None (Some "b") [] []; sample_group "b" GSpan None (Some "a") [] [];
   sample_group "c" GSpan None None ["nowhere"] []].
Example C34_cycle_case : exists es, resolve_extends no_env reg34 = Failed es /\
  In (XUnresolvedExtends "a" "b") es /\ In (XUnresolvedExtends "b" "a") es /\ In (XUnresolvedInclude "c" "nowhere") es.
Proof. eexists. split; [vm_compute; reflexivity|]. cbn. intuition. Qed.
Example C34_dangling_case : dangling no_env reg34 (sample_group "a" GSpan None (Some "b") [] []) "b" /\
  dangling no_env reg34 (sample_group "c" GSpan None None ["nowhere"] []) "nowhere".
Proof.
  assert (N : forall p, grounded no_env reg34 p -> p <> "a" /\ p <> "b" /\ p <> "c" /\ p <> "nowhere").
  { fix IH 2. intros p Hp. destruct Hp as [u Hu Hext Hinc].
    destruct Hu as [<-|[<-|[<-|[]]]].
    - exfalso. destruct (Hext "b" eq_refl) as [H|(l & d & s & [] & _)]. destruct (IH _ H) as (_ & F & _). apply F. reflexivity.
    - exfalso. destruct (Hext "a" eq_refl) as [H|(l & d & s & [] & _)]. destruct (IH _ H) as (F & _). apply F. reflexivity.
    - exfalso. destruct (IH _ (Hinc "nowhere" (or_introl eq_refl))) as (_ & _ & _ & F). apply F. reflexivity. }
  split.
  - right. split; [reflexivity|]. split; [intros H; destruct (N _ H) as (_ & F & _); apply F; reflexivity|].
    intros (l & d & s & [] & _).
  - left. split; [left; reflexivity|]. intros H. destruct (N _ H) as (_ & _ & _ & F). apply F. reflexivity.
Qed.

(* C33 for the prefix flag is false: the reference asks for the prefix of its group, but the
   inherited attribute is a definition, and the request is dropped. *)
Definition prefixed_ref (id : string) : attr_spec :=
  SRef {| rs_ref := id; rs_brief := None; rs_examples := None; rs_tag := None; rs_req := None;
          rs_sampling := None; rs_note := None; rs_stability := None; rs_deprecated := None;
          rs_prefix := true; rs_annotations := None; rs_role := None |}.
Theorem C33_prefix_flag_refuted :
  ~ (forall e gs gs', resolve_extends e gs = Done gs' ->
       Forall2 (fun u u' => forall a, In a (ug_attrs u) -> prefix_of (ua_spec a) = true ->
                  exists a', In a' (ug_attrs u') /\ ua_id a' = ua_id a /\ prefix_of (ua_spec a') = true) gs gs').
Proof.
  intros H.
  specialize (H no_env [sample_group "a" GAttributeGroup None None [] [sample_id "x" "from a"];
                        sample_group "b" GSpan None (Some "a") [] [prefixed_ref "x"]] _ eq_refl).
  inversion H as [|? ? ? ? _ H1]; subst. inversion H1 as [|? ? ? ? H2 _]; subst.
  destruct (H2 {| ua_spec := prefixed_ref "x"; ua_origin := None |}) as (a' & Ha & _ & Hp);
    [left; reflexivity|reflexivity|].
  destruct Ha as [<-|[]]. discriminate Hp.
Qed.
Print Assumptions C33_prefix_flag_refuted.

(* ---------- C68: refinements of another kind ---------- *)
(* A refinement has the kind of the signal it refines, or is rejected: false.  The error is
   recorded in a round in which the refinement is finished all the same; the next round starts
   with a clean list, so it is never reported. *)
Theorem C68_kind_mismatch_never_reported : forall e gs es r t, resolve_extends e gs = Failed es ->
  ~ In (XInvalidRefinement r t) es.
Proof.
  intros e gs es r t E Hin. unfold resolve_extends in E.
  destruct (ext_failed e gs _ _ _ _ (gr_inv_start e gs) (progress_refl e gs) (Forall_nil _) E)
    as (cur & fatal & Hg & Hp & Hf & [(_ & -> & Hne)|(Hne & H0 & Hes)]).
  - rewrite Forall_forall in Hf. destruct (Hf _ Hin) as (a & b & c & d & Eq). discriminate.
  - rewrite Hes in Hin. apply in_app_or in Hin as [Hin|Hin].
    + rewrite Forall_forall in Hf. destruct (Hf _ Hin) as (a & b & c & d & Eq). discriminate.
    + destruct (ext_groups_stuck e cur (start_index cur) H0) as (_ & _ & _ & D).
      destruct (D _ Hin) as (u & es0 & _ & Hst & Hin0).
      destruct (ext_step_wait _ _ _ _ _ Hst Hin0) as [[(i & _ & Eq)|[(i & t' & _ & Eq)|(a & Eq)]]|[(p & _ & _ & Eq & _)|(i & t' & g & Eq)]]; discriminate.
Qed.
Print Assumptions C68_kind_mismatch_never_reported.

Definition v2_refinement (id target : string) (t : group_type) : ugroup :=
  let u := sample_group id t None (Some target) [] [] in
  {| ug_group := ug_group u; ug_attrs := ug_attrs u; ug_include := ug_include u;
     ug_visibility := ug_visibility u; ug_is_v2 := true; ug_provenance := ug_provenance u |}.
Definition reg68 : list ugroup :=
  [sample_group "metric.load" GSpan None None [] [sample_id "x" "an attribute"];
   v2_refinement "load.refined" "metric.load" GMetric].
Theorem C68_refinement_kind_refuted :
  ~ (forall e gs gs', resolve_extends e gs = Done gs' ->
       forall u p v, In u gs -> ug_is_v2 u = true -> g_extends (ug_group u) = Some p -> In v gs ->
         g_id (ug_group v) = p -> g_type (ug_group u) = g_type (ug_group v)).
Proof.
  intros H.
  assert (E : exists gs', resolve_extends no_env reg68 = Done gs') by (eexists; vm_compute; reflexivity).
  destruct E as [gs' E].
  specialize (H no_env reg68 gs' E (v2_refinement "load.refined" "metric.load" GMetric) "metric.load"
                (sample_group "metric.load" GSpan None None [] [sample_id "x" "an attribute"])).
  discriminate H; try reflexivity; cbn; auto.
Qed.
Print Assumptions C68_refinement_kind_refuted.

(* The unresolvable reference itself is not always among the errors: a group that includes two
   groups with an attribute in common is reported for that, and the group it extends, which does
   not exist, is never mentioned. *)
Definition reg34m : list ugroup :=
  [sample_group "a" GAttributeGroup None None [] [sample_id "x" "ex"]; sample_group "b" GAttributeGroup None None [] [sample_id "x" "ex"];
   sample_group "s" GSpan None (Some "nowhere") ["a"; "b"] []].
Theorem C34_masked_refuted : ~ (forall e gs u p, In u gs -> dangling e gs u p -> g_extends (ug_group u) = Some p ->
  exists es, resolve_extends e gs = Failed es /\
    (In (XUnresolvedExtends (g_id (ug_group u)) p) es \/ exists t, In (XExcluded p t (g_id (ug_group u))) es)).
Proof.
  intros H. destruct (H no_env reg34m (sample_group "s" GSpan None (Some "nowhere") ["a"; "b"] []) "nowhere") as (es & E & F).
  - right. right. left. reflexivity.
  - right. split; [reflexivity|]. split; [|intros (l & d & s & [] & _)].
    intros G. inversion G as [u Hu _ _ Eid]. destruct Hu as [<-|[<-|[<-|[]]]]; discriminate Eid.
  - reflexivity.
  - vm_compute in E. injection E as <-. destruct F as [[F|[]]|(t & [F|[]])]; discriminate F.
Qed.
Print Assumptions C34_masked_refuted.
