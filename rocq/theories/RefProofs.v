(* Lemmas about the resolution of attribute references. *)
From Coq Require Import String Ascii Bool Arith Lia Permutation Sorted NArith List.
Import ListNotations.
From Verif Require Import Base BaseProofs BaseProofs2 Json SemTypes Resolved Semver DefModel ResolveModel ResolveSpec
  ResolveProofs ExtProofs.
Local Open Scope string_scope.

(* ---------- errors ---------- *)
Lemma latest_major_err n v a b err : latest_major n v a b = Bad err -> conflict_error err.
Proof.
  unfold latest_major. destruct (negb _); [intros H; injection H as <-; exact I|].
  destruct (v a); [|intros H; injection H as <-; exact I].
  destruct (v b); [|intros H; injection H as <-; exact I].
  destruct (N.eqb _ _); [discriminate|]. intros H; injection H as <-; exact I.
Qed.
Lemma resolve_conflict_got e k m x w : resolve_conflict e k m x = Got w -> w = m \/ w = x.
Proof.
  unfold resolve_conflict. destruct (negb _).
  - destruct (opt_excluded _); intros H; injection H as <-; auto.
  - destruct (ws_def m), (ws_def x); try (intros H; injection H as <-; solve [auto]);
    (destruct (ws_source m), (ws_source x); try (intros H; injection H as <-; solve [auto]);
     destruct (latest_major _ _ _ _) as [w0|]; [|discriminate]; destruct (String.eqb w0 url0); intros H; injection H as <-; auto).
Qed.
Lemma resolve_conflict_err e k m x err : resolve_conflict e k m x = Bad err -> conflict_error err.
Proof.
  unfold resolve_conflict. destruct (negb _); [discriminate|].
  destruct (ws_def m), (ws_def x); try discriminate;
    (destruct (ws_source m), (ws_source x); try discriminate;
     destruct (latest_major _ _ _ _) as [w0|]; [destruct (String.eqb w0 url0); discriminate|]; intros H; injection H as <-; exact I).
Qed.
Lemma fold_matches_err e k l : forall acc err, fold_matches e k acc l = Bad err -> conflict_error err.
Proof.
  induction l as [|m l IH]; intros acc err H; cbn [fold_matches] in H; [discriminate|].
  destruct acc as [x|]; [|eapply IH, H]. destruct (_ || _); [eapply IH, H|].
  destruct (resolve_conflict e k m x) as [w|er] eqn:E; cbn [rr_bind] in H; [eapply IH, H|].
  injection H as <-. eapply resolve_conflict_err, E.
Qed.
Lemma collect_matches_err e k ds err : collect_matches e k ds = Bad err -> conflict_error err.
Proof.
  induction ds as [|d ds IH]; cbn [collect_matches]; [discriminate|].
  destruct (dep_lookup_attr e d k) as [o|er] eqn:E; cbn [rr_bind].
  - destruct (collect_matches e k ds) as [l|er]; cbn [rr_bind]; [discriminate|]. exact IH.
  - intros H. injection H as <-. unfold dep_lookup_attr in E. destruct d as [s roots|s]; [|discriminate].
    destruct (lookup_attr1 e s roots k) as [at_|]; [|discriminate]. destruct (ws_source at_); [|discriminate].
    destruct (ev_parse e (s1_url s)); [discriminate|]. injection E as <-. exact I.
Qed.
Lemma deps_lookup_err e k err : deps_lookup_attr e k = Bad err -> conflict_error err.
Proof.
  unfold deps_lookup_attr. destruct (collect_matches e k (ev_deps e)) as [l|er] eqn:E; cbn [rr_bind].
  - apply fold_matches_err.
  - intros H. injection H as <-. eapply collect_matches_err, E.
Qed.
Lemma upgrade_err e s err : upgrade_attr e s = Bad err -> conflict_error err.
Proof.
  unfold upgrade_attr. destruct (ws_source s) as [|u]; [discriminate|].
  destruct (ev_chosen e (ev_name e u)) as [ch|]; [|discriminate]. destruct (String.eqb ch u); [discriminate|].
  destruct (latest_major _ _ u ch) as [w|er] eqn:E; cbn [rr_bind].
  - destruct (String.eqb w ch); [|discriminate]. destruct (ev_cached e ch) as [d|]; [|discriminate].
    destruct (schema_lookup_attr e d _); [discriminate|]. intros H. injection H as <-. exact I.
  - intros H. injection H as <-. eapply latest_major_err, E.
Qed.

(* ---------- one attribute ---------- *)
Definition roots_ok (e : env) (gs : list ugroup) (c : catalog) : Prop :=
  forall k s, slookup k (ct_roots c) = Some s -> ws_def s = true -> defines e gs k (ws_attr s).
Definition root_def (c : catalog) (k : string) : Prop :=
  exists s, slookup k (ct_roots c) = Some s /\ ws_def s = true.
Definition roots_plain (c : catalog) : Prop :=
  forall k s, slookup k (ct_roots c) = Some s -> opt_excluded (at_annotations (ws_attr s)) = false.

Lemma attribute_of_id_from i : from_definition i (attribute_of_id i).
Proof. unfold from_definition, attribute_of_id. cbn. repeat split. Qed.
Lemma apply_ref_from r d n : from_reference r n d (apply_ref r d n).
Proof.
  unfold from_reference, apply_ref. cbn.
  destruct (rs_brief r), (rs_examples r), (rs_tag r), (rs_req r), (rs_sampling r), (rs_note r), (rs_stability r),
    (rs_deprecated r), (rs_annotations r), (rs_role r); repeat split.
Qed.
Lemma set_root_at k s c k' : slookup k' (ct_roots (set_root k s c)) = if String.eqb k' k then Some s else slookup k' (ct_roots c).
Proof. apply slookup_sinsert. Qed.

(* the definition a reference finds *)
Definition find_root (e : env) (x : string) (c : catalog) : rr (option (sourced * catalog)) :=
  match (match slookup x (ct_roots c) with Some s => if ws_def s then Some s else None | None => None end) with
  | Some s => Got (Some (s, c))
  | None =>
    rr_bind (deps_lookup_attr e x)
      (fun o => match o with
                | Some s => rr_bind (upgrade_attr e s) (fun s' => Got (Some (s', set_root x s' c)))
                | None => Got None
                end)
  end.
Lemma find_root_some e gs x c s c1 : roots_ok e gs c -> cat_ok c -> find_root e x c = Got (Some (s, c1)) ->
  defines e gs x (ws_attr s) /\ roots_ok e gs c1 /\ cat_ok c1 /\ cat_le c c1 /\ (forall k, root_def c k -> root_def c1 k).
Proof.
  intros Hr Hc. unfold find_root.
  destruct (match slookup x (ct_roots c) with Some s => if ws_def s then Some s else None | None => None end) as [s0|] eqn:E.
  - intros H. injection H as <- <-. destruct (slookup x (ct_roots c)) as [s1|] eqn:El; [|discriminate].
    destruct (ws_def s1) eqn:Ed; [|discriminate]. injection E as <-. split; [eapply Hr; eassumption|].
    split; [exact Hr|]. split; [exact Hc|]. split; [apply cat_le_refl|auto].
  - destruct (deps_lookup_attr e x) as [[s1|]|err] eqn:Ed; cbn [rr_bind]; try discriminate.
    destruct (upgrade_attr e s1) as [s2|err] eqn:Eu; cbn [rr_bind]; try discriminate.
    intros H. injection H as <- <-. assert (D : defines e gs x (ws_attr s2)) by (eapply df_dep; eassumption).
    split; [exact D|]. split; [|split; [exact Hc|split; [apply set_root_le|]]].
    + intros k s0. rewrite set_root_at. destruct (String.eqb_spec k x) as [->|]; [|apply Hr].
      intros H _. injection H as <-. exact D.
    + intros k (s0 & H1 & H2). unfold root_def. rewrite set_root_at. destruct (String.eqb_spec k x) as [->|]; [|eauto].
      exfalso. rewrite H1, H2 in E. discriminate.
Qed.
Lemma find_root_none e x c : find_root e x c = Got None -> ~ root_def c x /\ deps_lookup_attr e x = Got None.
Proof.
  unfold find_root. destruct (slookup x (ct_roots c)) as [s|] eqn:El.
  - destruct (ws_def s) eqn:Ed; [discriminate|]. intros H. split.
    + intros (s1 & H1 & H2). congruence.
    + destruct (deps_lookup_attr e x) as [[s1|]|err]; cbn [rr_bind] in H; try discriminate; [|reflexivity].
      destruct (upgrade_attr e s1); discriminate.
  - intros H. split.
    + intros (s1 & H1 & H2). congruence.
    + destruct (deps_lookup_attr e x) as [[s1|]|err]; cbn [rr_bind] in H; try discriminate; [|reflexivity].
      destruct (upgrade_attr e s1); discriminate.
Qed.
Lemma find_root_err e x c err : find_root e x c = Bad err -> conflict_error err.
Proof.
  unfold find_root. destruct (match slookup x (ct_roots c) with Some s => if ws_def s then Some s else None | None => None end); [discriminate|].
  destruct (deps_lookup_attr e x) as [[s1|]|er] eqn:E; cbn [rr_bind]; try discriminate.
  - destruct (upgrade_attr e s1) as [|er] eqn:Eu; cbn [rr_bind]; [discriminate|]. intros H. injection H as <-. eapply upgrade_err, Eu.
  - intros H. injection H as <-. eapply deps_lookup_err, E.
Qed.

Definition full (gp : string) (r : ref_spec) : string := if rs_prefix r then gp ++ "." ++ rs_ref r else rs_ref r.
Lemma resolve_ref_eq e gid gp gx a c r : ua_spec a = SRef r ->
  resolve_attr e gid gp gx a c =
  rr_bind (find_root e (rs_ref r) c)
      (fun found =>
         match found with
         | None => Got None
         | Some (root, c1) =>
           let texcl := opt_excluded (at_annotations (ws_attr root)) in
           let fails := match ws_source root with SDep _ => texcl | SLocal _ => texcl && negb gx end in
           if fails then Bad (XExcluded (rs_ref r) "Attribute" gid)
           else
             let name := full gp r in
             let res := apply_ref r (ws_attr root) name in
             let '(ar, c2) := attribute_ref res c1 in
             let lin := ref_lineage r (ws_attr root) (al_new (source_label e (ws_source root))) in
             let c3 := if rs_prefix r
                       then set_root name {| ws_attr := res; ws_source := SLocal gid; ws_def := true |} c2
                       else c2 in
             Got (Some (ar, c3, Some (name, lin)))
         end).
Proof. intros E. unfold resolve_attr. rewrite E. reflexivity. Qed.

Lemma resolve_ref_some e gs u a r c gid gx ar c' en : roots_ok e gs c -> cat_ok c -> In u gs -> In a (ug_attrs u) ->
  ua_spec a = SRef r -> resolve_attr e gid (g_prefix (ug_group u)) gx a c = Got (Some (ar, c', en)) ->
  (exists d, denotes c' ar d /\ resolved_as e gs u a d) /\ roots_ok e gs c' /\ cat_ok c' /\ cat_le c c' /\
  (forall k, root_def c k -> root_def c' k) /\ (rs_prefix r = true -> root_def c' (full_name u r)).
Proof.
  intros Hr Hc Hu Ha E. rewrite (resolve_ref_eq _ _ _ _ _ _ _ E).
  destruct (find_root e (rs_ref r) c) as [[[s c1]|]|err] eqn:Ef; cbn [rr_bind]; try discriminate.
  destruct (find_root_some _ _ _ _ _ _ Hr Hc Ef) as (D & R1 & C1 & L1 & M1).
  cbv zeta. destruct (match ws_source s with SDep _ => _ | SLocal _ => _ end); [discriminate|].
  change (full (g_prefix (ug_group u)) r) with (full_name u r).
  destruct (attribute_ref _ c1) as [ar0 c2] eqn:Er.
  destruct (attribute_ref_ok _ _ _ _ C1 Er) as (C2 & L2 & D2 & R2). intros H. injection H as <- <- _.
  assert (F : from_reference r (full_name u r) (ws_attr s) (apply_ref r (ws_attr s) (full_name u r))) by apply apply_ref_from.
  split; [|split; [|split; [|split; [|split]]]].
  - exists (apply_ref r (ws_attr s) (full_name u r)). split; [destruct (rs_prefix r); exact D2|].
    unfold resolved_as. rewrite E. exists (ws_attr s). split; assumption.
  - destruct (rs_prefix r) eqn:Ep.
    + intros k s0. rewrite set_root_at. rewrite R2. destruct (String.eqb_spec k (full_name u r)) as [->|]; [|apply R1].
      intros H _. injection H as <-. cbn [ws_attr]. eapply df_prefix; eassumption.
    + intros k s0. rewrite R2. apply R1.
  - destruct (rs_prefix r); exact C2.
  - destruct (rs_prefix r); eapply cat_le_trans; eassumption.
  - intros k Hk. apply M1 in Hk. destruct Hk as (s0 & H1 & H2). unfold root_def. destruct (rs_prefix r).
    + rewrite set_root_at, R2. destruct (String.eqb k (full_name u r)); eauto.
    + rewrite R2. eauto.
  - intros Ep. rewrite Ep. unfold root_def. rewrite set_root_at, String.eqb_refl. eauto.
Qed.
Lemma resolve_ref_none e a r c gid gp gx : ua_spec a = SRef r ->
  resolve_attr e gid gp gx a c = Got None -> ~ root_def c (rs_ref r) /\ deps_lookup_attr e (rs_ref r) = Got None.
Proof.
  intros E. rewrite (resolve_ref_eq _ _ _ _ _ _ _ E).
  destruct (find_root e (rs_ref r) c) as [[[s c1]|]|err] eqn:Ef; cbn [rr_bind]; try discriminate.
  - cbv zeta. destruct (match ws_source s with SDep _ => _ | SLocal _ => _ end); [discriminate|].
    destruct (attribute_ref _ c1). discriminate.
  - intros _. apply find_root_none, Ef.
Qed.
Lemma resolve_attr_err e a c gid gp gx err : resolve_attr e gid gp gx a c = Bad err ->
  is_excluded_err err = true \/ conflict_error err.
Proof.
  destruct (ua_spec a) as [r|i] eqn:E.
  - rewrite (resolve_ref_eq _ _ _ _ _ _ _ E).
    destruct (find_root e (rs_ref r) c) as [[[s c1]|]|er] eqn:Ef; cbn [rr_bind]; try discriminate.
    + cbv zeta. destruct (match ws_source s with SDep _ => _ | SLocal _ => _ end);
        [intros H; injection H as <-; left; reflexivity|]. destruct (attribute_ref _ c1). discriminate.
    + intros H. injection H as <-. right. eapply find_root_err, Ef.
  - unfold resolve_attr. rewrite E. destruct (negb gx && _); [intros H; injection H as <-; left; reflexivity|].
    destruct (slookup (is_id i) (ct_roots c)) as [x|]; cbn [rr_bind].
    + destruct (resolve_conflict _ _ _ x) as [w|er] eqn:Ec; cbn [rr_bind].
      * destruct (attribute_ref _ _). discriminate.
      * intros H. injection H as <-. right. eapply resolve_conflict_err, Ec.
    + destruct (attribute_ref _ _). discriminate.
Qed.

Lemma resolve_id_some e gs u a i c gid gp gx ar c' en : roots_ok e gs c -> cat_ok c -> In u gs -> In a (ug_attrs u) ->
  ua_spec a = SId i -> resolve_attr e gid gp gx a c = Got (Some (ar, c', en)) ->
  (exists d, denotes c' ar d /\ resolved_as e gs u a d) /\ roots_ok e gs c' /\ cat_ok c' /\ cat_le c c' /\
  (opt_excluded (is_annotations i) = false -> roots_plain c ->
    roots_plain c' /\ (forall k, root_def c k -> root_def c' k) /\ (ua_origin a = None -> root_def c' (is_id i))).
Proof.
  intros Hr Hc Hu Ha E. unfold resolve_attr. rewrite E. destruct (negb gx && _); [discriminate|].
  set (root := {| ws_attr := attribute_of_id i; ws_source := _; ws_def := _ |}).
  destruct (match slookup (is_id i) (ct_roots c) with Some x => resolve_conflict e (is_id i) root x | None => Got root end)
    as [w|er] eqn:Ew; cbn [rr_bind]; [|discriminate].
  destruct (attribute_ref _ _) as [ar0 c2] eqn:Er.
  destruct (attribute_ref_ok _ _ _ _ (set_root_ok (is_id i) w c Hc) Er) as (C2 & L2 & D2 & R2).
  intros H. injection H as <- <- _.
  assert (Hw : w = root \/ slookup (is_id i) (ct_roots c) = Some w).
  { destruct (slookup (is_id i) (ct_roots c)) as [x|] eqn:El.
    - apply resolve_conflict_got in Ew as [->| ->]; auto.
    - injection Ew as <-. auto. }
  split; [|split; [|split; [|split]]].
  - exists (attribute_of_id i). split; [exact D2|]. unfold resolved_as. rewrite E. apply attribute_of_id_from.
  - intros k s. rewrite R2, set_root_at. destruct (String.eqb_spec k (is_id i)) as [->|]; [|apply Hr].
    intros H Hd. injection H as <-. destruct Hw as [->|Hw]; [|eapply Hr; eassumption].
    cbn [ws_attr root]. eapply df_local; [exact Hu|exact Ha|exact E| |apply attribute_of_id_from].
    unfold root in Hd. cbn [ws_def] in Hd. destruct (ua_origin a); [discriminate|reflexivity].
  - exact C2.
  - exact L2.
  - intros Hx Hp. split; [|split].
    + intros k s. rewrite R2, set_root_at. destruct (String.eqb_spec k (is_id i)) as [->|]; [|apply Hp].
      intros H. injection H as <-. destruct Hw as [->|Hw]; [exact Hx|]. eapply Hp, Hw.
    + intros k (s & H1 & H2). unfold root_def. rewrite R2, set_root_at. destruct (String.eqb_spec k (is_id i)) as [->|]; [|eauto].
      exists w. split; [reflexivity|]. rewrite H1 in Ew. destruct Hw as [->|Hw]; [|congruence].
      (* the conflict was won by the new one *)
      unfold resolve_conflict in Ew. rewrite (Hp _ _ H1) in Ew. unfold root at 1 in Ew. cbn [ws_attr attribute_of_id at_annotations] in Ew.
      rewrite Hx in Ew. cbn in Ew. rewrite H2 in Ew. unfold root. cbn [ws_def]. destruct (ua_origin a); [|reflexivity].
      cbn in Ew. injection Ew as Ew. rewrite Ew in H2. exact H2.
    + intros Ho. unfold root_def. rewrite R2, set_root_at, String.eqb_refl. exists w. split; [reflexivity|].
      destruct (slookup (is_id i) (ct_roots c)) as [x|] eqn:El.
      * unfold resolve_conflict in Ew. rewrite (Hp _ _ El) in Ew. unfold root at 1 in Ew.
        cbn [ws_attr attribute_of_id at_annotations] in Ew. rewrite Hx in Ew. cbn in Ew. rewrite Ho in Ew. cbn in Ew.
        destruct (ws_def x) eqn:Ed; [|injection Ew as <-; unfold root; cbn; rewrite Ho; reflexivity].
        destruct Hw as [->|Hw]; [unfold root; cbn; rewrite Ho; reflexivity|]. injection Hw as <-. exact Ed.
      * injection Ew as <-. unfold root. cbn. rewrite Ho. reflexivity.
Qed.
Lemma resolve_id_none e a i c gid gp gx : ua_spec a = SId i -> resolve_attr e gid gp gx a c <> Got None.
Proof.
  intros E. unfold resolve_attr. rewrite E. destruct (negb gx && _); [discriminate|].
  match goal with |- rr_bind ?X _ <> _ => destruct X end; cbn [rr_bind]; [|discriminate].
  destruct (attribute_ref _ _). discriminate.
Qed.

(* ---------- one group ---------- *)
Definition rattr (e : env) (u : ugroup) (a : uattr) (c : catalog) :=
  resolve_attr e (uid u) (g_prefix (ug_group u)) (ug_excluded u) a c.
(* the ways one attribute is dealt with *)
Lemma visit_cons e b u a l c lin v : visit_attrs e b u (a :: l) c lin = Got v ->
  (exists ar c' en lin' v', (b = false \/ is_id_spec a = true) /\ rattr e u a c = Got (Some (ar, c', en)) /\
     visit_attrs e b u l c' lin' = Got v' /\
     vs_resolved v = ar :: vs_resolved v' /\ vs_left v = vs_left v' /\ vs_errors v = vs_errors v' /\ vs_catalog v = vs_catalog v') \/
  (exists v' es, visit_attrs e b u l c lin = Got v' /\ vs_resolved v = vs_resolved v' /\ vs_left v = a :: vs_left v' /\
     vs_errors v = app es (vs_errors v') /\ vs_catalog v = vs_catalog v' /\
     ((b = true /\ is_id_spec a = false /\ es = []) \/
      (b = false /\ exists r, ua_spec a = SRef r /\ rattr e u a c = Got None /\ es = [XUnresolvedAttr (uid u) (rs_ref r)]) \/
      ((b = false \/ is_id_spec a = true) /\ exists err, rattr e u a c = Bad err /\ is_excluded_err err = true /\ es = [err]))).
Proof.
  intros H. cbn [visit_attrs] in H. fold (rattr e u a c) in H. destruct (b && negb (is_id_spec a)) eqn:Eb.
  - right. apply andb_true_iff in Eb as [-> Eb]. apply negb_true_iff in Eb.
    destruct (visit_attrs e true u l c lin) as [v'|er]; cbn [rr_bind] in H; [|discriminate]. injection H as <-.
    exists v', []. cbn. repeat split; auto.
  - assert (Hb : b = false \/ is_id_spec a = true).
    { destruct b; [right; apply negb_false_iff, Eb|left; reflexivity]. }
    destruct (rattr e u a c) as [[[[ar c'] en]|]|err] eqn:Er.
    + left. match type of H with rr_bind ?X _ = _ => destruct X as [v'|er] eqn:Ev end; cbn [rr_bind] in H; [|discriminate].
      injection H as <-. exists ar, c', en. eexists. exists v'. split; [exact Hb|]. split; [reflexivity|].
      split; [exact Ev|]. cbn. auto.
    + right. match type of H with rr_bind ?X _ = _ => destruct X as [v'|er] eqn:Ev end; cbn [rr_bind] in H; [|discriminate].
      injection H as <-. destruct (ua_spec a) as [r|i] eqn:Es; [|exfalso; eapply resolve_id_none; eassumption].
      assert (b = false) as -> by (destruct Hb as [Hb|Hb]; [exact Hb|unfold is_id_spec in Hb; rewrite Es in Hb; discriminate]).
      exists v', [XUnresolvedAttr (uid u) (rs_ref r)]. cbn. repeat split; auto. right. left. split; [reflexivity|].
      exists r. auto.
    + right. destruct (is_excluded_err err) eqn:Ex; [|discriminate].
      match type of H with rr_bind ?X _ = _ => destruct X as [v'|er] eqn:Ev end; cbn [rr_bind] in H; [|discriminate].
      injection H as <-. exists v', [err]. cbn. repeat split; auto. right. right. split; [exact Hb|]. exists err. auto.
Qed.
Lemma visit_attrs_err e b u l : forall c lin err, visit_attrs e b u l c lin = Bad err -> conflict_error err.
Proof.
  induction l as [|a l IH]; intros c lin err H; cbn [visit_attrs] in H; [discriminate|].
  destruct (b && negb (is_id_spec a)).
  - destruct (visit_attrs e b u l c lin) as [v'|er] eqn:Ev; cbn [rr_bind] in H; [discriminate|]. injection H as <-. eapply IH, Ev.
  - destruct (resolve_attr e (uid u) (g_prefix (ug_group u)) (ug_excluded u) a c) as [[[[ar c'] en]|]|er] eqn:Er.
    + match type of H with rr_bind ?X _ = _ => destruct X as [v'|er] eqn:Ev end; cbn [rr_bind] in H; [discriminate|].
      injection H as <-. eapply IH, Ev.
    + match type of H with rr_bind ?X _ = _ => destruct X as [v'|er] eqn:Ev end; cbn [rr_bind] in H; [discriminate|].
      injection H as <-. eapply IH, Ev.
    + destruct (is_excluded_err er) eqn:Ex.
      * match type of H with rr_bind ?X _ = _ => destruct X as [v'|er'] eqn:Ev end; cbn [rr_bind] in H; [discriminate|].
        injection H as <-. eapply IH, Ev.
      * injection H as <-. destruct (resolve_attr_err _ _ _ _ _ _ _ Er) as [Hx|Hx]; [congruence|exact Hx].
Qed.

(* soundness of what is resolved *)
Lemma forall2_denotes_le c c' rs ds : cat_le c c' -> Forall2 (denotes c) rs ds -> Forall2 (denotes c') rs ds.
Proof. intros L. apply Forall2_impl. intros r d. apply denotes_le, L. Qed.
Lemma rattr_some e gs u0 u a c ar c' en : roots_ok e gs c -> cat_ok c -> In u0 gs -> In a (ug_attrs u0) ->
  g_prefix (ug_group u) = g_prefix (ug_group u0) -> rattr e u a c = Got (Some (ar, c', en)) ->
  (exists d, denotes c' ar d /\ resolved_as e gs u0 a d) /\ roots_ok e gs c' /\ cat_ok c' /\ cat_le c c'.
Proof.
  intros Hr Hc Hu Ha Hp H. unfold rattr in H. rewrite Hp in H. destruct (ua_spec a) as [r|i] eqn:Es.
  - destruct (resolve_ref_some _ _ _ _ _ _ _ _ _ _ _ Hr Hc Hu Ha Es H) as (A & B & C & D & _). auto.
  - destruct (resolve_id_some _ _ _ _ _ _ _ _ _ _ _ _ Hr Hc Hu Ha Es H) as (A & B & C & D & _). auto.
Qed.
Lemma visit_attrs_sound e gs b u0 u l : In u0 gs -> g_prefix (ug_group u) = g_prefix (ug_group u0) ->
  forall c lin v, incl l (ug_attrs u0) -> roots_ok e gs c -> cat_ok c -> visit_attrs e b u l c lin = Got v ->
  exists done ds, Permutation l (app done (vs_left v)) /\ Forall2 (denotes (vs_catalog v)) (vs_resolved v) ds /\
    Forall2 (resolved_as e gs u0) done ds /\ roots_ok e gs (vs_catalog v) /\ cat_ok (vs_catalog v) /\ cat_le c (vs_catalog v).
Proof.
  intros Hu Hp. induction l as [|a l IH]; intros c lin v Hi Hr Hc H.
  - cbn in H. injection H as <-. cbn. exists [], []. repeat split; try constructor; try apply Hc; auto. apply cat_le_refl.
  - assert (Hi' : incl l (ug_attrs u0)) by (intros x Hx; apply Hi; right; exact Hx).
    destruct (visit_cons _ _ _ _ _ _ _ _ H) as
      [(ar & c' & en & lin' & v' & _ & Er & Ev & E1 & E2 & E3 & E4)|(v' & es & Ev & E1 & E2 & E3 & E4 & _)].
    + destruct (rattr_some e gs u0 u a c ar c' en Hr Hc Hu (Hi a (or_introl eq_refl)) Hp Er) as ((d & D1 & D2) & R1 & C1 & L1).
      destruct (IH _ _ _ Hi' R1 C1 Ev) as (done & ds & P & F1 & F2 & R2 & C2 & L2).
      exists (a :: done), (d :: ds). rewrite E1, E2, E4. split; [cbn; constructor; exact P|].
      split; [constructor; [eapply denotes_le; eassumption|exact F1]|]. split; [constructor; assumption|].
      split; [exact R2|]. split; [exact C2|]. eapply cat_le_trans; eassumption.
    + destruct (IH _ _ _ Hi' Hr Hc Ev) as (done & ds & P & F1 & F2 & R2 & C2 & L2).
      exists done, ds. rewrite E1, E2, E4. split; [|auto]. rewrite P. apply Permutation_middle.
Qed.

(* ---------- the groups ---------- *)
(* how far a group is resolved *)
Definition part (e : env) (gs : list ugroup) (c : catalog) (u0 u : ugroup) : Prop :=
  uid u = uid u0 /\ g_prefix (ug_group u) = g_prefix (ug_group u0) /\ ug_excluded u = ug_excluded u0 /\
  exists done ds, Permutation (ug_attrs u0) (app done (ug_attrs u)) /\
    Forall2 (denotes c) (g_attributes (ug_group u)) ds /\ Forall2 (resolved_as e gs u0) done ds.
Lemma part_le e gs c c' u0 u : cat_le c c' -> part e gs c u0 u -> part e gs c' u0 u.
Proof.
  intros L (A & B & X & done & ds & P & F & G). repeat split; auto. exists done, ds. repeat split; auto.
  eapply forall2_denotes_le; eassumption.
Qed.
Lemma forall2_app_both {A B} (R : A -> B -> Prop) a b c d : Forall2 R a b -> Forall2 R c d -> Forall2 R (app a c) (app b d).
Proof. intros H1 H2. induction H1; cbn; [exact H2|constructor; assumption]. Qed.
Lemma visit_groups_part e gs b l0 : forall l c p, incl l0 gs -> Forall2 (part e gs c) l0 l -> roots_ok e gs c -> cat_ok c ->
  visit_groups e b l c = Got p ->
  Forall2 (part e gs (ps_catalog p)) l0 (ps_groups p) /\ roots_ok e gs (ps_catalog p) /\ cat_ok (ps_catalog p) /\ cat_le c (ps_catalog p).
Proof.
  induction l0 as [|u0 l0 IH]; intros l c p Hi Hf Hr Hc H.
  - inversion Hf; subst. cbn in H. injection H as <-. cbn. repeat split; try constructor; try apply Hc; auto. apply cat_le_refl.
  - inversion Hf as [|? u ? l' Hpu Hf']; subst. cbn [visit_groups] in H.
    destruct (visit_attrs e b u (ug_attrs u) c (g_lineage (ug_group u))) as [v|er] eqn:Ev; cbn [rr_bind] in H; [|discriminate].
    destruct (visit_groups e b l' (vs_catalog v)) as [q|er] eqn:Eq; cbn [rr_bind] in H; [|discriminate].
    destruct Hpu as (A & B & X & done & ds & P & F & G).
    assert (Hia : incl (ug_attrs u) (ug_attrs u0)).
    { intros x Hx. apply (Permutation_in x (Permutation_sym P)). apply in_or_app. right. exact Hx. }
    destruct (visit_attrs_sound e gs b u0 u (ug_attrs u) (Hi u0 (or_introl eq_refl)) B _ _ _ Hia Hr Hc Ev)
      as (done' & ds' & P' & F' & G' & R1 & C1 & L1).
    assert (Hf'' : Forall2 (part e gs (vs_catalog v)) l0 l').
    { revert Hf'. apply Forall2_impl. intros x y. apply part_le, L1. }
    destruct (IH _ _ _ (fun x Hx => Hi x (or_intror Hx)) Hf'' R1 C1 Eq) as (Q1 & Q2 & Q3 & Q4).
    injection H as <-. cbn [ps_groups ps_catalog]. split; [|split; [exact Q2|split; [exact Q3|eapply cat_le_trans; eassumption]]].
    constructor; [|exact Q1]. unfold part. cbn. split; [exact A|]. split; [exact B|]. split; [exact X|].
    exists (app done done'), (app ds ds'). split; [|split].
    + rewrite P, P'. rewrite app_assoc. reflexivity.
    + apply forall2_app_both; [|eapply forall2_denotes_le; eassumption].
      eapply forall2_denotes_le; [|exact F]. eapply cat_le_trans; eassumption.
    + apply forall2_app_both; assumption.
Qed.
Lemma refs_loop_part e gs init n : forall l c gs' c', Forall2 (part e gs c) gs l -> roots_ok e gs c -> cat_ok c ->
  refs_loop n e init l c = Done (gs', c') -> Forall2 (part e gs c') gs gs' /\ cat_ok c'.
Proof.
  induction n as [|n IH]; intros l c gs' c' Hf Hr Hc H; cbn [refs_loop] in H; [discriminate|].
  destruct (visit_groups e false l c) as [p|err] eqn:Ev; [|discriminate].
  destruct (visit_groups_part e gs false gs _ _ _ (fun x Hx => Hx) Hf Hr Hc Ev) as (A & B & C & _).
  destruct (app init (ps_errors p)) as [|e1 es].
  - injection H as <- <-. auto.
  - destruct (Nat.eqb (ps_count p) 0); [discriminate|]. eapply IH; eassumption.
Qed.

(* a pass without errors leaves nothing *)
Lemma visit_attrs_clean e u l : forall c lin v, visit_attrs e false u l c lin = Got v -> vs_errors v = [] -> vs_left v = [].
Proof.
  induction l as [|a l IH]; intros c lin v H He.
  - cbn in H. injection H as <-. reflexivity.
  - destruct (visit_cons _ _ _ _ _ _ _ _ H) as
      [(ar & c' & en & lin' & v' & _ & Er & Ev & E1 & E2 & E3 & E4)|(v' & es & Ev & E1 & E2 & E3 & E4 & Hc)].
    + rewrite E2. eapply IH; [exact Ev|]. congruence.
    + rewrite E3 in He. apply app_eq_nil in He as [-> _].
      destruct Hc as [(Hb & _)|[(_ & r & _ & _ & Hes)|(_ & err & _ & _ & Hes)]]; discriminate.
Qed.
Lemma visit_groups_clean e gs : forall c p, visit_groups e false gs c = Got p -> ps_errors p = [] ->
  Forall (fun u => ug_attrs u = []) (ps_groups p).
Proof.
  induction gs as [|u gs IH]; intros c p H He; cbn [visit_groups] in H.
  - injection H as <-. constructor.
  - destruct (visit_attrs e false u (ug_attrs u) c (g_lineage (ug_group u))) as [v|er] eqn:Ev; cbn [rr_bind] in H; [|discriminate].
    destruct (visit_groups e false gs (vs_catalog v)) as [q|er] eqn:Eq; cbn [rr_bind] in H; [|discriminate].
    injection H as <-. cbn [ps_errors ps_groups] in *. apply app_eq_nil in He as [H1 H2].
    constructor; [|eapply IH; eassumption]. cbn. eapply visit_attrs_clean; eassumption.
Qed.
Lemma refs_loop_clean e init n : forall l c gs' c', refs_loop n e init l c = Done (gs', c') ->
  Forall (fun u => ug_attrs u = []) gs' /\ init = [].
Proof.
  induction n as [|n IH]; intros l c gs' c' H; cbn [refs_loop] in H; [discriminate|].
  destruct (visit_groups e false l c) as [p|err] eqn:Ev; [|discriminate].
  destruct (app init (ps_errors p)) as [|e1 es] eqn:Ea.
  - injection H as <- <-. apply app_eq_nil in Ea as [H1 H2]. split; [|exact H1]. eapply visit_groups_clean; eassumption.
  - destruct (Nat.eqb (ps_count p) 0); [discriminate|]. eapply IH, H.
Qed.
Lemma refs_loop_ends e init n : forall l c, cat_ok c -> refs_ok c l -> pending l < n -> refs_loop n e init l c <> Running.
Proof.
  induction n as [|n IH]; intros l c Hc Hr Hn; [lia|]. cbn [refs_loop].
  destruct (visit_groups e false l c) as [p|err] eqn:Ev; [|discriminate].
  destruct (visit_groups_ok _ _ _ _ _ Hc Hr Ev) as (A & _ & B & C).
  destruct (app init (ps_errors p)) as [|e1 es]; [discriminate|].
  destruct (Nat.eqb_spec (ps_count p) 0) as [|N]; [discriminate|]. apply IH; [exact A|exact B|lia].
Qed.

(* ---------- what is left really has no definition ---------- *)
Definition refs_only (l : list uattr) : Prop := forall a, In a l -> is_id_spec a = false.
Lemma visit_refs_known e gs u0 u l : In u0 gs -> g_prefix (ug_group u) = g_prefix (ug_group u0) -> refs_only l ->
  forall c lin v, incl l (ug_attrs u0) -> roots_ok e gs c -> cat_ok c -> visit_attrs e false u l c lin = Got v ->
  (forall k, root_def c k -> root_def (vs_catalog v) k) /\ incl (vs_left v) l /\
  (forall a r, In a l -> ua_spec a = SRef r -> rs_prefix r = true -> In a (vs_left v) \/ root_def (vs_catalog v) (full_name u0 r)).
Proof.
  intros Hu Hp. induction l as [|a l IH]; intros Ho c lin v Hi Hr Hc H.
  - cbn in H. injection H as <-. cbn. split; [auto|]. split; [intros x Hx; exact Hx|intros a r []].
  - assert (Hi' : incl l (ug_attrs u0)) by (intros x Hx; apply Hi; right; exact Hx).
    assert (Ho' : refs_only l) by (intros x Hx; apply Ho; right; exact Hx).
    destruct (ua_spec a) as [r0|i] eqn:Es; [|pose proof (Ho a (or_introl eq_refl)) as Hx; unfold is_id_spec in Hx; rewrite Es in Hx; discriminate].
    destruct (visit_cons _ _ _ _ _ _ _ _ H) as
      [(ar & c' & en & lin' & v' & _ & Er & Ev & E1 & E2 & E3 & E4)|(v' & es & Ev & E1 & E2 & E3 & E4 & _)].
    + unfold rattr in Er. rewrite Hp in Er.
      destruct (resolve_ref_some _ _ _ _ _ _ _ _ _ _ _ Hr Hc Hu (Hi a (or_introl eq_refl)) Es Er) as (_ & R1 & C1 & L1 & M1 & N1).
      destruct (IH Ho' _ _ _ Hi' R1 C1 Ev) as (M & I1 & K). rewrite E2, E4. split; [auto|].
      split; [intros x Hx; right; apply I1, Hx|].
      intros b r [<-|Hb] Hs Hpr; [|eapply K; eassumption]. rewrite Es in Hs. injection Hs as <-. right. apply M, N1, Hpr.
    + destruct (IH Ho' _ _ _ Hi' Hr Hc Ev) as (M & I1 & K). rewrite E2, E4. split; [auto|]. split.
      * intros x [<-|Hx]; [left; reflexivity|right; apply I1, Hx].
      * intros b r [<-|Hb] Hs Hpr; [left; left; reflexivity|]. destruct (K _ _ Hb Hs Hpr); [left; right; assumption|auto].
Qed.
Lemma visit_ids_known e gs u l : In u gs -> no_excluded_attribute gs ->
  forall c lin v, incl l (ug_attrs u) -> roots_ok e gs c -> cat_ok c -> roots_plain c -> visit_attrs e true u l c lin = Got v ->
  (forall k, root_def c k -> root_def (vs_catalog v) k) /\ roots_plain (vs_catalog v) /\ vs_errors v = [] /\
  refs_only (vs_left v) /\ (forall a, In a l -> is_id_spec a = false -> In a (vs_left v)) /\
  (forall a i, In a l -> ua_spec a = SId i -> ua_origin a = None -> root_def (vs_catalog v) (is_id i)).
Proof.
  intros Hu Hx. induction l as [|a l IH]; intros c lin v Hi Hr Hc Hpl H.
  - cbn in H. injection H as <-. cbn. split; [auto|]. split; [exact Hpl|]. split; [reflexivity|].
    split; [intros a []|]. split; [intros a []|intros a i []].
  - assert (Hi' : incl l (ug_attrs u)) by (intros x Hx'; apply Hi; right; exact Hx').
    destruct (visit_cons _ _ _ _ _ _ _ _ H) as
      [(ar & c' & en & lin' & v' & Hb & Er & Ev & E1 & E2 & E3 & E4)|(v' & es & Ev & E1 & E2 & E3 & E4 & Hc')].
    + destruct Hb as [Hb|Hb]; [discriminate|]. unfold is_id_spec in Hb. destruct (ua_spec a) as [|i] eqn:Es; [discriminate|].
      unfold rattr in Er.
      destruct (resolve_id_some _ _ _ _ _ _ _ _ _ _ _ _ Hr Hc Hu (Hi a (or_introl eq_refl)) Es Er) as (_ & R1 & C1 & L1 & N1).
      destruct (N1 (Hx _ _ _ Hu (Hi a (or_introl eq_refl)) Es) Hpl) as (P1 & M1 & D1).
      destruct (IH _ _ _ Hi' R1 C1 P1 Ev) as (M & P & E & O & K & D). rewrite E2, E3, E4. split; [auto|].
      split; [exact P|]. split; [exact E|]. split; [exact O|]. split.
      * intros b [<-|Hb'] Hf; [unfold is_id_spec in Hf; rewrite Es in Hf; discriminate|auto].
      * intros b j [<-|Hb'] Hs Hor; [rewrite Es in Hs; injection Hs as <-; apply M, D1, Hor|eauto].
    + destruct (IH _ _ _ Hi' Hr Hc Hpl Ev) as (M & P & E & O & K & D). rewrite E2, E3, E4.
      destruct Hc' as [(_ & Hf & ->)|[(Hb & _)|(Hb & err & Er & Hxe & _)]]; [|discriminate|].
      * split; [exact M|]. split; [exact P|]. split; [exact E|]. split.
        { intros b [<-|Hb']; [exact Hf|apply O, Hb']. } split.
        { intros b [<-|Hb'] Hf'; [left; reflexivity|right; auto]. }
        intros b j [<-|Hb'] Hs Hor; [unfold is_id_spec in Hf; rewrite Hs in Hf; discriminate|eauto].
      * exfalso. destruct Hb as [Hb|Hb]; [discriminate|]. unfold is_id_spec in Hb. destruct (ua_spec a) as [|i] eqn:Es; [discriminate|].
        unfold rattr, resolve_attr in Er. rewrite Es in Er. rewrite (Hx _ _ _ Hu (Hi a (or_introl eq_refl)) Es) in Er.
        rewrite andb_false_r in Er.
        destruct (slookup (is_id i) (ct_roots c)) as [x|]; cbn [rr_bind] in Er.
        -- destruct (resolve_conflict _ _ _ x) as [w|er] eqn:Ec; cbn [rr_bind] in Er; [destruct (attribute_ref _ _); discriminate|].
           injection Er as <-. apply resolve_conflict_err in Ec. destruct er; try discriminate; destruct Ec.
        -- destruct (attribute_ref _ _). discriminate.
Qed.
Lemma visit_attrs_stuck e u l : forall c lin v, visit_attrs e false u l c lin = Got v -> vs_resolved v = [] ->
  vs_catalog v = c /\
  (forall a, In a l -> (exists r, ua_spec a = SRef r /\ rattr e u a c = Got None /\ In (XUnresolvedAttr (uid u) (rs_ref r)) (vs_errors v)) \/
                       (exists err, is_excluded_err err = true /\ In err (vs_errors v))) /\
  (forall err, In err (vs_errors v) -> is_excluded_err err = true \/
     exists a r, In a l /\ ua_spec a = SRef r /\ rattr e u a c = Got None /\ err = XUnresolvedAttr (uid u) (rs_ref r)).
Proof.
  induction l as [|a l IH]; intros c lin v H H0.
  - cbn in H. injection H as <-. cbn. split; [reflexivity|]. split; [intros a []|intros err []].
  - destruct (visit_cons _ _ _ _ _ _ _ _ H) as
      [(ar & c' & en & lin' & v' & Hb & Er & Ev & E1 & E2 & E3 & E4)|(v' & es & Ev & E1 & E2 & E3 & E4 & Hc')].
    + rewrite E1 in H0. discriminate.
    + rewrite E1 in H0. destruct (IH _ _ _ Ev H0) as (A & B & C). rewrite E3, E4. split; [exact A|]. split.
      * intros b [<-|Hb].
        -- destruct Hc' as [(Hb & _)|[(_ & r & Es & Er & ->)|(_ & err & Er & Hx & ->)]]; [discriminate|left|right].
           ++ exists r. split; [exact Es|]. split; [exact Er|]. left. reflexivity.
           ++ exists err. split; [exact Hx|]. left. reflexivity.
        -- destruct (B _ Hb) as [(r & B1 & B2 & B3)|(err & B1 & B2)]; [left|right].
           ++ exists r. split; [exact B1|]. split; [exact B2|]. apply in_or_app. right. exact B3.
           ++ exists err. split; [exact B1|]. apply in_or_app. right. exact B2.
      * intros err Hin. apply in_app_or in Hin as [Hin|Hin].
        -- destruct Hc' as [(Hb & _)|[(_ & r & Es & Er & ->)|(_ & er & Er & Hx & ->)]]; [discriminate| |].
           ++ destruct Hin as [<-|[]]. right. exists a, r. split; [left; reflexivity|]. auto.
           ++ destruct Hin as [<-|[]]. left. exact Hx.
        -- destruct (C _ Hin) as [Hx|(b & r & H1 & H2 & H3 & H4)]; [left; exact Hx|right].
           exists b, r. split; [right; exact H1|]. auto.
Qed.
Lemma visit_groups_stuck e l : forall c p, visit_groups e false l c = Got p -> ps_count p = 0 ->
  (forall u a, In u l -> In a (ug_attrs u) ->
     (exists r, ua_spec a = SRef r /\ rattr e u a c = Got None /\ In (XUnresolvedAttr (uid u) (rs_ref r)) (ps_errors p)) \/
     (exists err, is_excluded_err err = true /\ In err (ps_errors p))) /\
  (forall err, In err (ps_errors p) -> is_excluded_err err = true \/
     exists u a r, In u l /\ In a (ug_attrs u) /\ ua_spec a = SRef r /\ rattr e u a c = Got None /\ err = XUnresolvedAttr (uid u) (rs_ref r)).
Proof.
  induction l as [|u l IH]; intros c p H H0; cbn [visit_groups] in H.
  - injection H as <-. split; [intros u a []|intros err []].
  - destruct (visit_attrs e false u (ug_attrs u) c (g_lineage (ug_group u))) as [v|er] eqn:Ev; cbn [rr_bind] in H; [|discriminate].
    destruct (visit_groups e false l (vs_catalog v)) as [q|er] eqn:Eq; cbn [rr_bind] in H; [|discriminate].
    injection H as <-. cbn [ps_count ps_errors] in *.
    assert (H1 : vs_resolved v = []) by (destruct (vs_resolved v); [reflexivity|cbn in H0; lia]).
    destruct (visit_attrs_stuck _ _ _ _ _ _ Ev H1) as (A & B & C). rewrite A in Eq.
    destruct (IH _ _ Eq) as (B' & C'); [lia|]. split.
    + intros x a [<-|Hx] Ha.
      * destruct (B _ Ha) as [(r & B1 & B2 & B3)|(err & B1 & B2)]; [left|right].
        -- exists r. split; [exact B1|]. split; [exact B2|]. apply in_or_app. left. exact B3.
        -- exists err. split; [exact B1|]. apply in_or_app. left. exact B2.
      * destruct (B' _ _ Hx Ha) as [(r & B1 & B2 & B3)|(err & B1 & B2)]; [left|right].
        -- exists r. split; [exact B1|]. split; [exact B2|]. apply in_or_app. right. exact B3.
        -- exists err. split; [exact B1|]. apply in_or_app. right. exact B2.
    + intros err Hin. apply in_app_or in Hin as [Hin|Hin].
      * destruct (C _ Hin) as [Hx|(a & r & X1 & X2 & X3 & X4)]; [left; exact Hx|right]. exists u, a, r. split; [left; reflexivity|auto].
      * destruct (C' _ Hin) as [Hx|(x & a & r & X0 & X1 & X2 & X3 & X4)]; [left; exact Hx|right]. exists x, a, r. split; [right; exact X0|auto].
Qed.
Lemma visit_groups_err e b l : forall c err, visit_groups e b l c = Bad err -> conflict_error err.
Proof.
  induction l as [|u l IH]; intros c err H; cbn [visit_groups] in H; [discriminate|].
  destruct (visit_attrs e b u (ug_attrs u) c (g_lineage (ug_group u))) as [v|er] eqn:Ev; cbn [rr_bind] in H.
  - destruct (visit_groups e b l (vs_catalog v)) as [q|er] eqn:Eq; cbn [rr_bind] in H; [discriminate|].
    injection H as <-. eapply IH, Eq.
  - injection H as <-. eapply visit_attrs_err, Ev.
Qed.

(* what the catalog knows of a group that is being resolved *)
Definition known (c : catalog) (u0 u : ugroup) : Prop :=
  refs_only (ug_attrs u) /\
  (forall a r, In a (ug_attrs u0) -> ua_spec a = SRef r -> rs_prefix r = true ->
     In a (ug_attrs u) \/ root_def c (full_name u0 r)) /\
  (forall a i, In a (ug_attrs u0) -> ua_spec a = SId i -> ua_origin a = None -> root_def c (is_id i)).
Lemma known_mono c c' u0 u : (forall k, root_def c k -> root_def c' k) -> known c u0 u -> known c' u0 u.
Proof.
  intros M (A & B & C). split; [exact A|]. split; [|eauto]. intros a r H1 H2 H3.
  destruct (B a r H1 H2 H3); [left; assumption|right; auto].
Qed.
Lemma visit_ids_groups e gs l : no_excluded_attribute gs -> forall c p, incl l gs -> roots_ok e gs c -> cat_ok c -> roots_plain c ->
  visit_groups e true l c = Got p ->
  ps_errors p = [] /\ (forall k, root_def c k -> root_def (ps_catalog p) k) /\ Forall2 (known (ps_catalog p)) l (ps_groups p).
Proof.
  intros Hx. induction l as [|u l IH]; intros c p Hi Hr Hc Hp H; cbn [visit_groups] in H.
  - injection H as <-. cbn. auto.
  - destruct (visit_attrs e true u (ug_attrs u) c (g_lineage (ug_group u))) as [v|er] eqn:Ev; cbn [rr_bind] in H; [|discriminate].
    destruct (visit_groups e true l (vs_catalog v)) as [q|er] eqn:Eq; cbn [rr_bind] in H; [|discriminate].
    pose proof (Hi u (or_introl eq_refl)) as Hu.
    destruct (visit_ids_known e gs u _ Hu Hx _ _ _ (fun x H => H) Hr Hc Hp Ev) as (M & P & E & O & K & D).
    destruct (visit_attrs_sound e gs true u u _ Hu eq_refl _ _ _ (fun x H => H) Hr Hc Ev) as (_ & _ & _ & _ & _ & R1 & C1 & _).
    destruct (IH _ _ (fun x H => Hi x (or_intror H)) R1 C1 P Eq) as (E' & M' & F').
    injection H as <-. cbn [ps_errors ps_catalog ps_groups]. rewrite E, E'. split; [reflexivity|]. split; [auto|].
    constructor; [|exact F']. unfold known. cbn. split; [exact O|]. split; [|eauto].
    intros a r H1 H2 H3. left. apply K; [exact H1|]. unfold is_id_spec. rewrite H2. reflexivity.
Qed.
Lemma visit_refs_groups e gs l0 : forall l c p, incl l0 gs -> Forall2 (part e gs c) l0 l -> Forall2 (known c) l0 l ->
  roots_ok e gs c -> cat_ok c -> visit_groups e false l c = Got p ->
  (forall k, root_def c k -> root_def (ps_catalog p) k) /\ Forall2 (known (ps_catalog p)) l0 (ps_groups p).
Proof.
  induction l0 as [|u0 l0 IH]; intros l c p Hi Hf Hk Hr Hc H.
  - inversion Hf; subst. cbn in H. injection H as <-. cbn. auto.
  - inversion Hf as [|? u ? l' Hpu Hf']; subst. inversion Hk as [|? ? ? ? Hku Hk']; subst. cbn [visit_groups] in H.
    destruct (visit_attrs e false u (ug_attrs u) c (g_lineage (ug_group u))) as [v|er] eqn:Ev; cbn [rr_bind] in H; [|discriminate].
    destruct (visit_groups e false l' (vs_catalog v)) as [q|er] eqn:Eq; cbn [rr_bind] in H; [|discriminate].
    destruct Hpu as (A & B & X & done & ds & P & F & G).
    assert (Hia : incl (ug_attrs u) (ug_attrs u0)).
    { intros x Hx. apply (Permutation_in x (Permutation_sym P)). apply in_or_app. right. exact Hx. }
    pose proof (Hi u0 (or_introl eq_refl)) as Hu0. destruct Hku as (K1 & K2 & K3).
    destruct (visit_attrs_sound e gs false u0 u _ Hu0 B _ _ _ Hia Hr Hc Ev) as (_ & _ & _ & _ & _ & R1 & C1 & L1).
    destruct (visit_refs_known e gs u0 u _ Hu0 B K1 _ _ _ Hia Hr Hc Ev) as (M & I1 & N).
    assert (Hf'' : Forall2 (part e gs (vs_catalog v)) l0 l') by (revert Hf'; apply Forall2_impl; intros x y; apply part_le, L1).
    assert (Hk'' : Forall2 (known (vs_catalog v)) l0 l') by (revert Hk'; apply Forall2_impl; intros x y; apply known_mono, M).
    destruct (IH _ _ _ (fun x Hx => Hi x (or_intror Hx)) Hf'' Hk'' R1 C1 Eq) as (M' & F').
    injection H as <-. cbn [ps_catalog ps_groups]. split; [auto|]. constructor; [|exact F'].
    unfold known. cbn. split; [intros a Ha; apply K1, I1, Ha|]. split.
    + intros a r H1 H2 H3. destruct (K2 a r H1 H2 H3) as [Hin|Hin]; [|right; auto].
      destruct (N a r Hin H2 H3); [left; assumption|right; auto].
    + intros a i H1 H2 H3. apply M', M. eauto.
Qed.
(* in a stuck round everything with a definition is known *)
Lemma stuck_defined e gs l c p : Forall2 (part e gs c) gs l -> Forall2 (known c) gs l ->
  visit_groups e false l c = Got p -> ps_count p = 0 -> (forall err, In err (ps_errors p) -> is_excluded_err err = false) ->
  forall x d, defines e gs x d -> root_def c x \/ exists s, deps_lookup_attr e x = Got (Some s).
Proof.
  intros Hf Hk Ev H0 Hx x d D. destruct (visit_groups_stuck _ _ _ _ Ev H0) as [St _].
  induction D as [u a i d Hu Ha Es Ho Hd|x s s' Hd Hup|u a r d d' Hu Ha Es Hp Hd IH Hr].
  - left. destruct (forall2_left _ _ _ _ Hk Hu) as (v & _ & _ & _ & K). eapply K; eassumption.
  - right. eauto.
  - left. destruct (forall2_left _ _ _ _ Hk Hu) as (v & Hv & _ & K & _). destruct (K a r Ha Es Hp) as [Hin|Hin]; [|exact Hin].
    exfalso. destruct (St v a Hv Hin) as [(r' & E1 & E2 & _)|(err & E1 & E2)].
    + rewrite Es in E1. injection E1 as <-. destruct (resolve_ref_none _ _ _ _ _ _ _ Es E2) as [N1 N2].
      destruct IH as [IH|[s IH]]; [contradiction|congruence].
    + rewrite (Hx _ E2) in E1. discriminate.
Qed.
(* the failing round *)
Lemma refs_loop_failed e gs n : forall l c es, Forall2 (part e gs c) gs l -> Forall2 (known c) gs l ->
  roots_ok e gs c -> cat_ok c -> refs_loop n e [] l c = Failed es ->
  (exists err, es = [err] /\ conflict_error err) \/
  (exists l' c' p, Forall2 (part e gs c') gs l' /\ Forall2 (known c') gs l' /\ visit_groups e false l' c' = Got p /\
     ps_count p = 0 /\ es = ps_errors p).
Proof.
  induction n as [|n IH]; intros l c es Hf Hk Hr Hc H; cbn [refs_loop] in H; [discriminate|].
  destruct (visit_groups e false l c) as [p|err] eqn:Ev.
  - cbn [app] in H. destruct (ps_errors p) as [|e1 es1] eqn:Ee; [discriminate|].
    destruct (Nat.eqb_spec (ps_count p) 0) as [E0|N].
    + injection H as <-. right. exists l, c, p. repeat split; auto.
    + destruct (visit_groups_part e gs false gs _ _ _ (fun x Hx => Hx) Hf Hr Hc Ev) as (A & B & C & _).
      destruct (visit_refs_groups e gs gs _ _ _ (fun x Hx => Hx) Hf Hk Hr Hc Ev) as (_ & K). eapply IH; eassumption.
  - injection H as <-. left. exists err. split; [reflexivity|]. eapply visit_groups_err, Ev.
Qed.
Lemma part_start e gs l c : incl l gs -> unreferenced gs -> Forall2 (part e gs c) l l.
Proof.
  intros Hi Hun. induction l as [|u l IH]; constructor.
  - repeat split. exists [], []. rewrite (Hun u (Hi u (or_introl eq_refl))). split; [reflexivity|]. split; constructor.
  - apply IH. intros x Hx. apply Hi. right. exact Hx.
Qed.
