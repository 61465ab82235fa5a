(* Lemmas about the lineage of attributes. *)
From Coq Require Import String Ascii Bool Arith Lia Permutation Sorted NArith List.
Import ListNotations.
From Verif Require Import Base BaseProofs BaseProofs2 Json SemTypes Resolved Semver DefModel ResolveModel ResolveSpec
  ResolveProofs ExtProofs RefProofs LineageSpec.
From Verif Require PropInherit.
Local Open Scope string_scope.

(* ---------- the two sets ---------- *)
Definition memb (n : string) (l : list string) : bool := existsb (String.eqb n) l.
Lemma memb_in n l : memb n l = true <-> In n l.
Proof.
  unfold memb. rewrite existsb_exists. split.
  - intros (x & H & E). apply String.eqb_eq in E. subst. exact H.
  - intros H. exists n. split; [exact H|apply String.eqb_refl].
Qed.
Lemma memb_add n x l : memb n (set_add x l) = String.eqb n x || memb n l.
Proof.
  induction l as [|y l IH]; cbn [set_add memb existsb]; [reflexivity|]. destruct (str_cmp x y) eqn:E.
  - apply str_cmp_eq in E. subst. cbn [existsb]. destruct (String.eqb n y); reflexivity.
  - reflexivity.
  - unfold memb in *. cbn [existsb]. rewrite IH. destruct (String.eqb n y), (String.eqb n x); reflexivity.
Qed.
Lemma memb_del n x l : memb n (set_del x l) = negb (String.eqb n x) && memb n l.
Proof.
  unfold memb, set_del. induction l as [|y l IH]; cbn [filter existsb]; [destruct (negb _); reflexivity|].
  destruct (String.eqb_spec x y) as [<-|N]; cbn [negb existsb]; rewrite IH.
  - destruct (String.eqb_spec n x) as [->|N']; reflexivity.
  - destruct (String.eqb_spec n x) as [->|N']; cbn [negb andb]; [|reflexivity].
    destruct (String.eqb_spec x y); [contradiction|reflexivity].
Qed.
Lemma over_local n f l : memb n (al_overridden (mark_local f l)) = String.eqb n f || memb n (al_overridden l).
Proof. apply memb_add. Qed.
Lemma inh_local n f l : memb n (al_inherited (mark_local f l)) = negb (String.eqb n f) && memb n (al_inherited l).
Proof. apply memb_del. Qed.
Lemma over_opt {A B} n f (loc : option A) (par : option B) l :
  memb n (al_overridden (lin_opt f loc par l)) =
  (if String.eqb n f then is_some loc else false) || memb n (al_overridden l).
Proof.
  unfold lin_opt. destruct loc; cbn [is_some]; [rewrite over_local; destruct (String.eqb n f); reflexivity|].
  destruct (is_some par); destruct (String.eqb n f); reflexivity.
Qed.
Lemma inh_opt {A B} n f (loc : option A) (par : option B) l :
  memb n (al_inherited (lin_opt f loc par l)) =
  negb (String.eqb n f && is_some loc) && ((if String.eqb n f then is_some par else false) || memb n (al_inherited l)).
Proof.
  unfold lin_opt. destruct loc; cbn [is_some]; [rewrite inh_local; destruct (String.eqb n f); reflexivity|].
  destruct (is_some par); cbn [mark_inherited al_inherited orb]; [rewrite memb_add|]; destruct (String.eqb n f); reflexivity.
Qed.
Lemma over_val {A} n f (loc : option A) l :
  memb n (al_overridden (lin_val f loc l)) = (if String.eqb n f then is_some loc else false) || memb n (al_overridden l).
Proof.
  unfold lin_val. destruct loc; cbn [is_some]; [rewrite over_local; destruct (String.eqb n f); reflexivity|].
  destruct (String.eqb n f); reflexivity.
Qed.
Lemma inh_val {A} n f (loc : option A) l :
  memb n (al_inherited (lin_val f loc l)) =
  if String.eqb n f then negb (is_some loc) else memb n (al_inherited l).
Proof.
  unfold lin_val. destruct loc; cbn [is_some negb]; [rewrite inh_local; destruct (String.eqb n f); reflexivity|].
  cbn [mark_inherited al_inherited]. rewrite memb_add. destruct (String.eqb n f); reflexivity.
Qed.
Lemma over_flag n f loc par l :
  memb n (al_overridden (lin_flag f loc par l)) = (if String.eqb n f then loc else false) || memb n (al_overridden l).
Proof.
  unfold lin_flag. destruct loc; [rewrite over_local; destruct (String.eqb n f); reflexivity|].
  destruct par; destruct (String.eqb n f); reflexivity.
Qed.
Lemma inh_flag n f loc par l :
  memb n (al_inherited (lin_flag f loc par l)) =
  negb (String.eqb n f && loc) && ((if String.eqb n f then par else false) || memb n (al_inherited l)).
Proof.
  unfold lin_flag. destruct loc; [rewrite inh_local; destruct (String.eqb n f); reflexivity|].
  destruct par; cbn [mark_inherited al_inherited orb]; [rewrite memb_add|]; destruct (String.eqb n f); reflexivity.
Qed.
Lemma over_if n f b l : memb n (al_overridden (mark_if b f l)) = memb n (al_overridden l).
Proof. destruct b; reflexivity. Qed.
Lemma inh_if n f b l : memb n (al_inherited (mark_if b f l)) = (if String.eqb n f then b else false) || memb n (al_inherited l).
Proof.
  destruct b; cbn [mark_if mark_inherited al_inherited]; [rewrite memb_add|]; destruct (String.eqb n f); reflexivity.
Qed.
Lemma over_inh n f l : memb n (al_overridden (mark_inherited f l)) = memb n (al_overridden l).
Proof. reflexivity. Qed.
Lemma inh_inh n f l : memb n (al_inherited (mark_inherited f l)) = String.eqb n f || memb n (al_inherited l).
Proof. apply memb_add. Qed.
Ltac sets := repeat first [rewrite over_opt|rewrite inh_opt|rewrite over_val|rewrite inh_val|rewrite over_flag|rewrite inh_flag
  |rewrite over_if|rewrite inh_if|rewrite over_inh|rewrite inh_inh].
Lemma source_opt {A B} f (loc : option A) (par : option B) l : al_source (lin_opt f loc par l) = al_source l.
Proof. unfold lin_opt. destruct loc, par; reflexivity. Qed.
Lemma source_val {A} f (loc : option A) l : al_source (lin_val f loc l) = al_source l.
Proof. unfold lin_val. destruct loc; reflexivity. Qed.
Lemma source_flag f loc par l : al_source (lin_flag f loc par l) = al_source l.
Proof. unfold lin_flag. destruct loc, par; reflexivity. Qed.
Lemma source_if f b l : al_source (mark_if b f l) = al_source l.
Proof. destruct b; reflexivity. Qed.

Definition all_names : list string :=
  ["prefix"; "brief"; "examples"; "tag"; "requirement_level"; "sampling_relevant"; "note"; "stability"; "deprecated";
   "annotations"; "role"].
Lemma all_names_fields n : In n all_names -> n = "prefix" \/ exists f, n = field_name f.
Proof.
  intros H. cbn in H. repeat destruct H as [<-|H]; [left; reflexivity|right..|destruct H].
  - exists FBrief; reflexivity.
  - exists FExamples; reflexivity.
  - exists FTag; reflexivity.
  - exists FRequirement; reflexivity.
  - exists FSampling; reflexivity.
  - exists FNote; reflexivity.
  - exists FStability; reflexivity.
  - exists FDeprecated; reflexivity.
  - exists FAnnotations; reflexivity.
  - exists FRole; reflexivity.
Qed.
Definition only_names (al : attr_lineage) : Prop := incl (al_overridden al) all_names /\ incl (al_inherited al) all_names.
Lemma incl_add x l : In x all_names -> incl l all_names -> incl (set_add x l) all_names.
Proof.
  intros Hx H n Hn. apply memb_in in Hn. rewrite memb_add in Hn. apply orb_true_iff in Hn as [Hn|Hn].
  - apply String.eqb_eq in Hn. subst. exact Hx.
  - apply H, memb_in, Hn.
Qed.
Lemma incl_del x l : incl l all_names -> incl (set_del x l) all_names.
Proof. intros H n Hn. apply filter_In in Hn as [Hn _]. apply H, Hn. Qed.
Lemma only_local f l : In f all_names -> only_names l -> only_names (mark_local f l).
Proof. intros Hf [A B]. split; [apply incl_add; assumption|apply incl_del, B]. Qed.
Lemma only_inh f l : In f all_names -> only_names l -> only_names (mark_inherited f l).
Proof. intros Hf [A B]. split; [exact A|apply incl_add; assumption]. Qed.
Lemma only_opt {A B} f (loc : option A) (par : option B) l : In f all_names -> only_names l -> only_names (lin_opt f loc par l).
Proof. intros Hf H. unfold lin_opt. destruct loc; [apply only_local; assumption|]. destruct par; [apply only_inh; assumption|exact H]. Qed.
Lemma only_val {A} f (loc : option A) l : In f all_names -> only_names l -> only_names (lin_val f loc l).
Proof. intros Hf H. unfold lin_val. destruct loc; [apply only_local|apply only_inh]; assumption. Qed.
Lemma only_flag f loc par l : In f all_names -> only_names l -> only_names (lin_flag f loc par l).
Proof. intros Hf H. unfold lin_flag. destruct loc; [apply only_local; assumption|]. destruct par; [apply only_inh; assumption|exact H]. Qed.
Lemma only_if f b l : In f all_names -> only_names l -> only_names (mark_if b f l).
Proof. intros Hf H. destruct b; [apply only_inh; assumption|exact H]. Qed.
Lemma only_new s : only_names (al_new s).
Proof. split; intros n []. Qed.
Ltac only_tac := repeat first [apply only_new|apply only_opt; [cbn; tauto|]|apply only_val; [cbn; tauto|]|apply only_flag; [cbn; tauto|]
  |apply only_if; [cbn; tauto|]|apply only_inh; [cbn; tauto|]].
Lemma only_names_ok al : only_names al ->
  forall n, In n (al_overridden al) \/ In n (al_inherited al) -> n = "prefix" \/ exists f, n = field_name f.
Proof. intros [A B] n [H|H]; apply all_names_fields; auto. Qed.

Lemma is_some_iff {A} (o : option A) : is_some o = true <-> o <> None.
Proof. destruct o; cbn; split; congruence. Qed.
Lemma some_map {A B} (g : A -> B) o : is_some (option_map g o) = is_some o.
Proof. destruct o; reflexivity. Qed.
Lemma tells_bool own base al :
  (forall f, memb (field_name f) (al_overridden al) = is_some (written own f)) ->
  (forall f, memb (field_name f) (al_inherited al) = negb (is_some (written own f)) && is_some (base f)) ->
  only_names al -> tells own base al.
Proof.
  intros A B C. split; [|split].
  - intros f. rewrite <- memb_in, A. apply is_some_iff.
  - intros f. rewrite <- memb_in, B, andb_true_iff, negb_true_iff, is_some_iff. destruct (written own f); cbn [is_some]; split; intros [H1 H2]; split; congruence.
  - apply only_names_ok, C.
Qed.

Ltac field_case := cbn [field_name String.eqb Ascii.eqb Bool.eqb orb andb negb memb existsb al_new al_overridden al_inherited written value option_map
  brief_of examples_of tag_of req_of sampling_of note_of stability_of deprecated_of annotations_of arole_of]; rewrite ?some_map, ?orb_false_r.
Lemma ref_lineage_tells r root s : tells (SRef r) (value root) (ref_lineage r root (al_new s)).
Proof.
  apply tells_bool; unfold ref_lineage.
  - intros f. sets. destruct f; field_case; try reflexivity.
  - intros f. sets. destruct f; field_case; try reflexivity;
     match goal with |- context [is_some ?o] => destruct o end; cbn; rewrite ?some_map; try reflexivity.
  - only_tac.
Qed.
Lemma ref_lineage_source r root s : al_source (ref_lineage r root (al_new s)) = s.
Proof. unfold ref_lineage. rewrite ?source_opt, ?source_val, ?source_opt, ?source_val, ?source_opt, ?source_val. reflexivity. Qed.

(* ---------- definitions and where they are ---------- *)
Definition roots_src (e : env) (gs : list ugroup) (c : catalog) : Prop :=
  forall k s, slookup k (ct_roots c) = Some s -> ws_def s = true ->
    defined_in e gs (source_label e (ws_source s)) k (ws_attr s).
Definition from_dep (s : sourced) : Prop := exists u, ws_source s = SDep u.
Lemma lookup_attr2_dep s k w : lookup_attr2 s k = Some w -> from_dep w.
Proof.
  unfold lookup_attr2, from_dep. induction (r2_attributes (s2_registry s)) as [|ar l IH]; cbn [first_some]; [discriminate|].
  destruct (nth_error (s2_catalog s) ar) as [a|]; [|exact IH]. destruct (String.eqb (a2_key a) k); [|exact IH].
  intros H. injection H as <-. cbn. eauto.
Qed.
Lemma dep_lookup_dep e d k s : dep_lookup_attr e d k = Got (Some s) -> from_dep s.
Proof.
  unfold dep_lookup_attr. destruct d as [s1 roots|s2].
  - destruct (lookup_attr1 e s1 roots k) as [at_|]; [|discriminate]. destruct (ws_source at_) as [g|u] eqn:E.
    + destruct (ev_parse e (s1_url s1)) as [u|]; [|discriminate]. intros H. injection H as <-. exists u. reflexivity.
    + intros H. injection H as <-. exists u. exact E.
  - intros H. injection H as H. eapply lookup_attr2_dep, H.
Qed.
Lemma collect_dep e k ds : forall l, collect_matches e k ds = Got l -> Forall from_dep l.
Proof.
  induction ds as [|d ds IH]; cbn [collect_matches]; intros l H; [injection H as <-; constructor|].
  destruct (dep_lookup_attr e d k) as [o|] eqn:E; cbn [rr_bind] in H; [|discriminate].
  destruct (collect_matches e k ds) as [l'|] eqn:E'; cbn [rr_bind] in H; [|discriminate]. injection H as <-.
  destruct o as [s|]; [constructor; [eapply dep_lookup_dep, E|]|]; apply IH; reflexivity.
Qed.
Lemma fold_dep e k l : forall acc s, Forall from_dep l -> (forall x, acc = Some x -> from_dep x) ->
  fold_matches e k acc l = Got (Some s) -> from_dep s.
Proof.
  induction l as [|m l IH]; intros acc s Hl Ha H; cbn [fold_matches] in H; [injection H as ->; apply Ha; reflexivity|].
  inversion Hl as [|? ? Hm Hl']; subst. destruct acc as [x|].
  - destruct (_ || _).
    + apply (IH _ _ Hl') in H; [exact H|]. intros y E. injection E as <-.
      destruct (opt_excluded (at_annotations (ws_attr m))); [apply Ha; reflexivity|exact Hm].
    + destruct (resolve_conflict e k m x) as [w|] eqn:E; cbn [rr_bind] in H; [|discriminate].
      apply (IH _ _ Hl') in H; [exact H|]. intros y Ey. injection Ey as <-.
      apply resolve_conflict_got in E as [->| ->]; [exact Hm|apply Ha; reflexivity].
  - apply (IH _ _ Hl') in H; [exact H|]. intros y E. injection E as <-. exact Hm.
Qed.
Lemma deps_lookup_dep e k s : deps_lookup_attr e k = Got (Some s) -> from_dep s.
Proof.
  unfold deps_lookup_attr. destruct (collect_matches e k (ev_deps e)) as [l|] eqn:E; cbn [rr_bind]; [|discriminate].
  apply fold_dep; [eapply collect_dep, E|discriminate].
Qed.
Lemma upgrade_dep e s s' : from_dep s -> upgrade_attr e s = Got s' -> from_dep s'.
Proof.
  intros D. unfold upgrade_attr. pose proof D as (u & E). rewrite E.
  destruct (ev_chosen e (ev_name e u)) as [ch|]; [|intros H; injection H as <-; exact D].
  destruct (String.eqb ch u); [intros H; injection H as <-; exact D|].
  destruct (latest_major _ _ u ch) as [w|]; cbn [rr_bind]; [|discriminate].
  destruct (String.eqb w ch); [|intros H; injection H as <-; exact D].
  destruct (ev_cached e ch) as [d|]; [|intros H; injection H as <-; exact D].
  destruct (schema_lookup_attr e d _) as [up|]; [|discriminate]. intros H. injection H as <-. exists ch. reflexivity.
Qed.
Lemma find_root_src e gs x c s c1 : roots_src e gs c -> find_root e x c = Got (Some (s, c1)) ->
  defined_in e gs (source_label e (ws_source s)) x (ws_attr s) /\ roots_src e gs c1.
Proof.
  intros Hr. unfold find_root.
  destruct (match slookup x (ct_roots c) with Some s => if ws_def s then Some s else None | None => None end) as [s0|] eqn:E.
  - intros H. injection H as <- <-. destruct (slookup x (ct_roots c)) as [s1|] eqn:El; [|discriminate].
    destruct (ws_def s1) eqn:Ed; [|discriminate]. injection E as <-. split; [eapply Hr; eassumption|exact Hr].
  - destruct (deps_lookup_attr e x) as [[s1|]|err] eqn:Ed; cbn [rr_bind]; try discriminate.
    destruct (upgrade_attr e s1) as [s2|err] eqn:Eu; cbn [rr_bind]; try discriminate.
    intros H. injection H as <- <-.
    assert (D : defined_in e gs (source_label e (ws_source s2)) x (ws_attr s2)).
    { destruct (upgrade_dep _ _ _ (deps_lookup_dep _ _ _ Ed) Eu) as [u E2]. rewrite E2. eapply di_dep; eassumption. }
    split; [exact D|]. intros k s0. rewrite set_root_at. destruct (String.eqb_spec k x) as [->|]; [|apply Hr].
    intros H _. injection H as <-. exact D.
Qed.

(* what is recorded for one attribute *)
Definition told (e : env) (gs : list ugroup) (c : catalog) (u0 : ugroup) (rs : list nat) (r : ref_spec) (al : attr_lineage) : Prop :=
  exists d at_ n, defined_in e gs (al_source al) (rs_ref r) d /\ In n rs /\ denotes c n at_ /\
    from_reference r (full_name u0 r) d at_ /\ tells (SRef r) (value d) al.
Lemma told_mono e gs c c' u0 rs rs' r al : cat_le c c' -> incl rs rs' -> told e gs c u0 rs r al -> told e gs c' u0 rs' r al.
Proof.
  intros L I (d & at_ & n & A & B & C & D & E). exists d, at_, n. split; [exact A|]. split; [apply I, B|].
  split; [eapply denotes_le; eassumption|]. split; assumption.
Qed.
Lemma rattr_src e gs u0 u a c ar c' en : roots_src e gs c -> roots_ok e gs c -> cat_ok c -> In u0 gs -> In a (ug_attrs u0) ->
  uid u = uid u0 -> g_prefix (ug_group u) = g_prefix (ug_group u0) ->
  rattr e u a c = Got (Some (ar, c', en)) ->
  roots_src e gs c' /\
  match ua_spec a with
  | SId _ => en = None
  | SRef r => exists al, en = Some (full_name u0 r, al) /\ told e gs c' u0 [ar] r al
  end.
Proof.
  intros Hs Hr Hc Hu Ha Hid Hp H. unfold rattr in H. destruct (ua_spec a) as [r|i] eqn:Es.
  - rewrite (resolve_ref_eq _ _ _ _ _ _ _ Es) in H.
    destruct (find_root e (rs_ref r) c) as [[[s c1]|]|err] eqn:Ef; cbn [rr_bind] in H; try discriminate.
    destruct (find_root_src _ _ _ _ _ _ Hs Ef) as (D & S1).
    destruct (find_root_some _ _ _ _ _ _ Hr Hc Ef) as (_ & _ & C1 & _).
    cbv zeta in H. destruct (match ws_source s with SDep _ => _ | SLocal _ => _ end); [discriminate|].
    rewrite Hp in H. change (full (g_prefix (ug_group u0)) r) with (full_name u0 r) in H.
    destruct (attribute_ref _ c1) as [ar0 c2] eqn:Er.
    destruct (attribute_ref_ok _ _ _ _ C1 Er) as (C2 & L2 & D2 & R2). injection H as <- <- <-.
    assert (F : from_reference r (full_name u0 r) (ws_attr s) (apply_ref r (ws_attr s) (full_name u0 r))) by apply apply_ref_from.
    split.
    + destruct (rs_prefix r) eqn:Ep.
      * intros k s0. rewrite set_root_at, R2. destruct (String.eqb_spec k (full_name u0 r)) as [->|]; [|apply S1].
        intros H _. injection H as <-. cbn [ws_attr ws_source source_label]. rewrite Hid. eapply di_prefix; eassumption.
      * intros k s0. rewrite R2. apply S1.
    + eexists. split; [reflexivity|]. exists (ws_attr s), (apply_ref r (ws_attr s) (full_name u0 r)), ar0.
      rewrite ref_lineage_source. split; [exact D|]. split; [left; reflexivity|].
      split; [destruct (rs_prefix r); exact D2|]. split; [exact F|]. apply ref_lineage_tells.
  - unfold resolve_attr in H. rewrite Es in H. destruct (negb _ && _); [discriminate|].
    set (root := {| ws_attr := attribute_of_id i; ws_source := _; ws_def := _ |}) in *.
    destruct (match slookup (is_id i) (ct_roots c) with Some x => resolve_conflict e (is_id i) root x | None => Got root end)
      as [w|er] eqn:Ew; cbn [rr_bind] in H; [|discriminate].
    destruct (attribute_ref _ _) as [ar0 c2] eqn:Er.
    destruct (attribute_ref_ok _ _ _ _ (set_root_ok (is_id i) w c Hc) Er) as (C2 & L2 & D2 & R2).
    injection H as <- <- <-. split; [|reflexivity].
    assert (Hw : w = root \/ slookup (is_id i) (ct_roots c) = Some w).
    { destruct (slookup (is_id i) (ct_roots c)) as [x|] eqn:El.
      - apply resolve_conflict_got in Ew as [->| ->]; auto.
      - injection Ew as <-. auto. }
    intros k s. rewrite R2, set_root_at. destruct (String.eqb_spec k (is_id i)) as [->|]; [|apply Hs].
    intros H Hd. injection H as <-. destruct Hw as [->|Hw]; [|eapply Hs; eassumption].
    unfold root in Hd. cbn [ws_def] in Hd. destruct (ua_origin a) eqn:Eo; [discriminate|].
    unfold root. cbn [ws_attr ws_source source_label]. rewrite Hid. eapply di_local; [exact Hu|exact Ha|exact Es|exact Eo|apply attribute_of_id_from].
Qed.

(* visit_cons, with the lineage *)
Lemma visit_cons_lin e b u a l c lin v : visit_attrs e b u (a :: l) c lin = Got v ->
  (exists ar c' en v', rattr e u a c = Got (Some (ar, c', en)) /\
     visit_attrs e b u l c' (match en with Some (k, al) => option_map (gl_add k al) lin | None => lin end) = Got v' /\
     vs_resolved v = ar :: vs_resolved v' /\ vs_left v = vs_left v' /\ vs_catalog v = vs_catalog v' /\ vs_lineage v = vs_lineage v') \/
  (exists v', visit_attrs e b u l c lin = Got v' /\ vs_resolved v = vs_resolved v' /\ vs_left v = a :: vs_left v' /\
     vs_catalog v = vs_catalog v' /\ vs_lineage v = vs_lineage v').
Proof.
  intros H. cbn [visit_attrs] in H. fold (rattr e u a c) in H. destruct (b && negb (is_id_spec a)).
  - right. destruct (visit_attrs e b u l c lin) as [v'|er]; cbn [rr_bind] in H; [|discriminate]. injection H as <-.
    exists v'. cbn. auto.
  - destruct (rattr e u a c) as [[[[ar c'] en]|]|err].
    + left. match type of H with rr_bind ?X _ = _ => destruct X as [v'|er] eqn:Ev end; cbn [rr_bind] in H; [|discriminate].
      injection H as <-. exists ar, c', en, v'. cbn. auto 6.
    + right. match type of H with rr_bind ?X _ = _ => destruct X as [v'|er] eqn:Ev end; cbn [rr_bind] in H; [|discriminate].
      injection H as <-. exists v'. cbn. auto.
    + right. destruct (is_excluded_err err); [|discriminate].
      match type of H with rr_bind ?X _ = _ => destruct X as [v'|er] eqn:Ev end; cbn [rr_bind] in H; [|discriminate].
      injection H as <-. exists v'. cbn. auto.
Qed.
Definition named_by (u0 : ugroup) (done : list uattr) (k : string) : Prop := In k (flat_map (ref_name u0) done).
Lemma named_ref u0 done a r : In a done -> ua_spec a = SRef r -> named_by u0 done (full_name u0 r).
Proof. intros H E. apply in_flat_map. exists a. split; [exact H|]. unfold ref_name. rewrite E. left. reflexivity. Qed.
Lemma same_links_refl l : same_links l l.
Proof. repeat split. Qed.
Lemma same_links_trans a b c : same_links a b -> same_links b c -> same_links a c.
Proof. intros (A1 & A2 & A3 & A4) (B1 & B2 & B3 & B4). unfold same_links. repeat split; congruence. Qed.
Definition entry (l : group_lineage) (k : string) := slookup k (gl_attributes l).
Lemma visit_attrs_lineage e gs b u0 u l : In u0 gs -> uid u = uid u0 -> g_prefix (ug_group u) = g_prefix (ug_group u0) ->
  forall c l0 v, incl l (ug_attrs u0) -> roots_src e gs c -> roots_ok e gs c -> cat_ok c -> visit_attrs e b u l c (Some l0) = Got v ->
  roots_src e gs (vs_catalog v) /\ exists done l', Permutation l (app done (vs_left v)) /\ vs_lineage v = Some l' /\ same_links l0 l' /\
    (forall k, ~ named_by u0 done k -> entry l' k = entry l0 k) /\
    (NoDup (flat_map (ref_name u0) l) -> forall a r, In a done -> ua_spec a = SRef r ->
       exists al, entry l' (full_name u0 r) = Some al /\ told e gs (vs_catalog v) u0 (vs_resolved v) r al).
Proof.
  intros Hu Hid Hp. induction l as [|a l IH]; intros c l0 v Hi Hs Hr Hc H.
  - cbn in H. injection H as <-. cbn. split; [exact Hs|]. exists [], l0. split; [constructor|]. split; [reflexivity|].
    split; [apply same_links_refl|]. split; [reflexivity|]. intros _ a r [].
  - assert (Hi' : incl l (ug_attrs u0)) by (intros x Hx; apply Hi; right; exact Hx).
    assert (Ha : In a (ug_attrs u0)) by (apply Hi; left; reflexivity).
    destruct (visit_cons_lin _ _ _ _ _ _ _ _ H) as
      [(ar & c' & en & v' & Er & Ev & E1 & E2 & E3 & E4)|(v' & Ev & E1 & E2 & E3 & E4)].
    + destruct (rattr_some e gs u0 u a c ar c' en Hr Hc Hu Ha Hp Er) as (_ & R1 & C1 & L1).
      destruct (rattr_src e gs u0 u a c ar c' en Hs Hr Hc Hu Ha Hid Hp Er) as (S1 & T).
      destruct (ua_spec a) as [r|i] eqn:Es.
      * destruct T as (al & -> & T). cbn [option_map] in Ev.
        destruct (IH _ _ _ Hi' S1 R1 C1 Ev) as (S2 & done & l' & P & El & SL & Fr & Dn).
        destruct (visit_attrs_sound e gs b u0 u l Hu Hp c' _ _ Hi' R1 C1 Ev) as (_ & _ & _ & _ & _ & _ & _ & Lv).
        rewrite E1, E2, E3, E4. split; [exact S2|]. exists (a :: done), l'. split; [cbn; constructor; exact P|].
        split; [exact El|]. split; [exact (same_links_trans _ _ _ (same_links_refl l0) SL)|]. split.
        -- intros k Hk. rewrite Fr.
           ++ unfold entry, gl_add. cbn [gl_attributes]. rewrite bt_insert_lookup.
              destruct (String.eqb_spec k (full_name u0 r)) as [->|]; [|reflexivity]. exfalso. apply Hk.
              apply named_ref with (a := a); [left; reflexivity|exact Es].
           ++ intros Hn. apply Hk. unfold named_by in *. cbn [flat_map]. apply in_or_app. right. exact Hn.
        -- intros Nd a' r' [<-|Hin] Es'.
           ++ rewrite Es in Es'. injection Es' as <-. exists al. split.
              ** rewrite Fr; [unfold entry, gl_add; cbn [gl_attributes]; rewrite bt_insert_lookup, String.eqb_refl; reflexivity|].
                 intros Hn. cbn [flat_map] in Nd. unfold ref_name at 1 in Nd. rewrite Es in Nd. cbn [app] in Nd.
                 inversion Nd as [|? ? N1 N2]; subst. apply N1. apply in_flat_map in Hn as (x & Hx & Hx').
                 apply in_flat_map. exists x. split; [|exact Hx'].
                 apply (Permutation_in x (Permutation_sym P)), in_or_app. left. exact Hx.
              ** eapply told_mono; [exact Lv| |exact T]. intros x [<-|[]]. left. reflexivity.
           ++ assert (Nd' : NoDup (flat_map (ref_name u0) l)).
              { cbn [flat_map] in Nd. unfold ref_name at 1 in Nd. rewrite Es in Nd. cbn [app] in Nd. inversion Nd; assumption. }
              destruct (Dn Nd' a' r' Hin Es') as (al' & A1 & A2). exists al'. split; [exact A1|].
              eapply told_mono; [apply cat_le_refl| |exact A2]. intros x Hx. right. exact Hx.
      * subst en. destruct (IH _ _ _ Hi' S1 R1 C1 Ev) as (S2 & done & l' & P & El & SL & Fr & Dn).
        rewrite E1, E2, E3, E4. split; [exact S2|]. exists (a :: done), l'. split; [cbn; constructor; exact P|].
        split; [exact El|]. split; [exact SL|]. split.
        -- intros k Hk. apply Fr. intros Hn. apply Hk. unfold named_by in *. cbn [flat_map]. apply in_or_app. right. exact Hn.
        -- intros Nd a' r' [<-|Hin] Es'; [rewrite Es in Es'; discriminate|].
           assert (Nd' : NoDup (flat_map (ref_name u0) l)).
           { cbn [flat_map] in Nd. unfold ref_name at 1 in Nd. rewrite Es in Nd. exact Nd. }
           destruct (Dn Nd' a' r' Hin Es') as (al' & A1 & A2). exists al'. split; [exact A1|].
           eapply told_mono; [apply cat_le_refl| |exact A2]. intros x Hx. right. exact Hx.
    + destruct (IH _ _ _ Hi' Hs Hr Hc Ev) as (S2 & done & l' & P & El & SL & Fr & Dn).
      rewrite E1, E2, E3, E4. split; [exact S2|]. exists done, l'. split; [rewrite P; apply Permutation_middle|].
      split; [exact El|]. split; [exact SL|]. split; [exact Fr|]. intros Nd. apply Dn.
      cbn [flat_map] in Nd. clear -Nd. induction (ref_name u0 a) as [|x xs IHx]; [exact Nd|]. inversion Nd; auto.
Qed.
Lemma visit_attrs_no_lin e b u l : forall c v, visit_attrs e b u l c None = Got v -> vs_lineage v = None.
Proof.
  induction l as [|a l IH]; intros c v H; [cbn in H; injection H as <-; reflexivity|].
  destruct (visit_cons_lin _ _ _ _ _ _ _ _ H) as
    [(ar & c' & en & v' & _ & Ev & _ & _ & _ & E4)|(v' & Ev & _ & _ & _ & E4)]; rewrite E4.
  - destruct en as [[k al]|]; eapply IH, Ev.
  - eapply IH, Ev.
Qed.
Lemma visit_attrs_any_lin e b u l : forall c lin lin' v, visit_attrs e b u l c lin = Got v ->
  exists v', visit_attrs e b u l c lin' = Got v' /\ vs_catalog v' = vs_catalog v.
Proof.
  induction l as [|a l IH]; intros c lin lin' v H.
  - cbn in *. injection H as <-. eexists. split; reflexivity.
  - cbn [visit_attrs] in *. destruct (b && negb (is_id_spec a)).
    + destruct (visit_attrs e b u l c lin) as [w|] eqn:E; cbn [rr_bind] in H; [|discriminate].
      destruct (IH _ _ lin' _ E) as (w' & E1 & E2). rewrite E1. cbn [rr_bind]. injection H as <-.
      eexists. split; [reflexivity|]. exact E2.
    + destruct (resolve_attr e (uid u) (g_prefix (ug_group u)) (ug_excluded u) a c) as [[[[ar c'] en]|]|err].
      * destruct (visit_attrs e b u l c' (match en with Some (k, al) => option_map (gl_add k al) lin | None => lin end)) as [w|] eqn:E;
          cbn [rr_bind] in H; [|discriminate].
        destruct (IH _ _ (match en with Some (k, al) => option_map (gl_add k al) lin' | None => lin' end) _ E) as (w' & E1 & E2).
        rewrite E1. cbn [rr_bind]. injection H as <-. eexists. split; [reflexivity|]. exact E2.
      * destruct (visit_attrs e b u l c lin) as [w|] eqn:E; cbn [rr_bind] in H; [|discriminate].
        destruct (IH _ _ lin' _ E) as (w' & E1 & E2). rewrite E1. cbn [rr_bind]. injection H as <-.
        eexists. split; [reflexivity|]. exact E2.
      * destruct (is_excluded_err err); [|discriminate].
        destruct (visit_attrs e b u l c lin) as [w|] eqn:E; cbn [rr_bind] in H; [|discriminate].
        destruct (IH _ _ lin' _ E) as (w' & E1 & E2). rewrite E1. cbn [rr_bind]. injection H as <-.
        eexists. split; [reflexivity|]. exact E2.
Qed.

(* ---------- the groups ---------- *)
Definition lpart (e : env) (gs : list ugroup) (c : catalog) (u0 u : ugroup) : Prop :=
  uid u = uid u0 /\ g_prefix (ug_group u) = g_prefix (ug_group u0) /\
  exists done, Permutation (ug_attrs u0) (app done (ug_attrs u)) /\
    match g_lineage (ug_group u0) with
    | None => g_lineage (ug_group u) = None
    | Some l0 => exists l, g_lineage (ug_group u) = Some l /\ same_links l0 l /\
        (forall k, ~ named_by u0 done k -> entry l k = entry l0 k) /\
        (distinct_refs u0 -> forall a r, In a done -> ua_spec a = SRef r ->
           exists al, entry l (full_name u0 r) = Some al /\ told e gs c u0 (g_attributes (ug_group u)) r al)
    end.
Lemma lpart_le e gs c c' u0 u : cat_le c c' -> lpart e gs c u0 u -> lpart e gs c' u0 u.
Proof.
  intros L (A & B & done & P & H). split; [exact A|]. split; [exact B|]. exists done. split; [exact P|].
  destruct (g_lineage (ug_group u0)) as [l0|]; [|exact H]. destruct H as (l & E & SL & Fr & Dn).
  exists l. split; [exact E|]. split; [exact SL|]. split; [exact Fr|]. intros Nd a r Ha Es.
  destruct (Dn Nd a r Ha Es) as (al & A1 & A2). exists al. split; [exact A1|]. eapply told_mono; [exact L|apply incl_refl|exact A2].
Qed.
Lemma nodup_parts {A B} (f : A -> list B) l a b : Permutation l (app a b) -> NoDup (flat_map f l) ->
  NoDup (flat_map f b) /\ forall x, In x (flat_map f a) -> ~ In x (flat_map f b).
Proof.
  intros P Nd. assert (N : NoDup (app (flat_map f a) (flat_map f b))).
  { rewrite <- flat_map_app. eapply Permutation_NoDup; [|exact Nd]. apply Permutation_flat_map, P. }
  clear -N. induction (flat_map f a) as [|x xs IH]; cbn [app] in N; [split; [exact N|intros x []]|].
  inversion N as [|? ? N1 N2]; subst. destruct (IH N2) as [H1 H2]. split; [exact H1|].
  intros y [<-|Hy]; [|apply H2, Hy]. intros Hb. apply N1, in_or_app. right. exact Hb.
Qed.
Lemma visit_groups_lpart e gs b l0 : forall l c p, incl l0 gs -> Forall2 (lpart e gs c) l0 l -> Forall2 (part e gs c) l0 l ->
  roots_src e gs c -> roots_ok e gs c -> cat_ok c ->
  visit_groups e b l c = Got p ->
  Forall2 (lpart e gs (ps_catalog p)) l0 (ps_groups p) /\ roots_src e gs (ps_catalog p).
Proof.
  induction l0 as [|u0 l0 IH]; intros l c p Hi Hf Hg Hs Hr Hc H.
  - inversion Hf; subst. cbn in H. injection H as <-. cbn. split; [constructor|exact Hs].
  - inversion Hf as [|? u ? l' Hpu Hf']; subst. inversion Hg as [|? ? ? ? Hqu Hg']; subst. cbn [visit_groups] in H.
    destruct (visit_attrs e b u (ug_attrs u) c (g_lineage (ug_group u))) as [v|er] eqn:Ev; cbn [rr_bind] in H; [|discriminate].
    destruct (visit_groups e b l' (vs_catalog v)) as [q|er] eqn:Eq; cbn [rr_bind] in H; [|discriminate].
    destruct Hpu as (A & B & done & P & X).
    assert (Hia : incl (ug_attrs u) (ug_attrs u0)).
    { intros x Hx. apply (Permutation_in x (Permutation_sym P)). apply in_or_app. right. exact Hx. }
    assert (Hu : In u0 gs) by (apply Hi; left; reflexivity).
    destruct (visit_attrs_sound e gs b u0 u (ug_attrs u) Hu B _ _ _ Hia Hr Hc Ev)
      as (done'' & ds' & P'' & F' & G' & R1 & C1 & L1).
    assert (S1 : roots_src e gs (vs_catalog v)).
    { destruct (visit_attrs_any_lin _ _ _ _ _ _ (Some (gl_new {| pv_url := ""; pv_path := "" |})) _ Ev) as (w & Ew & Ec).
      destruct (visit_attrs_lineage e gs b u0 u (ug_attrs u) Hu A B _ _ _ Hia Hs Hr Hc Ew) as (S1 & _). rewrite Ec in S1. exact S1. }
    assert (Hf'' : Forall2 (lpart e gs (vs_catalog v)) l0 l').
    { revert Hf'. apply Forall2_impl. intros x y. apply lpart_le, L1. }
    assert (Hg'' : Forall2 (part e gs (vs_catalog v)) l0 l').
    { revert Hg'. apply Forall2_impl. intros x y. apply part_le, L1. }
    destruct (IH _ _ _ (fun x Hx => Hi x (or_intror Hx)) Hf'' Hg'' S1 R1 C1 Eq) as (Q1 & Q2).
    destruct (visit_groups_part e gs b l0 _ _ _ (fun x Hx => Hi x (or_intror Hx)) Hg'' R1 C1 Eq) as (_ & _ & _ & Q4).
    injection H as <-. cbn [ps_groups ps_catalog]. split; [|exact Q2].
    constructor; [|exact Q1]. apply lpart_le with (c := vs_catalog v); [exact Q4|].
    unfold lpart. cbn [uid with_attrs with_group ug_group set_lineage set_attributes g_id g_prefix ug_attrs g_lineage g_attributes].
    split; [exact A|]. split; [exact B|].
    destruct (g_lineage (ug_group u0)) as [lu0|] eqn:El0.
    + destruct X as (l1 & E1 & SL & Fr & Dn). rewrite E1 in Ev.
      destruct (visit_attrs_lineage e gs b u0 u (ug_attrs u) Hu A B _ _ _ Hia Hs Hr Hc Ev)
        as (_ & done' & l2 & P' & E2 & SL' & Fr' & Dn').
      exists (app done done'). split; [rewrite P, P', app_assoc; reflexivity|].
      exists l2. split; [exact E2|]. split; [eapply same_links_trans; eassumption|].
      split.
      * intros k Hk. rewrite Fr', Fr; [reflexivity| |]; intros Hn; apply Hk; unfold named_by in *;
          rewrite flat_map_app; apply in_or_app; [left|right]; exact Hn.
      * intros Nd a r Ha Es. destruct (nodup_parts _ _ _ _ P Nd) as [Nd1 Dj].
        apply in_app_or in Ha as [Ha|Ha].
        -- destruct (Dn Nd a r Ha Es) as (al & A1 & A2). exists al. split.
           ++ rewrite Fr'; [exact A1|]. intros Hn. apply (Dj (full_name u0 r)); [eapply named_ref; eassumption|].
              unfold named_by in Hn. apply in_flat_map in Hn as (x & Hx & Hx'). apply in_flat_map. exists x.
              split; [|exact Hx']. apply (Permutation_in x (Permutation_sym P')), in_or_app. left. exact Hx.
           ++ eapply told_mono; [exact L1| |exact A2]. intros x Hx. apply in_or_app. left. exact Hx.
        -- destruct (Dn' Nd1 a r Ha Es) as (al & A1 & A2). exists al. split; [exact A1|].
           eapply told_mono; [apply cat_le_refl| |exact A2]. intros x Hx. apply in_or_app. right. exact Hx.
    + rewrite X in Ev. pose proof (visit_attrs_no_lin _ _ _ _ _ _ Ev) as N.
      exists (app done done''). split; [rewrite P, P'', app_assoc; reflexivity|]. exact N.
Qed.
Lemma refs_loop_lpart e gs init n : forall l c gs' c', Forall2 (lpart e gs c) gs l -> Forall2 (part e gs c) gs l ->
  roots_src e gs c -> roots_ok e gs c -> cat_ok c ->
  refs_loop n e init l c = Done (gs', c') -> Forall2 (lpart e gs c') gs gs'.
Proof.
  induction n as [|n IH]; intros l c gs' c' Hf Hg Hs Hr Hc H; cbn [refs_loop] in H; [discriminate|].
  destruct (visit_groups e false l c) as [p|err] eqn:Ev; [|discriminate].
  destruct (visit_groups_part e gs false gs _ _ _ (fun x Hx => Hx) Hg Hr Hc Ev) as (A & B & C & _).
  destruct (visit_groups_lpart e gs false gs _ _ _ (fun x Hx => Hx) Hf Hg Hs Hr Hc Ev) as (A' & S').
  destruct (app init (ps_errors p)) as [|e1 es].
  - injection H as <- <-. exact A'.
  - destruct (Nat.eqb (ps_count p) 0); [discriminate|]. eapply IH; eassumption.
Qed.
Lemma lpart_start e gs c l : Forall2 (lpart e gs c) l l.
Proof.
  induction l as [|u l IH]; constructor; [|exact IH]. split; [reflexivity|]. split; [reflexivity|]. exists [].
  split; [reflexivity|]. destruct (g_lineage (ug_group u)) as [l0|]; [|reflexivity].
  exists l0. split; [reflexivity|]. split; [apply same_links_refl|]. split; [reflexivity|]. intros _ a r [].
Qed.
