(* C93: the lineage of a resolved group tells where its attributes and their fields come from. *)
From Coq Require Import String Ascii Bool Arith Lia Permutation Sorted NArith List.
Import ListNotations.
From Verif Require Import Base BaseProofs BaseProofs2 Json SemTypes Resolved Semver DefModel ResolveModel ResolveSpec
  ResolveProofs ExtProofs RefProofs LineageSpec LineageProofs.
From Verif Require PropInherit PropRefs.
Local Open Scope string_scope.

(* ---------- references ---------- *)
(* Each reference of a resolved group has an entry, under its full name, that names a place
   defining the attribute and lists as overridden the fields the reference sets, as inherited
   the other fields that definition has; and the attribute in the catalog is made of that
   definition and those fields. *)
Theorem C93_references : forall e gs gs' c', unreferenced gs ->
  resolve_references e gs empty_catalog = Done (gs', c') ->
  Forall2 (fun u u' => forall l, g_lineage (ug_group u) = Some l ->
     exists l', g_lineage (ug_group u') = Some l' /\ same_links l l' /\
       (distinct_refs u -> forall a r, In a (ug_attrs u) -> ua_spec a = SRef r ->
          exists al d at_ n, slookup (full_name u r) (gl_attributes l') = Some al /\
            defined_in e gs (al_source al) (rs_ref r) d /\
            In n (g_attributes (ug_group u')) /\ denotes c' n at_ /\ from_reference r (full_name u r) d at_ /\
            tells (SRef r) (value d) al) /\
       (forall k, ~ is_ref_name u k -> slookup k (gl_attributes l') = slookup k (gl_attributes l))) gs gs'.
Proof.
  intros e gs gs' c' Hun. unfold resolve_references.
  destruct (visit_groups e true gs empty_catalog) as [p|err] eqn:Ev; [|discriminate]. intros H.
  assert (S0 : roots_src e gs empty_catalog) by (intros k s E; discriminate).
  pose proof (part_start e gs gs empty_catalog (fun x Hx => Hx) Hun) as Hp0.
  destruct (visit_groups_part e gs true gs gs _ _ (fun x Hx => Hx) Hp0 (PropRefs.roots_ok_empty e gs) empty_ok Ev) as (A & B & C & _).
  destruct (visit_groups_lpart e gs true gs gs _ _ (fun x Hx => Hx) (lpart_start e gs _ gs) Hp0 S0 (PropRefs.roots_ok_empty e gs) empty_ok Ev)
    as (A' & S').
  pose proof (refs_loop_lpart _ _ _ _ _ _ _ _ A' A S' B C H) as F. destruct (refs_loop_clean _ _ _ _ _ _ _ H) as [N _].
  assert (G : forall l l', Forall (fun u => ug_attrs u = []) l' -> Forall2 (lpart e gs c') l l' ->
    Forall2 (fun u u' => lpart e gs c' u u' /\ ug_attrs u' = []) l l').
  { intros l l' Hn Hf. induction Hf as [|u v l l' Huv _ IH]; [constructor|]. inversion Hn; subst. constructor; auto. }
  pose proof (G _ _ N F) as F'. revert F'. apply Forall2_impl. intros u u' [(_ & _ & done & P & X) E] l El.
  rewrite El in X. rewrite E, app_nil_r in P. destruct X as (l' & E' & SL & Fr & Dn).
  exists l'. split; [exact E'|]. split; [exact SL|]. split.
  - intros Nd a r Ha Es. destruct (Dn Nd a r (Permutation_in a P Ha) Es) as (al & A1 & d & at_ & n & T1 & T2 & T3 & T4 & T5).
    exists al, d, at_, n. split; [exact A1|]. split; [exact T1|]. split; [exact T2|]. split; [exact T3|]. split; assumption.
  - intros k Hk. apply Fr. intros Hn. apply Hk. unfold named_by in Hn. apply in_flat_map in Hn as (a & Ha & Hx).
    unfold ref_name in Hx. destruct (ua_spec a) as [r|i] eqn:Es; [|destruct Hx]. destruct Hx as [<-|[]].
    exists a, r. split; [apply (Permutation_in a (Permutation_sym P)), Ha|]. split; [exact Es|reflexivity].
Qed.
Print Assumptions C93_references.

(* so a field listed as overridden has the value the reference gives it, one listed as
   inherited has the definition's *)
Theorem C93_values : forall r d at_ name al, from_reference r name d at_ -> tells (SRef r) (value d) al ->
  forall f, (In (field_name f) (al_overridden al) -> written (SRef r) f <> None /\ value at_ f = written (SRef r) f) /\
            (In (field_name f) (al_inherited al) -> value at_ f <> None /\ value at_ f = value d f) /\
            ~ (In (field_name f) (al_overridden al) /\ In (field_name f) (al_inherited al)) /\
            (~ In (field_name f) (al_overridden al) -> ~ In (field_name f) (al_inherited al) -> value at_ f = None).
Proof.
  intros r d at_ name al F (T1 & T2 & _) f.
  assert (V : value at_ f = first_set (written (SRef r) f) (value d f)).
  { destruct F as (_ & _ & F1 & F2 & F3 & F4 & F5 & F6 & F7 & F8 & _ & F9 & F10).
    destruct f; cbn [value written brief_of examples_of tag_of req_of sampling_of note_of stability_of deprecated_of annotations_of arole_of].
    - rewrite F1. destruct (rs_brief r); reflexivity.
    - rewrite F2. destruct (rs_examples r); reflexivity.
    - rewrite F3. destruct (rs_tag r); reflexivity.
    - rewrite F4. destruct (rs_req r); reflexivity.
    - rewrite F5. destruct (rs_sampling r); reflexivity.
    - rewrite F6. destruct (rs_note r); reflexivity.
    - rewrite F7. destruct (rs_stability r); reflexivity.
    - rewrite F8. destruct (rs_deprecated r); reflexivity.
    - rewrite F9. destruct (rs_annotations r); reflexivity.
    - rewrite F10. destruct (rs_role r); reflexivity. }
  rewrite V. specialize (T1 f). specialize (T2 f). split; [|split; [|split]].
  - intros H. apply T1 in H. split; [exact H|]. destruct (written (SRef r) f); [reflexivity|congruence].
  - intros H. apply T2 in H as [H1 H2]. rewrite H1. cbn [first_set]. split; [exact H2|reflexivity].
  - intros [H1 H2]. apply T1 in H1. apply T2 in H2 as [H2 _]. contradiction.
  - intros H1 H2. destruct (written (SRef r) f) as [x|] eqn:E; [exfalso; apply H1, T1; congruence|]. cbn [first_set].
    destruct (value d f) eqn:E2; [|reflexivity]. exfalso. apply H2, T2. split; congruence.
Qed.
Print Assumptions C93_values.

(* ---------- groups that extend or include others ---------- *)
Lemma finish_lineage u par inc l : g_lineage (ug_group u) = Some l ->
  g_lineage (ug_group (finish_group u par inc)) =
  Some (inherit_group_lineage (uid u) (ug_attrs u)
          (app (match par with Some (pid, s) => [(pid, sm_attributes s)] | None => [] end) inc)
          (gl_include (ug_include u) (match par with Some (pid, s) => gl_extend pid (sm_type s) l | None => l end))).
Proof.
  intros E. unfold finish_group. destruct par as [[pid s]|].
  - destruct (ug_is_v2 u); cbn; rewrite E; reflexivity.
  - cbn. rewrite E. reflexivity.
Qed.
Lemma fold_links gid own bases l : same_links l (inherit_group_lineage gid own bases l).
Proof.
  unfold inherit_group_lineage. generalize (inherited_map gid own bases). intros m. revert l.
  induction m as [|kv m IH]; intros l; cbn [fold_left]; [apply same_links_refl|].
  eapply same_links_trans; [|apply IH]. destruct (al_is_empty (aw_lineage (snd kv))); [apply same_links_refl|repeat split].
Qed.
(* the group named as extended is the one extended, those named as included are those included *)
Theorem C93_links : forall e gs gs', resolve_extends e gs = Done gs' ->
  Forall2 (fun u u' => forall l, g_lineage (ug_group u) = Some l ->
     exists l', g_lineage (ug_group u') = Some l' /\ gl_provenance l' = gl_provenance l /\
       (targets u = [] -> l' = l) /\
       gl_extends l' = first_set (g_extends (ug_group u)) (gl_extends l) /\
       (forall p, g_extends (ug_group u) = Some p -> exists t, gl_extends_type l' = Some t /\
          ((exists v, In v gs' /\ g_id (ug_group v) = p /\ g_type (ug_group v) = t) \/
           (exists d s, In d (ev_deps e) /\ dep_summary e p d = Some s /\ sm_type s = t))) /\
       gl_includes l' = app (gl_includes l) (ug_include u)) gs gs'.
Proof.
  intros e gs gs' H. unfold resolve_extends in H.
  destruct (ext_loop_done e gs _ _ _ _ (progress_refl e gs) H) as [Hp Hs]. unfold progress in Hp.
  assert (Q : forall l l', Forall (fun v => is_settled v = true) l' ->
     Forall2 (fun u v => v = u \/ (is_settled u = false /\ built e gs' u v)) l l' ->
     Forall2 (fun u v => is_settled v = true /\ (v = u \/ (is_settled u = false /\ built e gs' u v))) l l').
  { intros l l' Hn Hf. induction Hf; [constructor|]. inversion Hn; subst. constructor; auto. }
  pose proof (Q _ _ Hs Hp) as Hq. revert Hq. apply Forall2_impl. intros u v [Hv [->|[Hu (par & inc & -> & Hpar & Hinc)]]] l El.
  - apply PropInherit.targets_settled in Hv. exists l. split; [exact El|]. split; [reflexivity|]. split; [reflexivity|].
    unfold targets in Hv. destruct (g_extends (ug_group u)); [discriminate|]. cbn [app] in Hv. rewrite Hv, app_nil_r.
    split; [reflexivity|]. split; [discriminate|reflexivity].
  - rewrite (finish_lineage _ _ _ _ El). eexists. split; [reflexivity|].
    set (bases := app (match par with Some (pid, s) => [(pid, sm_attributes s)] | None => [] end) inc).
    set (l1 := match par with Some (pid, s) => gl_extend pid (sm_type s) l | None => l end).
    destruct (fold_links (uid u) (ug_attrs u) bases (gl_include (ug_include u) l1)) as (L1 & L2 & L3 & L4).
    rewrite L1, L2, L3, L4. unfold par_ok in Hpar. unfold l1.
    assert (Nt : targets u <> []) by (intros Ht; apply PropInherit.targets_settled in Ht; congruence).
    destruct (g_extends (ug_group u)) as [p|], par as [[p' s]|]; try contradiction.
    + destruct Hpar as [-> Ho]. split; [reflexivity|]. split; [intros Ht; contradiction|]. split; [reflexivity|]. split; [|reflexivity].
      intros p0 E. injection E as <-. exists (sm_type s). split; [reflexivity|].
      destruct Ho as [(w & Hw & _ & Hk & ->)|(d & Hd & Hsum & _)].
      * left. exists w. split; [exact Hw|]. split; [exact Hk|reflexivity].
      * right. exists d, s. auto.
    + split; [reflexivity|]. split; [intros Ht; contradiction|]. split; [reflexivity|]. split; [discriminate|reflexivity].
Qed.
Print Assumptions C93_links.

Lemma fold_other (f : list (string * awl) -> uattr -> list (string * awl)) :
  (forall m a x, x <> ua_id a -> slookup x (f m a) = slookup x m) ->
  forall l m x, ~ In x (map ua_id l) -> slookup x (fold_left f l m) = slookup x m.
Proof.
  intros H l. induction l as [|a l IH]; intros m x N; cbn [fold_left]; [reflexivity|]. cbn [map In] in N.
  rewrite IH by tauto. apply H. intros E. apply N. left. symmetry. exact E.
Qed.
Lemma fold_one (f : list (string * awl) -> uattr -> list (string * awl)) :
  (forall m a x, x <> ua_id a -> slookup x (f m a) = slookup x m) ->
  (forall m m' a, slookup (ua_id a) m = slookup (ua_id a) m' -> slookup (ua_id a) (f m a) = slookup (ua_id a) (f m' a)) ->
  forall l m a, NoDup (map ua_id l) -> In a l -> slookup (ua_id a) (fold_left f l m) = slookup (ua_id a) (f m a).
Proof.
  intros H1 H2 l. induction l as [|b l IH]; intros m a Nd Ha; [destruct Ha|]. cbn [map] in Nd. inversion Nd as [|? ? N1 N2]; subst.
  cbn [fold_left]. destruct Ha as [->|Ha].
  - apply fold_other; assumption.
  - rewrite IH by assumption. apply H2. apply H1. intros E. apply N1. rewrite <- E. apply in_map, Ha.
Qed.
Lemma add_base_other gid m a x : x <> ua_id a -> slookup x (add_base gid m a) = slookup x m.
Proof.
  intros N. unfold add_base. destruct (slookup (ua_id a) m); rewrite bt_insert_lookup;
    (destruct (String.eqb_spec x (ua_id a)); [contradiction|reflexivity]).
Qed.
Lemma add_base_cong gid m m' a : slookup (ua_id a) m = slookup (ua_id a) m' ->
  slookup (ua_id a) (add_base gid m a) = slookup (ua_id a) (add_base gid m' a).
Proof. intros E. unfold add_base. rewrite E. destruct (slookup (ua_id a) m'); rewrite !bt_insert_lookup, String.eqb_refl; reflexivity. Qed.
Lemma add_own_other gid m a x : x <> ua_id a -> slookup x (add_own gid m a) = slookup x m.
Proof.
  unfold add_own, ua_id. intros N. destruct (ua_spec a) as [r|i]; cbn [spec_id] in N.
  - destruct (slookup (rs_ref r) m); rewrite bt_insert_lookup; (destruct (String.eqb_spec x (rs_ref r)); [contradiction|reflexivity]).
  - rewrite bt_insert_lookup. destruct (String.eqb_spec x (is_id i)); [contradiction|reflexivity].
Qed.
Lemma add_own_cong gid m m' a : slookup (ua_id a) m = slookup (ua_id a) m' ->
  slookup (ua_id a) (add_own gid m a) = slookup (ua_id a) (add_own gid m' a).
Proof.
  unfold add_own, ua_id. destruct (ua_spec a) as [r|i]; cbn [spec_id].
  - intros E. rewrite E. destruct (slookup (rs_ref r) m'); rewrite !bt_insert_lookup, String.eqb_refl; reflexivity.
  - intros _. rewrite !bt_insert_lookup, String.eqb_refl. reflexivity.
Qed.
Lemma base_map p base x : NoDup (map ua_id base) ->
  (forall b, In b base -> ua_id b = x ->
     slookup x (fold_left (add_base p) base []) =
     Some {| aw_spec := ua_spec b; aw_lineage := al_inherit_from p (ua_spec b); aw_origin := ua_origin b |}) /\
  (~ In x (map ua_id base) -> slookup x (fold_left (add_base p) base []) = None).
Proof.
  intros Nd. split.
  - intros b Hb <-. rewrite (fold_one (add_base p)); [|apply add_base_other|apply add_base_cong|exact Nd|exact Hb].
    unfold add_base. cbn. rewrite String.eqb_refl. reflexivity.
  - intros N. rewrite fold_other; [reflexivity|apply add_base_other|exact N].
Qed.
(* the entries of a group, given those of its inherited attributes *)
Lemma lineage_entries gid own bases l x : NoDup (map fst (inherited_map gid own bases)) ->
  (forall k aw, In (k, aw) (inherited_map gid own bases) -> spec_id (aw_spec aw) = k) ->
  slookup x (gl_attributes (inherit_group_lineage gid own bases l)) =
  match slookup x (inherited_map gid own bases) with
  | Some aw => if al_is_empty (aw_lineage aw) then slookup x (gl_attributes l) else Some (aw_lineage aw)
  | None => slookup x (gl_attributes l)
  end.
Proof.
  unfold inherit_group_lineage. generalize (inherited_map gid own bases). intros m. revert l.
  induction m as [|[k aw] m IH]; intros l Nd Hk; [reflexivity|]. cbn [map fst] in Nd. inversion Nd as [|? ? N1 N2]; subst.
  cbn [fold_left snd]. rewrite IH; [|exact N2|intros; apply Hk; right; assumption].
  assert (Ek : spec_id (aw_spec aw) = k) by (apply Hk; left; reflexivity). rewrite Ek.
  assert (Ec : slookup x ((k, aw) :: m) = if String.eqb x k then Some aw else slookup x m) by reflexivity. rewrite Ec. clear Ec.
  destruct (String.eqb_spec x k) as [->|N].
  - assert (E : slookup k m = None) by (apply slookup_none, N1). rewrite E.
    destruct (al_is_empty (aw_lineage aw)); [reflexivity|]. unfold gl_add. cbn [gl_attributes].
    rewrite bt_insert_lookup, String.eqb_refl. reflexivity.
  - destruct (al_is_empty (aw_lineage aw)); [reflexivity|]. unfold gl_add. cbn [gl_attributes].
    rewrite bt_insert_lookup. destruct (String.eqb_spec x k); [contradiction|reflexivity].
Qed.
Lemma says_of gid own bases l x aw : gl_attributes l = [] ->
  NoDup (map fst (inherited_map gid own bases)) ->
  (forall k aw, In (k, aw) (inherited_map gid own bases) -> spec_id (aw_spec aw) = k) ->
  slookup x (inherited_map gid own bases) = Some aw -> says (inherit_group_lineage gid own bases l) x (aw_lineage aw).
Proof.
  intros E Nd Hk Hx. unfold says. rewrite (lineage_entries _ _ _ _ _ Nd Hk), Hx, E.
  unfold al_is_empty. destruct (al_inherited (aw_lineage aw)) as [|i is] eqn:E1; [|left; reflexivity].
  destruct (al_overridden (aw_lineage aw)) as [|o os] eqn:E2; [|left; reflexivity]. right. split; [reflexivity|]. split; reflexivity.
Qed.
Lemma map_facts gid own bases : NoDup (map fst (inherited_map gid own bases)) /\
  forall k aw, In (k, aw) (inherited_map gid own bases) -> spec_id (aw_spec aw) = k.
Proof.
  destruct (PropInherit.lay_inherited gid own bases) as [Hs H].
  assert (Nd : NoDup (map fst (inherited_map gid own bases))) by (apply bt_sorted_nodup, Hs). split; [exact Nd|].
  intros k aw Hin. apply (slookup_in _ k aw Nd) in Hin. specialize (H k). rewrite Hin in H. apply H.
Qed.

Lemma inherit_lineage_source a b l : al_source (inherit_lineage a b l) = al_source l.
Proof.
  unfold inherit_lineage. destruct a as [r|i]; [|reflexivity]. destruct b as [p|p];
    repeat first [rewrite source_opt|rewrite source_val|rewrite source_flag]; reflexivity.
Qed.
Lemma inherit_from_source p b : al_source (al_inherit_from p b) = p.
Proof.
  unfold al_inherit_from. destruct b as [r|i];
    repeat first [rewrite source_if|progress cbn [mark_inherited al_source]]; reflexivity.
Qed.
Lemma inherit_from_over p b : al_overridden (al_inherit_from p b) = [].
Proof.
  assert (M : forall b0 f l, al_overridden (mark_if b0 f l) = al_overridden l) by (intros [] ? ?; reflexivity).
  unfold al_inherit_from. destruct b as [r|i];
    repeat first [rewrite M|progress cbn [mark_inherited al_overridden]]; reflexivity.
Qed.
Lemma inherit_from_tells p b f : In (field_name f) (al_inherited (al_inherit_from p b)) <->
  written b f <> None /\ f <> FAnnotations /\ f <> FRole.
Proof.
  rewrite <- memb_in, <- is_some_iff. unfold al_inherit_from.
  destruct b as [r|i]; sets; destruct f; field_case; cbn [is_some];
    (split; [intros Hm; first [discriminate Hm | split; [exact Hm|split; discriminate]] | intros (Hm & Ha & Hr); try congruence; try exact Hm]).
Qed.
Lemma inherit_tells r b p : tells (SRef r) (written b) (inherit_lineage (SRef r) b (al_inherit_from p b)).
Proof.
  apply tells_bool; unfold inherit_lineage, al_inherit_from.
  - intros f. destruct b as [q|i]; sets; destruct f; field_case; reflexivity.
  - intros f. destruct b as [q|i]; sets; destruct f; field_case;
      repeat match goal with |- context [is_some ?o] => destruct o; cbn [is_some negb orb andb option_map] end; reflexivity.
  - destruct b as [q|i]; only_tac.
Qed.

(* A group with one base, without lineage of its own.  What its lineage says:
   - of an attribute of the base it refers to: the base is the source, overridden is what the
     reference sets, inherited what it does not set and the base does;
   - of an attribute of the base it does not mention: inherited is what the base sets;
   - of its own attributes, nothing yet.
   What is missing: annotations and role of an attribute it does not mention are not listed,
   although inherited (refuted below). *)
Theorem C93_extends_partial : forall e gs gs', resolve_extends e gs = Done gs' ->
  Forall2 (fun u u' => forall p, targets u = [p] -> no_attribute_lineage u ->
     exists base l', (settled_in gs' p base \/ offered_by e p base) /\ g_lineage (ug_group u') = Some l' /\
       (NoDup (map (fun a => spec_id (ua_spec a)) base) -> NoDup (attr_ids u) ->
        (forall a b r, In a (ug_attrs u) -> In b base -> ua_spec a = SRef r -> spec_id (ua_spec b) = rs_ref r ->
           exists al, says l' (rs_ref r) al /\ al_source al = p /\ tells (SRef r) (written (ua_spec b)) al) /\
        (forall b, In b base -> ~ In (spec_id (ua_spec b)) (attr_ids u) ->
           exists al, says l' (spec_id (ua_spec b)) al /\ al_source al = p /\ al_overridden al = [] /\
             forall f, In (field_name f) (al_inherited al) <->
               written (ua_spec b) f <> None /\ f <> FAnnotations /\ f <> FRole) /\
        (forall x, ~ In x (map (fun a => spec_id (ua_spec a)) base) -> slookup x (gl_attributes l') = None) /\
        (forall a i, In a (ug_attrs u) -> ua_spec a = SId i -> slookup (is_id i) (gl_attributes l') = None))) gs gs'.
Proof.
  intros e gs gs' H. unfold resolve_extends in H.
  destruct (ext_loop_done e gs _ _ _ _ (progress_refl e gs) H) as [Hp Hs]. unfold progress in Hp.
  assert (Q : forall l l', Forall (fun v => is_settled v = true) l' ->
     Forall2 (fun u v => v = u \/ (is_settled u = false /\ built e gs' u v)) l l' ->
     Forall2 (fun u v => is_settled v = true /\ (v = u \/ (is_settled u = false /\ built e gs' u v))) l l').
  { intros l l' Hn Hf. induction Hf; [constructor|]. inversion Hn; subst. constructor; auto. }
  pose proof (Q _ _ Hs Hp) as Hq. revert Hq. apply Forall2_impl.
  intros u v [Hv [->|[Hu (par & inc & -> & Hpar & Hinc)]]] p Ht (l & El & Hl).
  { apply PropInherit.targets_settled in Hv. congruence. }
  rewrite (finish_lineage _ _ _ _ El).
  assert (B : exists base, app (match par with Some (pid, s) => [(pid, sm_attributes s)] | None => [] end) inc = [(p, base)] /\
     (settled_in gs' p base \/ offered_by e p base)).
  { unfold targets in Ht. unfold par_ok in Hpar. destruct (g_extends (ug_group u)) as [q|], par as [[q' s]|]; try contradiction.
    - injection Ht as -> Hi. destruct Hpar as [-> Ho]. unfold inc_ok in Hinc. rewrite Hi in Hinc. inversion Hinc; subst.
      exists (sm_attributes s). split; [reflexivity|]. destruct Ho as [Ho|(d & H1 & H2 & H3)].
      + left. apply PropInherit.avail_settled, Ho.
      + right. exists d, s. auto.
    - cbn [app] in Ht. unfold inc_ok in Hinc. rewrite Ht in Hinc. inversion Hinc as [|i b is bs (Hb & s & H1 & H2) Hin E1 E2]; subst.
      inversion Hin; subst. destruct b as [bp base]. cbn in *. subst. exists (sm_attributes s). split; [reflexivity|].
      left. apply PropInherit.avail_settled, H1. }
  destruct B as (base & -> & Hb). eexists base, _. split; [exact Hb|]. split; [reflexivity|].
  intros Nb No. fold ua_id in Nb. change (attr_ids u) with (map ua_id (ug_attrs u)) in *.
  set (l1 := gl_include (ug_include u) (match par with Some (pid, s) => gl_extend pid (sm_type s) l | None => l end)).
  assert (Hl1 : gl_attributes l1 = []) by (unfold l1; destruct par as [[? ?]|]; exact Hl).
  destruct (map_facts (uid u) (ug_attrs u) [(p, base)]) as [Nd Hk].
  assert (EM : forall x, slookup x (inherited_map (uid u) (ug_attrs u) [(p, base)]) =
     slookup x (fold_left (add_own (uid u)) (ug_attrs u) (fold_left (add_base p) base []))) by reflexivity.
  split; [|split; [|split]].
  - intros a b r Ha Hb' Es Eb. destruct (base_map p base (rs_ref r) Nb) as [B1 _]. specialize (B1 b Hb' Eb).
    eexists. split; [apply says_of; [exact Hl1|exact Nd|exact Hk|]|].
    + rewrite EM. replace (rs_ref r) with (ua_id a) by (unfold ua_id; rewrite Es; reflexivity).
      rewrite (fold_one (add_own (uid u))); [|apply add_own_other|apply add_own_cong|exact No|exact Ha].
      unfold add_own. rewrite Es. rewrite B1. unfold ua_id. rewrite Es. cbn [spec_id aw_spec aw_lineage aw_origin]. rewrite bt_insert_lookup, String.eqb_refl. reflexivity.
    + cbn [aw_lineage]. rewrite inherit_lineage_source, inherit_from_source. split; [reflexivity|apply inherit_tells].
  - intros b Hb' Nx. change (spec_id (ua_spec b)) with (ua_id b) in *. destruct (base_map p base (ua_id b) Nb) as [B1 _]. specialize (B1 b Hb' eq_refl).
    eexists. split; [apply says_of; [exact Hl1|exact Nd|exact Hk|]|].
    + rewrite EM, fold_other; [exact B1|apply add_own_other|exact Nx].
    + cbn [aw_lineage]. rewrite inherit_from_source, inherit_from_over. split; [reflexivity|]. split; [reflexivity|]. apply inherit_from_tells.
  - intros x Nx. destruct (base_map p base x Nb) as [_ B2]. specialize (B2 Nx).
    rewrite (lineage_entries _ _ _ _ _ Nd Hk), EM, Hl1.
    destruct (in_dec string_dec x (map ua_id (ug_attrs u))) as [Hi|Hi].
    + apply in_map_iff in Hi as (a & <- & Ha).
      rewrite (fold_one (add_own (uid u))); [|apply add_own_other|apply add_own_cong|exact No|exact Ha].
      revert B2. unfold add_own, ua_id. destruct (ua_spec a) as [r|i]; cbn [spec_id]; intros B2.
      * rewrite B2, bt_insert_lookup, String.eqb_refl. reflexivity.
      * rewrite bt_insert_lookup, String.eqb_refl. reflexivity.
    + rewrite fold_other; [rewrite B2; reflexivity|apply add_own_other|exact Hi].
  - intros a i Ha Es. rewrite (lineage_entries _ _ _ _ _ Nd Hk), EM, Hl1.
    replace (is_id i) with (ua_id a) by (unfold ua_id; rewrite Es; reflexivity).
    rewrite (fold_one (add_own (uid u))); [|apply add_own_other|apply add_own_cong|exact No|exact Ha].
    unfold add_own, ua_id. rewrite Es. cbn [spec_id]. rewrite bt_insert_lookup, String.eqb_refl. reflexivity.
Qed.
Print Assumptions C93_extends_partial.

(* ---------- cases ---------- *)
Example C93_references_case : exists gs1 gs2 c, resolve_extends no_env lineage_reg = Done gs1 /\ unreferenced gs1 /\
  resolve_references no_env gs1 empty_catalog = Done (gs2, c) /\ Forall distinct_refs gs1 /\
  lineage_at gs2 0 "x" = Some {| al_source := "defs"; al_inherited := ["note"; "requirement_level"]; al_overridden := ["brief"] |} /\
  lineage_at gs2 0 "y" = Some {| al_source := "defs"; al_inherited := ["brief"; "note"; "requirement_level"]; al_overridden := [] |} /\
  lineage_at gs2 2 "x" = None.
Proof.
  eexists. eexists. eexists. split; [vm_compute; reflexivity|]. split.
  { intros u Hu. cbn in Hu. destruct Hu as [<-|[<-|[<-|[]]]]; reflexivity. }
  split; [vm_compute; reflexivity|]. split.
  { repeat constructor; cbn; intuition discriminate. }
  split; [reflexivity|]. split; reflexivity.
Qed.
Example C93_extends_case : exists gs1 u v, resolve_extends no_env one_base = Done gs1 /\
  nth_error one_base 0 = Some u /\ nth_error one_base 1 = Some v /\ targets u = ["parent"] /\ no_attribute_lineage u /\
  targets v = ["parent"] /\ no_attribute_lineage v /\ NoDup (attr_ids u) /\
  lineage_at gs1 0 "x" = Some {| al_source := "parent"; al_inherited := ["note"; "requirement_level"; "role"; "stability"]; al_overridden := ["brief"] |} /\
  lineage_at gs1 1 "x" = Some {| al_source := "parent"; al_inherited := ["note"; "requirement_level"; "stability"]; al_overridden := [] |}.
Proof.
  eexists. eexists. eexists. split; [vm_compute; reflexivity|]. split; [reflexivity|]. split; [reflexivity|].
  split; [reflexivity|]. split; [eexists; split; reflexivity|]. split; [reflexivity|]. split; [eexists; split; reflexivity|].
  split; [repeat constructor; cbn; intuition discriminate|]. split; reflexivity.
Qed.

(* ---------- what lineage does not tell ---------- *)
(* A field listed as locally overridden need not be written in the group: what a group it
   extends wrote counts as its own. *)
Theorem C93_locally_refuted :
  ~ (forall gs gs2 c i u x al, resolves_to gs gs2 c -> nth_error gs i = Some u -> lineage_at gs2 i x = Some al ->
       forall f, In (field_name f) (al_overridden al) ->
         exists a, In a (ug_attrs u) /\ spec_id (ua_spec a) = x /\ written (ua_spec a) f <> None).
Proof.
  intros H. destruct C93_references_case as (gs1 & gs2 & c & E1 & Un & E2 & _ & Hx & _).
  destruct (H lineage_reg gs2 c 0 _ "x" _ (ex_intro _ gs1 (conj E1 (conj Un E2))) eq_refl Hx FBrief) as (a & Ha & Es & _).
  - left. reflexivity.
  - cbn in Ha. destruct Ha as [<-|[]]. discriminate Es.
Qed.
Print Assumptions C93_locally_refuted.

(* With two bases that define the attribute the second one's definition counts, but the fields
   of the first are listed as inherited. *)
Theorem C93_two_bases_refuted :
  exists gs2 c al a, resolves_to two_bases gs2 c /\ lineage_at gs2 0 "x" = Some al /\ al_source al = "two" /\
    attribute_at gs2 c 0 "x" a /\ (forall b, attribute_at gs2 c 0 "x" b -> b = a) /\
    In (field_name FStability) (al_inherited al) /\ value a FStability = None.
Proof.
  eexists. eexists. eexists. exists (attribute_of_id {| is_id := "x"; is_type := TPrim PString; is_brief := None; is_examples := None; is_tag := None;
         is_req := RRecommended; is_sampling := None; is_note := "noted"; is_stability := None;
         is_deprecated := None; is_annotations := None; is_role := None |}).
  split.
  { eexists. split; [vm_compute; reflexivity|]. split; [|vm_compute; reflexivity].
    intros u Hu. cbn in Hu. destruct Hu as [<-|[<-|[<-|[]]]]; reflexivity. }
  split; [vm_compute; reflexivity|]. split; [reflexivity|]. split.
  { eexists. eexists. split; [reflexivity|]. split; [left; reflexivity|]. split; [left; reflexivity|reflexivity]. }
  split.
  { intros b (u & n & E1 & E2 & E3 & _). injection E1 as <-. cbn in E2. destruct E2 as [<-|[]]. cbn in E3.
    destruct E3 as [E3|[E3|[]]]; [injection E3 as <-; reflexivity|discriminate E3]. }
  split; [right; right; left; reflexivity|reflexivity].
Qed.
Print Assumptions C93_two_bases_refuted.

(* the role of an inherited attribute the group does not mention is not listed *)
Theorem C93_unmentioned_role_refuted :
  exists gs2 c al a, resolves_to one_base gs2 c /\ lineage_at gs2 1 "x" = Some al /\ attribute_at gs2 c 1 "x" a /\
    value a FRole = Some (VRole Identifying) /\ ~ In (field_name FRole) (al_inherited al) /\ ~ In (field_name FRole) (al_overridden al).
Proof.
  eexists. eexists. eexists. eexists.
  split.
  { eexists. split; [vm_compute; reflexivity|]. split; [|vm_compute; reflexivity].
    intros u Hu. cbn in Hu. destruct Hu as [<-|[<-|[<-|[]]]]; reflexivity. }
  split; [vm_compute; reflexivity|]. split.
  { eexists. eexists. split; [reflexivity|]. split; [left; reflexivity|]. split; [right; left; reflexivity|reflexivity]. }
  split; [reflexivity|]. split; cbn; intuition discriminate.
Qed.
Print Assumptions C93_unmentioned_role_refuted.

(* an entry for a name that no attribute of the group has *)
Theorem C93_stale_entry_refuted :
  exists gs2 c al, resolves_to prefixed_base gs2 c /\ lineage_at gs2 0 "y" = Some al /\
    forall a, ~ attribute_at gs2 c 0 "y" a.
Proof.
  eexists. eexists. eexists.
  split.
  { eexists. split; [vm_compute; reflexivity|]. split; [|vm_compute; reflexivity].
    intros u Hu. cbn in Hu. destruct Hu as [<-|[<-|[<-|[]]]]; reflexivity. }
  split; [vm_compute; reflexivity|].
  intros b (u & n & E1 & E2 & E3 & E4). injection E1 as <-. cbn in E2. destruct E2 as [<-|[]]. cbn in E3.
  destruct E3 as [E3|[E3|[]]]; injection E3 as <-; try discriminate; discriminate E4.
Qed.
Print Assumptions C93_stale_entry_refuted.
