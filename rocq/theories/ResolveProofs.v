(* Lemmas about the catalog and the two resolution loops. *)
From Coq Require Import String Ascii Bool Arith Lia Permutation Sorted List.
Import ListNotations.
From Verif Require Import Base BaseProofs BaseProofs2 Json SemTypes Resolved Semver DefModel ResolveModel ResolveSpec.
Local Open Scope string_scope.

Lemma attribute_eqb_spec a b : attribute_eqb a b = true <-> a = b.
Proof. unfold attribute_eqb. destruct (attribute_eq_dec a b); split; congruence. Qed.

(* ---------- the catalog ---------- *)
Definition cat_ok (c : catalog) : Prop :=
  NoDup (map fst (ct_refs c)) /\ map snd (ct_refs c) = seq 0 (length (ct_refs c)).
Definition cat_le (c c' : catalog) : Prop := incl (ct_refs c) (ct_refs c').
Definition ref_ok (c : catalog) (r : nat) : Prop := exists a, denotes c r a.

Lemma cat_le_refl c : cat_le c c.
Proof. intros x H. exact H. Qed.
Lemma cat_le_trans a b c : cat_le a b -> cat_le b c -> cat_le a c.
Proof. intros H1 H2 x Hx. apply H2, H1, Hx. Qed.
Lemma ref_ok_le c c' r : cat_le c c' -> ref_ok c r -> ref_ok c' r.
Proof. intros H [a Ha]. exists a. apply H, Ha. Qed.
Lemma denotes_le c c' r a : cat_le c c' -> denotes c r a -> denotes c' r a.
Proof. intros H Ha. apply H, Ha. Qed.
Lemma empty_ok : cat_ok empty_catalog.
Proof. split; [constructor | reflexivity]. Qed.

Lemma set_root_refs k s c : ct_refs (set_root k s c) = ct_refs c.
Proof. reflexivity. Qed.
Lemma set_root_ok k s c : cat_ok c -> cat_ok (set_root k s c).
Proof. intros H. exact H. Qed.
Lemma set_root_le k s c : cat_le c (set_root k s c).
Proof. intros x H. exact H. Qed.

Lemma nodup_snd (c : catalog) : cat_ok c -> NoDup (map snd (ct_refs c)).
Proof. intros [_ H]. rewrite H. apply seq_NoDup. Qed.

Lemma denotes_fun c r a b : cat_ok c -> denotes c r a -> denotes c r b -> a = b.
Proof.
  intros Hc. pose proof (nodup_snd c Hc) as H. unfold denotes.
  induction (ct_refs c) as [|[x n] l IH]; cbn [map snd] in *; [intros []|].
  inversion H as [|? ? Hn Hl]; subst.
  intros [Ha|Ha] [Hb|Hb].
  - congruence.
  - exfalso. apply Hn. injection Ha as _ ->. apply in_map_iff. exists (b, r). auto.
  - exfalso. apply Hn. injection Hb as _ ->. apply in_map_iff. exists (a, r). auto.
  - apply IH; assumption.
Qed.
Lemma denotes_inj c r r' a : cat_ok c -> denotes c r a -> denotes c r' a -> r = r'.
Proof.
  intros [H _]. unfold denotes.
  induction (ct_refs c) as [|[x n] l IH]; cbn [map fst] in *; [intros []|].
  inversion H as [|? ? Hn Hl]; subst.
  intros [Ha|Ha] [Hb|Hb].
  - congruence.
  - exfalso. apply Hn. injection Ha as -> _. apply in_map_iff. exists (a, r'). auto.
  - exfalso. apply Hn. injection Hb as -> _. apply in_map_iff. exists (a, r). auto.
  - apply IH; assumption.
Qed.

Lemma attribute_ref_ok a c r c' : cat_ok c -> attribute_ref a c = (r, c') ->
  cat_ok c' /\ cat_le c c' /\ denotes c' r a /\ ct_roots c' = ct_roots c.
Proof.
  intros [Hn Hs]. unfold attribute_ref.
  destruct (lookup attribute_eqb a (ct_refs c)) as [r0|] eqn:E; intros H; injection H as <- <-.
  - split; [split; assumption|]. split; [apply cat_le_refl|]. split; [|reflexivity].
    apply (lookup_in _ attribute_eqb_spec) in E. exact E.
  - apply (lookup_none _ attribute_eqb_spec) in E. split; [split|split; [|split]]; cbn [ct_refs ct_roots].
    + rewrite map_app. cbn [map fst]. apply (Permutation_NoDup (l := a :: map fst (ct_refs c)));
        [apply Permutation_cons_append | constructor; assumption].
    + rewrite map_app, app_length, Hs. cbn [map snd length]. rewrite Nat.add_1_r, seq_S. reflexivity.
    + intros x Hx. apply in_or_app. left. exact Hx.
    + unfold denotes. cbn [ct_refs]. apply in_or_app. right. left. reflexivity.
    + reflexivity.
Qed.

(* what one attribute adds to the catalog *)
Lemma resolve_attr_ok e gid gp gx a c r c' en : cat_ok c ->
  resolve_attr e gid gp gx a c = Got (Some (r, c', en)) ->
  cat_ok c' /\ cat_le c c' /\ ref_ok c' r.
Proof.
  intros Hc. unfold resolve_attr. destruct (ua_spec a) as [s|i].
  - set (own := match slookup (rs_ref s) (ct_roots c) with
                | Some s => if ws_def s then Some s else None | None => None end).
    assert (P : forall found, (match own with
       | Some s0 => Got (Some (s0, c))
       | None => rr_bind (deps_lookup_attr e (rs_ref s))
           (fun o => match o with
                     | Some s0 => rr_bind (upgrade_attr e s0) (fun s' => Got (Some (s', set_root (rs_ref s) s' c)))
                     | None => Got None
                     end) end) = Got (Some found) -> cat_ok (snd found) /\ cat_le c (snd found)).
    { intros found. destruct own as [s0|].
      - intros H. injection H as <-. cbn [snd]. split; [exact Hc|apply cat_le_refl].
      - destruct (deps_lookup_attr e (rs_ref s)) as [[s0|]|err]; cbn [rr_bind]; try discriminate.
        destruct (upgrade_attr e s0) as [s1|err]; cbn [rr_bind]; try discriminate.
        intros H. injection H as <-. cbn [snd]. split; [apply set_root_ok, Hc|apply set_root_le]. }
    destruct (match own with Some s0 => Got (Some (s0, c)) | None => _ end) as [[[root c1]|]|err];
      cbn [rr_bind]; try discriminate.
    destruct (P _ eq_refl) as [H1 L1]. cbn [snd] in H1, L1.
    destruct (match ws_source root with SDep _ => _ | SLocal _ => _ end); try discriminate.
    destruct (attribute_ref _ c1) as [ar c2] eqn:Er.
    destruct (attribute_ref_ok _ _ _ _ H1 Er) as (H2 & L2 & D2 & _).
    intros H. injection H as <- <- _.
    assert (L : cat_le c c2) by (eapply cat_le_trans; eassumption).
    destruct (rs_prefix s).
    + split; [apply set_root_ok, H2|]. split; [exact L|]. eexists. exact D2.
    + split; [exact H2|]. split; [exact L|]. eexists. exact D2.
  - destruct (negb gx && opt_excluded (is_annotations i)); [discriminate|].
    destruct (match slookup (is_id i) (ct_roots c) with Some _ => _ | None => _ end) as [root|err];
      cbn [rr_bind]; try discriminate.
    destruct (attribute_ref _ _) as [ar c2] eqn:Er.
    destruct (attribute_ref_ok _ _ _ _ (set_root_ok _ _ _ Hc) Er) as (H2 & L2 & D2 & _).
    intros H. injection H as <- <- _. split; [exact H2|]. split; [exact L2|]. eexists. exact D2.
Qed.

(* one group, one pass *)
Lemma visit_attrs_ok e b u l : forall c lin v, cat_ok c -> visit_attrs e b u l c lin = Got v ->
  cat_ok (vs_catalog v) /\ cat_le c (vs_catalog v) /\ Forall (ref_ok (vs_catalog v)) (vs_resolved v) /\
  length (vs_resolved v) + length (vs_left v) = length l /\ incl (vs_left v) l.
Proof.
  induction l as [|a l IH]; intros c lin v Hc H; cbn [visit_attrs] in H.
  - injection H as <-. cbn. repeat split; try apply Hc; try apply cat_le_refl; try constructor.
    intros x Hx. exact Hx.
  - assert (K : forall v', cat_ok (vs_catalog v') /\ cat_le c (vs_catalog v') /\
              Forall (ref_ok (vs_catalog v')) (vs_resolved v') /\
              length (vs_resolved v') + length (vs_left v') = length l /\ incl (vs_left v') l ->
              forall es, v = {| vs_resolved := vs_resolved v'; vs_left := a :: vs_left v'; vs_errors := es;
                         vs_catalog := vs_catalog v'; vs_lineage := vs_lineage v' |} ->
              cat_ok (vs_catalog v) /\ cat_le c (vs_catalog v) /\ Forall (ref_ok (vs_catalog v)) (vs_resolved v) /\
              length (vs_resolved v) + length (vs_left v) = length (a :: l) /\ incl (vs_left v) (a :: l)).
    { intros v' (A & B & C & D & E) es ->. cbn [vs_catalog vs_resolved vs_left]. repeat split; try apply A; auto.
      - cbn [length]. lia.
      - intros x [<-|Hx]; [left; reflexivity|right; apply E, Hx]. }
    destruct (b && negb (is_id_spec a)).
    { destruct (visit_attrs e b u l c lin) as [v'|err] eqn:Ev; cbn [rr_bind] in H; [|discriminate].
      injection H as H. symmetry in H. eapply K; [|exact H]. eapply IH; eassumption. }
    destruct (resolve_attr e (uid u) (g_prefix (ug_group u)) (ug_excluded u) a c) as [[[[ar c'] en]|]|err] eqn:Er.
    + destruct (resolve_attr_ok _ _ _ _ _ _ _ _ _ Hc Er) as (H1 & L1 & R1).
      match type of H with rr_bind ?X _ = _ => destruct X as [v'|err] eqn:Ev end; cbn [rr_bind] in H; [|discriminate].
      destruct (IH _ _ _ H1 Ev) as (A & B & C & D & E). injection H as <-.
      cbn [vs_catalog vs_resolved vs_left]. repeat split; try apply A.
      * eapply cat_le_trans; eassumption.
      * constructor; [eapply ref_ok_le; eassumption|exact C].
      * cbn [length]. lia.
      * intros x Hx. right. apply E, Hx.
    + match type of H with rr_bind ?X _ = _ => destruct X as [v'|err] eqn:Ev end; cbn [rr_bind] in H; [|discriminate].
      injection H as H. symmetry in H. eapply K; [|exact H]. eapply IH; eassumption.
    + destruct (is_excluded_err err); [|discriminate].
      match type of H with rr_bind ?X _ = _ => destruct X as [v'|err'] eqn:Ev end; cbn [rr_bind] in H; [|discriminate].
      injection H as H. symmetry in H. eapply K; [|exact H]. eapply IH; eassumption.
Qed.

Definition refs_ok (c : catalog) (gs : list ugroup) : Prop :=
  forall u r, In u gs -> In r (g_attributes (ug_group u)) -> ref_ok c r.
Lemma refs_ok_le c c' gs : cat_le c c' -> refs_ok c gs -> refs_ok c' gs.
Proof. intros H1 H2 u r Hu Hr. eapply ref_ok_le; [exact H1|]. eapply H2; eassumption. Qed.

Lemma visit_groups_ok e b gs : forall c p, cat_ok c -> refs_ok c gs -> visit_groups e b gs c = Got p ->
  cat_ok (ps_catalog p) /\ cat_le c (ps_catalog p) /\ refs_ok (ps_catalog p) (ps_groups p) /\
  ps_count p + pending (ps_groups p) = pending gs.
Proof.
  induction gs as [|u gs IH]; intros c p Hc Hr H; cbn [visit_groups] in H.
  - injection H as <-. cbn. repeat split; try apply Hc; try apply cat_le_refl. intros u r [].
  - match type of H with rr_bind ?X _ = _ => destruct X as [v|err] eqn:Ev end; cbn [rr_bind] in H; [|discriminate].
    destruct (visit_attrs_ok _ _ _ _ _ _ _ Hc Ev) as (A & B & C & D & _).
    match type of H with rr_bind ?X _ = _ => destruct X as [q|err] eqn:Eq end; cbn [rr_bind] in H; [|discriminate].
    assert (Hr' : refs_ok (vs_catalog v) gs).
    { eapply refs_ok_le; [exact B|]. intros x r Hx. apply Hr. right. exact Hx. }
    destruct (IH _ _ A Hr' Eq) as (A' & B' & C' & D').
    injection H as <-. cbn [ps_catalog ps_groups ps_count]. repeat split; try apply A'.
    + eapply cat_le_trans; eassumption.
    + intros x r [<-|Hx] Hin.
      * cbn [with_attrs ug_group with_group set_lineage set_attributes g_attributes] in Hin.
        apply in_app_or in Hin as [Hin|Hin].
        -- eapply ref_ok_le; [|eapply Hr; [left; reflexivity|exact Hin]].
           eapply cat_le_trans; eassumption.
        -- rewrite Forall_forall in C. eapply ref_ok_le; [exact B'|]. apply C, Hin.
      * eapply C'; eassumption.
    + unfold pending in *. cbn [map]. change (list_sum (?x :: ?y)) with (x + list_sum y).
      cbn [with_attrs ug_attrs]. lia.
Qed.

Lemma refs_loop_ok e init n : forall gs c gs' c', cat_ok c -> refs_ok c gs ->
  refs_loop n e init gs c = Done (gs', c') ->
  cat_ok c' /\ cat_le c c' /\ refs_ok c' gs'.
Proof.
  induction n as [|n IH]; intros gs c gs' c' Hc Hr H; cbn [refs_loop] in H; [discriminate|].
  destruct (visit_groups e false gs c) as [p|err] eqn:Ev; [|discriminate].
  destruct (visit_groups_ok _ _ _ _ _ Hc Hr Ev) as (A & B & C & _).
  destruct (app init (ps_errors p)) as [|e1 es].
  - injection H as <- <-. auto.
  - destruct (Nat.eqb (ps_count p) 0); [discriminate|].
    destruct (IH _ _ _ _ A C H) as (A' & B' & C').
    split; [exact A'|]. split; [eapply cat_le_trans; eassumption|exact C'].
Qed.

Lemma resolve_references_ok e gs c gs' c' : cat_ok c -> refs_ok c gs ->
  resolve_references e gs c = Done (gs', c') ->
  cat_ok c' /\ cat_le c c' /\ refs_ok c' gs'.
Proof.
  unfold resolve_references. intros Hc Hr H.
  destruct (visit_groups e true gs c) as [p|err] eqn:Ev; [|discriminate].
  destruct (visit_groups_ok _ _ _ _ _ Hc Hr Ev) as (A & B & C & _).
  destruct (refs_loop_ok _ _ _ _ _ _ _ A C H) as (A' & B' & C').
  split; [exact A'|]. split; [eapply cat_le_trans; eassumption|exact C'].
Qed.

(* ---------- extends leaves the references alone ---------- *)
Lemma finish_group_attributes u par inc : g_attributes (ug_group (finish_group u par inc)) = g_attributes (ug_group u).
Proof.
  unfold finish_group. cbn [clear_include ug_group with_attrs with_group set_extends upd_lineage set_lineage g_attributes].
  destruct par as [[pid s]|]; [|reflexivity]. destruct (ug_is_v2 u); reflexivity.
Qed.
Lemma ext_groups_refs e gs : forall idx,
  map (fun u => g_attributes (ug_group u)) (rd_groups (ext_groups e idx gs)) =
  map (fun u => g_attributes (ug_group u)) gs.
Proof.
  induction gs as [|u gs IH]; intros idx; cbn [ext_groups]; [reflexivity|].
  destruct (ext_step e idx u) as [|es|u' es fs] eqn:E; cbn [rd_groups map]; rewrite IH; try reflexivity.
  f_equal. unfold ext_step in E. destruct (is_settled u); [discriminate|].
  destruct (collect_included u idx [] (ug_include u)) as [[|e1 l] inc]; [|discriminate].
  destruct (g_extends (ug_group u)) as [pid|].
  - destruct (lookup_group e idx pid) as [s| |t]; try discriminate.
    destruct (excluded_parent u pid s); [discriminate|]. injection E as <- _ _. apply finish_group_attributes.
  - injection E as <- _ _. apply finish_group_attributes.
Qed.
Lemma ext_loop_refs e n : forall gs fatal gs', ext_loop n e gs fatal = Done gs' ->
  map (fun u => g_attributes (ug_group u)) gs' = map (fun u => g_attributes (ug_group u)) gs.
Proof.
  induction n as [|n IH]; intros gs fatal gs' H; cbn [ext_loop] in H; [discriminate|].
  set (d := ext_groups e (start_index gs) gs) in *.
  assert (Hd : map (fun u => g_attributes (ug_group u)) (rd_groups d) = map (fun u => g_attributes (ug_group u)) gs)
    by apply ext_groups_refs.
  destruct (rd_errors d) as [|e1 es].
  - destruct (app fatal (rd_fatal d)); [|discriminate]. injection H as <-. exact Hd.
  - destruct (Nat.eqb (rd_count d) 0); [discriminate|]. rewrite (IH _ _ _ H). exact Hd.
Qed.
Lemma unreferenced_map gs gs' :
  map (fun u => g_attributes (ug_group u)) gs' = map (fun u => g_attributes (ug_group u)) gs ->
  unreferenced gs -> unreferenced gs'.
Proof.
  intros E H u Hu. assert (Hin : In (g_attributes (ug_group u)) (map (fun u => g_attributes (ug_group u)) gs)).
  { rewrite <- E. apply in_map_iff. exists u. auto. }
  apply in_map_iff in Hin as (x & Hx & Hin). rewrite <- Hx. apply H, Hin.
Qed.
Lemma unreferenced_ok c gs : unreferenced gs -> refs_ok c gs.
Proof. intros H u r Hu Hr. rewrite (H u Hu) in Hr. destruct Hr. Qed.

(* ---------- compaction ---------- *)
Lemma number_fst {A} (l : list A) : forall i, map fst (number i l) = l.
Proof. induction l as [|x l IH]; intros i; cbn [number map fst]; [reflexivity|]. f_equal. apply IH. Qed.
Lemma number_nth {A} (l : list A) : forall i x k, In (x, k) (number i l) <-> exists j, nth_error l j = Some x /\ k = i + j.
Proof.
  induction l as [|y l IH]; intros i x k; cbn [number].
  - split; [intros []|]. intros (j & H & _). destruct j; discriminate.
  - cbn [In]. rewrite IH. split.
    + intros [H|(j & H & ->)].
      * injection H as -> ->. exists 0. split; [reflexivity|lia].
      * exists (S j). split; [exact H|lia].
    + intros ([|j] & H & ->); cbn [nth_error] in H.
      * left. injection H as ->. f_equal. lia.
      * right. exists j. split; [exact H|lia].
Qed.

Lemma mem_ref_spec n l : mem_ref n l = true <-> In n l.
Proof.
  unfold mem_ref. rewrite existsb_exists. split.
  - intros (x & Hx & E). apply Nat.eqb_eq in E. subst. exact Hx.
  - intros H. exists n. split; [exact H|apply Nat.eqb_refl].
Qed.

Section Gc.
  Variable leb : attribute -> attribute -> bool.
  Variable order : list (attribute * nat) -> list (attribute * nat).
  Hypothesis order_perm : forall l, Permutation (order l) l.

  Lemma gc_sorted_in used refs x :
    In x (gc_sorted leb order used refs) <-> In x refs /\ In (snd x) used.
  Proof.
    unfold gc_sorted. rewrite stable_sort_in. split.
    - intros H. apply (Permutation_in _ (order_perm _)) in H. apply filter_In in H as [H1 H2].
      split; [exact H1|apply mem_ref_spec, H2].
    - intros [H1 H2]. apply (Permutation_in _ (Permutation_sym (order_perm _))). apply filter_In.
      split; [exact H1|apply mem_ref_spec, H2].
  Qed.
  Lemma map_filter_nodup {A B} (f : A -> B) (p : A -> bool) (l : list A) : NoDup (map f l) -> NoDup (map f (filter p l)).
  Proof.
    induction l as [|x l IH]; cbn [map filter]; [auto|]. intros H. inversion H as [|? ? Hn Hl]; subst.
    destruct (p x); [|apply IH, Hl]. cbn [map]. constructor; [|apply IH, Hl].
    intros Hi. apply Hn. apply in_map_iff in Hi as (y & E & Hy). apply filter_In in Hy as [Hy _].
    apply in_map_iff. exists y. auto.
  Qed.
  Lemma gc_perm used refs :
    Permutation (gc_sorted leb order used refs) (filter (fun p => mem_ref (snd p) used) refs).
  Proof. unfold gc_sorted. rewrite <- stable_sort_perm. apply order_perm. Qed.
  Lemma gc_nodup_fst used refs : NoDup (map fst refs) -> NoDup (gc_catalog (gc_sorted leb order used refs)).
  Proof.
    intros H. unfold gc_catalog.
    apply (Permutation_NoDup (l := map fst (filter (fun p => mem_ref (snd p) used) refs))).
    - apply Permutation_map, Permutation_sym, gc_perm.
    - apply map_filter_nodup, H.
  Qed.
  Lemma gc_nodup_snd used refs : NoDup (map snd refs) -> NoDup (map snd (gc_sorted leb order used refs)).
  Proof.
    intros H.
    apply (Permutation_NoDup (l := map snd (filter (fun p => mem_ref (snd p) used) refs))).
    - apply Permutation_map, Permutation_sym, gc_perm.
    - apply map_filter_nodup, H.
  Qed.
  Lemma gc_map_keys l : map fst (gc_map l) = map snd l.
  Proof.
    unfold gc_map. rewrite map_map. cbn [fst].
    rewrite <- (number_fst l 0) at 2. rewrite map_map. reflexivity.
  Qed.
  (* the remapped reference points to the attribute denoted before *)
  Lemma remap_points used c r a : cat_ok c -> denotes c r a -> In r used ->
    points_to (gc_catalog (gc_sorted leb order used (ct_refs c)))
      (remap (gc_map (gc_sorted leb order used (ct_refs c))) r) a.
  Proof.
    intros Hc Hd Hu. set (l := gc_sorted leb order used (ct_refs c)).
    assert (Hin : In (a, r) l) by (apply gc_sorted_in; split; assumption).
    apply In_nth_error in Hin as [j Hj].
    assert (Hm : In (r, j) (gc_map l)).
    { unfold gc_map. apply in_map_iff. exists ((a, r), j). split; [reflexivity|].
      apply number_nth. exists j. split; [exact Hj|reflexivity]. }
    assert (Hl : lookup Nat.eqb r (gc_map l) = Some j).
    { apply (in_lookup _ Nat.eqb_eq); [|exact Hm]. rewrite gc_map_keys.
      apply gc_nodup_snd, nodup_snd, Hc. }
    unfold remap. rewrite Hl. cbn [opt_get]. unfold points_to, gc_catalog.
    rewrite nth_error_map, Hj. reflexivity.
  Qed.
End Gc.
