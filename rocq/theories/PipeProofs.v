(* Proofs for C97. *)
From Coq Require Import String Ascii Bool Arith Lia Permutation NArith List.
Import ListNotations.
From Verif Require Import Base BaseProofs BaseProofs2 Json SemTypes Resolved ResultModel ResultSpec Semver DefModel DefSpec DefProofs PropDef
  ResolveModel ResolveSpec ResolveProofs ExtProofs PropCatalog ImportModel ImportSpec ImportProofs AssocProofs PropAssoc PropImport PropUnique StatsSpec PipeSpec.
From Verif Require ConvertModel ConvertSpec.
Local Open Scope string_scope.

(* ---- what clean files declare ---- *)
Definition complete_spec (g : group_spec) : Prop :=
  gs_metric_name g <> None /\ gs_instrument g <> None /\ gs_unit g <> None.
Lemma clean_group l g : clean_file l -> In g l ->
  (gs_type g = GMetric -> gs_is_v2 g = false \/ gs_extends g = None -> complete_spec g) /\
  (gs_visibility g = Some Internal -> gs_type g = GAttributeGroup) /\
  (gs_type g = GEvent -> gs_is_v2 g = true -> gs_name g <> None).
Proof.
  intros (v & name & -> & W & V) Hg. destruct v as [s|s]; cbn [versioned_into_v1] in Hg.
  - destruct (V g Hg) as [V2f Vis]. split; [|split; congruence]. intros T _.
    assert (W' : only_warnings (errors_of (validate1 s))).
    { cbn [validate_versioned] in W. destruct (validate1 s); exact W. }
    apply (proj2 (proj2 (C29_file s))) with (g := g) in W'; [|exact Hg].
    destruct W' as (_ & _ & _ & M & _). exact (M T).
  - clear W V. cbn [into_v1 sp1_groups] in Hg.
    repeat (apply in_app_or in Hg as [Hg|Hg]);
      try (apply in_map_iff in Hg as (x & <- & _)).
    + destruct (s2d_attributes s) as [|a al]; [destruct Hg|]. destruct Hg as [<-|[]]. repeat split; discriminate.
    + repeat split; discriminate.
    + unfold event_to_v1. destruct (split_refs (vd_attributes x)). repeat split; discriminate.
    + unfold metric_to_v1. destruct (split_refs (md_attributes x)). split; [|split; discriminate]. intros _ _. repeat split; discriminate.
    + unfold span_to_v1. destruct (split_refs (sd_attributes x)). repeat split; discriminate.
    + destruct x as [id l|id l c]; cbn [group_to_v1]; destruct (split_refs l); repeat split; try discriminate.
    + repeat split; discriminate.
    + unfold event_refinement_to_v1. destruct (split_refs (sr_attributes x)). repeat split; discriminate.
    + unfold metric_refinement_to_v1. destruct (split_refs (sr_attributes x)). split; [|split; discriminate].
      intros _ [H|H]; discriminate H.
    + unfold span_refinement_to_v1. destruct (split_refs (sr_attributes x)). repeat split; discriminate.
Qed.

(* ---- summaries of dependencies ---- *)
Definition complete_summary (s : summary) : Prop :=
  sm_type s = GMetric -> sm_metric_name s <> None /\ sm_instrument s <> None /\ sm_unit s <> None.
Lemma dep_complete e p d s : (forall g, known_group e g -> counted g) -> In d (ev_deps e) -> dep_summary e p d = Some s -> complete_summary s.
Proof.
  intros K Hd H T. destruct d as [s1 roots|s2]; cbn [dep_summary] in H.
  - unfold summary1 in H. destruct (find (fun g => String.eqb (g_id g) p) (s1_groups s1)) as [g|] eqn:F; [|discriminate].
    injection H as <-. apply find_some in F as [F _]. apply (K g); [|exact T]. exists s1, roots. split; [left; exact Hd|exact F].
  - unfold summary2 in H. destruct (find_signal en2_type "entity." p _); [injection H as <-; discriminate T|].
    destruct (find_signal me2_name "metric." p _); [injection H as <-; cbn; repeat split; discriminate|].
    destruct (find_signal ev2_name "event." p _); [injection H as <-; discriminate T|].
    destruct (find_signal sp2_type "span." p _); [injection H as <-; discriminate T|discriminate].
Qed.

(* ---- extends ---- *)
Section Extends.
  Variable e : env.
  Variable K : string -> group_type -> Prop.
  Hypothesis known : forall g, known_group e g -> counted g.
  Definition target_ok (p : string) : Prop :=
    (forall t, K p t -> t = GMetric) /\ (forall d s, In d (ev_deps e) -> dep_summary e p d = Some s -> sm_type s = GMetric).
  Definition okg (u : ugroup) : Prop :=
    K (uid u) (g_type (ug_group u)) /\
    (ug_is_v2 u = false \/ g_extends (ug_group u) = None -> counted (ug_group u)) /\
    (ug_is_v2 u = true -> g_type (ug_group u) = GMetric -> forall p, g_extends (ug_group u) = Some p -> target_ok p).
  Definition oki (idx : list (string * summary)) : Prop :=
    forall k s, slookup k idx = Some s -> K k (sm_type s) /\ complete_summary s.
  Lemma finish_type u par inc : g_type (ug_group (finish_group u par inc)) = g_type (ug_group u).
  Proof.
    unfold finish_group. cbn [clear_include with_attrs with_group ug_group set_extends upd_lineage set_lineage g_type].
    destruct par as [[p s]|]; [|reflexivity]. destruct (ug_is_v2 u); reflexivity.
  Qed.
  Lemma counted_summary u : counted (ug_group u) -> complete_summary (local_summary u).
  Proof. exact (fun H => H). Qed.
  Lemma finish_okg u par inc idx : okg u -> oki idx ->
    match g_extends (ug_group u), par with
    | None, None => True
    | Some p, Some (p', s) => p' = p /\ (slookup p idx = Some s \/ offered e p s)
    | _, _ => False
    end -> okg (finish_group u par inc).
  Proof.
    intros (H1 & H2 & H3) Hi Hp. split; [rewrite finish_uid, finish_type; exact H1|].
    assert (C : counted (ug_group (finish_group u par inc))).
    { destruct (g_extends (ug_group u)) as [p|] eqn:Ee, par as [[p' s]|]; try contradiction.
      - destruct Hp as [-> Hp]. destruct (ug_is_v2 u) eqn:V.
        + intros T. rewrite finish_type in T. destruct (H3 eq_refl T p eq_refl) as [T1 T2].
          assert (Cs : complete_summary s /\ sm_type s = GMetric).
          { destruct Hp as [Hp|(d & Hd & Hs & _)].
            - destruct (Hi _ _ Hp) as [Hk Hc]. split; [exact Hc|apply T1, Hk].
            - split; [eapply dep_complete; eassumption|eapply T2; eassumption]. }
          destruct Cs as [Cs Ts]. specialize (Cs Ts). unfold finish_group. rewrite V. exact Cs.
        + assert (C0 := H2 (or_introl eq_refl)). unfold finish_group. rewrite V. exact C0.
      - exact (H2 (or_intror eq_refl)). }
    split; [intros _; exact C|]. intros _ _ p X. discriminate X.
  Qed.
  Lemma oki_insert idx u : oki idx -> okg u -> is_settled u = true -> oki (sinsert (uid u) (local_summary u) idx).
  Proof.
    intros Hi (H1 & H2 & _) Hs k s Hk. rewrite slookup_sinsert in Hk. destruct (String.eqb_spec k (uid u)) as [->|N]; [|apply Hi, Hk].
    injection Hk as <-. split; [exact H1|]. apply counted_summary, H2. right. apply is_settled_spec in Hs. apply Hs.
  Qed.
  Lemma ext_groups_okg gs : forall idx, oki idx -> Forall okg gs -> Forall okg (rd_groups (ext_groups e idx gs)).
  Proof.
    induction gs as [|u gs IH]; intros idx Hi F; cbn [ext_groups]; [constructor|]. inversion F as [|? ? Fu Fg]; subst.
    destruct (ext_step e idx u) as [|es|v es fs] eqn:E; cbn [rd_groups]; [constructor; [exact Fu|apply IH; assumption]|constructor; [exact Fu|apply IH; assumption]|].
    assert (Hv : okg v).
    { unfold ext_step in E. destruct (is_settled u); [discriminate|].
      destruct (collect_included u idx [] (ug_include u)) as [[|e1 l] inc]; [|discriminate].
      destruct (g_extends (ug_group u)) as [p|] eqn:Ee.
      - destruct (lookup_group e idx p) as [s| |t] eqn:El; try discriminate.
        destruct (excluded_parent u p s); [discriminate|]. injection E as <- _ _.
        apply finish_okg with (idx := idx); [exact Fu|exact Hi|]. rewrite Ee. split; [reflexivity|]. apply lookup_group_spec, El.
      - injection E as <- _ _. apply finish_okg with (idx := idx); [exact Fu|exact Hi|]. rewrite Ee. exact I. }
    constructor; [exact Hv|]. apply IH; [|exact Fg]. apply oki_insert; [exact Hi|exact Hv|].
    apply ext_step_finish in E. apply E.
  Qed.
  Lemma start_oki gs : Forall okg gs -> oki (start_index gs).
  Proof.
    intros F. unfold start_index.
    assert (G : forall gs idx, Forall okg gs -> oki idx -> oki (fold_left (fun idx u => if is_settled u then sinsert (uid u) (local_summary u) idx else idx) gs idx)).
    { clear gs F. induction gs as [|u gs IH]; intros idx F Hi; cbn [fold_left]; [exact Hi|]. inversion F as [|? ? Fu Fg]; subst.
      apply IH; [exact Fg|]. destruct (is_settled u) eqn:Es; [apply oki_insert; assumption|exact Hi]. }
    apply G; [exact F|]. intros k s X. discriminate X.
  Qed.
  Lemma ext_loop_okg n : forall gs fatal gs', Forall okg gs -> ext_loop n e gs fatal = Done gs' -> Forall okg gs'.
  Proof.
    induction n as [|n IH]; intros gs fatal gs' F H; cbn [ext_loop] in H; [discriminate|].
    pose proof (ext_groups_okg gs (start_index gs) (start_oki gs F) F) as F'.
    destruct (rd_errors (ext_groups e (start_index gs) gs)) as [|e1 es].
    - destruct (app fatal _); [|discriminate]. injection H as <-. exact F'.
    - destruct (Nat.eqb _ 0); [discriminate|]. eapply IH; eassumption.
  Qed.
  Lemma extends_counted gs gs' : Forall okg gs -> resolve_extends e gs = Done gs' -> Forall (fun u => counted (ug_group u)) gs'.
  Proof.
    intros F H. unfold resolve_extends in H. pose proof (ext_loop_okg _ _ _ _ F H) as F'.
    destruct (ext_loop_done e gs _ _ _ _ (progress_refl e gs) H) as [_ Hs].
    rewrite Forall_forall in *. intros u Hu. destruct (F' u Hu) as (_ & C & _). apply C. right. apply is_settled_spec. apply Hs, Hu.
  Qed.
End Extends.

(* ---- lineage: whoever refines something says what ---- *)
Notation based := says_base.
Definition kept (g h : group) : Prop :=
  g_id h = g_id g /\ g_type h = g_type g /\ g_name h = g_name g /\ g_assocs h = g_assocs g /\
  (based g -> based h).
Lemma kept_refl g : kept g g.
Proof. unfold kept. auto. Qed.
Lemma kept_trans a b c : kept a b -> kept b c -> kept a c.
Proof. unfold kept. intros (A1 & A2 & A3 & A4 & A5) (B1 & B2 & B3 & B4 & B5). repeat split; try congruence. auto. Qed.
Lemma inherit_lineage_extends gid own bases l :
  gl_extends (inherit_group_lineage gid own bases l) = gl_extends l /\
  gl_extends_type (inherit_group_lineage gid own bases l) = gl_extends_type l.
Proof.
  unfold inherit_group_lineage. generalize (inherited_map gid own bases) as m. intros m. revert l.
  induction m as [|kv m IH]; intros l; cbn [fold_left]; [auto|].
  destruct (al_is_empty (aw_lineage (snd kv))); [apply IH|]. destruct (IH (gl_add (spec_id (aw_spec (snd kv))) (aw_lineage (snd kv)) l)) as [A B].
  rewrite A, B. auto.
Qed.
Lemma finish_kept u par inc : kept (ug_group u) (ug_group (finish_group u par inc)) /\ ug_visibility (finish_group u par inc) = ug_visibility u.
Proof.
  split; [|reflexivity]. unfold kept.
  assert (P : forall g g0, g_id g = g_id g0 -> g_type g = g_type g0 -> g_name g = g_name g0 -> g_assocs g = g_assocs g0 ->
    (based g0 -> based g) -> forall f h, (forall l, gl_extends (h l) = gl_extends l /\ gl_extends_type (h l) = gl_extends_type l) ->
    (forall l, gl_extends (f l) = gl_extends l /\ gl_extends_type (f l) = gl_extends_type l) ->
    let g' := set_extends None (upd_lineage f (upd_lineage h g)) in
    g_id g' = g_id g0 /\ g_type g' = g_type g0 /\ g_name g' = g_name g0 /\ g_assocs g' = g_assocs g0 /\ (based g0 -> based g')).
  { intros g g0 A1 A2 A3 A4 A5 f h Hh Hf. cbv zeta. cbn [set_extends upd_lineage set_lineage g_id g_type g_name g_assocs g_lineage].
    split; [exact A1|]. split; [exact A2|]. split; [exact A3|]. split; [exact A4|]. intros B l E. specialize (A5 B).
    cbn [set_extends upd_lineage set_lineage g_lineage] in E. destruct (g_lineage g) as [l0|] eqn:L; [|discriminate].
    cbn [option_map] in E. injection E as <-. destruct (Hf (h l0)) as [F1 F2]. destruct (Hh l0) as [G1 G2].
    rewrite F1, F2, G1, G2. apply A5, L. }
  unfold finish_group. cbn [clear_include with_attrs with_group ug_group]. apply P.
  - destruct par as [[p s]|]; [|reflexivity]. destruct (ug_is_v2 u); reflexivity.
  - destruct par as [[p s]|]; [|reflexivity]. destruct (ug_is_v2 u); reflexivity.
  - destruct par as [[p s]|]; [|reflexivity]. destruct (ug_is_v2 u); reflexivity.
  - destruct par as [[p s]|]; [|reflexivity]. destruct (ug_is_v2 u); reflexivity.
  - intros B. destruct par as [[p s]|]; [|exact B].
    intros l E. assert (E' : option_map (gl_extend p (sm_type s)) (g_lineage (ug_group u)) = Some l) by (destruct (ug_is_v2 u); exact E).
    destruct (g_lineage (ug_group u)); [|discriminate]. injection E' as <-. discriminate.
  - intros l. auto.
  - intros l. apply inherit_lineage_extends.
Qed.
Lemma extends_kept e gs gs' : resolve_extends e gs = Done gs' ->
  Forall2 (fun u v => kept (ug_group u) (ug_group v) /\ ug_visibility v = ug_visibility u) gs gs'.
Proof.
  intros H. unfold resolve_extends in H. destruct (ext_loop_done e gs _ _ _ _ (progress_refl e gs) H) as [Hp _]. revert Hp.
  unfold progress. apply Forall2_impl. intros u v [->|[_ (par & inc & -> & _)]]; [split; [apply kept_refl|reflexivity]|apply finish_kept].
Qed.

(* ---- references ---- *)
Lemma visit_lineage e b u l : forall c lin v, visit_attrs e b u l c lin = Got v ->
  option_map (fun x => (gl_extends x, gl_extends_type x)) (vs_lineage v) = option_map (fun x => (gl_extends x, gl_extends_type x)) lin.
Proof.
  induction l as [|a l IH]; intros c lin v H; cbn [visit_attrs] in H; [injection H as <-; reflexivity|].
  destruct (b && negb (is_id_spec a)).
  - destruct (visit_attrs e b u l c lin) as [w|] eqn:E; cbn [rr_bind] in H; [|discriminate]. injection H as <-. exact (IH _ _ _ E).
  - destruct (resolve_attr e (uid u) (g_prefix (ug_group u)) (ug_excluded u) a c) as [[[[ar c'] entry]|]|err].
    + destruct (visit_attrs e b u l c' _) as [w|] eqn:E; cbn [rr_bind] in H; [|discriminate]. injection H as <-. cbn [vs_lineage].
      rewrite (IH _ _ _ E). destruct entry as [[k al]|]; [|reflexivity]. destruct lin; reflexivity.
    + destruct (visit_attrs e b u l c lin) as [w|] eqn:E; cbn [rr_bind] in H; [|discriminate]. injection H as <-. exact (IH _ _ _ E).
    + destruct (is_excluded_err err); [|discriminate].
      destruct (visit_attrs e b u l c lin) as [w|] eqn:E; cbn [rr_bind] in H; [|discriminate]. injection H as <-. exact (IH _ _ _ E).
Qed.
Definition copied (u v : ugroup) : Prop :=
  kept (ug_group u) (ug_group v) /\ ug_visibility v = ug_visibility u /\ (counted (ug_group u) -> counted (ug_group v)).
Lemma copied_refl u : copied u u.
Proof. split; [apply kept_refl|]. auto. Qed.
Lemma copied_trans a b c : copied a b -> copied b c -> copied a c.
Proof.
  intros (A1 & A2 & A3) (B1 & B2 & B3). split; [eapply kept_trans; eassumption|]. split; [congruence|auto].
Qed.
Lemma visit_copied e b gs : forall c p, visit_groups e b gs c = Got p -> Forall2 copied gs (ps_groups p).
Proof.
  induction gs as [|u gs IH]; intros c p H; cbn [visit_groups] in H; [injection H as <-; constructor|].
  destruct (visit_attrs e b u (ug_attrs u) c (g_lineage (ug_group u))) as [v|] eqn:Ev; cbn [rr_bind] in H; [|discriminate].
  destruct (visit_groups e b gs (vs_catalog v)) as [q|] eqn:Eq; cbn [rr_bind] in H; [|discriminate]. injection H as <-.
  cbn [ps_groups]. constructor; [|exact (IH _ _ Eq)].
  split; [|split; [reflexivity|exact (fun x => x)]]. unfold kept. repeat (split; [reflexivity|]).
  intros B l E. cbn in E. apply visit_lineage in Ev. rewrite E in Ev. cbn [option_map] in Ev.
  destruct (g_lineage (ug_group u)) as [l0|] eqn:L; [|discriminate]. cbn [option_map] in Ev. injection Ev as E1 E2. rewrite E1, E2. apply B, L.
Qed.
Lemma forall2_trans {A} (R : A -> A -> Prop) (T : forall a b c, R a b -> R b c -> R a c) l1 l2 l3 :
  Forall2 R l1 l2 -> Forall2 R l2 l3 -> Forall2 R l1 l3.
Proof.
  intros F. revert l3. induction F as [|a b l1 l2 Hab _ IH]; intros l3 G; inversion G; subst; constructor; eauto.
Qed.
Lemma refs_loop_copied e init n : forall gs c gs' c', refs_loop n e init gs c = Done (gs', c') -> Forall2 copied gs gs'.
Proof.
  induction n as [|n IH]; intros gs c gs' c' H; cbn [refs_loop] in H; [discriminate|].
  destruct (visit_groups e false gs c) as [p|] eqn:Ev; [|discriminate]. apply visit_copied in Ev.
  destruct (app init (ps_errors p)) as [|e1 es]; [injection H as <- <-; exact Ev|]. destruct (Nat.eqb _ 0); [discriminate|].
  eapply forall2_trans; [exact copied_trans|exact Ev|eapply IH, H].
Qed.
Lemma references_copied e gs c gs' c' : resolve_references e gs c = Done (gs', c') -> Forall2 copied gs gs'.
Proof.
  unfold resolve_references. intros H. destruct (visit_groups e true gs c) as [p|] eqn:Ev; [|discriminate]. apply visit_copied in Ev.
  eapply forall2_trans; [exact copied_trans|exact Ev|eapply refs_loop_copied, H].
Qed.

Lemma Forall2_in_l {A B} (R : A -> B -> Prop) l m x : Forall2 R l m -> In x l -> exists y, In y m /\ R x y.
Proof.
  induction 1 as [|a b l m Hab _ IH]; intros Hx; [destruct Hx|]. destruct Hx as [<-|Hx]; [exists b; split; [left; reflexivity|exact Hab]|].
  destruct (IH Hx) as (y & Hy & Q1). exists y. split; [right; exact Hy|exact Q1].
Qed.
Lemma Forall2_in_r {A B} (R : A -> B -> Prop) l m y : Forall2 R l m -> In y m -> exists x, In x l /\ R x y.
Proof.
  induction 1 as [|a b l m Hab _ IH]; intros Hx; [destruct Hx|]. destruct Hx as [<-|Hx]; [exists a; split; [left; reflexivity|exact Hab]|].
  destruct (IH Hx) as (x & Hy & Q1). exists x. split; [right; exact Hy|exact Q1].
Qed.

(* ---- imports: the references of every imported group point into the catalog ---- *)
Definition refs_in (c : catalog) (g : group) : Prop := forall r, In r (g_attributes g) -> exists a, denotes c r a.
Lemma refs_in_le c c' g : cat_le c c' -> refs_in c g -> refs_in c' g.
Proof. intros L H r Hr. destruct (H r Hr) as [a Ha]. exists a. eapply denotes_le; eassumption. Qed.
Lemma intern_refs e l : forall c rs c', cat_ok c -> intern e l c = Got (rs, c') -> forall r, In r rs -> exists a, denotes c' r a.
Proof.
  induction l as [|[a src] l IH]; intros c rs c' Hok H; cbn [intern] in H; [injection H as <- <-; intros r []|].
  destruct (attribute_ref_prov e a (SDep src) c) as [[r c1]|err] eqn:R; cbn [rr_bind] in H; [|discriminate].
  destruct (attr_prov_ok _ _ _ _ _ _ Hok R) as (Hok1 & Hle1 & a' & Hd & _).
  cbn [snd fst] in H. destruct (intern e l c1) as [[rs2 c2]|err] eqn:I; cbn [rr_bind] in H; [|discriminate].
  destruct (intern_ok _ _ _ _ _ Hok1 I) as (_ & Hle2 & _). injection H as <- <-. cbn [fst snd].
  intros r0 [<-|Hr]; [exists a'; eapply denotes_le; eassumption|exact (IH _ _ _ Hok1 I r0 Hr)].
Qed.
Lemma intern2_refs e s l : forall c rs c', cat_ok c -> intern2 e s l c = Got (rs, c') -> forall r, In r rs -> exists a, denotes c' r a.
Proof.
  induction l as [|[[[i req] sa] role] l IH]; intros c rs c' Hok H; cbn [intern2] in H; [injection H as <- <-; intros r []|].
  destruct (nth_error (s2_catalog s) i) as [a|] eqn:N; [|discriminate].
  destruct (attribute_ref_prov e (attribute_of_v2 a req sa role) _ c) as [[r c1]|err] eqn:R; cbn [rr_bind] in H; [|discriminate].
  destruct (attr_prov_ok _ _ _ _ _ _ Hok R) as (Hok1 & Hle1 & a' & Hd & _).
  cbn [snd fst] in H. destruct (intern2 e s l c1) as [[rs2 c2]|err] eqn:I; cbn [rr_bind] in H; [|discriminate].
  destruct (intern2_ok _ _ _ _ _ _ Hok1 I) as (_ & Hle2 & _). injection H as <- <-. cbn [fst snd].
  intros r0 [<-|Hr]; [exists a'; eapply denotes_le; eassumption|exact (IH _ _ _ Hok1 I r0 Hr)].
Qed.
Lemma upgrade_refs e g url c g' c' : cat_ok c -> upgrade_group e g url c = Got (Some g', c') -> refs_in c' g'.
Proof.
  unfold upgrade_group. intros Hok H.
  destruct (ev_chosen e (ev_name e (origin_url g url))) as [ch|]; [|discriminate].
  destruct (String.eqb ch (origin_url g url)); [discriminate|].
  destruct (latest_major (ev_name e) (ev_semver e) (origin_url g url) ch) as [w|err]; [|discriminate].
  destruct (negb (String.eqb w ch)); [discriminate|].
  destruct (ev_cached e ch) as [[s roots|s]|]; [|discriminate|discriminate].
  destruct (find (same_group g) (s1_groups s)) as [up|]; [|discriminate].
  destruct (intern e (sourced_attrs e s roots ch up) c) as [[rs c1]|err] eqn:I; cbn [rr_bind] in H; [|discriminate].
  injection H as <- <-. exact (intern_refs _ _ _ _ _ Hok I).
Qed.
Lemma import1_refs glob e bs s roots my gs : forall c l es c',
  cat_ok c -> import1 glob e bs s roots my gs c = Got (l, es, c') ->
  cat_ok c' /\ cat_le c c' /\ forall i, In i l -> refs_in c' (im_group i).
Proof.
  induction gs as [|g gs IH]; intros c l es c' Hok H; cbn [import1] in H.
  - injection H as <- <- <-. split; [exact Hok|]. split; [apply cat_le_refl|intros i []].
  - destruct (negb (matches glob bs g)); [exact (IH _ _ _ _ Hok H)|].
    destruct (match g_annotations g with Some a => _ | None => Include end).
    + destruct (upgrade_group e g my c) as [[o c1]|err] eqn:U; cbn [rr_bind] in H; [|discriminate].
      destruct (upgrade_ok _ _ _ _ _ _ Hok U) as (Hok1 & Hle1 & _).
      assert (G : exists g' c2, cat_ok c2 /\ cat_le c c2 /\ refs_in c2 g' /\
        rr_bind (import1 glob e bs s roots my gs c2) (fun q => let '(l, es, c') := q in
          Got ({| im_group := g'; im_url := winning_url e my; im_origins := origins1 e s g' |} :: l, es, c')) = Got (l, es, c')).
      { destruct o as [g'|]; cbn [rr_bind fst snd] in H.
        - exists g', c1. split; [exact Hok1|]. split; [exact Hle1|]. split; [exact (upgrade_refs _ _ _ _ _ _ Hok U)|exact H].
        - destruct (intern e (sourced_attrs e s roots my g) c1) as [[rs c2]|err] eqn:I; cbn [rr_bind fst snd] in H; [|discriminate].
          destruct (intern_ok _ _ _ _ _ Hok1 I) as (Hok2 & Hle2 & _). exists (set_attributes rs g), c2.
          split; [exact Hok2|]. split; [eapply cat_le_trans; eassumption|]. split; [exact (intern_refs _ _ _ _ _ Hok1 I)|exact H]. }
      clear H. destruct G as (g' & c2 & Hok2 & Hle2 & Rf & H).
      destruct (import1 glob e bs s roots my gs c2) as [[[l1 es1] c3]|err] eqn:I; cbn [rr_bind] in H; [|discriminate].
      destruct (IH _ _ _ _ Hok2 I) as (A & B & C). injection H as <- <- <-.
      split; [exact A|]. split; [eapply cat_le_trans; eassumption|].
      intros i [<-|Hi]; [eapply refs_in_le; eassumption|exact (C i Hi)].
    + exact (IH _ _ _ _ Hok H).
    + destruct (import1 glob e bs s roots my gs c) as [[[l1 es1] c3]|err0] eqn:I; cbn [rr_bind] in H; [|discriminate].
      injection H as <- <- <-. exact (IH _ _ _ _ Hok I).
Qed.
Lemma signal_attributes s v l : In v (v2_signals s) -> g_attributes (v_group v l) = l.
Proof.
  unfold v2_signals. intros H. repeat (apply in_app_or in H as [H|H]); apply in_map_iff in H as (x & <- & _); reflexivity.
Qed.
Lemma import2_refs glob e bs s vs : incl vs (v2_signals s) -> forall o c l o' es c',
  cat_ok c -> import2 glob e bs s vs o c = Got (l, o', es, c') ->
  cat_ok c' /\ cat_le c c' /\ forall g, In g l -> refs_in c' g.
Proof.
  induction vs as [|v vs IH]; intros Hin o c l o' es c' Hok H; cbn [import2] in H.
  - injection H as <- <- <- <-. split; [exact Hok|]. split; [apply cat_le_refl|intros i []].
  - assert (Hin' : incl vs (v2_signals s)) by (intros x Hx; apply Hin; right; exact Hx).
    destruct (negb (matches_key glob bs (v_field v) (v_id v))); [exact (IH Hin' _ _ _ _ _ _ Hok H)|].
    destruct (import_decision _ _ _ _).
    + destruct (intern2 e s (v_uses v) c) as [[rs c1]|err] eqn:I; cbn [rr_bind fst snd] in H; [|discriminate].
      destruct (intern2_ok _ _ _ _ _ _ Hok I) as (Hok1 & Hle1 & _). pose proof (intern2_refs _ _ _ _ _ _ Hok I) as Rf.
      destruct (import2 glob e bs s vs _ c1) as [[[[l1 o1] es1] c2]|err] eqn:J; cbn [rr_bind] in H; [|discriminate].
      destruct (IH Hin' _ _ _ _ _ _ Hok1 J) as (A & B & C). injection H as <- <- <- <-.
      split; [exact A|]. split; [eapply cat_le_trans; eassumption|].
      intros g [<-|Hg]; [|exact (C g Hg)]. apply (refs_in_le c1); [exact B|]. intros r Hr.
      rewrite (signal_attributes s v rs (Hin v (or_introl eq_refl))) in Hr. exact (Rf r Hr).
    + exact (IH Hin' _ _ _ _ _ _ Hok H).
    + destruct (import2 glob e bs s vs o c) as [[[[l1 o1] es1] c2]|err0] eqn:J; cbn [rr_bind] in H; [|discriminate].
      injection H as <- <- <- <-. exact (IH Hin' _ _ _ _ _ _ Hok J).
Qed.
Lemma upgrade_all_refs e url gs : forall c gs' c', cat_ok c -> (forall g, In g gs -> refs_in c g) -> upgrade_all e url gs c = Got (gs', c') ->
  cat_ok c' /\ cat_le c c' /\ forall g, In g gs' -> refs_in c' g.
Proof.
  induction gs as [|g gs IH]; intros c gs' c' Hok Hr H; cbn [upgrade_all] in H.
  - injection H as <- <-. split; [exact Hok|]. split; [apply cat_le_refl|intros i []].
  - destruct (upgrade_group e g url c) as [[o c1]|err] eqn:U; cbn [rr_bind fst snd] in H; [|discriminate].
    destruct (upgrade_ok _ _ _ _ _ _ Hok U) as (Hok1 & Hle1 & _).
    destruct (upgrade_all e url gs c1) as [[gs1 c2]|err] eqn:A; cbn [rr_bind fst snd] in H; [|discriminate].
    destruct (IH c1 gs1 c2 Hok1) as (A1 & A2 & A3); [intros x Hx; apply (refs_in_le c); [exact Hle1|apply Hr; right; exact Hx]|exact A|].
    injection H as <- <-. split; [exact A1|]. split; [eapply cat_le_trans; eassumption|].
    intros x [<-|Hx]; [|exact (A3 x Hx)]. apply (refs_in_le c1); [exact A2|].
    destruct o as [g'|]; cbn [opt_get]; [exact (upgrade_refs _ _ _ _ _ _ Hok U)|]. apply (refs_in_le c); [exact Hle1|apply Hr; left; reflexivity].
Qed.
Lemma import_one_refs glob e bs d c l c' : cat_ok c -> import_one glob e bs d c = Done (l, c') ->
  cat_ok c' /\ cat_le c c' /\ forall i, In i l -> refs_in c' (im_group i).
Proof.
  intros Hok. destruct d as [s roots|s]; cbn [import_one].
  - unfold import_v1. destruct (ev_parse e (s1_url s)) as [my|]; [|discriminate].
    destruct (import1 glob e bs s roots my (s1_groups s) c) as [[[l1 es] c1]|err] eqn:I; [|discriminate].
    destruct es as [|er es]; [|discriminate]. intros H. injection H as <- <-. exact (import1_refs _ _ _ _ _ _ _ _ _ _ _ Hok I).
  - unfold import_v2. destruct (import2 glob e bs s (v2_signals s) [] c) as [[[[gs o] es] c1]|err] eqn:I; [|discriminate].
    destruct es as [|er es]; [|discriminate]. destruct (upgrade_all e (s2_url s) gs c1) as [[gs' c2]|err] eqn:U; [|discriminate].
    intros H. injection H as <- <-. destruct (import2_refs _ _ _ _ _ (incl_refl _) _ _ _ _ _ _ Hok I) as (A & B & C).
    destruct (upgrade_all_refs _ _ _ _ _ _ A C U) as (A' & B' & C'). split; [exact A'|]. split; [eapply cat_le_trans; eassumption|].
    intros i Hi. apply C'. rewrite <- (hand_out_groups (winning_url e (s2_url s)) gs' o). apply in_map, Hi.
Qed.
Lemma import_all_refs glob e bs ds : forall kept c l c', cat_ok c -> (forall i, In i kept -> refs_in c (im_group i)) ->
  import_all glob e bs ds kept c = Done (l, c') ->
  cat_ok c' /\ cat_le c c' /\ forall i, In i l -> refs_in c' (im_group i).
Proof.
  induction ds as [|d ds IH]; intros kp c l c' Hok Hk H; cbn [import_all] in H.
  - injection H as <- <-. split; [exact Hok|]. split; [apply cat_le_refl|exact Hk].
  - destruct (import_one glob e bs d c) as [[l1 c1]|es|] eqn:I; cbn [run_bind fst snd] in H; [|discriminate|discriminate].
    destruct (import_one_refs _ _ _ _ _ _ _ Hok I) as (A & B & C).
    destruct (IH (keep_new kp l1) c1 l c' A) as (A' & B' & C'); [|exact H|split; [exact A'|split; [eapply cat_le_trans; eassumption|exact C']]].
    intros i Hi. destruct (keep_new_ok l1 kp) as (_ & K2 & _). destruct (K2 i Hi) as [X|X]; [|exact (C i X)].
    apply (refs_in_le c); [exact B|exact (Hk i X)].
Qed.

(* ---- what imported groups are like ---- *)
Lemma same_data_counted g h : same_data g h -> counted h -> counted g.
Proof.
  intros ((_ & T & _ & _ & _ & _ & _ & _ & _ & _ & M & I & U & _) & _) C. unfold counted, complete_metric in *. rewrite T, M, I, U. exact C.
Qed.
Lemma same_data_named g h : same_data g h -> has_name h -> has_name g.
Proof.
  intros ((_ & T & _ & _ & _ & _ & _ & _ & _ & _ & _ & _ & _ & N & _) & _) C. unfold has_name in *. rewrite T, N. exact C.
Qed.
Lemma same_data_based g h : same_data g h -> based h -> based g.
Proof. intros [_ L] C. unfold says_base in *. rewrite L. exact C. Qed.
Lemma import_is e d x g (Q : group -> Prop) :
  (forall a b, same_data a b -> Q b -> Q a) -> (forall h, known_group e h -> Q h) ->
  (forall s x h, carries (D2 s) x h -> Q h) ->
  In d (ev_deps e) -> holds d x -> copy_of e d x g -> Q g.
Proof.
  intros Q1 Q2 Q3 Hd Hx (url & g0 & _ & Hc & [Hs|(h & (origin & ch & s & roots & _ & _ & _ & _ & Hch & Hh & _) & Hs)]); apply (Q1 _ _ Hs).
  - destruct d as [s roots|s]; [|apply (Q3 _ _ _ Hc)]. destruct x as [h| | | | |]; cbn [carries] in Hc; try contradiction.
    apply (Q1 _ _ Hc), Q2. exists s, roots. split; [left; exact Hd|exact Hx].
  - apply Q2. exists s, roots. split; [right; exists ch; exact Hch|exact Hh].
Qed.
Lemma carries_counted s x h : carries (D2 s) x h -> counted h.
Proof.
  destruct x; cbn [carries]; try contradiction.
  - intros (_ & _ & _ & _ & M & I & U & _) _. unfold complete_metric. rewrite M, I, U. repeat split; discriminate.
  - intros (_ & T & _) X. congruence.
  - intros (_ & T & _) X. congruence.
  - intros (_ & T & _) X. congruence.
  - intros (_ & T & _) X. congruence.
Qed.
Lemma carries_named s x h : carries (D2 s) x h -> has_name h.
Proof.
  destruct x; cbn [carries]; try contradiction.
  - intros (_ & T & _) X. congruence.
  - intros (_ & _ & _ & _ & _ & N & _) _. rewrite N. discriminate.
  - intros (_ & T & _) X. congruence.
  - intros (_ & T & _) X. congruence.
  - intros (_ & T & _) X. congruence.
Qed.
Lemma comes_based s p h : comes_from s p h -> based h.
Proof. intros (l & L & _ & _ & _ & N & _) l0 L0 X. rewrite L in L0. injection L0 as <-. congruence. Qed.
Lemma carries_based s x h : carries (D2 s) x h -> based h.
Proof.
  destruct x; cbn [carries]; try contradiction; intros (_ & _ & _ & C & _); try exact (comes_based _ _ _ C).
  intros l L. congruence.
Qed.

(* ---- the run ---- *)
Lemma run_full glob o e specs bs inc r : resolve_registry glob o e specs bs inc = Done r ->
  exists gs gs' c w, resolve_extends e (map resolve_prefix (unresolved_groups specs)) = Done gs /\
    resolve_references e gs empty_catalog = Done (gs', c) /\
    resolve_imports glob e (if inc then app bs [everything] else bs) gs' c = Done w /\
    resolve_associations e (wi_groups w) (wi_origins w) = Done (rs_origins r) /\
    stabilize (or_leb o) (or_refs o) (wi_groups w) (wi_catalog w) = (rs_groups r, rs_catalog r).
Proof.
  unfold resolve_registry. cbv zeta. intros H.
  destruct (resolve_extends e (map resolve_prefix (unresolved_groups specs))) as [gs|es|]; cbn [run_bind] in H; [|discriminate|discriminate].
  destruct (resolve_references e gs empty_catalog) as [[gs' c]|es|] eqn:Er; cbn [run_bind fst snd] in H; [|discriminate|discriminate].
  destruct (resolve_imports glob e (if inc then app bs [everything] else bs) gs' c) as [w|es|] eqn:Ei; cbn [run_bind] in H; [|discriminate|discriminate].
  destruct (resolve_associations e (wi_groups w) (wi_origins w)) as [origins|es|] eqn:Ea; cbn [run_bind] in H; [|discriminate|discriminate].
  destruct (stabilize (or_leb o) (or_refs o) (wi_groups w) (wi_catalog w)) as [out attrs] eqn:Es. inversion H; subst r. cbn [rs_groups rs_catalog rs_origins].
  exists gs, gs', c, w. repeat (split; [solve [reflexivity|assumption]|]). exact Es.
Qed.
Lemma prefix_group u : ug_group (resolve_prefix u) = ug_group u /\ ug_visibility (resolve_prefix u) = ug_visibility u /\
  ug_is_v2 (resolve_prefix u) = ug_is_v2 u.
Proof. unfold resolve_prefix. destruct (String.eqb _ _); auto. Qed.
(* every local group is one of a file, with a few of its fields kept *)
Lemma start_declared specs u : In u (map resolve_prefix (unresolved_groups specs)) ->
  exists g p, declares specs g /\ ug_group u = ug_group (group_from_spec g p) /\ ug_visibility u = gs_visibility g /\ ug_is_v2 u = gs_is_v2 g.
Proof.
  intros H. apply in_map_iff in H as (v & <- & H). unfold unresolved_groups in H. apply in_flat_map in H as (sp & Hsp & H).
  apply in_map_iff in H as (g & <- & Hg). destruct (prefix_group (group_from_spec g (snd sp))) as (A & B & C).
  exists g, (snd sp). split; [exists sp; auto|]. rewrite A, B, C. auto.
Qed.
Lemma start_unreferenced specs : unreferenced (map resolve_prefix (unresolved_groups specs)).
Proof. intros u Hu. destruct (start_declared _ _ Hu) as (g & p & _ & -> & _). reflexivity. Qed.

Section Run.
  Variables (glob : string -> string -> bool) (o : orders) (e : env) (specs : list (list group_spec * provenance)) (bs : list block) (inc : bool).
  Variables (gs gs' : list ugroup) (c : catalog) (w : with_imports).
  Hypothesis Hext : resolve_extends e (map resolve_prefix (unresolved_groups specs)) = Done gs.
  Hypothesis Href : resolve_references e gs empty_catalog = Done (gs', c).
  Hypothesis Himp : resolve_imports glob e (if inc then app bs [everything] else bs) gs' c = Done w.

  Lemma local_refs : cat_ok c /\ refs_ok c gs'.
  Proof.
    assert (U : unreferenced gs).
    { eapply unreferenced_map; [|apply (start_unreferenced specs)]. unfold resolve_extends in Hext. eapply ext_loop_refs, Hext. }
    destruct (resolve_references_ok _ _ _ _ _ empty_ok (unreferenced_ok _ _ U) Href) as (A & _ & B). auto.
  Qed.
  Lemma all_refs : cat_ok (wi_catalog w) /\ refs_ok (wi_catalog w) (wi_groups w).
  Proof.
    destruct local_refs as [Hok Hr]. destruct (C40_added _ _ _ _ _ _ Himp) as (l & us & Hi & Hw & Hu & _).
    destruct (import_all_refs _ _ _ _ _ _ _ _ Hok (fun i (X : In i []) => match X with end) Hi) as (A & B & C).
    split; [exact A|]. rewrite Hw. intros u r Hin Hru. apply in_app_or in Hin as [Hin|Hin].
    - eapply ref_ok_le; [exact B|]. eapply Hr; eassumption.
    - destruct (Forall2_in_l _ _ _ _ Hu Hin) as (i & Hil & E & _). rewrite E in Hru. exact (C i Hil r Hru).
  Qed.
  (* a property of local groups and of imported ones is one of all *)
  Lemma all_groups (Q : group -> Prop) :
    (forall a b, same_data a b -> Q b -> Q a) -> (forall h, known_group e h -> Q h) -> (forall s x h, carries (D2 s) x h -> Q h) ->
    (forall u, In u gs' -> Q (ug_group u)) -> forall u, In u (wi_groups w) -> Q (ug_group u).
  Proof.
    intros Q1 Q2 Q3 Q4 u Hin. destruct (C40_added _ _ _ _ _ _ Himp) as (l & us & Hi & Hw & Hu & _). rewrite Hw in Hin.
    apply in_app_or in Hin as [Hin|Hin]; [exact (Q4 u Hin)|]. destruct (Forall2_in_l _ _ _ _ Hu Hin) as (i & Hil & E & _). rewrite E.
    destruct (C40_only_wanted _ _ _ _ _ _ _ (proj1 local_refs) Hi i Hil) as (d & x & Hd & Hx & _ & _ & Hc).
    exact (import_is e d x _ Q Q1 Q2 Q3 Hd Hx Hc).
  Qed.
  Lemma local_kept u : In u gs' -> exists v, In v (map resolve_prefix (unresolved_groups specs)) /\ kept (ug_group v) (ug_group u) /\ ug_visibility u = ug_visibility v.
  Proof.
    intros H. destruct (Forall2_in_r _ _ _ _ (references_copied _ _ _ _ _ Href) H) as (v & Hv & K1 & V1 & _).
    destruct (Forall2_in_r _ _ _ _ (extends_kept _ _ _ Hext) Hv) as (x & Hx & K2 & V2).
    exists x. split; [exact Hx|]. split; [eapply kept_trans; eassumption|congruence].
  Qed.
  Lemma local_counted : clean_files specs -> refines_metrics e specs -> (forall h, known_group e h -> counted h) ->
    forall u, In u gs' -> counted (ug_group u).
  Proof.
    intros Cl Rm Kn u H. destruct (Forall2_in_r _ _ _ _ (references_copied _ _ _ _ _ Href) H) as (v & Hv & _ & _ & C). apply C.
    assert (F : Forall (fun u0 => counted (ug_group u0)) gs).
    { apply (extends_counted e (fun id t => exists g, declares specs g /\ gs_id g = id /\ gs_type g = t) Kn (map resolve_prefix (unresolved_groups specs))); [|exact Hext].
      apply Forall_forall. intros x Hx. destruct (start_declared _ _ Hx) as (g & p & Hg & Eg & _ & Ev). unfold okg, uid. rewrite Eg, Ev.
      cbn [group_from_spec ug_group g_id g_type g_extends]. split; [exists g; auto|]. destruct Hg as (sp & Hsp & Hg).
      destruct (clean_group _ _ (Cl sp Hsp) Hg) as [G1 _]. split.
      - intros X T. exact (G1 T X).
      - intros V2 T q Hq. destruct (Rm g q (ex_intro _ sp (conj Hsp Hg)) V2 T Hq) as [R1 R2]. split; [|exact R2].
        intros t (h & Hh & Hid & <-). exact (R1 h Hh Hid). }
    rewrite Forall_forall in F. exact (F v Hv).
  Qed.
  Lemma local_named : clean_files specs -> names_events specs -> forall u, In u gs' -> has_name (ug_group u).
  Proof.
    intros Cl N u H. destruct (local_kept u H) as (v & Hv & (_ & T & Nm & _) & _). destruct (start_declared _ _ Hv) as (g & p & Hg & Eg & _).
    unfold has_name. rewrite T, Nm, Eg.
    cbn [group_from_spec ug_group g_type g_name]. intros Te. destruct (gs_is_v2 g) eqn:V; [|exact (N g Hg V Te)].
    destruct Hg as (sp & Hsp & Hg). exact (proj2 (proj2 (clean_group _ _ (Cl sp Hsp) Hg)) Te V).
  Qed.
  Lemma local_based u : In u gs' -> based (ug_group u).
  Proof.
    intros H. destruct (local_kept u H) as (v & Hv & (_ & _ & _ & _ & B) & _). apply B. destruct (start_declared _ _ Hv) as (g & p & _ & Eg & _).
    rewrite Eg. intros l L X. cbn in L. injection L as <-. exfalso. apply X. reflexivity.
  Qed.
  Lemma only_attributes_hidden : clean_files specs -> forall u, In u (wi_groups w) -> public u = false -> g_type (ug_group u) = GAttributeGroup.
  Proof.
    intros Cl u Hin P. unfold public in P. destruct (ug_visibility u) as [[]|] eqn:V; try discriminate.
    assert (Hu : In u gs').
    { unfold resolve_imports in Himp. destruct (import_all glob e _ (ev_deps e) [] c) as [p|es|]; cbn [run_bind] in Himp; [|discriminate|discriminate].
      injection Himp as <-. cbn [wi_groups] in Hin. apply in_app_or in Hin as [Hin|Hin]; [exact Hin|].
      apply in_map_iff in Hin as (i & <- & _). discriminate V. }
    destruct (local_kept u Hu) as (v & Hv & (_ & T & _) & Vv). destruct (start_declared _ _ Hv) as (g & p & (sp & Hsp & Hg) & Eg & Evis & _).
    rewrite T, Eg. apply (proj1 (proj2 (clean_group _ _ (Cl sp Hsp) Hg))). congruence.
  Qed.
End Run.
