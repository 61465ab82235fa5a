(* Signals imported from a published registry and published again (C107). *)
From Coq Require Import String Ascii Bool Arith Lia Permutation NArith List.
Import ListNotations.
From Verif Require Import Base BaseProofs BaseProofs2 Json SemTypes Resolved DefModel DefSpec ResolveModel ResolveSpec ResolveProofs PropCatalog
  ImportModel ImportSpec ImportProofs PropImport UniqueSpec PipeSpec PipeProofs PublishSpec.
From Verif Require ConvertModel ConvertSpec ConvertProofs PropConvert PropPipe.
Local Open Scope string_scope.

Lemma forall2_flip {A B} (R : A -> B -> Prop) l m : Forall2 R l m -> Forall2 (fun b a => R a b) m l.
Proof. induction 1; constructor; auto. Qed.
Lemma forall2_perm_r {A B} (R : A -> B -> Prop) l m m' : Permutation m m' -> Forall2 R l m -> exists l', Permutation l l' /\ Forall2 R l' m'.
Proof. intros P F. apply forall2_flip in F. destruct (forall2_perm _ _ _ P _ F) as (l' & Pl & Fl). exists l'. split; [exact Pl|apply forall2_flip in Fl; exact Fl]. Qed.
Lemma forall2_join {A B C} (R : A -> B -> Prop) (S : B -> C -> Prop) (T : A -> C -> Prop) :
  (forall a b c, R a b -> S b c -> T a c) -> forall l m n, Forall2 R l m -> Forall2 S m n -> Forall2 T l n.
Proof. intros J l m n F. revert n. induction F; intros n G; inversion G; subst; constructor; eauto. Qed.
Lemma perm_filter {A} (f : A -> bool) l m : Permutation l m -> Permutation (filter f l) (filter f m).
Proof.
  induction 1 as [|x l m _ IH|x y l|l m n _ IH1 _ IH2]; cbn [filter]; [constructor|destruct (f x); [constructor|]; exact IH| |etransitivity; eassumption].
  destruct (f x), (f y); try reflexivity. constructor.
Qed.

(* how a use in the new document stands for an attribute of the registry *)
Definition stood (out : schema2) (sampled : bool) (a : attribute) (u : attr_use) : Prop :=
  ConvertSpec.stands_for out a (u_base u) /\ u_req u = at_req a /\ u_sampling u = (if sampled then at_sampling a else None).
Definition is_role (q : attribute -> bool) (s : ConvertModel.source1) (i : nat) : Prop := exists a, ConvertSpec.attr_at s i a /\ q a = true.
Lemma uses_stood (q : attribute -> bool) (P : nat -> Prop) s out sampled refs l' : 
  (forall i a, ConvertSpec.attr_at s i a -> (P i <-> q a = true)) ->
  ConvertSpec.one_each P (ConvertSpec.used s out sampled) refs l' ->
  forall after, Forall2 (points_to (ConvertModel.so_catalog s)) refs after -> Forall2 (stood out sampled) (filter q after) l'.
Proof.
  intros E H. induction H as [|i refs l N _ IH|i u refs l Pi U _ IH]; intros after F; inversion F as [|? a ? after' Ha F']; subst; cbn [filter].
  - constructor.
  - destruct (q a) eqn:Q; [|apply IH; exact F']. exfalso. apply N. apply (E i a Ha). exact Q.
  - apply (E i a Ha) in Pi. rewrite Pi. constructor; [|apply IH; exact F'].
    destruct U as (b & Hb & St & R & Sa). assert (b = a) as -> by (unfold ConvertSpec.attr_at, points_to in *; congruence). repeat split; assumption.
Qed.
Lemma used_stood s out f role u b u' : used_as s f role u b -> stood out f b u' -> same_use s out f u u'.
Proof.
  intros (a & Ha & V) ((a' & Ha' & Sa) & R & Sp). exists a, a'.
  destruct V as (V1 & V2 & V3 & V4 & V5 & V6 & V7 & V8 & V9 & V10 & V11 & V12 & V13).
  destruct Sa as (S1 & S2 & S3 & S4 & S5 & S6 & S7 & S8). split; [exact Ha|]. split; [exact Ha'|].
  split; [congruence|]. split; [congruence|]. split; [congruence|]. split.
  - destruct (a2_common a) as [b1 n1 st1 d1 an1], (a2_common a') as [b2 n2 st2 d2 an2]. cbn in *.
    rewrite V9 in S6. rewrite V12 in S8. destruct S6 as [S6|[S6 _]]; [|discriminate]. destruct S8 as [S8|[S8 _]]; [|discriminate]. congruence.
  - split; [congruence|]. rewrite Sp. destruct f; [exact V7|reflexivity].
Qed.
Lemma same_uses_of s out f role l l0 after l' : Forall2 (used_as s f role) l l0 -> Permutation l0 after -> Forall2 (stood out f) after l' ->
  same_uses s out f l l'.
Proof.
  intros F P G. destruct (forall2_perm_r _ _ _ _ P F) as (l1 & P1 & F1). exists l1. split; [exact P1|].
  eapply forall2_join; [|exact F1|exact G]. intros a b c X Y. eapply used_stood; eassumption.
Qed.
Lemma names_kept s out gid : forall a b, names_for a b -> forall c, ConvertSpec.same_shape (ConvertSpec.refers s out gid) b c ->
  ConvertSpec.same_shape (fun r r' : entity_ref => er_type r' = er_type r) a c.
Proof.
  fix IH 3. intros a b H. destruct H as [r|cs cs' F|cs cs' F]; intros c G; inversion G as [? ? X|? m X|? m X]; subst.
  - constructor. destruct X as [(_ & (E & _) & _)|(u & src & _ & _ & [(_ & (E & _))|(_ & E & _)])]; exact E.
  - constructor. clear G. revert m X. induction F as [|x y cs cs' Hxy F' IHF]; intros m X; inversion X; subst; constructor; [eapply IH; eassumption|auto].
  - constructor. clear G. revert m X. induction F as [|x y cs cs' Hxy F' IHF]; intros m X; inversion X; subst; constructor; [eapply IH; eassumption|auto].
Qed.
Lemma names_kept_all s out gid l m n : Forall2 names_for l m -> Forall2 (ConvertSpec.same_shape (ConvertSpec.refers s out gid)) m n -> same_names l n.
Proof. intros F G. eapply forall2_join; [|exact F|exact G]. intros a b c X Y. eapply names_kept; eassumption. Qed.
Lemma place_kept s out p g0 g so p' : comes_from s p g0 -> g_lineage g = g_lineage g0 -> s2_dependencies out = ConvertModel.so_deps so ->
  ConvertSpec.declared so g p' -> same_place s out (ConvertModel.so_registry_url so) p p'.
Proof.
  intros (l & L & D & Pa & _) E Hd H. unfold ConvertSpec.declared in H. rewrite E, L in H. destruct H as (P & Q).
  split; [congruence|]. exists (pv_url (gl_provenance l)). split; [exact D|]. destruct Q as [Q|(N & Q)]; [left; exact Q|right]. split; [exact N|].
  rewrite Hd. unfold ConvertSpec.dep_number in Q. unfold numbered. destruct (p2_source p') as [i|].
  - destruct Q as (u & Nu & -> & B). split; [exact Nu|]. intros j Hj X. exact (B j _ Hj X eq_refl).
  - intros X. exact (Q _ X eq_refl).
Qed.
Lemma common_kept c g0 g c' : from_common c g0 -> same_data g0 g -> ConvertSpec.same_common g c' -> c' = c.
Proof.
  intros (F1 & F2 & F3 & F4 & F5 & _) (Sf & _) (S1 & S2 & S3 & S4 & S5). unfold same_fields in Sf.
  assert (E3 : g_stability g = Some (c_stability c)) by intuition congruence. assert (E5 : g_annotations g = Some (c_annotations c)) by intuition congruence.
  rewrite E3 in S3. rewrite E5 in S5. destruct S3 as [S3|[S3 _]]; [|discriminate]. destruct S5 as [S5|[S5 _]]; [|discriminate].
  destruct c as [b1 n1 st1 d1 an1], c' as [b2 n2 st2 d2 an2]. cbn in *. f_equal; intuition congruence.
Qed.

Lemma same_data_trans a b c : same_data a b -> same_data b c -> same_data a c.
Proof. intros [A1 A2] [B1 B2]. unfold same_data, same_fields in *. intuition congruence. Qed.

Section Published.
  Variables (glob : string -> string -> bool) (o : orders) (e : env) (specs : list (list group_spec * provenance)) (bs : list block) (inc : bool) (r : resolved).
  Variables (hash : attribute2 -> N) (order : list attribute2 -> list attribute2) (name_of : string -> string) (url_ok : string -> bool).
  Variables (url name : string) (roots : list (string * string)) (deps : list string) (out : schema2).
  Hypothesis Ho : forall l, Permutation (or_refs o l) l.
  Hypothesis Hone : one_version e.
  Hypothesis Hpub : published_only e.
  Hypothesis Hres : resolve_registry glob o e specs bs inc = Done r.
  Hypothesis Hord : forall l, Permutation l (order l).
  Hypothesis Hconv : ConvertModel.convert hash order name_of url_ok (source_of url name r roots deps) = ConvertModel.Converted out.
  Let blocks := if inc then app bs [everything] else bs.
  Let so := source_of url name r roots deps.

  (* the group of the resolved registry that carries an imported definition *)
  Lemma imported_kept s x : In (D2 s) (ev_deps e) -> holds (D2 s) x -> wanted glob blocks x -> ~ private x ->
    exists s' x' g0 g before after y,
      In (D2 s') (ev_deps e) /\ holds (D2 s') x' /\ carries (D2 s') x' g0 /\ In g (rs_groups r) /\ same_data g0 g /\
      carries (D2 s) x y /\
      ((s' = s /\ x' = x) \/
       (same_signal g0 y /\ forall l l', g_lineage g0 = Some l -> g_lineage y = Some l' -> pv_url (gl_provenance l) = pv_url (gl_provenance l'))) /\
      attributes_on (D2 s') x' before /\ Permutation before after /\ Forall2 (points_to (rs_catalog r)) (g_attributes g) after.
  Proof.
    intros Hs Hx W P. destruct (run_full _ _ _ _ _ _ _ Hres) as (gs & gs' & c & w & He & Hr & Hi & Ha & Hst).
    destruct (all_refs glob e specs bs inc gs gs' c w He Hr Hi) as [Hc Hok].
    destruct (local_refs e specs gs gs' c He Hr) as [Hc0 _].
    destruct (C40_added _ _ _ _ _ _ Hi) as (l & us & Il & Wg & F & _).
    destruct (import_all_ok _ _ _ _ _ _ _ _ Hc0 Il) as (_ & _ & _ & A & B & _).
    assert (Simple : forall d h k, copy_of e d h k -> exists g0, carries d h g0 /\ same_data k g0).
    { intros d h k (u & g0 & _ & C & [D|(h' & (og & ch & s1 & rt & _ & X & N & _) & _)]); [exists g0; auto|].
      exfalso. apply N. apply Hone. exact X. }
    assert (Fin : forall s' x' i, In i l -> In (D2 s') (ev_deps e) -> holds (D2 s') x' -> got e (D2 s') x' (wi_catalog w) (im_group i) ->
      exists g0 g before after, carries (D2 s') x' g0 /\ same_data (im_group i) g0 /\ In g (rs_groups r) /\ same_data g0 g /\
        attributes_on (D2 s') x' before /\ Permutation before after /\ Forall2 (points_to (rs_catalog r)) (g_attributes g) after).
    { intros s' x' i Hin _ _ (Cp & At). destruct (Simple _ _ _ Cp) as (g0 & C0 & S0). destruct (At Hone I) as (ds & Ad & Dn).
      destruct (Forall2_in_r _ _ _ _ F Hin) as (u & Hu & Eu & _). 
      assert (Pu : public u = true).
      { unfold resolve_imports in Hi. rewrite Il in Hi. cbn [run_bind fst snd] in Hi. injection Hi as Ew. assert (Eg : wi_groups w = app gs' (map (ugroup_of_import e) l)) by (rewrite <- Ew; reflexivity).
        rewrite Wg in Eg. apply app_inv_head in Eg. subst us. apply in_map_iff in Hu as (k & <- & _). reflexivity. }
      destruct (stabilize_correct _ _ _ _ _ _ Ho Hc Hok Hst) as ((kp & Pk & Fk) & _).
      assert (Hk : In u kp) by (apply (Permutation_in _ (Permutation_sym Pk)), filter_In; split; [rewrite Wg; apply in_or_app; right; exact Hu|exact Pu]).
      destruct (Forall2_in_l _ _ _ _ Fk Hk) as (g & Hg & Sd & before & after & Bi & Ao & Pm). rewrite Eu in Sd.
      exists g0, g, ds, after. split; [exact C0|]. split; [exact S0|]. split; [exact Hg|].
      split; [exact (same_data_trans _ _ _ (PropPipe.same_data_sym _ _ S0) Sd)|]. split; [exact Ad|]. split; [|exact Ao].
      unfold attrs_in in Bi. rewrite Eu in Bi. assert (before = ds) as <-; [|exact Pm].
      clear -Bi Dn Hc. revert ds Dn. induction Bi as [|n a ns before D Bi IH]; intros ds Dn; inversion Dn as [|? b ? ds' Db Dn']; subst; [reflexivity|].
      f_equal; [exact (denotes_fun _ _ _ _ Hc D Db)|exact (IH _ Dn')]. }
    destruct (B (D2 s) x Hs Hx W P) as (y & Gy & [Iy|(i & Ii & (u & D1' & D2') & Sg)]).
    - destruct (Fin s x y Iy Hs Hx Gy) as (g0 & g & before & after & C0 & S0 & R). exists s, x, g0, g, before, after, g0. intuition.
    - destruct (A i Ii) as [[]|(d & x' & Hd & Hx' & _ & _ & Gi)]. destruct (Hpub d Hd) as (s' & ->).
      destruct (Fin s' x' i Ii Hd Hx' Gi) as (g0 & g & before & after & C0 & S0 & Ig & Sd & Ad & Pm & Ao).
      destruct (Simple _ _ _ (proj1 Gy)) as (y0 & Cy & Sy).
      exists s', x', g0, g, before, after, y0. split; [exact Hd|]. split; [exact Hx'|]. split; [exact C0|]. split; [exact Ig|]. split; [exact Sd|]. split; [exact Cy|].
      split; [|auto]. right. split.
      + destruct S0 as [S0 _], Sy as [Sy _]. unfold same_fields in *. unfold same_signal in *. 
        destruct S0 as (I1 & I2 & I3 & I4 & I5 & I6 & I7 & I8 & I9 & I10 & I11 & I12 & I13 & I14 & _).
        destruct Sy as (Y1 & Y2 & Y3 & Y4 & Y5 & Y6 & Y7 & Y8 & Y9 & Y10 & Y11 & Y12 & Y13 & Y14 & _).
        rewrite <- I1, <- I2, <- I11, <- I14, <- Y1, <- Y2, <- Y11, <- Y14. exact Sg.
      + intros l1 l2 E1 E2. destruct S0 as [_ L0], Sy as [_ Ly]. unfold declared_at in D1', D2'. rewrite L0, E1 in D1'. rewrite Ly, E2 in D2'. congruence.
  Qed.

  Lemma declared_same p p' s s' g0 y : comes_from s' p' g0 -> comes_from s p y ->
    (forall l l', g_lineage g0 = Some l -> g_lineage y = Some l' -> pv_url (gl_provenance l) = pv_url (gl_provenance l')) -> declared_together s p s' p'.
  Proof.
    intros (l & L & D & _) (l' & L' & D' & _) E. exists (pv_url (gl_provenance l')). split; [exact D'|]. rewrite <- (E _ _ L L'). exact D.
  Qed.
  Lemma declared_self s p y : comes_from s p y -> declared_together s p s p.
  Proof. intros (l & L & D & _). eexists. split; exact D. Qed.
  Lemma plain_definition s p g0 g : comes_from s p g0 -> same_data g0 g -> ~ ConvertSpec.refines g.
  Proof. intros (l & L & _ & _ & _ & X & _) [_ E] (l' & L' & Y). assert (l' = l) as -> by congruence. rewrite X in Y. discriminate. Qed.
  Lemma deps_out : s2_dependencies out = ConvertModel.so_deps so.
  Proof. destruct (PropConvert.C41_catalog _ _ _ _ _ _ Hord Hconv) as (_ & _ & _ & _ & _ & _ & E). exact E. Qed.
  Lemma filter_all {A} (l : list A) : filter (fun _ => true) l = l.
  Proof. induction l; cbn [filter]; congruence. Qed.
  Lemma uses_kept s' f role l before after g l' : Forall2 (used_as s' f role) l before -> Permutation before after ->
    Forall2 (points_to (rs_catalog r)) (g_attributes g) after -> ConvertSpec.uses so out f (g_attributes g) l' -> same_uses s' out f l l'.
  Proof.
    intros F P Ao U. eapply same_uses_of; [exact F|exact P|]. rewrite <- (filter_all after).
    eapply (uses_stood (fun _ => true)); [|exact U|exact Ao]. intros i a Ha. split; [reflexivity|]. intros _. exists a. exact Ha.
  Qed.

  Lemma metric_again s m : In (D2 s) (ev_deps e) -> In m (r2_metrics (s2_registry s)) -> wanted glob blocks (DMetric m) -> ~ private (DMetric m) ->
    exists s' m' m'', In (D2 s') (ev_deps e) /\ In m' (r2_metrics (s2_registry s')) /\ me2_name m' = me2_name m /\
      declared_together s (me2_provenance m) s' (me2_provenance m') /\
      In m'' (r2_metrics (s2_registry out)) /\ metric_kept s' out name m' m''.
  Proof.
    intros Hs Hm W P. destruct (imported_kept s (DMetric m) Hs Hm W P) as (s' & x' & g0 & g & before & after & y & Hs' & Hx' & C0 & Hg & Sd & Cy & Q & Ad & Pm & Ao).
    assert (X : exists m', x' = DMetric m' /\ me2_name m' = me2_name m /\ declared_together s (me2_provenance m) s' (me2_provenance m')).
    { destruct Q as [(-> & ->)|(Sg & Ln)].
      - exists m. split; [reflexivity|]. split; [reflexivity|]. destruct Cy as (_ & _ & _ & Cf & _). exact (declared_self _ _ _ Cf).
      - destruct Cy as (_ & Ty & _ & Cf & N & _). destruct Sg as (T & Sg). rewrite Ty in T.
        destruct x' as [h|m'|v|en|p|ag]; cbn [carries] in C0; try destruct C0; try (destruct C0 as (_ & T' & _); congruence); try (destruct H0 as (T' & _); congruence).
        destruct H0 as (_ & _ & Cf' & N' & _). exists m'. split; [reflexivity|]. split; [|exact (declared_same _ _ _ _ _ _ Cf' Cf Ln)].
        destruct Sg as [(E & _)|[(E & _)|(E & _)]]; congruence. }
    destruct X as (m' & -> & En & Dt). exists s', m'.
    destruct C0 as (G1 & G2 & G3 & G4 & G5 & G6 & G7 & G8 & G9).
    destruct (PropConvert.C41_signals _ _ _ _ _ _ Hord Hconv) as (_ & A & _).
    destruct Sd as [Sf Sl]. pose proof Sf as Sf'. unfold same_fields in Sf'. decompose [and] Sf'; clear Sf'.
    assert (Df : ConvertSpec.definition GMetric g) by (split; [congruence|exact (plain_definition _ _ _ _ G4 (conj Sf Sl))]).
    destruct (ConvertProofs.one_each_has _ _ _ _ _ A Hg Df) as (m'' & Hm'' & (K1 & K2 & K3 & K4 & K5 & K6 & K7 & K8)).
    exists m''. split; [exact Hs'|]. split; [exact Hx'|]. split; [exact En|]. split; [exact Dt|]. split; [exact Hm''|].
    split; [congruence|]. split; [congruence|]. split; [congruence|]. split; [exact (common_kept _ _ _ _ G3 (conj Sf Sl) K7)|].
    split; [exact (uses_kept _ _ _ _ _ _ _ _ Ad Pm Ao K4)|].
    split; [eapply names_kept_all; [|exact K5]; congruence|exact (place_kept _ _ _ _ _ _ _ G4 (eq_sym Sl) deps_out K8)].
  Qed.

  Lemma event_again s m : In (D2 s) (ev_deps e) -> In m (r2_events (s2_registry s)) -> wanted glob blocks (DEvent m) -> ~ private (DEvent m) ->
    exists s' m' m'', In (D2 s') (ev_deps e) /\ In m' (r2_events (s2_registry s')) /\ ev2_name m' = ev2_name m /\
      declared_together s (ev2_provenance m) s' (ev2_provenance m') /\
      In m'' (r2_events (s2_registry out)) /\ event_kept s' out name m' m''.
  Proof.
    intros Hs Hm W P. destruct (imported_kept s (DEvent m) Hs Hm W P) as (s' & x' & g0 & g & before & after & y & Hs' & Hx' & C0 & Hg & Sd & Cy & Q & Ad & Pm & Ao).
    assert (X : exists m', x' = DEvent m' /\ ev2_name m' = ev2_name m /\ declared_together s (ev2_provenance m) s' (ev2_provenance m')).
    { destruct Q as [(-> & ->)|(Sg & Ln)].
      - exists m. split; [reflexivity|]. split; [reflexivity|]. destruct Cy as (_ & _ & _ & Cf & _). exact (declared_self _ _ _ Cf).
      - destruct Cy as (_ & Ty & _ & Cf & N & N2 & _). destruct Sg as (T & Sg). rewrite Ty in T.
        destruct x' as [h|m'|m'|m'|m'|m']; cbn [carries] in C0; try contradiction; destruct C0 as (_ & T' & R); try congruence.
        destruct R as (_ & Cf' & N' & N2' & _). exists m'. split; [reflexivity|]. split; [|exact (declared_same _ _ _ _ _ _ Cf' Cf Ln)].
        destruct Sg as [(E & E')|[(_ & _ & E & _)|(_ & _ & E & _)]]; congruence. }
    destruct X as (m' & -> & En & Dt). exists s', m'.
    destruct C0 as (G1 & G2 & G3 & G4 & G5 & G6 & G9).
    destruct (PropConvert.C41_signals _ _ _ _ _ _ Hord Hconv) as (_ & _ & A & _).
    destruct Sd as [Sf Sl]. pose proof Sf as Sf'. unfold same_fields in Sf'. decompose [and] Sf'; clear Sf'.
    assert (Df : ConvertSpec.definition GEvent g) by (split; [congruence|exact (plain_definition _ _ _ _ G4 (conj Sf Sl))]).
    destruct (ConvertProofs.one_each_has _ _ _ _ _ A Hg Df) as (m'' & Hm'' & (K1 & K4 & K5 & K6 & K7 & K8)).
    exists m''. split; [exact Hs'|]. split; [exact Hx'|]. split; [exact En|]. split; [exact Dt|]. split; [exact Hm''|].
    split; [congruence|]. split; [exact (common_kept _ _ _ _ G3 (conj Sf Sl) K7)|].
    split; [exact (uses_kept _ _ _ _ _ _ _ _ Ad Pm Ao K4)|].
    split; [eapply names_kept_all; [|exact K5]; congruence|exact (place_kept _ _ _ _ _ _ _ G4 (eq_sym Sl) deps_out K8)].
  Qed.

  Lemma span_again s m : In (D2 s) (ev_deps e) -> In m (r2_spans (s2_registry s)) -> wanted glob blocks (DSpan m) -> ~ private (DSpan m) ->
    exists s' m' m'', In (D2 s') (ev_deps e) /\ In m' (r2_spans (s2_registry s')) /\ sp2_type m' = sp2_type m /\
      declared_together s (sp2_provenance m) s' (sp2_provenance m') /\
      In m'' (r2_spans (s2_registry out)) /\ span_kept s' out name m' m''.
  Proof.
    intros Hs Hm W P. destruct (imported_kept s (DSpan m) Hs Hm W P) as (s' & x' & g0 & g & before & after & y & Hs' & Hx' & C0 & Hg & Sd & Cy & Q & Ad & Pm & Ao).
    assert (X : exists m', x' = DSpan m' /\ sp2_type m' = sp2_type m /\ declared_together s (sp2_provenance m) s' (sp2_provenance m')).
    { destruct Q as [(-> & ->)|(Sg & Ln)].
      - exists m. split; [reflexivity|]. split; [reflexivity|]. destruct Cy as (_ & _ & _ & Cf & _). exact (declared_self _ _ _ Cf).
      - destruct Cy as (_ & Ty & _ & Cf & N & N2 & _). destruct Sg as (T & Sg). rewrite Ty in T.
        destruct x' as [h|m'|m'|m'|m'|m']; cbn [carries] in C0; try contradiction; destruct C0 as (_ & T' & R); try congruence.
        destruct R as (_ & Cf' & N' & N2' & _). exists m'. split; [reflexivity|]. split; [|exact (declared_same _ _ _ _ _ _ Cf' Cf Ln)].
        destruct Sg as [(E & E')|[(_ & _ & E & _)|(_ & _ & E & _)]]; congruence. }
    destruct X as (m' & -> & En & Dt). exists s', m'.
    destruct C0 as (G1 & G2 & G3 & G4 & G5 & G6 & G7 & G8 & G9).
    destruct (PropConvert.C41_signals _ _ _ _ _ _ Hord Hconv) as (A & _).
    destruct Sd as [Sf Sl]. pose proof Sf as Sf'. unfold same_fields in Sf'. decompose [and] Sf'; clear Sf'.
    assert (Df : ConvertSpec.definition GSpan g) by (split; [congruence|exact (plain_definition _ _ _ _ G4 (conj Sf Sl))]).
    destruct (ConvertProofs.one_each_has _ _ _ _ _ A Hg Df) as (m'' & Hm'' & (K1 & K2 & K3 & K4 & K5 & K6 & K7 & K8)).
    exists m''. split; [exact Hs'|]. split; [exact Hx'|]. split; [exact En|]. split; [exact Dt|]. split; [exact Hm''|].
    split; [destruct K2 as [K2|[K2 _]]; congruence|]. split; [destruct K3 as [K3|[K3 _]]; congruence|]. split; [exact (common_kept _ _ _ _ G3 (conj Sf Sl) K7)|].
    split; [exact (uses_kept _ _ _ _ _ _ _ _ Ad Pm Ao K4)|].
    split; [eapply names_kept_all; [|exact K5]; congruence|]. split; [exact (place_kept _ _ _ _ _ _ _ G4 (eq_sym Sl) deps_out K8)|].
    destruct K1 as [(_ & K1)|(Rf & _)]; [|destruct (proj2 Df Rf)]. replace (sp2_type m') with (g_id g) by congruence. exact K1.
  Qed.

  Lemma entity_again s m : In (D2 s) (ev_deps e) -> In m (r2_entities (s2_registry s)) -> wanted glob blocks (DEntity m) -> ~ private (DEntity m) ->
    exists s' m' m'', In (D2 s') (ev_deps e) /\ In m' (r2_entities (s2_registry s')) /\ en2_type m' = en2_type m /\
      declared_together s (en2_provenance m) s' (en2_provenance m') /\
      In m'' (r2_entities (s2_registry out)) /\ entity_kept s' out name m' m''.
  Proof.
    intros Hs Hm W P. destruct (imported_kept s (DEntity m) Hs Hm W P) as (s' & x' & g0 & g & before & after & y & Hs' & Hx' & C0 & Hg & Sd & Cy & Q & Ad & Pm & Ao).
    assert (X : exists m', x' = DEntity m' /\ en2_type m' = en2_type m /\ declared_together s (en2_provenance m) s' (en2_provenance m')).
    { destruct Q as [(-> & ->)|(Sg & Ln)].
      - exists m. split; [reflexivity|]. split; [reflexivity|]. destruct Cy as (_ & _ & _ & Cf & _). exact (declared_self _ _ _ Cf).
      - destruct Cy as (_ & Ty & _ & Cf & N & N2 & _). destruct Sg as (T & Sg). rewrite Ty in T.
        destruct x' as [h|m'|m'|m'|m'|m']; cbn [carries] in C0; try contradiction; destruct C0 as (_ & T' & R); try congruence.
        destruct R as (_ & Cf' & N' & N2' & _). exists m'. split; [reflexivity|]. split; [|exact (declared_same _ _ _ _ _ _ Cf' Cf Ln)].
        destruct Sg as [(E & E')|[(_ & _ & E & _)|(_ & _ & E & _)]]; congruence. }
    destruct X as (m' & -> & En & Dt). exists s', m'.
    destruct C0 as (G1 & G2 & G3 & G4 & G5 & G6 & G7).
    destruct (PropConvert.C41_signals _ _ _ _ _ _ Hord Hconv) as (_ & _ & _ & A & _).
    destruct Sd as [Sf Sl]. pose proof Sf as Sf'. unfold same_fields in Sf'. decompose [and] Sf'; clear Sf'.
    assert (Df : ConvertSpec.definition GEntity g) by (split; [congruence|exact (plain_definition _ _ _ _ G4 (conj Sf Sl))]).
    destruct (ConvertProofs.one_each_has _ _ _ _ _ A Hg Df) as (m'' & Hm'' & (K1 & K2 & K3 & K4 & K6 & K7 & K8)).
    exists m''. split; [exact Hs'|]. split; [exact Hx'|]. split; [exact En|]. split; [exact Dt|]. split; [exact Hm''|].
    split. { destruct K1 as [(_ & [K1|(K1 & _)])|(Rf & _)]; [congruence|congruence|destruct (proj2 Df Rf)]. }
    split; [exact (common_kept _ _ _ _ G3 (conj Sf Sl) K7)|].
    destruct Ad as (l1 & l2 & -> & F1 & F2).
    set (q := fun a : attribute => match at_role a with Some Identifying => true | _ => false end).
    assert (R1 : forall s0 f u l, Forall2 (used_as s0 f (Some Identifying)) u l -> filter q l = l /\ filter (fun a => negb (q a)) l = []).
    { intros s0 f u l F. induction F as [|x b u l (a & _ & V) F IH]; [auto|]. cbn [filter]. assert (E : q b = true) by (unfold q; replace (at_role b) with (Some Identifying); [reflexivity|symmetry; apply V]).
      rewrite E. cbn [negb]. destruct IH. split; congruence. }
    assert (R2 : forall s0 f u l, Forall2 (used_as s0 f (Some Descriptive)) u l -> filter q l = [] /\ filter (fun a => negb (q a)) l = l).
    { intros s0 f u l F. induction F as [|x b u l (a & _ & V) F IH]; [auto|]. cbn [filter]. assert (E : q b = false) by (unfold q; replace (at_role b) with (Some Descriptive); [reflexivity|symmetry; apply V]).
      rewrite E. cbn [negb]. destruct IH. split; congruence. }
    destruct (R1 _ _ _ _ F1) as [Q1 Q1'], (R2 _ _ _ _ F2) as [Q2 Q2'].
    split; [|split; [|exact (place_kept _ _ _ _ _ _ _ G4 (eq_sym Sl) deps_out K8)]].
    - eapply same_uses_of with (after := filter q after); [exact F1| |].
      + apply (perm_filter q) in Pm. rewrite filter_app, Q1, Q2, app_nil_r in Pm. exact Pm.
      + eapply uses_stood; [|exact K3|exact Ao]. intros i a Ha. unfold q. split.
        * intros (b & Hb & Rb). assert (b = a) as -> by (unfold ConvertSpec.attr_at in *; congruence). rewrite Rb. reflexivity.
        * intros Qa. exists a. split; [exact Ha|]. destruct (at_role a) as [[]|]; try discriminate. reflexivity.
    - eapply same_uses_of with (after := filter (fun a => negb (q a)) after); [exact F2| |].
      + apply (perm_filter (fun a => negb (q a))) in Pm. rewrite filter_app, Q1', Q2' in Pm. exact Pm.
      + eapply uses_stood; [|exact K4|exact Ao]. intros i a Ha. unfold q. split.
        * intros (b & Hb & Rb). assert (b = a) as -> by (unfold ConvertSpec.attr_at in *; congruence). destruct (at_role a) as [[]|]; try reflexivity. congruence.
        * intros Qa. exists a. split; [exact Ha|]. intros E. rewrite E in Qa. discriminate.
  Qed.
End Published.

Ltac unpack H := destruct H as (o & specs & bs & inc & r & hash & order & name_of & url_ok & url & roots & deps & Ho & Hord & Eb & Hres & Hconv).
(* Every metric, event, entity and span of a published dependency that a registry asks for and may
   have is published by that registry as it was: same name, texts, stability, annotations, kind,
   unit and instrument, the same attributes required as much, associations to the same names, and
   the registry and file it was declared in.  Should dependencies hold several copies of it, one of
   them is. *)
Theorem C107_metric_partial : forall glob e blocks here out, publishes glob e blocks here out -> one_version e -> published_only e ->
  forall s m, In (D2 s) (ev_deps e) -> In m (r2_metrics (s2_registry s)) -> wanted glob blocks (DMetric m) -> ~ private (DMetric m) ->
  exists s' m' m'', In (D2 s') (ev_deps e) /\ In m' (r2_metrics (s2_registry s')) /\ me2_name m' = me2_name m /\
    declared_together s (me2_provenance m) s' (me2_provenance m') /\
    In m'' (r2_metrics (s2_registry out)) /\ metric_kept s' out here m' m''.
Proof. intros glob e blocks here out H One Pub. unpack H. subst blocks. eapply metric_again; eassumption. Qed.
Print Assumptions C107_metric_partial.
Theorem C107_event_partial : forall glob e blocks here out, publishes glob e blocks here out -> one_version e -> published_only e ->
  forall s m, In (D2 s) (ev_deps e) -> In m (r2_events (s2_registry s)) -> wanted glob blocks (DEvent m) -> ~ private (DEvent m) ->
  exists s' m' m'', In (D2 s') (ev_deps e) /\ In m' (r2_events (s2_registry s')) /\ ev2_name m' = ev2_name m /\
    declared_together s (ev2_provenance m) s' (ev2_provenance m') /\
    In m'' (r2_events (s2_registry out)) /\ event_kept s' out here m' m''.
Proof. intros glob e blocks here out H One Pub. unpack H. subst blocks. eapply event_again; eassumption. Qed.
Print Assumptions C107_event_partial.
Theorem C107_entity_partial : forall glob e blocks here out, publishes glob e blocks here out -> one_version e -> published_only e ->
  forall s m, In (D2 s) (ev_deps e) -> In m (r2_entities (s2_registry s)) -> wanted glob blocks (DEntity m) -> ~ private (DEntity m) ->
  exists s' m' m'', In (D2 s') (ev_deps e) /\ In m' (r2_entities (s2_registry s')) /\ en2_type m' = en2_type m /\
    declared_together s (en2_provenance m) s' (en2_provenance m') /\
    In m'' (r2_entities (s2_registry out)) /\ entity_kept s' out here m' m''.
Proof. intros glob e blocks here out H One Pub. unpack H. subst blocks. eapply entity_again; eassumption. Qed.
Print Assumptions C107_entity_partial.
Theorem C107_span_partial : forall glob e blocks here out, publishes glob e blocks here out -> one_version e -> published_only e ->
  forall s m, In (D2 s) (ev_deps e) -> In m (r2_spans (s2_registry s)) -> wanted glob blocks (DSpan m) -> ~ private (DSpan m) ->
  exists s' m' m'', In (D2 s') (ev_deps e) /\ In m' (r2_spans (s2_registry s')) /\ sp2_type m' = sp2_type m /\
    declared_together s (sp2_provenance m) s' (sp2_provenance m') /\
    In m'' (r2_spans (s2_registry out)) /\ span_kept s' out here m' m''.
Proof. intros glob e blocks here out H One Pub. unpack H. subst blocks. eapply span_again; eassumption. Qed.
Print Assumptions C107_span_partial.

(* ---- a concrete case ---- *)
Lemma published_by glob o e specs inc here deps out : (forall l, Permutation (or_refs o l) l) ->
  published_with glob o e specs inc here deps = Some out -> publishes glob e (if inc : bool then app [] [everything] else []) here out.
Proof.
  unfold published_with. intros Ho H. destruct (resolve_registry glob o e specs [] inc) as [r|es|] eqn:R; try discriminate H.
  destruct (ConvertModel.convert (fun _ => 0%N) (fun l => l) (fun u => u) (fun _ => true) (source_of here here r [] deps)) as [out'|x|] eqn:C; try discriminate H. injection H as <-.
  exists o, specs, [], inc, r, (fun _ => 0%N), (fun l => l), (fun u => u), (fun _ => true), here, [], deps. auto.
Qed.
Local Notation published_result := (published_with sample_glob sample_orders published_env published_files true published_here published_deps).
Lemma published_alone : one_version published_env /\ published_only published_env.
Proof.
  split.
  - intros u c X. discriminate X.
  - intros d [<-|[]]. eauto.
Qed.
Lemma published_ok out : published_result = Some out ->
  publishes sample_glob published_env [everything] published_here out /\ one_version published_env /\ published_only published_env.
Proof.
  intros H. split; [|exact published_alone].
  refine (published_by sample_glob sample_orders published_env _ true published_here _ out _ H). intros l. reflexivity.
Qed.
Lemma published_asked x : holds (D2 published_acme) x -> kind_of x <> GMetricGroup -> wanted sample_glob [everything] x /\ ~ private x.
Proof.
  intros H _. split.
  - destruct x as [h|m|m|m|m|m]; try destruct H as [<-|[]]; try (destruct H; fail);
      [exists FMetrics, "hits"|exists FEvents, "boot"|exists FEntities, "host"|exists FSpans, "span.call"|exists FAttributeGroups, "shared"];
      (split; [constructor|]; split; [reflexivity|]; exists everything, "*"; split; [left; reflexivity|]; split; [econstructor; [reflexivity|left; reflexivity]|reflexivity]).
  - destruct x as [h|m|m|m|m|m]; try destruct H as [<-|[]]; try (destruct H; fail); intros (j & X & _); discriminate X.
Qed.
Example C107_case : exists out, publishes sample_glob published_env [everything] published_here out /\ one_version published_env /\ published_only published_env /\
  (forall m, In m (r2_metrics (s2_registry published_acme)) -> wanted sample_glob [everything] (DMetric m) /\ ~ private (DMetric m)) /\
  map me2_name (r2_metrics (s2_registry out)) = ["hits"] /\ map ev2_name (r2_events (s2_registry out)) = ["boot"] /\
  map en2_type (r2_entities (s2_registry out)) = ["host"] /\
  map (fun m => p2_source (me2_provenance m)) (r2_metrics (s2_registry out)) = [Some 1] /\
  map (fun n => p2_source (en2_provenance n)) (r2_entities (s2_registry out)) = [Some 0].
Proof.
  destruct published_result as [out|] eqn:E; [|vm_compute in E; discriminate E]. exists out. destruct (published_ok _ E) as (A & B & C).
  split; [exact A|]. split; [exact B|]. split; [exact C|]. split; [intros m Hm; apply published_asked; [exact Hm|discriminate]|].
  vm_compute in E. injection E as <-. repeat split.
Qed.

(* The level of a signal is not taken over: an optional metric becomes one of unstated level. *)
Theorem C107_level_refuted : ~ (forall glob e blocks here out, publishes glob e blocks here out -> one_version e -> published_only e ->
  forall s m, ev_deps e = [D2 s] -> r2_metrics (s2_registry s) = [m] -> wanted glob blocks (DMetric m) -> ~ private (DMetric m) ->
  exists m'', In m'' (r2_metrics (s2_registry out)) /\ me2_name m'' = me2_name m /\ me2_level m'' = me2_level m).
Proof.
  intros H. destruct published_result as [out|] eqn:E; [|vm_compute in E; discriminate E]. destruct (published_ok _ E) as (A & B & C).
  destruct (published_asked (DMetric (hd (sample_metric2 "") (r2_metrics (s2_registry published_acme)))) (or_introl eq_refl)) as [W P]; [discriminate|].
  destruct (H _ _ _ _ _ A B C published_acme _ eq_refl eq_refl W P) as (m & Hm & _ & L).
  vm_compute in E. injection E as <-. vm_compute in Hm. destruct Hm as [<-|[]]. discriminate L.
Qed.
(* A public group of attributes is imported, but the importing registry does not publish it. *)
Theorem C107_group_refuted : ~ (forall glob e blocks here out, publishes glob e blocks here out -> one_version e -> published_only e ->
  forall s a, In (D2 s) (ev_deps e) -> In a (r2_attribute_groups (s2_registry s)) -> wanted glob blocks (DAttrGroup a) -> ~ private (DAttrGroup a) ->
  exists a', In a' (r2_attribute_groups (s2_registry out)) /\ ag2_id a' = ag2_id a).
Proof.
  intros H. destruct published_result as [out|] eqn:E; [|vm_compute in E; discriminate E]. destruct (published_ok _ E) as (A & B & C).
  assert (Hin : exists a, In a (r2_attribute_groups (s2_registry published_acme))) by (eexists; left; reflexivity). destruct Hin as (a & Ha).
  destruct (published_asked (DAttrGroup a) Ha) as [W P]; [discriminate|].
  destruct (H _ _ _ _ _ A B C published_acme a (or_introl eq_refl) Ha W P) as (a' & Ha' & _).
  vm_compute in E. injection E as <-. vm_compute in Ha'. destruct Ha'.
Qed.
(* A span whose type begins with "span." loses that part. *)
Theorem C107_span_type_refuted : ~ (forall glob e blocks here out, publishes glob e blocks here out -> one_version e -> published_only e ->
  forall s p, In (D2 s) (ev_deps e) -> In p (r2_spans (s2_registry s)) -> wanted glob blocks (DSpan p) -> ~ private (DSpan p) ->
  exists p', In p' (r2_spans (s2_registry out)) /\ sp2_type p' = sp2_type p).
Proof.
  intros H. destruct published_result as [out|] eqn:E; [|vm_compute in E; discriminate E]. destruct (published_ok _ E) as (A & B & C).
  assert (Hin : exists p, In p (r2_spans (s2_registry published_acme))) by (eexists; left; reflexivity). destruct Hin as (p & Hp).
  destruct (published_asked (DSpan p) Hp) as [W P]; [discriminate|].
  destruct (H _ _ _ _ _ A B C published_acme p (or_introl eq_refl) Hp W P) as (p' & Hp' & T).
  destruct Hp as [<-|[]]. vm_compute in E. injection E as <-. vm_compute in Hp'. destruct Hp' as [<-|[]]. discriminate T.
Qed.
Print Assumptions C107_level_refuted.
Print Assumptions C107_group_refuted.
Print Assumptions C107_span_type_refuted.
