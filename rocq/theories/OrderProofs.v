(* C35: the resolution of extends and includes does not depend on the order of the groups. *)
From Coq Require Import String Ascii Bool Arith Lia Permutation Sorted List.
Import ListNotations.
From Verif Require Import Base BaseProofs BaseProofs2 Json SemTypes Resolved Semver DefModel ResolveModel
  ResolveSpec ResolveProofs ExtProofs RefProofs ImportModel ImportSpec PropCatalog PropInherit PropRefs OrderSpec.
Local Open Scope string_scope.

(* what a group of [gs] resolves to, in at most [n] levels *)
Inductive res (e : env) (gs : list ugroup) : nat -> ugroup -> ugroup -> Prop :=
| res_settled n u : In u gs -> is_settled u = true -> res e gs n u u
| res_step n u v idx es : In u gs -> 
    (forall k s, slookup k idx = Some s -> exists w w', res e gs n w w' /\ uid w = k /\ s = local_summary w') ->
    ext_step e idx u = Finish v es [] -> res e gs (S n) u v.

Lemma step_uid e idx u v es fs : ext_step e idx u = Finish v es fs -> uid v = uid u.
Proof.
  unfold ext_step. destruct (is_settled u); [discriminate|].
  destruct (collect_included u idx [] (ug_include u)) as [[|] inc]; [|discriminate].
  destruct (g_extends (ug_group u)) as [p|].
  - destruct (lookup_group e idx p) as [s| |t]; try discriminate. destruct (excluded_parent u p s); [discriminate|].
    intros H. injection H as <- _ _. apply finish_uid.
  - intros H. injection H as <- _ _. apply finish_uid.
Qed.
Lemma res_in e gs n u v : res e gs n u v -> In u gs.
Proof. destruct 1; assumption. Qed.
Lemma res_uid e gs n u v : res e gs n u v -> uid v = uid u.
Proof. destruct 1 as [|n u v idx es _ _ H]; [reflexivity|]. eapply step_uid, H. Qed.
Lemma res_is_settled e gs n u v : res e gs n u v -> is_settled v = true.
Proof. destruct 1 as [|n u v idx es _ _ H]; [assumption|]. apply ext_step_finish in H. apply H. Qed.
Lemma res_mono e gs n : forall m u v, n <= m -> res e gs n u v -> res e gs m u v.
Proof.
  induction n as [|n IH]; intros m u v L H; inversion H as [n' u' Hu Hs|n' u' v' idx es Hu Hi He]; subst.
  - apply res_settled; assumption.
  - apply res_settled; assumption.
  - destruct m as [|m]; [lia|]. apply (res_step _ _ _ _ _ idx es); [assumption| |assumption].
    intros k s Hk. destruct (Hi k s Hk) as (w & w' & Hw & E). exists w, w'. split; [|exact E]. apply (IH m w w'); [lia|exact Hw].
Qed.
Lemma res_incl e gs gs' n : incl gs gs' -> forall u v, res e gs n u v -> res e gs' n u v.
Proof.
  intros I. induction n as [|n IH]; intros u v H; inversion H as [n' u' Hu Hs|n' u' v' idx es Hu Hi He]; subst; try (apply res_settled; auto; fail).
  apply (res_step _ _ _ _ _ idx es); [auto| |assumption].
  intros k s Hk. destruct (Hi k s Hk) as (w & w' & Hw & E). exists w, w'. split; [|exact E]. apply IH, Hw.
Qed.

(* two indexes that agree where both know an id *)
Lemma collect_same u idx1 idx2 incs : (forall k, In k incs -> slookup k idx1 = slookup k idx2) -> forall seen,
  collect_included u idx1 seen incs = collect_included u idx2 seen incs.
Proof.
  induction incs as [|i incs IH]; intros H seen; cbn [collect_included]; [reflexivity|].
  assert (IH' := fun s => IH (fun k Hk => H k (or_intror Hk)) s). rewrite (H i (or_introl eq_refl)).
  destruct (slookup i idx2) as [s|].
  - destruct (excluded_parent u i s).
    + rewrite IH'. reflexivity.
    + destruct (dup_attrs (ug_include u) seen (sm_attributes s)) as [ds seen']. rewrite IH'. reflexivity.
  - rewrite IH'. reflexivity.
Qed.
Lemma missing_dec (idx : list (string * summary)) incs : (exists k, In k incs /\ slookup k idx = None) \/ (forall k, In k incs -> slookup k idx <> None).
Proof.
  induction incs as [|i incs IH]; [right; intros k []|]. destruct (slookup i idx) as [s|] eqn:E.
  - destruct IH as [(k & Hk & N)|H]; [left; exists k; split; [right; exact Hk|exact N]|].
    right. intros k [<-|Hk]; [congruence|apply H, Hk].
  - left. exists i. split; [left; reflexivity|exact E].
Qed.
Lemma step_agree e idx1 idx2 u v es :
  (forall k s1 s2, slookup k idx1 = Some s1 -> slookup k idx2 = Some s2 -> s1 = s2) ->
  (forall k s, slookup k idx1 = Some s -> forall s0, find_in_deps e k (ev_deps e) None <> FGot s0) ->
  (forall k s, slookup k idx2 = Some s -> forall s0, find_in_deps e k (ev_deps e) None <> FGot s0) ->
  ext_step e idx1 u = Finish v es [] ->
  ext_step e idx2 u = Finish v es [] \/
  (exists ws k, ext_step e idx2 u = Wait ws /\ slookup k idx1 <> None /\ slookup k idx2 = None).
Proof.
  intros A L1 L2 H. unfold ext_step in *. destruct (is_settled u); [discriminate|].
  destruct (collect_included u idx1 [] (ug_include u)) as [[|e1 l1] inc] eqn:C; [|discriminate].
  pose proof (collect_included_ok _ _ _ _ _ C) as F.
  assert (K1 : forall k, In k (ug_include u) -> exists s, slookup k idx1 = Some s).
  { intros k Hk. destruct (forall2_left _ _ _ _ F Hk) as (b & _ & _ & s & Hs & _). exists s. exact Hs. }
  destruct (missing_dec idx2 (ug_include u)) as [(k & Hk & N)|Full].
  - right. pose proof (collect_included_missing u idx2 (ug_include u) k Hk N []) as M.
    destruct (collect_included u idx2 [] (ug_include u)) as [[|e2 l2] inc2]; [destruct M|].
    eexists _, k. split; [reflexivity|]. split; [|exact N]. destruct (K1 k Hk) as [s ->]. discriminate.
  - assert (Q : forall k, In k (ug_include u) -> slookup k idx1 = slookup k idx2).
    { intros k Hk. destruct (K1 k Hk) as [s Hs]. destruct (slookup k idx2) as [s2|] eqn:E2; [|exfalso; exact (Full k Hk E2)].
      rewrite Hs. f_equal. apply (A k); assumption. }
    rewrite <- (collect_same u idx1 idx2 _ Q), C. destruct (g_extends (ug_group u)) as [p|]; [|left; exact H].
    unfold lookup_group in *. destruct (slookup p idx1) as [s1|] eqn:E1; destruct (slookup p idx2) as [s2|] eqn:E2.
    + rewrite <- (A p s1 s2 E1 E2). left. exact H.
    + right. specialize (L1 p s1 E1). destruct (find_in_deps e p (ev_deps e) None) as [s0| |t]; [exfalso; exact (L1 s0 eq_refl)| |];
        (eexists _, p; split; [reflexivity|]; split; [congruence|exact E2]).
    + specialize (L2 p s2 E2). destruct (find_in_deps e p (ev_deps e) None) as [s0| |t]; [exfalso; exact (L2 s0 eq_refl)| |]; discriminate.
    + left. exact H.
Qed.

Section Order.
  Variable e : env.
  Variable gs : list ugroup.
  Hypothesis Hn : NoDup (map uid gs).
  Hypothesis Hd : forall u, In u gs -> forall s0, find_in_deps e (uid u) (ev_deps e) None <> FGot s0.

  Lemma same_uid u v : In u gs -> In v gs -> uid u = uid v -> u = v.
  Proof.
    clear Hd. induction gs as [|x l IH]; intros Hu Hv E; [destruct Hu|]. cbn [map] in Hn. inversion Hn as [|? ? N N']; subst.
    destruct Hu as [<-|Hu], Hv as [<-|Hv]; [reflexivity| | |apply IH; assumption].
    - exfalso. apply N. rewrite E. apply in_map, Hv.
    - exfalso. apply N. rewrite <- E. apply in_map, Hu.
  Qed.
  (* [idx] holds resolved groups *)
  Definition idx_ok (n : nat) (idx : list (string * summary)) : Prop :=
    forall k s, slookup k idx = Some s -> exists w w', res e gs n w w' /\ uid w = k /\ s = local_summary w'.
  Lemma idx_local n idx k s : idx_ok n idx -> slookup k idx = Some s -> forall s0, find_in_deps e k (ev_deps e) None <> FGot s0.
  Proof. intros H Hk. destruct (H k s Hk) as (w & w' & R & <- & _). apply Hd. eapply res_in, R. Qed.

  Lemma res_fun n : forall m u v v', res e gs n u v -> res e gs m u v' -> v = v'.
  Proof.
    induction n as [|n IH]; intros m u v v' H H'.
    - inversion H as [n1 u1 Hu Hs|]; subst. inversion H' as [n2 u2 Hu2 Hs2|n2 u2 v2 idx2 es2 Hu2 Hi2 He2]; subst; [reflexivity|].
      apply ext_step_finish in He2. destruct He2. congruence.
    - inversion H as [n1 u1 Hu Hs|n1 u1 v1 idx1 es1 Hu1 Hi1 He1]; subst; inversion H' as [n2 u2 Hu2 Hs2|n2 u2 v2 idx2 es2 Hu2 Hi2 He2]; subst; try reflexivity.
      + apply ext_step_finish in He2. destruct He2. congruence.
      + apply ext_step_finish in He1. destruct He1. congruence.
      + assert (A : forall k s1 s2, slookup k idx1 = Some s1 -> slookup k idx2 = Some s2 -> s1 = s2).
        { intros k s1 s2 K1 K2. destruct (Hi1 k s1 K1) as (w & w' & R & U & ->). destruct (Hi2 k s2 K2) as (x & x' & R' & U' & ->).
          f_equal. assert (w = x) as -> by (apply same_uid; [eapply res_in, R|eapply res_in, R'|congruence]). eapply IH; eassumption. }
        destruct (step_agree e idx1 idx2 u v es1 A (fun k s => idx_local _ idx1 k s Hi1) (fun k s => idx_local _ idx2 k s Hi2) He1) as [E|(ws & k & E & _)]; congruence.
  Qed.
  Lemma idx_fun n m idx1 idx2 : idx_ok n idx1 -> idx_ok m idx2 -> forall k s1 s2, slookup k idx1 = Some s1 -> slookup k idx2 = Some s2 -> s1 = s2.
  Proof.
    intros Hi1 Hi2 k s1 s2 K1 K2. destruct (Hi1 k s1 K1) as (w & w' & R & U & ->). destruct (Hi2 k s2 K2) as (x & x' & R' & U' & ->).
    f_equal. assert (w = x) as -> by (apply same_uid; [eapply res_in, R|eapply res_in, R'|congruence]). eapply res_fun; eassumption.
  Qed.

  (* the state of a run *)
  Definition part (n : nat) (u v : ugroup) : Prop := res e gs n u v \/ (v = u /\ is_settled u = false).
  Definition total : Prop := forall u, In u gs -> exists n v, res e gs n u v.
  Lemma part_mono n m u v : n <= m -> part n u v -> part m u v.
  Proof. intros L [H|H]; [left; eapply res_mono; eassumption|right; exact H]. Qed.
  Lemma idx_mono n m idx : n <= m -> idx_ok n idx -> idx_ok m idx.
  Proof. intros L H k s Hk. destruct (H k s Hk) as (w & w' & R & E). exists w, w'. split; [eapply res_mono; eassumption|exact E]. Qed.
  Lemma idx_insert n idx u v : idx_ok n idx -> res e gs n u v -> idx_ok n (sinsert (uid v) (local_summary v) idx).
  Proof.
    intros H R k s Hk. rewrite slookup_sinsert in Hk. destruct (String.eqb_spec k (uid v)) as [->|N]; [|apply H, Hk].
    injection Hk as <-. exists u, v. split; [exact R|]. split; [|reflexivity]. symmetry. eapply res_uid, R.
  Qed.
  Lemma run_groups l0 l : forall idx n, incl l0 gs -> Forall2 (part n) l0 l -> idx_ok n idx ->
    (rd_fatal (ext_groups e idx l) = [] \/ total) ->
    rd_fatal (ext_groups e idx l) = [] /\ exists n', n <= n' /\ Forall2 (part n') l0 (rd_groups (ext_groups e idx l)).
  Proof.
    intros idx n I F. revert idx n F I. revert l. induction l0 as [|u l0 IH]; intros l idx n F I Hi Hf; inversion F as [|? v ? l' P F']; subst; cbn [ext_groups rd_fatal rd_groups].
    - split; [reflexivity|]. exists n. split; [lia|constructor].
    - assert (I' : incl l0 gs) by (intros x Hx; apply I; right; exact Hx).
      cbn [ext_groups] in Hf.
      destruct (ext_step e idx v) as [|ws|v' es fs] eqn:Ev; cbn [rd_fatal rd_groups] in *.
      + destruct (IH l' idx n F' I' Hi Hf) as (A & n' & L & B). split; [exact A|]. exists n'. split; [exact L|].
        constructor; [eapply part_mono; eassumption|exact B].
      + destruct (IH l' idx n F' I' Hi Hf) as (A & n' & L & B). split; [exact A|]. exists n'. split; [exact L|].
        constructor; [eapply part_mono; eassumption|exact B].
      + assert (Eu : v = u). { destruct P as [R|[E _]]; [|exact E]. apply res_is_settled in R. apply ext_step_finish in Ev. destruct Ev. congruence. }
        subst v. assert (Hu : In u gs) by (apply I; left; reflexivity).
        assert (Efs : fs = []).
        { destruct Hf as [Hf|T]; [apply app_eq_nil in Hf; apply Hf|]. destruct (T u Hu) as (m & w & R).
          inversion R as [n1 u1 Hu1 Hs|n1 u1 v1 idx1 es1 Hu1 Hi1 He1]; subst.
          - apply ext_step_finish in Ev. destruct Ev. congruence.
          - destruct (step_agree e idx1 idx u w es1 (idx_fun n1 n idx1 idx Hi1 Hi) (fun k s => idx_local _ idx1 k s Hi1) (fun k s => idx_local _ idx k s Hi) He1) as [E|(ws & k & E & _)]; congruence. }
        subst fs. cbn [app] in *. 
        assert (R : res e gs (S n) u v') by (apply (res_step _ _ _ _ _ idx es); assumption).
        destruct (IH l' (sinsert (uid v') (local_summary v') idx) (S n)) as (A & n' & L & B).
        * eapply Forall2_impl; [|exact F']. intros a b. apply part_mono. lia.
        * exact I'.
        * eapply idx_insert; [|exact R]. eapply idx_mono; [|exact Hi]. lia.
        * exact Hf.
        * split; [exact A|]. exists n'. split; [lia|]. constructor; [left; eapply res_mono; eassumption|exact B].
  Qed.
  Lemma start_ok l0 cur n : Forall2 (part n) l0 cur -> idx_ok n (start_index cur).
  Proof.
    intros F k s Hk. apply start_index_sound in Hk as (w & Hw & Hs & <- & ->). destruct (forall2_right _ _ _ _ F Hw) as (u & Hu & [R|[-> N]]); [|congruence].
    exists u, w. split; [exact R|]. split; [|reflexivity]. symmetry. eapply res_uid, R.
  Qed.
  (* a run that succeeds *)
  Lemma run_done l0 : incl l0 gs -> forall f cur fatal n r, Forall2 (part n) l0 cur -> ext_loop f e cur fatal = Done r ->
    fatal = [] /\ exists n', Forall2 (res e gs n') l0 r.
  Proof.
    intros I. induction f as [|f IH]; intros cur fatal n r F H; cbn [ext_loop] in H; [discriminate|].
    pose proof (run_groups l0 cur (start_index cur) n I F (start_ok _ _ _ F)) as RG.
    pose proof (ext_groups_clean e cur (start_index cur)) as Hc.
    set (d := ext_groups e (start_index cur) cur) in *. destruct (rd_errors d) as [|e1 es].
    - destruct (app fatal (rd_fatal d)) eqn:Ef; [|discriminate]. injection H as <-. apply app_eq_nil in Ef as [-> Ef]. split; [reflexivity|].
      destruct (RG (or_introl Ef)) as (_ & n' & _ & B). exists n'. specialize (Hc eq_refl).
      clear -B Hc. induction B as [|u v l l' P _ IHB]; [constructor|]. inversion Hc as [|? ? Hv Hc']; subst. constructor; [|apply IHB, Hc'].
      destruct P as [R|[-> N]]; [exact R|congruence].
    - destruct (Nat.eqb (rd_count d) 0); [discriminate|].
      assert (Ef : rd_fatal d = [] /\ fatal = []).
      { destruct (rd_fatal d) as [|x l] eqn:Ed. { split; [reflexivity|]. rewrite app_nil_r in H.
          destruct (RG (or_introl eq_refl)) as (_ & n' & _ & B). apply (IH _ _ n' _ B H). }
        exfalso. clear -H. set (l0 := app fatal (x :: l)) in *. assert (N : l0 <> []) by (unfold l0; destruct fatal; discriminate).
        clearbody l0. revert H N. generalize (rd_groups d). clear. revert l0. induction f as [|f IH]; intros l0 c H N; cbn [ext_loop] in H; [discriminate|].
        destruct (rd_errors (ext_groups e (start_index c) c)).
        - destruct l0; [contradiction|]. discriminate.
        - destruct (Nat.eqb (rd_count (ext_groups e (start_index c) c)) 0); [discriminate|].
          apply (IH _ _ H). destruct l0; [contradiction|discriminate]. }
      destruct Ef as [Ef ->]. split; [reflexivity|]. rewrite Ef in H. cbn [app] in H. destruct (RG (or_introl Ef)) as (_ & n' & _ & B).
      destruct (IH _ _ _ _ B H) as [_ G]. exact G.
  Qed.
  (* a run never fails when every group resolves *)
  Lemma run_total l0 : Permutation l0 gs -> total -> forall f cur n, Forall2 (part n) l0 cur -> forall es, ext_loop f e cur [] <> Failed es.
  Proof.
    intros Pm T. assert (I : incl l0 gs) by (intros x Hx; apply (Permutation_in _ Pm), Hx).
    induction f as [|f IH]; intros cur n F es H; cbn [ext_loop] in H; [discriminate|].
    destruct (run_groups l0 cur (start_index cur) n I F (start_ok _ _ _ F) (or_intror T)) as (A & n' & L & B).
    pose proof (ext_groups_stuck e cur (start_index cur)) as St.
    set (d := ext_groups e (start_index cur) cur) in *. rewrite A in H. cbn [app] in H. destruct (rd_errors d) as [|e1 es1] eqn:Er; [discriminate|].
    destruct (Nat.eqb_spec (rd_count d) 0) as [E0|_]; [|exact (IH _ _ B es H)].
    destruct (St E0) as (_ & _ & C & D).
    assert (Settled : forall m u v w, res e gs m u v -> In w cur -> uid w = uid u -> is_settled w = true).
    { induction m as [m IHm] using lt_wf_ind. intros u v w R Hw U.
      destruct (forall2_right _ _ _ _ F Hw) as (u' & Hu' & P).
      assert (u' = u) as ->.
      { apply same_uid; [apply I, Hu'|eapply res_in, R|]. destruct P as [Rp|[-> _]]; [|exact U]. rewrite <- U. symmetry. eapply res_uid, Rp. }
      destruct P as [Rp|[-> N]]; [eapply res_is_settled, Rp|].
      exfalso. inversion R as [n1 u1 Hu1 Hs|n1 u1 v1 idx1 es2 Hu1 Hi1 He1]; subst; [congruence|].
      destruct (step_agree e idx1 (start_index cur) u v es2 (idx_fun n1 n idx1 _ Hi1 (start_ok _ _ _ F)) (fun k s => idx_local _ idx1 k s Hi1)
        (fun k s => idx_local _ _ k s (start_ok _ _ _ F)) He1) as [E|(ws & k & E & K1 & K2)].
      - destruct (C u Hw N) as (ws & W & _). congruence.
      - destruct (slookup k idx1) as [s|] eqn:Ks; [|contradiction]. destruct (Hi1 k s Ks) as (x & x' & Rx & <- & _).
        assert (Hx : In x l0) by (apply (Permutation_in _ (Permutation_sym Pm)); eapply res_in, Rx).
        destruct (forall2_left _ _ _ _ F Hx) as (y & Hy & Py).
        assert (Uy : uid y = uid x) by (destruct Py as [Ry|[-> _]]; [eapply res_uid, Ry|reflexivity]).
        assert (Sy : is_settled y = true) by (apply (IHm n1 (Nat.lt_succ_diag_r n1) x x' y Rx Hy Uy)).
        destruct (start_index_complete cur y Hy Sy) as [s' Hs']. rewrite Uy in Hs'. congruence. }
    destruct (D e1 (or_introl eq_refl)) as (w & ws & Hw & W & _).
    destruct (forall2_right _ _ _ _ F Hw) as (u & Hu & P). destruct (T u (I u Hu)) as (m & v & R).
    assert (Uw : uid w = uid u) by (destruct P as [Ry|[-> _]]; [eapply res_uid, Ry|reflexivity]).
    pose proof (Settled m u v w R Hw Uw) as Sw. unfold ext_step in W. rewrite Sw in W. discriminate.
  Qed.
  Lemma start_part l : incl l gs -> Forall2 (part 0) l l.
  Proof.
    induction l as [|u l IH]; intros I; constructor; [|apply IH; intros x Hx; apply I; right; exact Hx].
    destruct (is_settled u) eqn:E; [left; apply res_settled; [apply I; left; reflexivity|exact E]|right; split; [reflexivity|exact E]].
  Qed.
End Order.

Lemma extends_order e gs gs' r : NoDup (map uid gs) -> (forall u, In u gs -> forall s0, find_in_deps e (uid u) (ev_deps e) None <> FGot s0) ->
  Permutation gs gs' -> resolve_extends e gs = Done r -> exists r', resolve_extends e gs' = Done r' /\ Permutation r r'.
Proof.
  intros Hn Hd P H. unfold resolve_extends in H.
  destruct (run_done e gs Hn Hd gs (fun x Hx => Hx) _ _ _ _ _ (start_part e gs gs (fun x Hx => Hx)) H) as (_ & n & F).
  assert (I : incl gs' gs) by (intros x Hx; apply (Permutation_in _ (Permutation_sym P)), Hx).
  destruct (resolve_extends e gs') as [r'|es|] eqn:E.
  - exists r'. split; [reflexivity|]. unfold resolve_extends in E.
    destruct (run_done e gs Hn Hd gs' I _ _ _ _ _ (start_part e gs gs' I) E) as (_ & m & F').
    destruct (forall2_perm _ _ _ P _ F) as (r2 & P2 & F2). assert (r2 = r') as ->; [|exact P2].
    clear -F' F2 Hn Hd. revert r2 F2. induction F' as [|u v l l' R _ IH]; intros r2 F2; inversion F2 as [|? v2 ? l2 R2 F3]; subst; [reflexivity|].
    f_equal; [eapply res_fun; eassumption|apply IH, F3].
  - exfalso. unfold resolve_extends in E. refine (run_total e gs Hn Hd gs' (Permutation_sym P) _ _ _ _ (start_part e gs gs' I) es E).
    intros u Hu. destruct (forall2_left _ _ _ _ F Hu) as (v & _ & R). exists n, v. exact R.
  - exfalso. unfold resolve_extends in E. revert E. apply ext_loop_ends. unfold unsettled. pose proof (count_if_le (fun u => negb (is_settled u)) gs'). lia.
Qed.

(* ---------- attributes without origin and without exclusion ---------- *)
Definition plain (a : uattr) : Prop := ua_origin a = None /\ opt_excluded (annotations_of (ua_spec a)) = false.
Definition plain_group (u : ugroup) : Prop := forall a, In a (ug_attrs u) -> plain a.
Lemma plain_inherit a p : opt_excluded (annotations_of a) = false -> opt_excluded (annotations_of p) = false -> opt_excluded (annotations_of (inherit_attr a p)) = false.
Proof.
  destruct a as [r|i]; [|auto]. destruct p as [q|j]; cbn [inherit_attr annotations_of rs_annotations is_annotations]; unfold opt_or;
    destruct (rs_annotations r); auto.
Qed.
Definition plain_awl (x : awl) : Prop := aw_origin x = None /\ opt_excluded (annotations_of (aw_spec x)) = false.
Definition plain_map (m : list (string * awl)) : Prop := forall kv, In kv m -> plain_awl (snd kv).
Lemma plain_insert k x m : plain_map m -> plain_awl x -> plain_map (bt_insert k x m).
Proof.
  intros Hm Hx kv H. induction m as [|[k0 x0] m IH]; cbn [bt_insert] in H.
  - destruct H as [<-|[]]. exact Hx.
  - assert (Hm' : plain_map m) by (intros y Hy; apply Hm; right; exact Hy).
    destruct (str_cmp k k0).
    + destruct H as [<-|H]; [exact Hx|]. apply Hm. right. exact H.
    + destruct H as [<-|H]; [exact Hx|]. apply Hm. exact H.
    + destruct H as [<-|H]; [apply Hm; left; reflexivity|]. apply IH; assumption.
Qed.
Lemma plain_lookup k m x : plain_map m -> slookup k m = Some x -> plain_awl x.
Proof. intros H L. apply (lookup_in _ string_eqb_spec) in L. apply (H _ L). Qed.
Lemma plain_inherited gid own bases : (forall a, In a own -> plain a) -> (forall b a, In b bases -> In a (snd b) -> plain a) ->
  forall a, In a (inherit_attrs gid own bases) -> plain a.
Proof.
  intros Ho Hb a Ha. unfold inherit_attrs in Ha. apply in_map_iff in Ha as (kv & <- & Hkv).
  assert (P : plain_map (inherited_map gid own bases)).
  { unfold inherited_map.
    assert (P1 : plain_map (fold_left (fun m b => fold_left (add_base (fst b)) (snd b) m) bases [])).
    { assert (G : forall m, plain_map m -> plain_map (fold_left (fun m b => fold_left (add_base (fst b)) (snd b) m) bases m)).
      { clear Hkv. induction bases as [|b bs IH]; intros m Hm; cbn [fold_left]; [exact Hm|]. apply IH; [intros b' a' Hb' Ha'; apply (Hb b' a'); [right; exact Hb'|exact Ha']|].
        assert (Hs : forall a, In a (snd b) -> plain a) by (intros a' Ha'; apply (Hb b a'); [left; reflexivity|exact Ha']).
        clear IH Hb. revert m Hm Hs. generalize (snd b) as l. induction l as [|x l IHl]; intros m Hm Hs; cbn [fold_left]; [exact Hm|].
        apply IHl; [|intros y Hy; apply Hs; right; exact Hy]. destruct (Hs x (or_introl eq_refl)) as [X1 X2]. unfold add_base.
        destruct (slookup (ua_id x) m) as [y|] eqn:L; apply plain_insert; try assumption; split; try assumption.
        cbn [aw_spec]. apply plain_inherit; [exact X2|]. apply (plain_lookup _ _ _ Hm L). }
      apply G. intros kv' []. }
    revert P1. generalize (fold_left (fun m b => fold_left (add_base (fst b)) (snd b) m) bases []). clear Hkv Hb. induction own as [|x l IHl]; intros m Hm; cbn [fold_left]; [exact Hm|].
    apply IHl; [intros y Hy; apply Ho; right; exact Hy|]. destruct (Ho x (or_introl eq_refl)) as [X1 X2]. unfold add_own.
    destruct (ua_spec x) as [r|i] eqn:Ex.
    - destruct (slookup (rs_ref r) m) as [y|] eqn:L; apply plain_insert; try assumption; split; try assumption.
      + cbn [aw_origin]. apply (plain_lookup _ _ _ Hm L).
      + cbn [aw_spec]. apply plain_inherit; [exact X2|]. apply (plain_lookup _ _ _ Hm L).
    - apply plain_insert; [assumption|]. split; assumption. }
  exact (P kv Hkv).
Qed.
Definition plain_index (idx : list (string * summary)) : Prop := forall k s a, slookup k idx = Some s -> In a (sm_attributes s) -> plain a.
Lemma plain_step e idx u v es fs : ev_deps e = [] -> plain_index idx -> plain_group u -> ext_step e idx u = Finish v es fs -> plain_group v.
Proof.
  intros D Hi Hu. unfold ext_step. destruct (is_settled u); [discriminate|].
  destruct (collect_included u idx [] (ug_include u)) as [[|] inc] eqn:C; [|discriminate]. apply collect_included_ok in C.
  assert (Hinc : forall b a, In b inc -> In a (snd b) -> plain a).
  { intros b a Hb Ha. destruct (forall2_right _ _ _ _ C Hb) as (i & _ & _ & s & L & E). rewrite E in Ha. exact (Hi i s a L Ha). }
  destruct (g_extends (ug_group u)) as [p|].
  - destruct (lookup_group e idx p) as [s| |t] eqn:L; try discriminate. destruct (excluded_parent u p s); [discriminate|].
    intros H. injection H as <- _ _. intros a Ha. unfold finish_group in Ha. cbn [clear_include with_attrs ug_attrs] in Ha. revert a Ha.
    apply plain_inherited; [exact Hu|]. intros b a Hb Ha. apply in_app_or in Hb as [[<-|[]]|Hb]; [|exact (Hinc b a Hb Ha)].
    unfold lookup_group in L. destruct (slookup p idx) as [s'|] eqn:L'; [injection L as ->; exact (Hi p s a L' Ha)|]. rewrite D in L. discriminate.
  - intros H. injection H as <- _ _. intros a Ha. unfold finish_group in Ha. cbn [clear_include with_attrs ug_attrs] in Ha. revert a Ha.
    apply plain_inherited; [exact Hu|]. exact Hinc.
Qed.
Lemma plain_groups e l : ev_deps e = [] -> forall idx, plain_index idx -> (forall u, In u l -> plain_group u) -> forall v, In v (rd_groups (ext_groups e idx l)) -> plain_group v.
Proof.
  intros D. induction l as [|u l IH]; intros idx Hi Hl v Hv; cbn [ext_groups] in Hv; [destruct Hv|].
  assert (Hl' : forall x, In x l -> plain_group x) by (intros x Hx; apply Hl; right; exact Hx).
  destruct (ext_step e idx u) as [|ws|v' es fs] eqn:E; cbn [rd_groups] in Hv.
  - destruct Hv as [<-|Hv]; [apply Hl; left; reflexivity|]. eapply IH; eassumption.
  - destruct Hv as [<-|Hv]; [apply Hl; left; reflexivity|]. eapply IH; eassumption.
  - assert (Hv' : plain_group v') by (eapply plain_step; [exact D|exact Hi|apply Hl; left; reflexivity|exact E]).
    destruct Hv as [<-|Hv]; [exact Hv'|]. refine (IH _ _ Hl' v Hv).
    intros k s a L Ha. rewrite slookup_sinsert in L. destruct (String.eqb k (uid v')); [|exact (Hi k s a L Ha)]. injection L as <-. exact (Hv' a Ha).
Qed.
Lemma plain_loop e : ev_deps e = [] -> forall f cur fatal r, (forall u, In u cur -> plain_group u) -> ext_loop f e cur fatal = Done r -> forall v, In v r -> plain_group v.
Proof.
  intros D. induction f as [|f IH]; intros cur fatal r Hc H v Hv; cbn [ext_loop] in H; [discriminate|].
  assert (G : forall v, In v (rd_groups (ext_groups e (start_index cur) cur)) -> plain_group v).
  { apply (plain_groups e cur D); [|exact Hc]. intros k s a L Ha. apply start_index_sound in L as (w & Hw & _ & _ & ->). exact (Hc w Hw a Ha). }
  destruct (rd_errors (ext_groups e (start_index cur) cur)).
  - destruct (app fatal _); [|discriminate]. injection H as <-. exact (G v Hv).
  - destruct (Nat.eqb _ 0); [discriminate|]. exact (IH _ _ _ G H v Hv).
Qed.

(* ---------- references without dependencies ---------- *)
Definition local_root (x : sourced) : Prop := (exists g, ws_source x = SLocal g) /\ ws_def x = true /\ opt_excluded (at_annotations (ws_attr x)) = false.
Definition local_roots (c : catalog) : Prop := forall k x, slookup k (ct_roots c) = Some x -> local_root x.
Lemma local_set k x c : local_roots c -> local_root x -> local_roots (set_root k x c).
Proof.
  intros H Hx k' x' L. unfold set_root in L. cbn [ct_roots] in L. rewrite slookup_sinsert in L. destruct (String.eqb k' k); [|exact (H k' x' L)].
  injection L as <-. exact Hx.
Qed.
Lemma attribute_ref_roots a c r c' : attribute_ref a c = (r, c') -> ct_roots c' = ct_roots c.
Proof. unfold attribute_ref. destruct (lookup attribute_eqb a (ct_refs c)); intros H; inversion H; reflexivity. Qed.
Lemma resolve_plain e gid gp gx a c : ev_deps e = [] -> plain a -> local_roots c ->
  match resolve_attr e gid gp gx a c with
  | Got (Some (ar, c', en)) => local_roots c'
  | Got None => True
  | Bad _ => False
  end.
Proof.
  intros D [P1 P2] L. unfold resolve_attr. destruct (ua_spec a) as [r|i] eqn:E; cbn [annotations_of] in P2.
  - destruct (slookup (rs_ref r) (ct_roots c)) as [s|] eqn:K.
    + destruct (L _ _ K) as ((g & S1) & S2 & S3). rewrite S2. cbn [rr_bind]. rewrite S1, S3. cbn [andb].
      destruct (attribute_ref (apply_ref r (ws_attr s) (if rs_prefix r then gp ++ "." ++ rs_ref r else rs_ref r)) c) as [ar c2] eqn:A.
      assert (L2 : local_roots c2). { intros k x Hk. rewrite (attribute_ref_roots _ _ _ _ A) in Hk. exact (L k x Hk). }
      destruct (rs_prefix r); [|exact L2]. apply local_set; [exact L2|]. split; [eexists; reflexivity|]. split; [reflexivity|].
      cbn [ws_attr apply_ref at_annotations]. unfold opt_or. destruct (rs_annotations r); [exact P2|exact S3].
    + unfold deps_lookup_attr. rewrite D. cbn [collect_matches rr_bind fold_matches]. exact I.
  - rewrite P2, andb_false_r, P1. cbn [is_some negb].
    set (root := {| ws_attr := attribute_of_id i; ws_source := SLocal gid; ws_def := true |}).
    assert (Lr : local_root root) by (split; [eexists; reflexivity|split; [reflexivity|exact P2]]).
    destruct (slookup (is_id i) (ct_roots c)) as [s|] eqn:K.
    + destruct (L _ _ K) as ((g & S1) & S2 & S3). unfold resolve_conflict. cbv zeta. change (opt_excluded (at_annotations (ws_attr root))) with (opt_excluded (is_annotations i)).
      rewrite P2, S3, S2, S1. cbn [Bool.eqb negb root ws_def ws_source rr_bind].
      destruct (attribute_ref (attribute_of_id i) (set_root (is_id i) s c)) as [ar c2] eqn:A.
      intros k x Hk. rewrite (attribute_ref_roots _ _ _ _ A) in Hk. revert k x Hk. apply local_set; [exact L|exact (L _ _ K)].
    + cbn [rr_bind]. destruct (attribute_ref (attribute_of_id i) (set_root (is_id i) root c)) as [ar c2] eqn:A.
      intros k x Hk. rewrite (attribute_ref_roots _ _ _ _ A) in Hk. revert k x Hk. apply local_set; [exact L|exact Lr].
Qed.
Lemma visit_plain e b u l : ev_deps e = [] -> (forall a, In a l -> plain a) -> forall c lin, local_roots c ->
  exists v, visit_attrs e b u l c lin = Got v /\ local_roots (vs_catalog v) /\ (forall a, In a (vs_left v) -> plain a) /\
    forall err, In err (vs_errors v) -> exists g r, err = XUnresolvedAttr g r.
Proof.
  intros D. induction l as [|a l IH]; intros Hl c lin L; cbn [visit_attrs].
  - eexists. split; [reflexivity|]. cbn. split; [exact L|]. split; [exact Hl|]. intros err [].
  - assert (Hl' : forall x, In x l -> plain x) by (intros x Hx; apply Hl; right; exact Hx). assert (Ha : plain a) by (apply Hl; left; reflexivity).
    destruct (b && negb (is_id_spec a)).
    + destruct (IH Hl' c lin L) as (v & -> & A & B & C). cbn [rr_bind]. eexists. split; [reflexivity|]. cbn. split; [exact A|]. split; [|exact C].
      intros x [<-|Hx]; [exact Ha|exact (B x Hx)].
    + pose proof (resolve_plain e (uid u) (g_prefix (ug_group u)) (ug_excluded u) a c D Ha L) as R.
      destruct (resolve_attr e (uid u) (g_prefix (ug_group u)) (ug_excluded u) a c) as [[[[ar c'] en]|]|err]; [| |destruct R].
      * destruct (IH Hl' c' (match en with Some (k, al) => option_map (gl_add k al) lin | None => lin end) R) as (v & -> & A & B & C). cbn [rr_bind]. eexists. split; [reflexivity|]. cbn. auto.
      * destruct (IH Hl' c lin L) as (v & -> & A & B & C). cbn [rr_bind]. eexists. split; [reflexivity|]. cbn. split; [exact A|]. split.
        -- intros x [<-|Hx]; [exact Ha|exact (B x Hx)].
        -- intros err He. destruct (ua_spec a); [|exact (C err He)]. destruct b; [exact (C err He)|]. destruct He as [<-|He]; [eexists _, _; reflexivity|exact (C err He)].
Qed.
Lemma visits_plain e b gs : ev_deps e = [] -> (forall u, In u gs -> plain_group u) -> forall c, local_roots c ->
  exists p, visit_groups e b gs c = Got p /\ local_roots (ps_catalog p) /\ (forall u, In u (ps_groups p) -> plain_group u) /\
    forall err, In err (ps_errors p) -> exists g r, err = XUnresolvedAttr g r.
Proof.
  intros D. induction gs as [|u gs IH]; intros Hg c L; cbn [visit_groups].
  - eexists. split; [reflexivity|]. cbn. split; [exact L|]. split; [exact Hg|]. intros err [].
  - destruct (visit_plain e b u (ug_attrs u) D (Hg u (or_introl eq_refl)) c (g_lineage (ug_group u)) L) as (v & -> & A & B & C). cbn [rr_bind].
    destruct (IH (fun x Hx => Hg x (or_intror Hx)) (vs_catalog v) A) as (p & -> & A' & B' & C'). cbn [rr_bind]. eexists. split; [reflexivity|]. cbn.
    split; [exact A'|]. split.
    + intros x [<-|Hx]; [exact B|exact (B' x Hx)].
    + intros err He. apply in_app_or in He as [He|He]; [exact (C err He)|exact (C' err He)].
Qed.
Lemma loop_plain e : ev_deps e = [] -> forall n init gs c es, (forall u, In u gs -> plain_group u) -> local_roots c ->
  (forall err, In err init -> exists g r, err = XUnresolvedAttr g r) -> refs_loop n e init gs c = Failed es ->
  (forall err, In err es -> exists g r, err = XUnresolvedAttr g r).
Proof.
  intros D. induction n as [|n IH]; intros init gs c es Hg L Hi H; cbn [refs_loop] in H; [discriminate|].
  destruct (visits_plain e false gs D Hg c L) as (p & Ev & A & B & C). rewrite Ev in H.
  assert (G : forall err, In err (app init (ps_errors p)) -> exists g r, err = XUnresolvedAttr g r).
  { intros err He. apply in_app_or in He as [He|He]; [exact (Hi err He)|exact (C err He)]. }
  destruct (app init (ps_errors p)) as [|e1 es1]; [discriminate|]. destruct (Nat.eqb (ps_count p) 0); [injection H as <-; exact G|].
  exact (IH _ _ _ _ B A Hi H).
Qed.
Lemma refs_plain e gs es : ev_deps e = [] -> (forall u, In u gs -> plain_group u) -> resolve_references e gs empty_catalog = Failed es ->
  forall err, In err es -> exists g r, err = XUnresolvedAttr g r.
Proof.
  intros D Hg H. assert (L : local_roots empty_catalog) by (intros k x Hk; discriminate).
  unfold resolve_references in H. destruct (visits_plain e true gs D Hg empty_catalog L) as (p & Ev & A & B & C). rewrite Ev in H.
  exact (loop_plain e D _ _ _ _ _ B A C H).
Qed.
Lemma defines_incl e gs gs' x d : incl gs gs' -> defines e gs x d -> defines e gs' x d.
Proof.
  intros I. induction 1 as [u a i d Hu Ha Es Eo F|x s s' L U|u a r d d' Hu Ha Es Ep _ IH F].
  - apply (df_local e gs' u a i d); auto.
  - eapply df_dep; eassumption.
  - apply (df_prefix e gs' u a r d d'); auto.
Qed.
Lemma resolved_incl e gs gs' u a d : incl gs gs' -> resolved_as e gs u a d -> resolved_as e gs' u a d.
Proof. intros I. unfold resolved_as. destruct (ua_spec a); [|auto]. intros (d0 & D & F). exists d0. split; [eapply defines_incl; eassumption|exact F]. Qed.
Lemma refs_success e gs gs' r c : ev_deps e = [] -> (forall u, In u gs -> plain_group u) -> unreferenced gs -> Permutation gs gs' ->
  resolve_references e gs empty_catalog = Done (r, c) -> exists r' c', resolve_references e gs' empty_catalog = Done (r', c').
Proof.
  intros D Hp Hu P H. assert (I : incl gs' gs) by (intros x Hx; apply (Permutation_in _ (Permutation_sym P)), Hx).
  assert (Hp' : forall u, In u gs' -> plain_group u) by (intros u X; apply Hp, I, X).
  assert (Hu' : unreferenced gs') by (intros u X; apply Hu, I, X).
  destruct (resolve_references e gs' empty_catalog) as [[r' c']|es|] eqn:E.
  - eauto.
  - exfalso. pose proof (refs_plain e gs' es D Hp' E) as Pl.
    assert (Nx : no_excluded_attribute gs'). { intros u a i X Y Z. destruct (Hp' u X a Y) as [_ Q]. rewrite Z in Q. exact Q. }
    destruct (C34_refs_failure e gs' es Hu' Nx E) as [(err & -> & C)|[(x & t & g & C)|[N C]]].
    + destruct (Pl err (or_introl eq_refl)) as (g & r0 & ->). exact C.
    + destruct (Pl _ C) as (g' & r0 & X). discriminate.
    + destruct es as [|err es]; [contradiction|]. destruct (proj1 (C err) (or_introl eq_refl)) as (u & a & r0 & X & Y & Z & _ & W).
      pose proof (C34_refs_complete e gs r c Hu H) as F. destruct (forall2_left _ _ _ _ F (I u X)) as (v & _ & _ & _ & ds & ds' & _ & _ & G).
      destruct (forall2_left _ _ _ _ G Y) as (d & _ & R). unfold resolved_as in R. rewrite Z in R. destruct R as (d0 & R & _). apply W. exists d0.
      eapply defines_incl; [|exact R]. intros y Hy. apply (Permutation_in _ P), Hy.
  - exfalso. exact (C34_refs_terminate e gs' Hu' E).
Qed.
Lemma resolved_fun e gs u a d d' : one_definition e gs -> resolved_as e gs u a d -> resolved_as e gs u a d' -> d = d'.
Proof.
  intros One. unfold resolved_as. destruct (ua_spec a) as [r|i].
  - intros (d0 & D & F) (d1 & D' & F'). rewrite <- (One _ _ _ D D') in F'. clear D D'.
    unfold from_reference in *. destruct d, d'. cbn in *. repeat match goal with X : _ /\ _ |- _ => destruct X end. subst. f_equal; congruence.
  - intros F F'. unfold from_definition in *. destruct d, d'. cbn in *. repeat match goal with X : _ /\ _ |- _ => destruct X end. subst. f_equal; congruence.
Qed.

(* ---------- what resolving references leaves alone ---------- *)
Lemma fields_sym g h : same_fields g h -> same_fields h g.
Proof. unfold same_fields. intros H. repeat match goal with X : _ /\ _ |- _ => destruct X end. repeat split; symmetry; assumption. Qed.
Lemma fields_trans g h k : same_fields g h -> same_fields h k -> same_fields g k.
Proof. unfold same_fields. intros H J. repeat match goal with X : _ /\ _ |- _ => destruct X end. repeat split; etransitivity; eassumption. Qed.
Lemma anc_refl l : same_ancestry l l.
Proof. destruct l; cbn; auto. Qed.
Lemma anc_trans a b c : same_ancestry a b -> same_ancestry b c -> same_ancestry a c.
Proof. destruct a, b, c; cbn; try tauto. intros (A1 & A2 & A3 & A4) (B1 & B2 & B3 & B4). repeat split; etransitivity; eassumption. Qed.
Lemma anc_sym a b : same_ancestry a b -> same_ancestry b a.
Proof. destruct a, b; cbn; try tauto. intros (A1 & A2 & A3 & A4). auto. Qed.
Definition kept (u v : ugroup) : Prop :=
  same_fields (ug_group u) (ug_group v) /\ ug_visibility v = ug_visibility u /\ same_ancestry (g_lineage (ug_group u)) (g_lineage (ug_group v)).
Lemma kept_trans a b c : kept a b -> kept b c -> kept a c.
Proof. intros (A & A' & A2) (B & B' & B2). split; [eapply fields_trans; eassumption|]. split; [congruence|eapply anc_trans; eassumption]. Qed.
Lemma visit_attrs_anc e b u l : forall c lin v, visit_attrs e b u l c lin = Got v -> same_ancestry lin (vs_lineage v).
Proof.
  induction l as [|a l IH]; intros c lin v H; cbn [visit_attrs] in H.
  - inversion H; subst v. apply anc_refl.
  - destruct (b && negb (is_id_spec a)).
    + destruct (visit_attrs e b u l c lin) as [v'|er] eqn:Ev; cbn [rr_bind] in H; [|discriminate]. inversion H; subst v. cbn [vs_lineage]. eapply IH; exact Ev.
    + destruct (resolve_attr e (uid u) (g_prefix (ug_group u)) (ug_excluded u) a c) as [[[[ar c'] entry]|]|err].
      * destruct (visit_attrs e b u l c' (match entry with Some (k, al) => option_map (gl_add k al) lin | None => lin end)) as [v'|er] eqn:Ev;
          cbn [rr_bind] in H; [|discriminate]. inversion H; subst v. cbn [vs_lineage]. apply IH in Ev. eapply anc_trans; [|exact Ev].
        destruct entry as [[k al]|]; [|apply anc_refl]. destruct lin as [l0|]; [|apply anc_refl]. cbn. auto.
      * destruct (visit_attrs e b u l c lin) as [v'|er] eqn:Ev; cbn [rr_bind] in H; [|discriminate]. inversion H; subst v. cbn [vs_lineage]. eapply IH; exact Ev.
      * destruct (is_excluded_err err); [|discriminate].
        destruct (visit_attrs e b u l c lin) as [v'|er] eqn:Ev; cbn [rr_bind] in H; [|discriminate]. inversion H; subst v. cbn [vs_lineage]. eapply IH; exact Ev.
Qed.
Lemma visit_kept e b gs : forall c p, visit_groups e b gs c = Got p -> Forall2 kept gs (ps_groups p).
Proof.
  induction gs as [|u gs IH]; intros c p H; cbn [visit_groups] in H.
  - inversion H; subst p. constructor.
  - destruct (visit_attrs e b u (ug_attrs u) c (g_lineage (ug_group u))) as [v|er] eqn:Ev; cbn [rr_bind] in H; [|discriminate].
    destruct (visit_groups e b gs (vs_catalog v)) as [q|er] eqn:Eq; cbn [rr_bind] in H; [|discriminate]. inversion H; subst p. cbn [ps_groups].
    constructor; [|eapply IH; exact Eq]. split; [unfold same_fields; repeat (split; [reflexivity|]); reflexivity|].
    split; [reflexivity|exact (visit_attrs_anc _ _ _ _ _ _ _ Ev)].
Qed.
Lemma forall2_trans3 {A} (R : A -> A -> Prop) : (forall a b c, R a b -> R b c -> R a c) -> forall l m n, Forall2 R l m -> Forall2 R m n -> Forall2 R l n.
Proof. intros T l m n H. revert n. induction H as [|x y l m Hx _ IH]; intros n H2; inversion H2; subst; constructor; eauto. Qed.
Lemma loop_kept e init fuel : forall gs c gs' c', refs_loop fuel e init gs c = Done (gs', c') -> Forall2 kept gs gs'.
Proof.
  induction fuel as [|f IH]; intros gs c gs' c' H; cbn [refs_loop] in H; [discriminate|].
  destruct (visit_groups e false gs c) as [p|err] eqn:Ev; [|discriminate]. apply visit_kept in Ev.
  destruct (app init (ps_errors p)); [inversion H; subst; exact Ev|]. destruct (Nat.eqb (ps_count p) 0); [discriminate|].
  apply IH in H. eapply forall2_trans3; [exact kept_trans|exact Ev|exact H].
Qed.
Lemma refs_kept e gs c gs' c' : resolve_references e gs c = Done (gs', c') -> Forall2 kept gs gs'.
Proof.
  unfold resolve_references. destruct (visit_groups e true gs c) as [p|err] eqn:Ev; [|discriminate]. intros H.
  apply visit_kept in Ev. apply loop_kept in H. eapply forall2_trans3; [exact kept_trans|exact Ev|exact H].
Qed.
Definition like (c c' : catalog) (u u' : ugroup) : Prop :=
  same_fields (ug_group u) (ug_group u') /\ ug_visibility u' = ug_visibility u /\
  same_ancestry (g_lineage (ug_group u)) (g_lineage (ug_group u')) /\ same_attributes c c' u u'.
Lemma forall2_and {A B} (P Q : A -> B -> Prop) l m : Forall2 P l m -> Forall2 Q l m -> Forall2 (fun a b => P a b /\ Q a b) l m.
Proof. intros H. induction H as [|a b l m Hab _ IH]; intros H2; inversion H2; subst; constructor; auto. Qed.
Lemma refs_same e gs gs' r c r' c' : unreferenced gs -> Permutation gs gs' -> one_definition e gs ->
  resolve_references e gs empty_catalog = Done (r, c) -> resolve_references e gs' empty_catalog = Done (r', c') ->
  exists r2, Permutation r r2 /\ Forall2 (like c c') r2 r'.
Proof.
  intros Hu P One H H'. assert (I : incl gs' gs) by (intros x Hx; apply (Permutation_in _ (Permutation_sym P)), Hx).
  assert (Hu' : unreferenced gs') by (intros u X; apply Hu, I, X).
  pose proof (forall2_and _ _ _ _ (refs_kept _ _ _ _ _ H) (C34_refs_complete e gs r c Hu H)) as F.
  pose proof (forall2_and _ _ _ _ (refs_kept _ _ _ _ _ H') (C34_refs_complete e gs' r' c' Hu' H')) as F'.
  destruct (forall2_perm _ _ _ P _ F) as (r2 & P2 & F2). exists r2. split; [exact P2|]. clear H H' F P2. revert r2 F2.
  induction F' as [|u v' l l' [K' (_ & _ & ds1 & ds1' & A1 & B1 & G1)] _ IH]; intros r2 F2; inversion F2 as [|? v ? l2 [K (_ & _ & ds2 & ds2' & A2 & B2 & G2)] F3]; subst; constructor; [|apply IH, F3].
  destruct K as (K1 & K2 & K3), K' as (K1' & K2' & K3'). split; [|split; [congruence|split]].
  - eapply fields_trans; [apply fields_sym, K1|exact K1'].
  - eapply anc_trans; [apply anc_sym, K3|exact K3'].
  - exists ds2, ds1. split; [exact A2|]. split; [exact A1|]. rewrite B2, B1.
    assert (E : ds2' = ds1'); [|rewrite E; reflexivity]. clear -G1 G2 One I. revert ds2' G2. induction G1 as [|a d la ld R _ IHG]; intros ds2' G2; inversion G2 as [|? d2 ? ld2 R2 G3]; subst; [reflexivity|].
    f_equal; [|apply IHG, G3]. eapply resolved_fun; [exact One|exact R2|]. eapply resolved_incl; [exact I|exact R].
Qed.

(* ---------- what is published ---------- *)
Lemma sorted_map {A B} (f : A -> B) (R : B -> B -> Prop) l : StronglySorted (fun x y => R (f x) (f y)) l -> StronglySorted R (map f l).
Proof. induction 1 as [|x l _ IH F]; cbn [map]; constructor; [exact IH|]. apply Forall_map. exact F. Qed.
Lemma sorted_filter {A} (f : A -> bool) (R : A -> A -> Prop) l : StronglySorted R l -> StronglySorted R (filter f l).
Proof.
  induction 1 as [|x l _ IH F]; cbn [filter]; [constructor|]. destruct (f x); [|exact IH]. constructor; [exact IH|].
  apply Forall_forall. intros y Hy. apply filter_In in Hy as [Hy _]. rewrite Forall_forall in F. apply F, Hy.
Qed.
Lemma stab_ids leb order gs c out cat : stabilize leb order gs c = (out, cat) -> StronglySorted (le str_leb) (map g_id out).
Proof.
  intros H. unfold stabilize in H. injection H as <- _. rewrite map_map. cbn [set_attributes g_id].
  apply sorted_map, sorted_filter. apply stable_sort_sorted.
  - intros x y. apply str_leb_total.
  - intros x y z. apply str_leb_trans.
Qed.
Lemma stab_refs_sorted leb order gs c out cat : stabilize leb order gs c = (out, cat) ->
  forall g, In g out -> StronglySorted (le Nat.leb) (g_attributes g).
Proof.
  intros H g Hg. unfold stabilize in H. injection H as <- _. apply in_map_iff in Hg as (u & <- & _). cbn [set_attributes g_attributes].
  apply stable_sort_sorted.
  - intros x y. destruct (Nat.leb_spec x y); [left; reflexivity|right]. apply Nat.leb_le. lia.
  - intros x y z. rewrite !Nat.leb_le. lia.
Qed.
Lemma stab_cat_sorted leb order gs c out cat : strict_order leb cat -> stabilize leb order gs c = (out, cat) -> StronglySorted (le leb) cat.
Proof.
  intros (T & Tr & _) H. unfold stabilize in H. injection H as _ <-. unfold gc_catalog, gc_sorted. apply sorted_map.
  apply (stable_sort_sorted (fun x y : attribute * nat => leb (fst x) (fst y))).
  - intros x y. apply T.
  - intros x y z. apply Tr.
Qed.
Lemma nat_sorted_eq (l m : list nat) : StronglySorted (le Nat.leb) l -> StronglySorted (le Nat.leb) m -> Permutation l m -> l = m.
Proof. intros A B P. apply (sorted_perm_unique Nat.leb); auto. intros x y _ _ X Y. apply Nat.leb_le in X. apply Nat.leb_le in Y. lia. Qed.
Lemma forall2_flip {A B} (R : A -> B -> Prop) l m : Forall2 R l m -> Forall2 (fun b a => R a b) m l.
Proof. induction 1; constructor; auto. Qed.
Lemma points_perm cat xs ds ys ds' : NoDup cat -> Forall2 (points_to cat) xs ds -> Forall2 (points_to cat) ys ds' -> Permutation ds ds' -> Permutation xs ys.
Proof.
  intros N F G P. apply forall2_flip in F. destruct (forall2_perm _ _ _ P _ F) as (zs & Pz & Fz).
  rewrite Pz. clear -N Fz G. apply forall2_flip in Fz. assert (E : zs = ys); [|rewrite E; reflexivity].
  revert zs Fz. induction G as [|y d ys ds' Hy _ IH]; intros zs Fz; inversion Fz as [|z ? zs' ? Hz Fz']; subst; [reflexivity|].
  f_equal; [|apply IH, Fz']. unfold points_to in *. rewrite NoDup_nth_error in N. apply N; [|congruence].
  apply nth_error_Some. congruence.
Qed.

Lemma nodup_incl_perm {A} (l m : list A) : NoDup l -> NoDup m -> (forall x, In x l <-> In x m) -> Permutation l m.
Proof. apply NoDup_Permutation. Qed.
Lemma like_pair c c' r2 gs' u u' : Forall2 (like c c') r2 gs' -> NoDup (map uid r2) -> In u r2 -> In u' gs' -> uid u = uid u' -> like c c' u u'.
Proof.
  intros F. induction F as [|v v' l l' Hv F IH]; intros N Iu Iu' E; [destruct Iu|]. cbn [map] in N. apply NoDup_cons_iff in N as [Nn N].
  assert (Ev : forall w w', like c c' w w' -> uid w' = uid w) by (intros w w' (K & _); unfold uid; symmetry; apply K).
  destruct Iu as [<-|Iu], Iu' as [<-|Iu'].
  - exact Hv.
  - destruct (forall2_right _ _ _ _ F Iu') as (x & Ix & Lx). exfalso. apply Nn. rewrite E, (Ev _ _ Lx). apply in_map, Ix.
  - exfalso. apply Nn. rewrite <- (Ev _ _ Hv), <- E. apply in_map, Iu.
  - apply IH; assumption.
Qed.
Lemma attrs_in_fun c u ds ds' : cat_ok c -> attrs_in c u ds -> attrs_in c u ds' -> ds = ds'.
Proof.
  intros Hc A. unfold attrs_in in *. revert ds'. induction A as [|r d rs ds Hd _ IH]; intros ds' B; inversion B as [|? d' ? ds2 Hd' B']; subst; [reflexivity|].
  f_equal; [eapply denotes_fun; eassumption|apply IH, B'].
Qed.

Lemma nodup_filter_map {A B} (f : A -> B) p (l : list A) : NoDup (map f l) -> NoDup (map f (filter p l)).
Proof.
  induction l as [|x l IH]; cbn [map filter]; intros N; [constructor|]. apply NoDup_cons_iff in N as [Nx N].
  destruct (p x); [|apply IH, N]. cbn [map]. constructor; [|apply IH, N]. intros X. apply Nx. apply in_map_iff in X as (y & E & Y).
  apply filter_In in Y as [Y _]. rewrite <- E. apply in_map, Y.
Qed.
Lemma stab_same leb o o' c c' gs gs2 gs' out cat out' cat' :
  (forall l, Permutation (o l) l) -> (forall l, Permutation (o' l) l) -> strict_order leb cat ->
  cat_ok c -> cat_ok c' -> refs_ok c gs -> refs_ok c' gs' -> NoDup (map uid (filter public gs)) ->
  Permutation gs gs2 -> Forall2 (like c c') gs2 gs' ->
  stabilize leb o gs c = (out, cat) -> stabilize leb o' gs' c' = (out', cat') ->
  cat = cat' /\ Forall2 same_but_lineage out out'.
Proof.
  intros Ho Ho' St Hc Hc' Hr Hr' N P F E E'.
  assert (N2 : NoDup (map uid (filter public gs2))) by (apply (Permutation_NoDup (Permutation_map uid (filter_perm public _ _ P))), N).
  assert (F3 : Forall2 (like c c') (filter public gs2) (filter public gs')).
  { clear -F. induction F as [|u u' l l' (K & V & R) _ IH]; [constructor|]. cbn [filter]. assert (Vp : public u' = public u) by (unfold public; rewrite V; reflexivity). rewrite Vp.
    destruct (public u); [constructor; [split; auto|exact IH]|exact IH]. }
  destruct (stabilize_correct _ _ _ _ _ _ Ho Hc Hr E) as ((kp & Pk & Fk) & Nc & Ic).
  destruct (stabilize_correct _ _ _ _ _ _ Ho' Hc' Hr' E') as ((kp' & Pk' & Fk') & Nc' & Ic').
  (* the catalogs *)
  assert (Sub : forall u u', like c c' u u' -> (forall a, (exists r, In r (g_attributes (ug_group u)) /\ denotes c r a) <-> (exists r, In r (g_attributes (ug_group u')) /\ denotes c' r a))).
  { intros u u' (_ & _ & _ & ds & ds' & A & A' & Pd) a. unfold attrs_in in A, A'. split; intros (r & Ir & D).
    - destruct (forall2_left _ _ _ _ A Ir) as (b & Ib & Db). rewrite (denotes_fun _ _ _ _ Hc D Db). apply (Permutation_in _ Pd) in Ib.
      destruct (forall2_right _ _ _ _ A' Ib) as (r' & Ir' & D'). exists r'. auto.
    - destruct (forall2_left _ _ _ _ A' Ir) as (b & Ib & Db). rewrite (denotes_fun _ _ _ _ Hc' D Db). apply (Permutation_in _ (Permutation_sym Pd)) in Ib.
      destruct (forall2_right _ _ _ _ A Ib) as (r' & Ir' & D'). exists r'. auto. }
  assert (Icc : forall a, In a cat <-> In a cat').
  { intros a. rewrite Ic, Ic'. split.
    - intros (u & r & Iu & Ir & D). apply (Permutation_in _ P) in Iu. destruct (forall2_left _ _ _ _ F Iu) as (u' & Iu' & L).
      destruct (proj1 (Sub _ _ L a)) as (r' & Ir' & D'); [exists r; auto|]. exists u', r'. auto.
    - intros (u' & r' & Iu' & Ir' & D'). destruct (forall2_right _ _ _ _ F Iu') as (u & Iu & L).
      destruct (proj2 (Sub _ _ L a)) as (r & Ir & D); [exists r'; auto|]. exists u, r. apply (Permutation_in _ (Permutation_sym P)) in Iu. auto. }
  assert (Ec : cat = cat').
  { apply (sorted_perm_unique leb).
    - apply St.
    - eapply stab_cat_sorted; eassumption.
    - eapply stab_cat_sorted; [|exact E']. destruct St as (T & Tr & As). split; [exact T|]. split; [exact Tr|]. intros a b Ia Ib. apply As; apply Icc; assumption.
    - apply NoDup_Permutation; assumption. }
  split; [exact Ec|]. subst cat'.
  (* the ids *)
  assert (Kid : forall kp out, Forall2 (fun u g => same_data (ug_group u) g /\ exists before after, attrs_in c u before /\ attrs_out cat g after /\ Permutation before after) kp out -> map g_id out = map uid kp).
  { intros k ot X. induction X as [|u g k ot [[[I _] _] _] _ IH]; [reflexivity|]. cbn [map]. rewrite IH. f_equal. unfold uid. congruence. }
  assert (Kid' : forall kp out, Forall2 (fun u g => same_data (ug_group u) g /\ exists before after, attrs_in c' u before /\ attrs_out cat g after /\ Permutation before after) kp out -> map g_id out = map uid kp).
  { intros k ot X. induction X as [|u g k ot [[[I _] _] _] _ IH]; [reflexivity|]. cbn [map]. rewrite IH. f_equal. unfold uid. congruence. }
  assert (Pf : Permutation (map uid (filter public gs)) (map uid (filter public gs'))).
  { rewrite (Permutation_map uid (filter_perm public _ _ P)). assert (Q : map uid (filter public gs2) = map uid (filter public gs')); [|rewrite Q; reflexivity].
    clear -F. induction F as [|u u' l l' (K & V & _) _ IH]; [reflexivity|]. cbn [filter]. assert (Vp : public u' = public u) by (unfold public; rewrite V; reflexivity). rewrite Vp.
    assert (Ku : uid u = uid u') by (unfold uid; apply K).
    destruct (public u); cbn [map]; rewrite IH, ?Ku; reflexivity. }
  assert (Ei : map g_id out = map g_id out').
  { apply (sorted_perm_unique str_leb).
    - intros x y _ _. apply str_leb_antisym.
    - eapply stab_ids; exact E.
    - eapply stab_ids; exact E'.
    - rewrite (Kid _ _ Fk), (Kid' _ _ Fk'), (Permutation_map uid Pk), (Permutation_map uid Pk'). exact Pf. }
  assert (Ok : forall g, In g out -> exists u, In u (filter public gs2) /\ same_data (ug_group u) g /\ exists before after, attrs_in c u before /\ attrs_out cat g after /\ Permutation before after).
  { intros g Ig. destruct (forall2_right _ _ _ _ Fk Ig) as (u & Iu & X). apply (Permutation_in _ Pk) in Iu.
    exists u. split; [apply (Permutation_in _ (filter_perm public _ _ P)), Iu|exact X]. }
  assert (Ok' : forall g, In g out' -> exists u, In u (filter public gs') /\ same_data (ug_group u) g /\ exists before after, attrs_in c' u before /\ attrs_out cat g after /\ Permutation before after).
  { intros g Ig. destruct (forall2_right _ _ _ _ Fk' Ig) as (u & Iu & X). apply (Permutation_in _ Pk') in Iu.
    exists u. split; [exact Iu|exact X]. }
  pose proof (stab_refs_sorted _ _ _ _ _ _ E) as Sr. pose proof (stab_refs_sorted _ _ _ _ _ _ E') as Sr'.
  clear -F3 N2 Nc Hc Hc' Ok Ok' Ei Sr Sr'. revert out' Ei Ok' Sr'. induction out as [|g out IH]; intros [|g' out'] Ei Ok' Sr'; [constructor|discriminate|discriminate|].
  cbn [map] in Ei. injection Ei as Eg Ei. constructor; [|apply IH; auto with datatypes]. clear IH.
  destruct (Ok g (or_introl eq_refl)) as (u & Iu & [Su Lu] & be & af & A1 & A2 & A3).
  destruct (Ok' g' (or_introl eq_refl)) as (u' & Iu' & [Su' Lu'] & be' & af' & B1 & B2 & B3).
  assert (L : like c c' u u') by (apply (like_pair _ _ _ _ _ _ F3 N2 Iu Iu'); unfold uid; destruct Su as [-> _], Su' as [-> _]; exact Eg).
  destruct L as (K & _ & An & ds & ds' & D & D' & Pd). split; [eapply fields_trans; [apply fields_sym, Su|]; eapply fields_trans; [exact K|exact Su']|]. split; [|rewrite <- Lu, <- Lu'; exact An].
  rewrite (attrs_in_fun _ _ _ _ Hc D A1) in Pd. rewrite (attrs_in_fun _ _ _ _ Hc' D' B1) in Pd.
  apply nat_sorted_eq; [apply Sr; left; reflexivity|apply Sr'; left; reflexivity|].
  eapply points_perm; [exact Nc|exact A2|exact B2|]. rewrite <- A3, Pd. exact B3.
Qed.
