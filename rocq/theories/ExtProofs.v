(* The resolution of extends and includes: invariants of the loop. *)
From Coq Require Import String Ascii Bool Arith Lia Permutation Sorted List.
Import ListNotations.
From Verif Require Import Base BaseProofs BaseProofs2 Json SemTypes Resolved Semver DefModel ResolveModel
  ResolveSpec ResolveProofs.
Local Open Scope string_scope.

Lemma slookup_sinsert {V} k k' (v : V) m :
  slookup k (sinsert k' v m) = if String.eqb k k' then Some v else slookup k m.
Proof.
  unfold slookup, sinsert. destruct (String.eqb_spec k k') as [->|N].
  - apply (lookup_insert_eq _ string_eqb_spec).
  - apply (lookup_insert_ne _ string_eqb_spec), N.
Qed.

Lemma Forall2_impl {A B} (P Q : A -> B -> Prop) l m : (forall a b, P a b -> Q a b) -> Forall2 P l m -> Forall2 Q l m.
Proof. intros H. induction 1; constructor; auto. Qed.

Lemma forall2_left {A B} (R : A -> B -> Prop) l l' x : Forall2 R l l' -> In x l -> exists y, In y l' /\ R x y.
Proof.
  induction 1 as [|a b l l' Hab _ IH]; intros Hx; [destruct Hx|]. destruct Hx as [->|Hx].
  - exists b. split; [left; reflexivity|exact Hab].
  - destruct (IH Hx) as (y & Hy & H). exists y. split; [right; exact Hy|exact H].
Qed.
Lemma forall2_right {A B} (R : A -> B -> Prop) l l' y : Forall2 R l l' -> In y l' -> exists x, In x l /\ R x y.
Proof.
  induction 1 as [|a b l l' Hab _ IH]; intros Hy; [destruct Hy|]. destruct Hy as [->|Hy].
  - exists a. split; [left; reflexivity|exact Hab].
  - destruct (IH Hy) as (x & Hx & H). exists x. split; [right; exact Hx|exact H].
Qed.

Definition avail (gs : list ugroup) (k : string) (s : summary) : Prop :=
  exists w, In w gs /\ is_settled w = true /\ uid w = k /\ s = local_summary w.

Lemma is_settled_spec u : is_settled u = true <-> g_extends (ug_group u) = None /\ ug_include u = [].
Proof.
  unfold is_settled. destruct (g_extends (ug_group u)), (ug_include u); split; try discriminate;
    try (intros [H1 H2]; discriminate); intros _; try reflexivity. split; reflexivity.
Qed.

(* ---------- the index at the start of a round ---------- *)
Lemma start_fold gs : forall idx k s,
  slookup k (fold_left (fun idx u => if is_settled u then sinsert (uid u) (local_summary u) idx else idx) gs idx) = Some s ->
  avail gs k s \/ slookup k idx = Some s.
Proof.
  induction gs as [|u gs IH]; intros idx k s H; cbn [fold_left] in H; [right; exact H|].
  apply IH in H as [(w & Hw & H)|H]; [left; exists w; split; [right; exact Hw|exact H]|].
  destruct (is_settled u) eqn:E; [|right; exact H].
  rewrite slookup_sinsert in H. destruct (String.eqb_spec k (uid u)) as [->|N]; [|right; exact H].
  injection H as <-. left. exists u. repeat split; try reflexivity; [left; reflexivity|exact E].
Qed.
Lemma start_index_sound gs k s : slookup k (start_index gs) = Some s -> avail gs k s.
Proof. intros H. apply start_fold in H as [H|H]; [exact H|discriminate]. Qed.
Lemma start_fold_keeps gs : forall idx k s, slookup k idx = Some s -> exists s',
  slookup k (fold_left (fun idx u => if is_settled u then sinsert (uid u) (local_summary u) idx else idx) gs idx) = Some s'.
Proof.
  induction gs as [|u gs IH]; intros idx k s H; cbn [fold_left]; [exists s; exact H|].
  destruct (is_settled u); [|apply (IH _ _ _ H)].
  destruct (String.eqb_spec k (uid u)) as [E|N].
  - apply (IH _ _ (local_summary u)). rewrite slookup_sinsert, E, String.eqb_refl. reflexivity.
  - apply (IH _ _ s). rewrite slookup_sinsert. destruct (String.eqb_spec k (uid u)); [contradiction|exact H].
Qed.
Lemma start_index_complete gs u : In u gs -> is_settled u = true -> exists s, slookup (uid u) (start_index gs) = Some s.
Proof.
  unfold start_index. generalize (@nil (string * summary)).
  induction gs as [|v gs IH]; intros idx Hin Hs; [destruct Hin|]; destruct Hin as [->|Hu]; cbn [fold_left].
  - rewrite Hs. apply (start_fold_keeps _ _ _ (local_summary u)).
    rewrite slookup_sinsert, String.eqb_refl. reflexivity.
  - apply IH; assumption.
Qed.

(* ---------- one step ---------- *)
Definition offered (e : env) (pid : string) (s : summary) : Prop :=
  exists d, In d (ev_deps e) /\ dep_summary e pid d = Some s /\ opt_excluded (sm_annotations s) = false.
Lemma find_in_deps_spec e id ds : forall ex s, find_in_deps e id ds ex = FGot s ->
  exists d, In d ds /\ dep_summary e id d = Some s /\ opt_excluded (sm_annotations s) = false.
Proof.
  induction ds as [|d ds IH]; intros ex s H; cbn [find_in_deps] in H.
  - destruct ex; discriminate.
  - destruct (dep_summary e id d) as [s0|] eqn:E.
    + destruct (opt_excluded (sm_annotations s0)) eqn:Ex.
      * destruct (IH _ _ H) as (d' & H1 & H2). exists d'. split; [right; exact H1|exact H2].
      * injection H as <-. exists d. split; [left; reflexivity|]. split; assumption.
    + destruct (IH _ _ H) as (d' & H1 & H2). exists d'. split; [right; exact H1|exact H2].
Qed.
Lemma find_in_deps_complete e id ds d s : In d ds -> dep_summary e id d = Some s ->
  opt_excluded (sm_annotations s) = false -> forall ex, exists s', find_in_deps e id ds ex = FGot s'.
Proof.
  induction ds as [|d0 ds IH]; intros Hin H1 H2 ex; [destruct Hin|]; destruct Hin as [->|Hd]; cbn [find_in_deps].
  - rewrite H1, H2. exists s. reflexivity.
  - destruct (dep_summary e id d0) as [s0|]; [|apply IH; assumption].
    destruct (opt_excluded (sm_annotations s0)); [apply IH; assumption|]. exists s0. reflexivity.
Qed.
Lemma lookup_group_spec e idx id s : lookup_group e idx id = FGot s -> slookup id idx = Some s \/ offered e id s.
Proof.
  unfold lookup_group. destruct (slookup id idx) as [s0|].
  - intros H. injection H as <-. left. reflexivity.
  - intros H. right. apply find_in_deps_spec in H. exact H.
Qed.

(* an included list that raises no error *)
Definition inc_from (idx : list (string * summary)) (i : string) (b : string * list uattr) : Prop :=
  fst b = i /\ exists s, slookup i idx = Some s /\ snd b = sm_attributes s.
Lemma collect_included_ok u idx incs : forall seen l, collect_included u idx seen incs = ([], l) ->
  Forall2 (inc_from idx) incs l.
Proof.
  induction incs as [|i incs IH]; intros seen l H; cbn [collect_included] in H.
  - injection H as <-. constructor.
  - destruct (slookup i idx) as [s|] eqn:E.
    + destruct (excluded_parent u i s).
      * destruct (collect_included u idx seen incs). discriminate.
      * destruct (dup_attrs (ug_include u) seen (sm_attributes s)) as [ds seen'].
        destruct (collect_included u idx seen' incs) as [es l'] eqn:El.
        injection H as H <-. apply app_eq_nil in H as [_ ->]. constructor.
        -- split; [reflexivity|]. exists s. split; [exact E|reflexivity].
        -- eapply IH, El.
    + destruct (collect_included u idx seen incs). discriminate.
Qed.
Lemma collect_included_missing u idx incs i : In i incs -> slookup i idx = None -> forall seen,
  In (XUnresolvedInclude (uid u) i) (fst (collect_included u idx seen incs)).
Proof.
  induction incs as [|j incs IH]; intros Hin Hn seen; [destruct Hin|]; destruct Hin as [->|Hi]; cbn [collect_included].
  - rewrite Hn. destruct (collect_included u idx seen incs) as [es l]. left. reflexivity.
  - destruct (slookup j idx) as [s|] eqn:E.
    + destruct (excluded_parent u j s) as [err|].
      * specialize (IH Hi Hn seen). destruct (collect_included u idx seen incs) as [es l]. right. exact IH.
      * destruct (dup_attrs (ug_include u) seen (sm_attributes s)) as [ds seen'].
        specialize (IH Hi Hn seen'). destruct (collect_included u idx seen' incs) as [es l].
        cbn [fst] in *. apply in_or_app. right. exact IH.
    + specialize (IH Hi Hn seen). destruct (collect_included u idx seen incs) as [es l]. right. exact IH.
Qed.
Lemma dup_attrs_errors incs l : forall seen err, In err (fst (dup_attrs incs seen l)) -> exists a, err = XDuplicateAttr incs a.
Proof.
  induction l as [|a l IH]; intros seen err H; cbn [dup_attrs] in H; [destruct H|].
  destruct (str_mem (ua_id a) seen).
  - specialize (IH seen err). destruct (dup_attrs incs seen l) as [es s']. cbn [fst] in *.
    destruct H as [<-|H]; [exists (ua_id a); reflexivity|apply IH, H].
  - eapply IH, H.
Qed.
Lemma excluded_parent_err u i s err : excluded_parent u i s = Some err -> exists t, err = XExcluded i t (uid u).
Proof.
  unfold excluded_parent. destruct (negb (sm_local s)); [discriminate|].
  destruct (negb (opt_excluded (sm_annotations s))); [discriminate|].
  destruct (ug_excluded u); [discriminate|]. intros H. injection H as <-. eexists. reflexivity.
Qed.
Lemma collect_included_errors u idx incs : incl incs (ug_include u) -> forall seen err,
  In err (fst (collect_included u idx seen incs)) ->
  include_error u err /\ (forall i, err = XUnresolvedInclude (uid u) i -> slookup i idx = None).
Proof.
  induction incs as [|i incs IH]; intros Hi seen err H; cbn [collect_included] in H; [destruct H|].
  assert (Hi' : incl incs (ug_include u)) by (intros x Hx; apply Hi; right; exact Hx).
  assert (Hii : In i (ug_include u)) by (apply Hi; left; reflexivity).
  destruct (slookup i idx) as [s|] eqn:E.
  - destruct (excluded_parent u i s) as [err0|] eqn:Ex.
    + specialize (IH Hi' seen err). destruct (collect_included u idx seen incs) as [es l]. cbn [fst] in *.
      destruct H as [<-|H]; [|apply IH, H]. apply excluded_parent_err in Ex as [t ->].
      split; [right; left; exists i, t; auto|discriminate].
    + pose proof (dup_attrs_errors (ug_include u) (sm_attributes s) seen err) as Hd.
      destruct (dup_attrs (ug_include u) seen (sm_attributes s)) as [ds seen'].
      specialize (IH Hi' seen' err). destruct (collect_included u idx seen' incs) as [es l]. cbn [fst] in *.
      apply in_app_or in H as [H|H]; [|apply IH, H]. destruct (Hd H) as [a ->].
      split; [right; right; exists a; reflexivity|discriminate].
  - specialize (IH Hi' seen err). destruct (collect_included u idx seen incs) as [es l]. cbn [fst] in *.
    destruct H as [<-|H]; [|apply IH, H]. split; [left; exists i; auto|].
    intros j H. injection H as <-. exact E.
Qed.

(* how a group is built from groups of [gs] *)
Definition par_ok (e : env) (gs : list ugroup) (u : ugroup) (par : option (string * summary)) : Prop :=
  match g_extends (ug_group u), par with
  | None, None => True
  | Some p, Some (p', s) => p' = p /\ (avail gs p s \/ offered e p s)
  | _, _ => False
  end.
Definition inc_ok (gs : list ugroup) (u : ugroup) (inc : list (string * list uattr)) : Prop :=
  Forall2 (fun i b => fst b = i /\ exists s, avail gs i s /\ snd b = sm_attributes s) (ug_include u) inc.
Definition built (e : env) (gs : list ugroup) (u v : ugroup) : Prop :=
  exists par inc, v = finish_group u par inc /\ par_ok e gs u par /\ inc_ok gs u inc.

Lemma par_ok_mono e gs gs' u par : (forall k s, avail gs k s -> avail gs' k s) -> par_ok e gs u par -> par_ok e gs' u par.
Proof.
  intros H. unfold par_ok. destruct (g_extends (ug_group u)) as [p|], par as [[p' s]|]; auto.
  intros [-> [H1|H1]]; split; auto.
Qed.
Lemma inc_ok_mono gs gs' u inc : (forall k s, avail gs k s -> avail gs' k s) -> inc_ok gs u inc -> inc_ok gs' u inc.
Proof.
  intros H. unfold inc_ok. apply Forall2_impl. intros i b [H1 (s & H2 & H3)]. split; [exact H1|].
  exists s. split; [apply H, H2|exact H3].
Qed.
Lemma built_mono e gs gs' u v : (forall k s, avail gs k s -> avail gs' k s) -> built e gs u v -> built e gs' u v.
Proof.
  intros H (par & inc & -> & H1 & H2). exists par, inc. split; [reflexivity|].
  split; [eapply par_ok_mono|eapply inc_ok_mono]; eassumption.
Qed.
Lemma finish_settled u par inc : is_settled (finish_group u par inc) = true.
Proof. reflexivity. Qed.
Lemma finish_uid u par inc : uid (finish_group u par inc) = uid u.
Proof.
  unfold finish_group, uid. cbn [clear_include with_attrs with_group ug_group set_extends upd_lineage set_lineage g_id].
  destruct par as [[p s]|]; [|reflexivity]. destruct (ug_is_v2 u); reflexivity.
Qed.

Lemma ext_step_built e gs idx u v es fs : (forall k s, slookup k idx = Some s -> avail gs k s) ->
  ext_step e idx u = Finish v es fs -> is_settled u = false /\ built e gs u v.
Proof.
  intros Hidx. unfold ext_step. destruct (is_settled u) eqn:Es; [discriminate|].
  destruct (collect_included u idx [] (ug_include u)) as [[|e1 l] inc] eqn:Ec; [|discriminate].
  apply collect_included_ok in Ec.
  assert (Hinc : inc_ok gs u inc).
  { unfold inc_ok. revert Ec. apply Forall2_impl. intros i b [H1 (s & H2 & H3)]. split; [exact H1|].
    exists s. split; [apply Hidx, H2|exact H3]. }
  destruct (g_extends (ug_group u)) as [p|] eqn:Ee.
  - destruct (lookup_group e idx p) as [s| |t] eqn:El; try discriminate.
    destruct (excluded_parent u p s); [discriminate|]. intros H. injection H as <- _ _.
    split; [reflexivity|]. exists (Some (p, s)), inc. split; [reflexivity|]. split; [|exact Hinc].
    unfold par_ok. rewrite Ee. split; [reflexivity|]. apply lookup_group_spec in El as [El|El]; [left; apply Hidx, El|right; exact El].
  - intros H. injection H as <- _ _. split; [reflexivity|]. exists None, inc. split; [reflexivity|].
    split; [|exact Hinc]. unfold par_ok. rewrite Ee. exact I.
Qed.

(* ---------- one round ---------- *)
Lemma avail_replace pre u v r k s : is_settled u = false -> avail (app pre (u :: r)) k s -> avail (app pre (v :: r)) k s.
Proof.
  intros Hu (w & Hw & Hs & H). exists w. split; [|split; [exact Hs|exact H]].
  apply in_app_or in Hw as [Hw|[->|Hw]]; [apply in_or_app; left; exact Hw|congruence|].
  apply in_or_app. right. right. exact Hw.
Qed.
Lemma avail_app_cons pre u r k s : avail (app (app pre [u]) r) k s <-> avail (app pre (u :: r)) k s.
Proof. rewrite <- app_assoc. reflexivity. Qed.

Lemma ext_groups_inv e gs : forall pre idx,
  (forall k s, slookup k idx = Some s -> avail (app pre gs) k s) ->
  let out := rd_groups (ext_groups e idx gs) in
  (forall k s, avail (app pre gs) k s -> avail (app pre out) k s) /\
  Forall2 (fun u v => v = u \/ (is_settled u = false /\ built e (app pre out) u v)) gs out.
Proof.
  induction gs as [|u gs IH]; intros pre idx Hidx; cbn [ext_groups].
  - cbn [rd_groups]. split; [auto|constructor].
  - assert (Keep : forall idx', (forall k s, slookup k idx' = Some s -> avail (app pre (u :: gs)) k s) ->
      let out := u :: rd_groups (ext_groups e idx' gs) in
      (forall k s, avail (app pre (u :: gs)) k s -> avail (app pre out) k s) /\
      Forall2 (fun u v => v = u \/ (is_settled u = false /\ built e (app pre out) u v)) (u :: gs) out).
    { intros idx' Hi'. destruct (IH (app pre [u]) idx') as [A B].
      - intros k s H. apply avail_app_cons, Hi', H.
      - cbv zeta in *. split.
        + intros k s H. apply avail_app_cons, A, avail_app_cons, H.
        + constructor; [left; reflexivity|]. revert B. apply Forall2_impl. intros a b [->|[H1 H2]]; [left; reflexivity|].
          right. split; [exact H1|]. rewrite <- app_assoc in H2. exact H2. }
    destruct (ext_step e idx u) as [|es|v es fs] eqn:E; cbn [rd_groups].
    + apply Keep, Hidx.
    + apply Keep, Hidx.
    + destruct (ext_step_built _ _ _ _ _ _ _ Hidx E) as [Hu Hb].
      destruct (IH (app pre [v]) (sinsert (uid v) (local_summary v) idx)) as [A B].
      * intros k s H. rewrite slookup_sinsert in H. apply avail_app_cons.
        destruct (String.eqb_spec k (uid v)) as [->|N].
        -- injection H as <-. exists v. split; [apply in_or_app; right; left; reflexivity|].
           split; [|auto]. destruct Hb as (par & inc & -> & _). reflexivity.
        -- apply (avail_replace pre u v gs k s Hu), Hidx, H.
      * cbv zeta in *. assert (M : forall k s, avail (app pre (u :: gs)) k s ->
            avail (app pre (v :: rd_groups (ext_groups e (sinsert (uid v) (local_summary v) idx) gs))) k s).
        { intros k s H. apply avail_app_cons, A, avail_app_cons, (avail_replace pre u v gs k s Hu), H. }
        split; [exact M|]. constructor.
        -- right. split; [exact Hu|]. eapply built_mono; [exact M|exact Hb].
        -- revert B. apply Forall2_impl. intros a b [->|[H1 H2]]; [left; reflexivity|].
           right. split; [exact H1|]. rewrite <- app_assoc in H2. exact H2.
Qed.

(* a round without errors settles every group *)
Lemma ext_groups_clean e gs : forall idx, rd_errors (ext_groups e idx gs) = [] ->
  Forall (fun v => is_settled v = true) (rd_groups (ext_groups e idx gs)).
Proof.
  induction gs as [|u gs IH]; intros idx; cbn [ext_groups]; [constructor|].
  destruct (ext_step e idx u) as [|es|v es fs] eqn:E; cbn [rd_errors rd_groups]; intros H.
  - constructor; [|apply IH, H]. unfold ext_step in E. destruct (is_settled u); [reflexivity|].
    destruct (collect_included u idx [] (ug_include u)) as [[|] ?]; [|discriminate].
    destruct (g_extends (ug_group u)); [|discriminate].
    destruct (lookup_group e idx s); try discriminate. destruct (excluded_parent u s s0); discriminate.
  - exfalso. apply app_eq_nil in H as [-> _]. unfold ext_step in E. destruct (is_settled u); [discriminate|].
    destruct (collect_included u idx [] (ug_include u)) as [[|] ?]; [|injection E as E; discriminate].
    destruct (g_extends (ug_group u)) as [p|]; [|discriminate].
    destruct (lookup_group e idx p) as [s| |t]; try discriminate. destruct (excluded_parent u p s); discriminate.
  - apply app_eq_nil in H as [_ H]. constructor; [|apply IH, H].
    unfold ext_step in E. destruct (is_settled u); [discriminate|].
    destruct (collect_included u idx [] (ug_include u)) as [[|] inc]; [|discriminate].
    destruct (g_extends (ug_group u)) as [p|].
    + destruct (lookup_group e idx p) as [s| |t]; try discriminate. destruct (excluded_parent u p s); [discriminate|].
      injection E as <- _ _. reflexivity.
    + injection E as <- _ _. reflexivity.
Qed.
(* how many groups are left *)
Definition unsettled (gs : list ugroup) : nat := count_if (fun u => negb (is_settled u)) gs.
Lemma ext_step_finish e idx u v es fs : ext_step e idx u = Finish v es fs -> is_settled u = false /\ is_settled v = true.
Proof.
  unfold ext_step. destruct (is_settled u); [discriminate|].
  destruct (collect_included u idx [] (ug_include u)) as [[|] inc]; [|discriminate].
  destruct (g_extends (ug_group u)) as [p|].
  - destruct (lookup_group e idx p) as [s| |t]; try discriminate. destruct (excluded_parent u p s); [discriminate|].
    intros H. injection H as <- _ _. split; reflexivity.
  - intros H. injection H as <- _ _. split; reflexivity.
Qed.
Lemma ext_groups_count e gs : forall idx,
  rd_count (ext_groups e idx gs) + unsettled (rd_groups (ext_groups e idx gs)) = unsettled gs.
Proof.
  unfold unsettled. induction gs as [|u gs IH]; intros idx; cbn [ext_groups]; [reflexivity|].
  destruct (ext_step e idx u) as [|es|v es fs] eqn:E; cbn [rd_count rd_groups]; rewrite !count_if_cons;
    specialize (IH idx) as H.
  - lia.
  - lia.
  - destruct (ext_step_finish _ _ _ _ _ _ E) as [H1 H2]. rewrite H1, H2. cbn [negb].
    specialize (IH (sinsert (uid v) (local_summary v) idx)). lia.
Qed.
(* a round that finishes nothing: the groups and the index are unchanged, every unfinished
   group has reported why *)
Lemma ext_groups_stuck e gs : forall idx, rd_count (ext_groups e idx gs) = 0 ->
  rd_groups (ext_groups e idx gs) = gs /\ rd_fatal (ext_groups e idx gs) = [] /\
  (forall u, In u gs -> is_settled u = false -> exists es, ext_step e idx u = Wait es /\ incl es (rd_errors (ext_groups e idx gs))) /\
  (forall err, In err (rd_errors (ext_groups e idx gs)) -> exists u es, In u gs /\ ext_step e idx u = Wait es /\ In err es).
Proof.
  induction gs as [|u gs IH]; intros idx H; cbn [ext_groups] in *.
  - cbn. repeat split; try reflexivity; [intros u []|intros err []].
  - destruct (ext_step e idx u) as [|es|v es fs] eqn:E; cbn [rd_count rd_groups rd_fatal rd_errors] in *.
    + destruct (IH idx H) as (A & B & C & D). repeat split.
      * f_equal. exact A.
      * exact B.
      * intros x [<-|Hx] Hs; [|apply C; assumption]. exfalso. unfold ext_step in E. rewrite Hs in E.
        destruct (collect_included u idx [] (ug_include u)) as [[|] ?]; [|discriminate].
        destruct (g_extends (ug_group u)); [|discriminate].
        destruct (lookup_group e idx s); try discriminate. destruct (excluded_parent u s s0); discriminate.
      * intros err Herr. destruct (D err Herr) as (x & es & H1 & H2). exists x, es. split; [right; exact H1|exact H2].
    + destruct (IH idx H) as (A & B & C & D). repeat split.
      * f_equal. exact A.
      * exact B.
      * intros x [<-|Hx] Hs.
        -- exists es. split; [exact E|]. intros y Hy. apply in_or_app. left. exact Hy.
        -- destruct (C x Hx Hs) as (es' & H1 & H2). exists es'. split; [exact H1|].
           intros y Hy. apply in_or_app. right. apply H2, Hy.
      * intros err Herr. apply in_app_or in Herr as [Herr|Herr].
        -- exists u, es. split; [left; reflexivity|]. split; [exact E|exact Herr].
        -- destruct (D err Herr) as (x & es' & H1 & H2). exists x, es'. split; [right; exact H1|exact H2].
    + discriminate.
Qed.

(* ---------- the loop ---------- *)
Definition progress (e : env) (gs cur : list ugroup) : Prop :=
  Forall2 (fun u v => v = u \/ (is_settled u = false /\ built e cur u v)) gs cur.
Lemma progress_refl e gs : progress e gs gs.
Proof.
  unfold progress. assert (H : forall l cur, Forall2 (fun u v => v = u \/ (is_settled u = false /\ built e cur u v)) l l).
  { induction l; constructor; auto. } apply H.
Qed.
Lemma progress_step e gs cur : progress e gs cur ->
  progress e gs (rd_groups (ext_groups e (start_index cur) cur)).
Proof.
  intros H. destruct (ext_groups_inv e cur [] (start_index cur)) as [A B].
  { intros k s Hk. apply start_index_sound, Hk. }
  cbv zeta in A, B. cbn [app] in A, B. unfold progress in *.
  set (out := rd_groups (ext_groups e (start_index cur) cur)) in *.
  assert (G : forall l1 l2 l3,
     Forall2 (fun u v => v = u \/ (is_settled u = false /\ built e cur u v)) l1 l2 ->
     Forall2 (fun u v => v = u \/ (is_settled u = false /\ built e out u v)) l2 l3 ->
     Forall2 (fun u v => v = u \/ (is_settled u = false /\ built e out u v)) l1 l3).
  { intros l1 l2 l3 F. revert l3. induction F as [|u v l1 l2 Huv _ IH]; intros l3 F'.
    - inversion F'; subst. constructor.
    - inversion F' as [|? w ? l3' Hvw F'']; subst. constructor; [|apply IH, F''].
      destruct Huv as [->|[Hu Hb]]; [exact Hvw|].
      destruct Hvw as [->|[Hv Hw]].
      + right. split; [exact Hu|]. eapply built_mono; [exact A|exact Hb].
      + exfalso. destruct Hb as (par & inc & -> & _). rewrite finish_settled in Hv. discriminate. }
  eapply G; eassumption.
Qed.
Lemma ext_loop_done e gs n : forall cur fatal gs', progress e gs cur -> ext_loop n e cur fatal = Done gs' ->
  progress e gs gs' /\ Forall (fun v => is_settled v = true) gs'.
Proof.
  induction n as [|n IH]; intros cur fatal gs' Hp H; cbn [ext_loop] in H; [discriminate|].
  pose proof (progress_step _ _ _ Hp) as Hp'.
  pose proof (ext_groups_clean e cur (start_index cur)) as Hc.
  set (d := ext_groups e (start_index cur) cur) in *.
  destruct (rd_errors d) as [|e1 es].
  - destruct (app fatal (rd_fatal d)); [|discriminate]. injection H as <-. split; [exact Hp'|apply Hc; reflexivity].
  - destruct (Nat.eqb (rd_count d) 0); [discriminate|]. eapply IH; eassumption.
Qed.
Lemma ext_loop_ends e n : forall cur fatal, unsettled cur < n -> ext_loop n e cur fatal <> Running.
Proof.
  induction n as [|n IH]; intros cur fatal H; [lia|]. cbn [ext_loop].
  pose proof (ext_groups_count e cur (start_index cur)) as Hc.
  set (d := ext_groups e (start_index cur) cur) in *.
  destruct (rd_errors d) as [|e1 es].
  - destruct (app fatal (rd_fatal d)); discriminate.
  - destruct (Nat.eqb_spec (rd_count d) 0) as [|N]; [discriminate|]. apply IH. lia.
Qed.
