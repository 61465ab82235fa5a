(** Proofs for the lookup, advisor, inference and resource properties. *)
From Coq Require Import String Ascii Bool Arith Lia ZArith NArith List.
From Verif Require Import Base BaseProofs Json SemTypes LiveModel LiveAdvisors LiveSpec LiveProofs LiveProofs2.
Import ListNotations.
Local Open Scope string_scope.
Local Open Scope list_scope.
Local Open Scope nat_scope.

Lemma live_exit_reaches c f input out st code :
  live_check c false f input = Ok (out, st, code) ->
  code <= 1 /\
  (code = 1 <-> exists e x, In e (flat_map entities out) /\ In x (advice_of e) /\ reaches f (f_level x)).
Proof.
  intros H. apply live_exit in H as [H1 H2]. split; [exact H1|]. rewrite H2. split.
  - intros (t & e & x & Et & He & Hx & Hl). exists e, x. split; [exact He|]. split; [exact Hx|].
    destruct f, (f_level x); simpl in Et; inversion Et; subst t; simpl in *; auto; lia.
  - intros (e & x & He & Hx & Hr).
    destruct f; simpl in Hr; [exists Violation|exists Improvement|exists Information|contradiction];
      exists e, x; (split; [reflexivity|]); (split; [exact He|]); (split; [exact Hx|]);
      destruct (f_level x); simpl; try lia; try discriminate; destruct Hr; discriminate.
Qed.

Lemma is_some_none {A} (o : option A) : negb (is_some o) = true <-> o = None.
Proof. destruct o; simpl; split; congruence. Qed.

Lemma group_type_eqb_spec a b : group_type_eqb a b = true <-> a = b.
Proof. destruct a, b; simpl; split; congruence. Qed.

Lemma opt_list_in {A} (o : option A) x : In x (opt_list o) <-> o = Some x.
Proof. destruct o; simpl; [|split; [tauto|discriminate]]. split; [intros [->|[]]; auto|intros [= ->]; auto]. Qed.

Lemma tracked_spec r n :
  (In n (tracked_attributes r) <->
     exists a, In a (defined_attrs r) /\ vattr_name a = n /\ vattr_deprecated a = None) /\
  (In n (tracked_metrics r) <-> exists s, defines_metric r n s /\ vsig_deprecated s = None) /\
  (In n (tracked_events r) <-> exists s, defines_event r n s /\ vsig_deprecated s = None).
Proof.
  destruct r as [gs|r]; simpl.
  - rewrite !in_flat_map. split; [|split].
    + split.
      * intros (g & Hg & H). apply in_map_iff in H as (a & <- & H). apply filter_In in H as [H1 H2].
        exists (VA1 a). split; [apply in_flat_map; exists g; split; [exact Hg|apply in_map, H1]|].
        split; [reflexivity|]. apply is_some_none, H2.
      * intros (a & Ha & <- & Hd). apply in_flat_map in Ha as (g & Hg & Ha).
        apply in_map_iff in Ha as (a0 & <- & Ha). exists g. split; [exact Hg|]. simpl.
        apply in_map, filter_In. split; [exact Ha|]. apply is_some_none, Hd.
    + split.
      * intros (g & Hg & H). destruct (group_type_eqb _ _) eqn:E; [|contradiction].
        destruct (negb _) eqn:E2; [|contradiction]. simpl in H.
        exists (VSGroup g). split; [split; [exact Hg|split; [apply group_type_eqb_spec, E|apply opt_list_in, H]]|].
        apply is_some_none, E2.
      * intros ([g| |] & Hs & Hd); try contradiction. simpl in Hd; destruct Hs as (Hg & Ht & Hn). exists g. split; [exact Hg|].
        rewrite (proj2 (group_type_eqb_spec _ _) Ht), (proj2 (is_some_none _) Hd). simpl.
        apply opt_list_in, Hn.
    + split.
      * intros (g & Hg & H). destruct (group_type_eqb _ _) eqn:E; [|contradiction].
        destruct (negb _) eqn:E2; [|contradiction]. simpl in H.
        exists (VSGroup g). split; [split; [exact Hg|split; [apply group_type_eqb_spec, E|apply opt_list_in, H]]|].
        apply is_some_none, E2.
      * intros ([g| |] & Hs & Hd); try contradiction. simpl in Hd; destruct Hs as (Hg & Ht & Hn). exists g. split; [exact Hg|].
        rewrite (proj2 (group_type_eqb_spec _ _) Ht), (proj2 (is_some_none _) Hd). simpl.
        apply opt_list_in, Hn.
  - split; [|split].
    + rewrite in_map_iff. split.
      * intros (a & <- & H). apply filter_In in H as [H1 H2]. exists (VA2 a). split; [apply in_map, H1|].
        split; [reflexivity|apply is_some_none, H2].
      * intros (a & Ha & <- & Hd). apply in_map_iff in Ha as (a0 & <- & Ha). exists a0. split; [reflexivity|].
        apply filter_In. split; [exact Ha|apply is_some_none, Hd].
    + rewrite in_map_iff. split.
      * intros (a & <- & H). apply filter_In in H as [H1 H2]. exists (VSMetric a).
        split; [split; auto|apply is_some_none, H2].
      * intros ([|m|] & Hs & Hd); try contradiction. destruct Hs as [Hm <-]. exists m. split; [reflexivity|].
        apply filter_In. split; [exact Hm|apply is_some_none, Hd].
    + rewrite in_map_iff. split.
      * intros (a & <- & H). apply filter_In in H as [H1 H2]. exists (VSEvent a).
        split; [split; auto|apply is_some_none, H2].
      * intros ([| |m] & Hs & Hd); try contradiction. destruct Hs as [Hm <-]. exists m. split; [reflexivity|].
        apply filter_In. split; [exact Hm|apply is_some_none, Hd].
Qed.

Lemma insert_all_spec {V} (kvs : list (string * V)) k :
  match slookup k (insert_all kvs []) with
  | Some v => In (k, v) kvs
  | None => forall v, ~ In (k, v) kvs
  end.
Proof.
  assert (G : forall m, match slookup k (insert_all kvs m) with
    | Some v => In (k, v) kvs \/ slookup k m = Some v
    | None => slookup k m = None /\ forall v, ~ In (k, v) kvs end).
  { induction kvs as [|[k1 v1] kvs IH]; intros m; simpl.
    - destruct (slookup k m); auto.
    - specialize (IH (sinsert k1 v1 m)). unfold insert_all in *. simpl.
      destruct (slookup k (fold_left _ kvs _)) as [v|].
      + destruct IH as [H|H]; [auto|]. destruct (String.eqb_spec k k1) as [->|N].
        * unfold slookup, sinsert in H. rewrite (lookup_insert_eq _ string_eqb_spec) in H. injection H as ->. auto.
        * unfold slookup, sinsert in H. rewrite (lookup_insert_ne _ string_eqb_spec) in H by auto. auto.
      + destruct IH as [H1 H2]. destruct (String.eqb_spec k k1) as [->|N].
        * unfold slookup, sinsert in H1. rewrite (lookup_insert_eq _ string_eqb_spec) in H1. discriminate.
        * unfold slookup, sinsert in H1. rewrite (lookup_insert_ne _ string_eqb_spec) in H1 by auto.
          split; [exact H1|]. intros v [E|E]; [congruence|]. eapply H2, E. }
  specialize (G []). destruct (slookup k (insert_all kvs [])).
  - destruct G as [G|G]; [exact G|discriminate].
  - apply G.
Qed.

Lemma signal_lookup_spec r advs m n :
  let c := checker_new r advs m in
  match find_metric c n with Some s => defines_metric r n s | None => forall s, ~ defines_metric r n s end /\
  match find_event c n with Some s => defines_event r n s | None => forall s, ~ defines_event r n s end /\
  match find_entity c n with Some s => defines_entity r n s | None => forall s, ~ defines_entity r n s end.
Proof.
  assert (GM : forall s, In (n, s) (reg_metric_list r) <-> defines_metric r n s).
  { intros s. destruct r as [gs|r]; simpl.
    - rewrite in_flat_map. split.
      + intros (g & Hg & H). destruct (group_type_eqb _ _) eqn:E; [|contradiction].
        apply in_map_iff in H as (n' & E' & H). injection E' as <- <-.
        split; [exact Hg|]. split; [apply group_type_eqb_spec, E|apply opt_list_in, H].
      + destruct s as [g| |]; try contradiction. intros (Hg & Ht & Hn). exists g. split; [exact Hg|].
        rewrite (proj2 (group_type_eqb_spec _ _) Ht), Hn. left; reflexivity.
    - rewrite in_map_iff. split.
      + intros (x & E & H). injection E as <- <-. split; auto.
      + destruct s as [|x|]; try contradiction. intros [H <-]. exists x; auto. }
  assert (GE : forall s, In (n, s) (reg_event_list r) <-> defines_event r n s).
  { intros s. destruct r as [gs|r]; simpl.
    - rewrite in_flat_map. split.
      + intros (g & Hg & H). destruct (group_type_eqb _ _) eqn:E; [|contradiction].
        apply in_map_iff in H as (n' & E' & H). injection E' as <- <-.
        split; [exact Hg|]. split; [apply group_type_eqb_spec, E|apply opt_list_in, H].
      + destruct s as [g| |]; try contradiction. intros (Hg & Ht & Hn). exists g. split; [exact Hg|].
        rewrite (proj2 (group_type_eqb_spec _ _) Ht), Hn. left; reflexivity.
    - rewrite in_map_iff. split.
      + intros (x & E & H). injection E as <- <-. split; auto.
      + destruct s as [| |x]; try contradiction. intros [H <-]. exists x; auto. }
  assert (GN : forall s, In (n, s) (reg_entity_list r) <-> defines_entity r n s).
  { intros s. destruct r as [gs|r]; simpl.
    - rewrite in_flat_map. split.
      + intros (g & Hg & H). destruct (group_type_eqb _ _) eqn:E; [|contradiction].
        apply in_map_iff in H as (n' & E' & H). injection E' as <- <-.
        split; [exact Hg|]. split; [apply group_type_eqb_spec, E|apply opt_list_in, H].
      + destruct s as [g|]; try contradiction. intros (Hg & Ht & Hn). exists g. split; [exact Hg|].
        rewrite (proj2 (group_type_eqb_spec _ _) Ht), Hn. left; reflexivity.
    - rewrite in_map_iff. split.
      + intros (x & E & H). injection E as <- <-. split; auto.
      + destruct s as [|x]; try contradiction. intros [H <-]. exists x; auto. }
  unfold find_metric, find_event, find_entity. simpl. split; [|split].
  - pose proof (insert_all_spec (reg_metric_list r) n) as S. destruct (slookup n _).
    + apply GM, S.
    + intros s Hs. eapply S, GM, Hs.
  - pose proof (insert_all_spec (reg_event_list r) n) as S. destruct (slookup n _).
    + apply GE, S.
    + intros s Hs. eapply S, GE, Hs.
  - pose proof (insert_all_spec (reg_entity_list r) n) as S. destruct (slookup n _).
    + apply GN, S.
    + intros s Hs. eapply S, GN, Hs.
Qed.

Lemma entity_findings_exact e attrs sig :
  Forall2 (fun kr f => entity_missing_finding
      (match e with VE1 g => match vg_name g with Some n => n | None => "" end | VE2 e => vn_type e end)
      (fst kr) (snd kr) f)
    (filter (fun kr => negb (str_mem (fst kr) (map sa_name attrs))) (entity_rules e))
    (check_entity_resource_attributes e attrs sig).
Proof.
  unfold check_entity_resource_attributes.
  assert (E : entity_attrs e = entity_rules e) by (destruct e; simpl; [|rewrite map_app]; reflexivity).
  rewrite E. clear E.
  assert (T : entity_type_of e = match e with VE1 g => match vg_name g with Some n => n | None => "" end | VE2 e => vn_type e end)
    by (destruct e; reflexivity).
  rewrite T. generalize (match e with VE1 g => match vg_name g with Some n => n | None => "" end | VE2 e => vn_type e end).
  intros t. induction (entity_rules e) as [|[k q] l IH]; simpl; [constructor|].
  unfold check_entity_attr at 1. destruct (str_mem k (map sa_name attrs)); simpl; [exact IH|].
  constructor; [|exact IH]. destruct q; repeat split.
Qed.

(** * Advisors *)
Lemma deprecated_spec r sig ra g :
  exists fs, deprecated_advisor r sig ra g = Ok fs /\
    match item_deprecated r ra g with
    | None => fs = []
    | Some _ => exists f, fs = [f] /\ f_id f = "deprecated" /\ f_level f = Violation
    end.
Proof.
  eexists. split; [reflexivity|].
  destruct r; simpl; try reflexivity.
  - destruct ra as [a'|]; [|reflexivity]. destruct (vattr_deprecated a'); simpl; [|reflexivity]. eexists; repeat split.
  - destruct ra, g as [a'|]; try reflexivity; destruct (vsig_deprecated a'); simpl; try reflexivity; eexists; repeat split.
  - destruct ra, g as [a'|]; try reflexivity; destruct (vsig_deprecated a'); simpl; try reflexivity; eexists; repeat split.
Qed.

Lemma stability_findings_spec k c n sig o :
  ((o = None \/ o = Some SStable) -> stability_findings k c n sig o = []) /\
  (forall s, o = Some s -> s <> SStable ->
     exists f, stability_findings k c n sig o = [f] /\ f_id f = "not_stable" /\ f_level f = Improvement).
Proof.
  split.
  - intros [->| ->]; reflexivity.
  - intros s -> H. destruct s; try contradiction; eexists; repeat split.
Qed.

Lemma stability_spec r sig ra g :
  exists fs, stability_advisor r sig ra g = Ok fs /\
    ((item_stability r ra g = None \/ item_stability r ra g = Some SStable) -> fs = []) /\
    (forall s, item_stability r ra g = Some s -> s <> SStable ->
       exists f, fs = [f] /\ f_id f = "not_stable" /\ f_level f = Improvement).
Proof.
  eexists. split; [reflexivity|].
  destruct r; simpl; try (split; [auto|discriminate]).
  - destruct ra as [a'|]; [|split; [auto|discriminate]]. apply stability_findings_spec.
  - destruct ra, g as [a'|]; try (split; [auto|discriminate]); apply stability_findings_spec.
  - destruct ra, g as [a'|]; try (split; [auto|discriminate]); apply stability_findings_spec.
Qed.

Lemma prim_eqb_spec a b : prim_eqb a b = true <-> a = b.
Proof. destruct a, b; simpl; split; congruence. Qed.

Lemma attr_type_spec a sig va g t :
  sa_type a = Some t ->
  exists fs, type_advisor (RfAttribute a) sig (Some va) g = Ok fs /\
    (accepts (vattr_type va) t -> fs = []) /\
    (~ accepts (vattr_type va) t -> exists f, fs = [f] /\ f_id f = "type_mismatch" /\ f_level f = Violation).
Proof.
  intros Ht. eexists. split; [reflexivity|]. unfold type_advise_attr. rewrite Ht.
  assert (C : forall p, (accepts (TPrim p) t \/ accepts (TTemplate p) t) -> is_compatible t p = true).
  { intros p [H|H]; destruct p, t; simpl; try reflexivity; inversion H. }
  assert (D : forall p, is_compatible t p = true -> accepts (TPrim p) t /\ accepts (TTemplate p) t).
  { intros p H. destruct t, p; simpl in H; try discriminate; split; constructor. }
  destruct (vattr_type va) as [p|p|ms].
  - destruct (is_compatible t p) eqn:E; split; auto.
    + intros H. exfalso. apply H, D, E.
    + intros H. rewrite (C p (or_introl H)) in E. discriminate.
    + intros _. eexists; repeat split.
  - destruct (is_compatible t p) eqn:E; split; auto.
    + intros H. exfalso. apply H, D, E.
    + intros H. rewrite (C p (or_intror H)) in E. discriminate.
    + intros _. eexists; repeat split.
  - destruct t; simpl; split; try (intros H; inversion H; fail); try (intros; reflexivity);
      try (intros _; eexists; repeat split; fail); intros H; exfalso; apply H; constructor.
Qed.

Lemma attr_type_unknown a sig ra g :
  ra = None \/ sa_type a = None -> type_advisor (RfAttribute a) sig ra g = Ok [].
Proof.
  intros H. unfold type_advisor, type_advise_attr. f_equal.
  destruct ra; [destruct H as [H|H]; [discriminate|rewrite H]|]; reflexivity.
Qed.

Lemma instrument_eqb_spec a b : instrument_eqb a b = true <-> a = b.
Proof. destruct a, b; simpl; split; congruence. Qed.

Lemma metric_type_spec m sig ra s :
  exists fi fu, type_advisor (RfMetric m) sig ra (Some s) = Ok (fi ++ fu) /\
    (fi = [] <-> exists i, sm_instrument m = Supported i /\ (vsig_instrument s = Some i \/ vsig_instrument s = None)) /\
    (fi = [] \/ exists f, fi = [f] /\ f_id f = "unexpected_instrument" /\ f_level f = Violation) /\
    (fu = [] <-> vsig_unit s = Some (sm_unit m) \/ vsig_unit s = None) /\
    (fu = [] \/ exists f, fu = [f] /\ f_id f = "unit_mismatch" /\ f_level f = Violation).
Proof.
  exists (instrument_findings m sig s), (unit_findings m sig s). split; [reflexivity|].
  unfold instrument_findings, unit_findings.
  assert (I : forall i e, instrument_eqb e i = true <-> e = i) by (intros; apply instrument_eqb_spec).
  split; [|split; [|split]].
  - destruct (sm_instrument m) as [i|n].
    + destruct (vsig_instrument s) as [e|].
      * destruct (instrument_eqb e i) eqn:E.
        -- apply I in E as ->. split; [|auto]. intros _. exists i; auto.
        -- split; [discriminate|]. intros (i' & Ei & [H|H]); [|discriminate]. injection Ei as <-. injection H as ->.
           rewrite (proj2 (I i i) eq_refl) in E. discriminate.
      * split; [|auto]. intros _. exists i; auto.
    + split; [discriminate|]. intros (i & E & _). discriminate.
  - destruct (sm_instrument m) as [i|n]; [|right; eexists; repeat split].
    destruct (vsig_instrument s) as [e|]; [|auto]. destruct (instrument_eqb e i); [auto|]. right; eexists; repeat split.
  - destruct (vsig_unit s) as [u|]; [|split; auto].
    destruct (String.eqb_spec u (sm_unit m)) as [->|N]; [split; auto|].
    split; [discriminate|]. intros [H|H]; [injection H; contradiction|discriminate].
  - destruct (vsig_unit s) as [u|]; [|auto]. destruct (String.eqb u (sm_unit m)); [auto|]. right; eexists; repeat split.
Qed.

Lemma enum_spec show a sig va g ms v t :
  vattr_type va = TEnum ms -> sa_value a = Some v -> sa_type a = Some t ->
  (t = PInt /\ (exists z, v = JNum (NInt z) /\ (- 2 ^ 63 <= z < 2 ^ 63)%Z) \/ t = PString /\ exists s, v = JStr s) ->
  exists fs, enum_advisor show (RfAttribute a) sig (Some va) g = Ok fs /\
    (is_member ms v -> fs = []) /\
    (~ is_member ms v -> exists f, fs = [f] /\ f_id f = "undefined_enum_variant" /\ f_level f = Information).
Proof.
  intros Ht Hv Hty Hk.
  assert (M : existsb (member_matches t v) ms = true <-> is_member ms v).
  { rewrite existsb_exists. unfold is_member. destruct Hk as [[-> (z & -> & Hz)]|[-> (s & ->)]].
    - assert (E : as_i64 (JNum (NInt z)) = Some z).
      { unfold as_i64. replace ((- 2 ^ 63 <=? z)%Z) with true by (symmetry; apply Z.leb_le; lia).
        replace ((z <? 2 ^ 63)%Z) with true by (symmetry; apply Z.ltb_lt; lia). reflexivity. }
      split; intros (m & Hm & H); exists m; (split; [exact Hm|]); unfold member_matches in *; rewrite ?E in *;
        destruct (ee_value m); try discriminate; try contradiction; apply Z.eqb_eq, H.
    - split; intros (m & Hm & H); exists m; (split; [exact Hm|]); simpl in *;
        destruct (ee_value m); try discriminate; try contradiction; apply String.eqb_eq, H. }
  eexists. split; [reflexivity|]. rewrite Hv, Hty, Ht.
  assert (N : negb (prim_eqb t PInt || prim_eqb t PString) = false) by (destruct Hk as [[-> _]|[-> _]]; reflexivity).
  rewrite N. cbn [andb].
  destruct (existsb (member_matches t v) ms) eqn:E.
  - split; [auto|]. intros H. exfalso. apply H, M; reflexivity.
  - split; [|intros _; eexists; repeat split]. intros H. apply M in H. congruence.
Qed.

(** * Type inference *)
Lemma not_null_find l : match find (fun v => negb (is_jnull v)) l with
  | Some x => In x l /\ x <> JNull
  | None => forall x, In x l -> x = JNull end.
Proof.
  destruct (find _ l) as [x|] eqn:E.
  - apply find_some in E as [H1 H2]. split; [exact H1|]. intros ->. discriminate.
  - intros x H. apply (find_none _ _ E) in H. destruct x; simpl in H; congruence.
Qed.

Lemma kind_bool x : is_jbool x = true <-> elem_bool x.
Proof. unfold elem_bool. destruct x; simpl; split; try discriminate; try (intros (? & E); discriminate); eauto. Qed.
Lemma kind_int x : is_jint x = true <-> elem_int x.
Proof. unfold elem_int. destruct x as [| |[z|d]| | |]; simpl; split; try discriminate; try (intros (? & E); discriminate); eauto. Qed.
Lemma kind_num x : is_jnum x = true <-> elem_num x.
Proof. unfold elem_num. destruct x; simpl; split; try discriminate; try (intros (? & E); discriminate); eauto. Qed.
Lemma kind_str x : is_jstr x = true <-> elem_str x.
Proof. unfold elem_str. destruct x; simpl; split; try discriminate; try (intros (? & E); discriminate); eauto. Qed.

Lemma all_null_spec (p : json -> bool) (P : json -> Prop) (Hp : forall x, p x = true <-> P x) (Hn : ~ P JNull) l first :
  find (fun v => negb (is_jnull v)) l = Some first ->
  (p first && forallb (fun v => is_jnull v || p v) l = true <-> all_or_null P l).
Proof.
  intros Hf. pose proof (not_null_find l) as NN. rewrite Hf in NN. destruct NN as [Hin Hnn].
  rewrite andb_true_iff, forallb_forall. unfold all_or_null. split.
  - intros [H1 H2]. split.
    + intros x Hx. apply H2, orb_true_iff in Hx as [H|H]; [left; destruct x; simpl in H; congruence|right; apply Hp, H].
    + exists first. split; [exact Hin|apply Hp, H1].
  - intros [H1 _]. split.
    + destruct (H1 first Hin); [contradiction|apply Hp; assumption].
    + intros x Hx. apply orb_true_iff. destruct (H1 x Hx) as [->|H]; [left; reflexivity|right; apply Hp, H].
Qed.

Lemma null_not_kind : ~ elem_bool JNull /\ ~ elem_int JNull /\ ~ elem_num JNull /\ ~ elem_str JNull.
Proof. unfold elem_bool, elem_int, elem_num, elem_str. split; [|split; [|split]]; intros (? & E); discriminate. Qed.

Lemma infer_type_spec v t : infer_type v = Some t <-> has_type v t.
Proof.
  destruct v as [|b|[z|d]|s|l|m]; simpl;
    try (split; [intros H; injection H as <-; constructor|intros H; inversion H; reflexivity]);
    try (split; [discriminate|intros H; inversion H]).
  destruct null_not_kind as (NB & NI & NN & NS).
  destruct (find (fun v => negb (is_jnull v)) l) as [first|] eqn:Ef.
  - pose proof (all_null_spec _ _ kind_bool NB l first Ef) as HB.
    pose proof (all_null_spec _ _ kind_int NI l first Ef) as HI.
    pose proof (all_null_spec _ _ kind_num NN l first Ef) as HN.
    pose proof (all_null_spec _ _ kind_str NS l first Ef) as HS.
    pose proof (not_null_find l) as NF. rewrite Ef in NF. destruct NF as [Hin Hnn].
    assert (Hfirst : forall P, all_or_null P l -> P first) by (intros P [H _]; destruct (H first Hin); [contradiction|auto]).
    assert (D : forall A, ~ (all_or_null A l) \/ all_or_null A l -> True) by auto.
    destruct (is_jbool first && _) eqn:EB.
    + assert (X := proj1 HB eq_refl). split.
      * intros H; injection H as <-. constructor; exact X.
      * intros H. apply Hfirst in X as X1. destruct X1 as [b ->].
        inversion H as [| | | |l' HA|l' HA|l' HA HD|l' HA]; subst; try reflexivity; apply Hfirst in HA; destruct HA; discriminate.
    + destruct (is_jint first && _) eqn:EI.
      * assert (X := proj1 HI eq_refl). split.
        -- intros H; injection H as <-. constructor; exact X.
        -- intros H. apply Hfirst in X as X1. destruct X1 as [z ->].
           inversion H as [| | | |l' HA|l' HA|l' HA HD|l' HA]; subst; try reflexivity.
           ++ apply Hfirst in HA; destruct HA; discriminate.
           ++ destruct HD as [d Hd]. destruct X as [X _]. destruct (X _ Hd) as [E|[z' E]]; discriminate.
           ++ apply Hfirst in HA; destruct HA; discriminate.
      * destruct (is_jnum first && _) eqn:EN.
        -- assert (X := proj1 HN eq_refl). split.
           ++ intros H; injection H as <-. constructor; [exact X|].
              destruct (existsb (fun x => match x with JNum (NFloat _) => true | _ => false end) l) eqn:Ex.
              ** apply existsb_exists in Ex as (x & Hx & E). destruct x as [| |[z|d]| | |]; try discriminate. eauto.
              ** exfalso. assert (Y : all_or_null elem_int l).
                 { assert (Z : forall x, In x l -> x = JNull \/ elem_int x).
                   { intros x Hx. destruct X as [X _]. destruct (X x Hx) as [->|[n ->]]; [auto|].
                     destruct n as [z|d]; [right; exists z; reflexivity|].
                     exfalso. rewrite <- not_true_iff_false in Ex. apply Ex, existsb_exists. eexists; split; [exact Hx|reflexivity]. }
                   split; [exact Z|]. exists first. split; [exact Hin|]. destruct (Z first Hin); [contradiction|auto]. }
                 apply HI in Y. discriminate.
           ++ intros H. apply Hfirst in X as X1. destruct X1 as [n ->].
              inversion H as [| | | |l' HA|l' HA|l' HA HD|l' HA]; subst; try reflexivity;
                try (apply Hfirst in HA; destruct HA; discriminate).
              apply HI in HA. discriminate.
        -- destruct (is_jstr first && _) eqn:ES.
           ++ assert (X := proj1 HS eq_refl). split.
              ** intros H; injection H as <-. constructor; exact X.
              ** intros H. apply Hfirst in X as X1. destruct X1 as [s ->].
                 inversion H as [| | | |l' HA|l' HA|l' HA HD|l' HA]; subst; try reflexivity; apply Hfirst in HA; destruct HA; discriminate.
           ++ split; [discriminate|]. intros H.
              inversion H as [| | | |l' HA|l' HA|l' HA HD|l' HA]; subst; exfalso;
                [apply HB in HA|apply HI in HA|apply HN in HA|apply HS in HA]; discriminate.
  - split; [discriminate|]. intros H. pose proof (not_null_find l) as NF. rewrite Ef in NF.
    assert (G : forall P, ~ P JNull -> ~ all_or_null P l).
    { intros P HP [_ (x & Hx & Px)]. apply NF in Hx as ->. contradiction. }
    inversion H as [| | | |l' HA|l' HA|l' HA HD|l' HA]; subst; exfalso; eapply G; [|exact HA| |exact HA| |exact HA| |exact HA]; assumption.
Qed.

(** * Resource attachment *)
Lemma run_sample_resource c s st s' st' : run_sample c s st = Ok (s', st') -> takes_resource s ->
  sample_resource s' = sample_resource s.
Proof.
  destruct s; simpl; intros H T; try contradiction; unfold rmap in H.
  - destruct (run_span _ _ _ _ _) as [[x st1]|] eqn:E; [|discriminate]. injection H as <- <-.
    unfold run_span in E. step E. step E. step E. step E. injection E as <- <-. reflexivity.
  - destruct (run_metric _ _ _ _) as [[x st1]|] eqn:E; [|discriminate]. injection H as <- <-.
    unfold run_metric in E. step E. step E. injection E as <- <-. reflexivity.
  - destruct (run_log _ _ _ _) as [[x st1]|] eqn:E; [|discriminate]. injection H as <- <-.
    unfold run_log in E. destruct (if String.eqb _ _ then _ else _) as [d l0]. step E. step E. injection E as <- <-. reflexivity.
Qed.

Lemma latest_step seen cur y : latest_resource seen cur -> latest_resource (seen ++ [y]) (next_resource cur y).
Proof.
  intros HL.
  assert (K : (forall r, y <> SmpResource r) -> latest_resource (seen ++ [y]) cur).
  { intros Hy. destruct cur as [r0|]; simpl in *.
    - destruct HL as (p & q & -> & Hq). exists p, (q ++ [y]). split; [rewrite <- app_assoc; reflexivity|].
      intros z Hz. apply in_app_or in Hz as [Hz|[Hz|[]]]; [eapply Hq, Hz|eapply Hy, Hz].
    - intros z Hz. apply in_app_or in Hz as [Hz|[Hz|[]]]; [eapply HL, Hz|eapply Hy, Hz]. }
  destruct y; try (apply K; discriminate). simpl. exists seen, []. split; [reflexivity|]. intros z [].
Qed.

Lemma run_all_resource c : forall input cur st out st' seen,
  latest_resource seen cur ->
  run_all c cur input st = Ok (out, st') ->
  forall pre s post, input = pre ++ s :: post -> takes_resource s ->
  exists opre s' opost, out = opre ++ s' :: opost /\ length opre = length pre /\
    latest_resource (seen ++ pre) (sample_resource s').
Proof.
  induction input as [|x input IH]; intros cur st out st' seen HL H pre s post Ei HT.
  - destruct pre; discriminate.
  - cbn [run_all] in H. step H. step H. injection H as <- <-.
    destruct pre as [|y pre]; simpl in Ei; injection Ei as -> ->.
    + exists [], s0, l0. split; [reflexivity|]. split; [reflexivity|]. rewrite app_nil_r.
      apply run_sample_resource in E; [|destruct s; simpl in *; auto]. rewrite E.
      destruct s; simpl in *; try contradiction; exact HL.
    + assert (HL' : latest_resource (seen ++ [y]) (next_resource cur y)).
      { apply latest_step, HL. }
      edestruct (IH _ _ _ _ (seen ++ [y]) HL' E0 pre s post eq_refl HT) as (op & s' & opost & -> & Hlen & Hr).
      exists (s0 :: op), s', opost. split; [reflexivity|]. split; [simpl; lia|].
      rewrite <- app_assoc in Hr. exact Hr.
Qed.

Lemma resource_attached c f ns input out st code :
  live_check c ns f input = Ok (out, st, code) ->
  forall pre s post, input = pre ++ s :: post -> takes_resource s ->
  exists opre s' opost, out = opre ++ s' :: opost /\ length opre = length pre /\
    latest_resource pre (sample_resource s').
Proof.
  unfold live_check. intros H. step H. injection H as <- _ _.
  intros pre s0 post Ei HT.
  eapply (run_all_resource c input None _ _ _ []) in E; eauto. simpl. auto.
Qed.
