(* C45, C74, C75: a registry inferred from telemetry. *)
From Coq Require Import String Ascii Bool Arith ZArith NArith Lia Permutation Sorted List.
Import ListNotations.
From Verif Require Import Base BaseProofs BaseProofs2 Json F64 SemTypes Resolved DefModel LiveAdvisors InferModel InferSpec InferProofs.
From Verif Require LiveSpec LiveProofs3.
Local Open Scope string_scope.


(* ---------- C45 ---------- *)
Lemma refers_sorted names P : StronglySorted str_lt names -> (forall n, In n names <-> P n) -> refers (map inferred_ref names) P.
Proof. intros H Hn. exists names. split; [reflexivity|]. split; [exact H|exact Hn]. Qed.
Lemma spans_members to_f64 order samples : any_order order -> forall s, In s (s2d_spans (to_spec order (observe to_f64 samples))) <-> exists p, slookup (ip_name p) (st_spans (observe to_f64 samples)) = Some p /\
  s = {| sd_type := ip_name p; sd_kind := ip_kind p; sd_name := ip_name p; sd_attributes := map inferred_ref (sort_names (keys order ["span"; ip_name p] (ip_attributes p))); sd_assocs := []; sd_level := None; sd_common := inferred_common |}.
Proof.
  intros O s. unfold to_spec. cbn [s2d_spans]. split.
  - intros I. apply (Permutation_in _ (Permutation_sym (stable_sort_perm _ _))) in I. apply in_map_iff in I as (p & <- & I). apply (in_spans _ _ O) in I. exists p. auto.
  - intros (p & E & ->). eapply Permutation_in; [apply stable_sort_perm|]. apply in_map_iff. exists p. split; [reflexivity|]. apply (in_spans _ _ O), E.
Qed.
Lemma metrics_members to_f64 order samples : any_order order -> forall s, In s (s2d_metrics (to_spec order (observe to_f64 samples))) <-> exists p, slookup (im_name p) (st_metrics (observe to_f64 samples)) = Some p /\
  s = {| md_name := im_name p; md_instrument := im_instrument p; md_unit := im_unit p; md_attributes := map inferred_ref (sort_names (keys order ["metric"; im_name p] (im_attributes p))); md_assocs := []; md_level := None; md_common := inferred_common |}.
Proof.
  intros O s. unfold to_spec. cbn [s2d_metrics]. split.
  - intros I. apply (Permutation_in _ (Permutation_sym (stable_sort_perm _ _))) in I. apply in_map_iff in I as (p & <- & I). apply (in_metrics _ _ O) in I. exists p. auto.
  - intros (p & E & ->). eapply Permutation_in; [apply stable_sort_perm|]. apply in_map_iff. exists p. split; [reflexivity|]. apply (in_metrics _ _ O), E.
Qed.
Lemma events_members to_f64 order samples : any_order order -> forall s, In s (s2d_events (to_spec order (observe to_f64 samples))) <-> exists n l, slookup n (merged to_f64 order samples) = Some l /\
  s = {| vd_name := n; vd_attributes := map inferred_ref (dedup (sort_names l)); vd_assocs := []; vd_level := None; vd_common := inferred_common |}.
Proof.
  intros O s. pose proof (merged_nodup to_f64 order samples) as Nd. rewrite (events_eq _ _ O). split.
  - intros I. apply (Permutation_in _ (Permutation_sym (stable_sort_perm _ _))) in I. apply in_map_iff in I as ([n l] & <- & I). apply (Permutation_in _ (Permutation_sym (O _ _ _))) in I. exists n, l. split; [apply slookup_in; assumption|reflexivity].
  - intros (n & l & E & ->). eapply Permutation_in; [apply stable_sort_perm|]. apply in_map_iff. exists (n, l). split; [reflexivity|]. apply (Permutation_in _ (O _ _ _)), slookup_in; assumption.
Qed.
Theorem C45_spans to_f64 order samples : any_order order ->
  let f := to_spec order (observe to_f64 samples) in
  StronglySorted str_lt (map sd_type (s2d_spans f)) /\ (forall n, In n (map sd_type (s2d_spans f)) <-> span_seen samples n) /\
  forall s, In s (s2d_spans f) -> sd_name s = sd_type s /\ sd_assocs s = [] /\ sd_level s = None /\ sd_common s = only_observed /\ first_span samples (sd_type s) (sd_kind s) /\
    refers (sd_attributes s) (fun k => exists a, ia_name a = k /\ observed samples (FromSpan (sd_type s)) a).
Proof.
  intros O f. destruct (ok to_f64 samples) as (_ & Nd & Hs & _).
  pose proof (spans_members to_f64 order samples O) as Hm. fold f in Hm.
  split; [|split].
  - apply strict_sort. rewrite map_map. cbn [sd_type]. apply (values_distinct _ O); [exact Nd|]. intros k x E. apply (Hs k x E).
  - intros n. rewrite in_map_iff. pose proof (spans_present to_f64 samples n) as Pn. split.
    + intros (s & <- & I). apply Hm in I as (p & E & ->). cbn [sd_type] in *. rewrite E in Pn. destruct Pn as (a & l & e & b & -> & _). exists (ip_kind p), l, e. apply in_app_iff. right. left. reflexivity.
    + intros (k & l & e & I). destruct (slookup n (st_spans (observe to_f64 samples))) as [p|] eqn:E; [|destruct (Pn _ _ _ I)].
      pose proof (span_found _ _ _ _ E) as <-. eexists. split; [|apply Hm; exists p; split; [exact E|reflexivity]]. reflexivity.
  - intros s I. apply Hm in I as (p & E & ->). cbn [sd_type sd_name sd_kind sd_attributes]. repeat (split; [reflexivity|]). split.
    + pose proof (spans_present to_f64 samples (ip_name p)) as Pn. rewrite E in Pn. exact Pn.
    + apply refers_sorted.
      * apply strict_names, (keys_nodup _ O). apply (Hs _ _ E).
      * intros n. rewrite sort_names_in, (keys_in _ O), (acc_span _ _ _ E), acc_some. reflexivity.
Qed.
Theorem C45_metrics to_f64 order samples : any_order order ->
  let f := to_spec order (observe to_f64 samples) in
  StronglySorted str_lt (map md_name (s2d_metrics f)) /\ (forall n, In n (map md_name (s2d_metrics f)) <-> metric_seen samples n) /\
  forall m, In m (s2d_metrics f) -> md_assocs m = [] /\ md_level m = None /\ md_common m = only_observed /\ first_metric samples (md_name m) (md_instrument m) (md_unit m) /\
    refers (md_attributes m) (fun k => exists a, ia_name a = k /\ observed samples (FromMetric (md_name m)) a).
Proof.
  intros O f. destruct (ok to_f64 samples) as (_ & _ & _ & Nd & Hs & _).
  pose proof (metrics_members to_f64 order samples O) as Hm. fold f in Hm.
  split; [|split].
  - apply strict_sort. rewrite map_map. cbn [md_name]. apply (values_distinct _ O); [exact Nd|]. intros k x E. apply (Hs k x E).
  - intros n. rewrite in_map_iff. pose proof (metrics_present to_f64 samples n) as Pn. split.
    + intros (s & <- & I). apply Hm in I as (p & E & ->). cbn [md_name] in *. rewrite E in Pn. destruct Pn as (a & l & b & -> & _). exists (im_instrument p), (im_unit p), l. apply in_app_iff. right. left. reflexivity.
    + intros (i & u & l & I). destruct (slookup n (st_metrics (observe to_f64 samples))) as [p|] eqn:E; [|destruct (Pn _ _ _ I)].
      assert (Nm : im_name p = n) by apply (Hs _ _ E). subst n. eexists. split; [|apply Hm; exists p; split; [exact E|reflexivity]]. reflexivity.
  - intros s I. apply Hm in I as (p & E & ->). cbn [md_name md_instrument md_unit md_attributes]. repeat (split; [reflexivity|]). split.
    + pose proof (metrics_present to_f64 samples (im_name p)) as Pn. rewrite E in Pn. exact Pn.
    + apply refers_sorted.
      * apply strict_names, (keys_nodup _ O). apply (Hs _ _ E).
      * intros n. rewrite sort_names_in, (keys_in _ O), (acc_metric _ _ _ E), acc_some. reflexivity.
Qed.
Theorem C45_events to_f64 order samples : any_order order ->
  let f := to_spec order (observe to_f64 samples) in
  StronglySorted str_lt (map vd_name (s2d_events f)) /\ (forall n, In n (map vd_name (s2d_events f)) <-> event_seen samples n) /\
  forall v, In v (s2d_events f) -> vd_assocs v = [] /\ vd_level v = None /\ vd_common v = only_observed /\
    refers (vd_attributes v) (fun k => exists a, ia_name a = k /\ (observed samples (FromEvent (vd_name v)) a \/ exists span, observed samples (FromSpanEvent span (vd_name v)) a)).
Proof.
  intros O f. pose proof (merged_nodup to_f64 order samples) as Nd.
  pose proof (events_members to_f64 order samples O) as Hm. fold f in Hm.
  split; [|split].
  - unfold f. rewrite (events_eq _ _ O). apply strict_sort. rewrite map_map. cbn [vd_name]. eapply Permutation_NoDup; [apply Permutation_map, O|exact Nd].
  - intros n. rewrite <- (merged_names to_f64 _ O), in_map_iff. split.
    + intros (v & <- & I). apply Hm in I as (n & l & E & ->). cbn [vd_name]. congruence.
    + intros N. destruct (slookup n (merged to_f64 order samples)) as [l|] eqn:E; [|destruct (N eq_refl)]. eexists. split; [|apply Hm; exists n, l; split; [exact E|reflexivity]]. reflexivity.
  - intros v I. apply Hm in I as (n & l & E & ->). cbn [vd_name vd_attributes]. repeat (split; [reflexivity|]). apply refers_sorted; [apply dedup_names|]. intros k. rewrite dedup_in, sort_names_in, (merged_members _ _ O _ _ _ _ E). reflexivity.
Qed.
Theorem C45_definitions to_f64 order samples : any_order order ->
  let f := to_spec order (observe to_f64 samples) in
  StronglySorted str_lt (map ad_key (s2d_attributes f)) /\
  (forall n, In n (map ad_key (s2d_attributes f)) <-> exists src a, observed samples src a /\ ia_name a = n) /\
  forall d, In d (s2d_attributes f) -> exists src a r,
    stream samples src (ad_key d) = a :: r /\ (forall src', rank src' < rank src -> stream samples src' (ad_key d) = []) /\
    ad_common d = only_observed /\ ad_type d = TPrim (match ia_type a with Some t => t | None => PString end) /\ illustrated to_f64 (stream_values (a :: r)) (ad_examples d).
Proof.
  intros O f. split; [apply (defs_sorted _ _ O)|]. split.
  - intros n. rewrite in_map_iff. split.
    + intros (d & <- & I). apply (in_defs _ _ O) in I. rewrite final_lookup in I. destruct (find _ _) as [c|] eqn:F; [|discriminate]. apply (found_parts _ _ O) in F as (src & E & _).
      assert (X : slookup (ad_key d) (acc (observe to_f64 samples) src) <> None) by congruence. apply acc_some in X as (a & Na & Ob). exists src, a. auto.
    + intros (src & a & Ob & <-). assert (X : stream samples src (ia_name a) <> []) by (intros E; rewrite stream_empty in E; apply (E a eq_refl Ob)).
      apply (found_somewhere to_f64 _ O) in X. destruct (slookup (ia_name a) (final_defs to_f64 order samples)) as [d|] eqn:E.
      * pose proof (final_key _ _ _ _ _ E) as K. exists d. split; [exact K|]. apply (in_defs _ _ O). rewrite K. exact E.
      * rewrite final_lookup in E. destruct (find _ _); [discriminate|destruct (X eq_refl)].
  - intros d I. apply (in_defs _ _ O) in I. rewrite final_lookup in I. destruct (find _ _) as [c|] eqn:F; [|discriminate]. injection I as I. apply (found_parts _ _ O) in F as (src & E & Min).
    apply acc_stream in E as (a & r & Es & ->). exists src, a, r. split; [exact Es|]. split; [exact Min|]. rewrite <- I at 1 2 3. unfold def_of. cbn [ad_type ad_examples ic_type ic_examples]. split; [reflexivity|]. split; [|apply illustrated_fold].
    destruct (ia_type a); reflexivity.
Qed.
(* every reference is to a definition of the same file *)
Theorem C45_closed to_f64 order samples : any_order order ->
  let f := to_spec order (observe to_f64 samples) in
  forall l names, (exists s, In s (s2d_spans f) /\ l = sd_attributes s) \/ (exists m, In m (s2d_metrics f) /\ l = md_attributes m) \/ (exists v, In v (s2d_events f) /\ l = vd_attributes v) ->
  l = map plain_ref names -> forall n, In n names -> exists d, In d (s2d_attributes f) /\ ad_key d = n.
Proof.
  intros O f l names Hl El n In0. pose proof (C45_definitions to_f64 order samples O) as (_ & D & _). fold f in D.
  assert (X : exists src a, observed samples src a /\ ia_name a = n).
  { assert (G : forall P, refers l P -> P n).
    { intros P (ns & E & _ & H). apply H. rewrite El in E. clear - E In0. revert ns E. induction names as [|x names IH]; intros [|y ns] E; try discriminate; [destruct In0|]. injection E as -> E. destruct In0 as [->|In0]; [left; reflexivity|right; apply IH; assumption]. }
    destruct Hl as [(s & I & ->)|[(m & I & ->)|(v & I & ->)]].
    - destruct (C45_spans to_f64 order samples O) as (_ & _ & H). destruct (H s I) as (_ & _ & _ & _ & _ & R). apply G in R as (a & Na & Ob). eauto.
    - destruct (C45_metrics to_f64 order samples O) as (_ & _ & H). destruct (H m I) as (_ & _ & _ & _ & R). apply G in R as (a & Na & Ob). eauto.
    - destruct (C45_events to_f64 order samples O) as (_ & _ & H). destruct (H v I) as (_ & _ & _ & R). apply G in R as (a & Na & [Ob|(m & Ob)]); eauto. }
  apply D, in_map_iff in X as (d & K & I). exists d. auto.
Qed.
(* the examples *)
Lemma listed_many {A} (X : A -> example) (one : A -> examples) (many : list A -> examples) l : (forall y, listed (one y) = [X y]) -> (forall l, listed (many l) = map X l) ->
  listed (one_or_many one many l) = map X l.
Proof. intros H1 H2. unfold one_or_many. destruct l as [|x [|y l]]; [apply H2|apply H1|apply H2]. Qed.
Lemma same_double_refl a : same_double a a.
Proof. unfold same_double. destruct (decode a) eqn:E; [left; auto|right; split; [reflexivity|discriminate]|right; split; [reflexivity|discriminate]]. Qed.
Lemma kept_good {A} to_f64 (X : A -> example) (same : A -> A -> Prop) (read : json -> list A) vs a v x r l :
  vs = app a (v :: r) -> (forall w, In w a -> ~ plain w) -> kept same [x] (flat_map read r) l ->
  (forall p q, same_example (X p) (X q) <-> same p q) -> (forall p, same p p) -> (forall p q, same_sort (X p) (X q)) -> read_as to_f64 v (X x) -> (forall w p, In p (read w) -> read_as to_f64 w (X p)) ->
  (forall w y, read_as to_f64 w y -> (exists p, same_sort (X p) y) -> w = v \/ exists p, In p (read w) /\ y = X p) ->
  (forall y, read_as to_f64 v y -> (exists p, same_sort (X p) y) -> y = X x) ->
  (forall w y, read_as to_f64 w y -> plain w) ->
  good_examples to_f64 vs (map X l).
Proof.
  intros -> Na K Same Refl Sort Rx Rd Rd' Rv Pl. destruct (kept_facts same [x] (flat_map read r) l K) as (L & P & B & M & C).
  { cbn. lia. } { intros i j p q Ep Eq Lt. destruct i as [|i], j as [|j]; cbn in *; try lia; try (destruct i; discriminate); destruct j; discriminate. }
  split; [|split; [|split; [|split]]].
  - rewrite map_length. split; [|exact L]. specialize (B x (or_introl eq_refl)). destruct l; [destruct B|cbn; lia].
  - intros i j p q Ep Eq Lt. rewrite nth_error_map in Ep, Eq. destruct (nth_error l i) as [p'|] eqn:E1; [|discriminate]. destruct (nth_error l j) as [q'|] eqn:E2; [|discriminate]. injection Ep as <-. injection Eq as <-. rewrite Same. apply (P i j); assumption.
  - intros y I. apply in_map_iff in I as (p & <- & I). apply M in I as [[<-|[]]|I].
    + exists v. split; [apply in_app_iff; right; left; reflexivity|exact Rx].
    + apply in_flat_map in I as (w & Iw & Ip). exists w. split; [apply in_app_iff; right; right; exact Iw|apply Rd, Ip].
  - intros p q I J. apply in_map_iff in I as (p' & <- & _). apply in_map_iff in J as (q' & <- & _). apply Sort.
  - intros Ll w y Iw R (y' & Iy & Sy). apply in_map_iff in Iy as (p & <- & _). rewrite map_length in Ll. destruct C as [C|C]; [lia|].
    assert (Ix : exists y0, In y0 (map X l) /\ same_example y0 (X x)). { exists (X x). split; [apply in_map, B; left; reflexivity|apply Same, Refl]. }
    apply in_app_iff in Iw as [Iw|[<-|Iw]].
    + destruct (Na w Iw). apply (Pl _ _ R).
    + rewrite (Rv y R); [exact Ix|exists p; exact Sy].
    + destruct (Rd' w y R) as [->|(q & Iq & ->)]; [exists p; exact Sy| |].
      * rewrite (Rv y R); [exact Ix|exists p; exact Sy].
      * destruct (C q) as (z & Iz & Ez); [apply in_flat_map; exists w; auto|]. exists (X z). split; [apply in_map, Iz|apply Same]. destruct Ez as [->|Ez]; [apply Refl|exact Ez].
Qed.
Lemma eq_same {A} (X : A -> example) : (forall p q, X p = X q -> p = q) -> (forall p d, X p <> XDouble d) -> forall p q, same_example (X p) (X q) <-> p = q.
Proof.
  intros Inj Nd p q. split; [|intros ->; left; reflexivity]. intros [E|(a & b & E & _)]; [apply Inj, E|destruct (Nd _ _ E)].
Qed.
Lemma double_same p q : same_example (XDouble p) (XDouble q) <-> same_double p q.
Proof.
  split; [|intros H; right; exists p, q; auto]. intros [E|(a & b & E1 & E2 & H)]; [injection E as ->; apply same_double_refl|]. injection E1 as ->. injection E2 as ->. exact H.
Qed.
Lemma read_plain to_f64 w y : read_as to_f64 w y -> plain w.
Proof. destruct w; cbn; auto. Qed.
Lemma illustrated_good to_f64 vs e : illustrated to_f64 vs (Some e) -> good_examples to_f64 vs (listed e).
Proof.
  intros H. inversion H as [|a x r l E N K Ee|a x r l E I N K Ee|a x r l E I N K Ee|a x r l E N K Ee|a x r l E N K Ee]; subst e.
  - rewrite (listed_many XBool) by reflexivity. eapply (kept_good to_f64 XBool eq _ vs a (JBool x) x r l E N K).
    + apply eq_same; [congruence|discriminate].
    + reflexivity.
    + intros; exact Logic.I.
    + reflexivity.
    + intros w p Hp. destruct w; cbn in Hp; try destruct Hp as [<-|[]]; try destruct Hp. reflexivity.
    + intros w y R (p & S0). right. destruct y; try destruct S0. destruct w as [|b0|[z0|d0]|s0|l0|l0]; cbn in R; try contradiction. subst. eexists. split; [left; reflexivity|reflexivity].
    + intros y R (p & S0). destruct y; try destruct S0. cbn in R. congruence.
    + apply read_plain.
  - rewrite (listed_many XInt) by reflexivity. eapply (kept_good to_f64 XInt eq _ vs a (JNum (NInt x)) x r l E N K).
    + apply eq_same; [congruence|discriminate].
    + reflexivity.
    + intros; exact Logic.I.
    + split; [reflexivity|exact I].
    + intros w p Hp. destruct w as [|b0|[z0|d0]|s0|l0|l0]; cbn beta iota in Hp; try destruct Hp. destruct (Z.leb_spec (- 2 ^ 63) z0) as [L1|L1]; cbn [andb] in Hp; [|destruct Hp]. destruct (Z.ltb_spec z0 (2 ^ 63)) as [L2|L2]; [|destruct Hp]. destruct Hp as [<-|[]]. split; [reflexivity|split; assumption].
    + intros w y R (p & S0). right. destruct y as [|y| |]; try destruct S0. destruct w as [|b0|[z0|d0]|s0|l0|l0]; cbn [read_as] in R; try contradiction. destruct R as (-> & L1 & L2). exists z0. split; [|reflexivity].
      apply Z.leb_le in L1. apply Z.ltb_lt in L2. rewrite L1, L2. left. reflexivity.
    + intros y R (p & S0). destruct y as [|y| |]; try destruct S0. cbn [read_as] in R. destruct R. congruence.
    + apply read_plain.
  - rewrite (listed_many XDouble) by reflexivity. eapply (kept_good to_f64 XDouble same_double _ vs a (JNum (NInt x)) (to_f64 x) r l E N K).
    + apply double_same.
    + apply same_double_refl.
    + intros; exact Logic.I.
    + reflexivity.
    + intros w p Hp. destruct w as [|b0|[z0|d0]|s0|l0|l0]; cbn in Hp; try destruct Hp as [<-|[]]; try destruct Hp; reflexivity.
    + intros w y R (p & S0). right. destruct y as [| |y|]; try destruct S0. destruct w as [|b0|[z0|d0]|s0|l0|l0]; cbn in R; try contradiction; subst; eexists; (split; [left; reflexivity|reflexivity]).
    + intros y R (p & S0). destruct y as [| |y|]; try destruct S0. cbn in R. congruence.
    + apply read_plain.
  - rewrite (listed_many XDouble) by reflexivity. eapply (kept_good to_f64 XDouble same_double _ vs a (JNum (NFloat x)) x r l E N K).
    + apply double_same.
    + apply same_double_refl.
    + intros; exact Logic.I.
    + reflexivity.
    + intros w p Hp. destruct w as [|b0|[z0|d0]|s0|l0|l0]; cbn in Hp; try destruct Hp as [<-|[]]; try destruct Hp; reflexivity.
    + intros w y R (p & S0). right. destruct y as [| |y|]; try destruct S0. destruct w as [|b0|[z0|d0]|s0|l0|l0]; cbn in R; try contradiction; subst; eexists; (split; [left; reflexivity|reflexivity]).
    + intros y R (p & S0). destruct y as [| |y|]; try destruct S0. cbn in R. congruence.
    + apply read_plain.
  - rewrite (listed_many XText) by reflexivity. eapply (kept_good to_f64 XText eq _ vs a (JStr x) x r l E N K).
    + apply eq_same; [congruence|discriminate].
    + reflexivity.
    + intros; exact Logic.I.
    + reflexivity.
    + intros w p Hp. destruct w; cbn in Hp; try destruct Hp as [<-|[]]; try destruct Hp. reflexivity.
    + intros w y R (p & S0). right. destruct y; try destruct S0. destruct w as [|b0|[z0|d0]|s0|l0|l0]; cbn in R; try contradiction. subst. eexists. split; [left; reflexivity|reflexivity].
    + intros y R (p & S0). destruct y; try destruct S0. cbn in R. congruence.
    + apply read_plain.
Qed.
Theorem C45_bounded to_f64 order samples : any_order order ->
  forall d, In d (s2d_attributes (to_spec order (observe to_f64 samples))) -> exists src,
    stream samples src (ad_key d) <> [] /\
    match ad_examples d with
    | Some e => good_examples to_f64 (stream_values (stream samples src (ad_key d))) (listed e)
    | None => forall v, In v (stream_values (stream samples src (ad_key d))) -> ~ plain v
    end.
Proof.
  intros O d I. destruct (C45_definitions to_f64 order samples O) as (_ & _ & H). destruct (H d I) as (src & a & r & Es & _ & _ & _ & Il). exists src. rewrite Es. split; [discriminate|].
  destruct (ad_examples d) as [e|]; [apply illustrated_good, Il|]. inversion Il. assumption.
Qed.

(* ---------- C74 ---------- *)
Definition go := (fix go (l : list any_value) : list json := match l with [] => [] | x :: r => match maybe_to_json x with Some j => j :: go r | None => go r end end).
Lemma to_json_carries : forall v, match maybe_to_json v with Some j => carries v j | None => v = AnyNone \/ v = AnyOther end.
Proof.
  fix IH 1. intros v. destruct v as [|s|z|d|b|l|]; cbn [maybe_to_json]; try (constructor; fail); try (left; reflexivity); try (right; reflexivity).
  - unfold json_of_double. destruct (decode d) as [|n|z] eqn:E; [apply ca_no_number; congruence|apply ca_no_number; congruence|eapply ca_double; exact E].
  - apply ca_array. change (carries_all l (go l)). induction l as [|x l Il]; cbn [go]; [constructor|]. specialize (IH x). clear - IH Il. destruct (maybe_to_json x) as [j|]; constructor; assumption.
Qed.
Scheme carries_min := Minimality for carries Sort Prop with carries_all_min := Minimality for carries_all Sort Prop.
Lemma carries_to_json v j : carries v j -> maybe_to_json v = Some j.
Proof.
  revert v j. apply (carries_min (fun v j => maybe_to_json v = Some j) (fun l js => go l = js)); try reflexivity.
  - intros d z E. cbn. unfold json_of_double. rewrite E. reflexivity.
  - intros d N. cbn. unfold json_of_double. destruct (decode d) as [|n|z] eqn:E; [reflexivity|reflexivity|destruct (N z eq_refl)].
  - intros l js _ E. cbn [maybe_to_json]. change (Some (JArr (go l)) = Some (JArr js)). rewrite E. reflexivity.
  - intros x j l js _ E _ E'. cbn [go]. rewrite E, E'. reflexivity.
  - intros x l js [->| ->] _ E; exact E.
Qed.
Lemma of_message_iff kv a : of_message kv a <-> a = sample_of_key_value kv.
Proof.
  unfold of_message, sample_of_key_value. destruct kv as [k v]. cbn [fst snd]. split.
  - destruct a as [n o t]. cbn [ia_name ia_value ia_type]. intros (-> & [(j & C & -> & T)|([->| ->] & -> & ->)]); [|reflexivity|reflexivity].
    rewrite (carries_to_json v j C). f_equal. destruct (infer_type j) as [p|] eqn:E.
    + apply T, LiveProofs3.infer_type_spec, E.
    + destruct t as [p|]; [|reflexivity]. pose proof (proj1 (T p) eq_refl) as X. apply LiveProofs3.infer_type_spec in X. congruence.
  - intros ->. cbn [ia_name ia_value ia_type]. split; [reflexivity|]. pose proof (to_json_carries v) as C. destruct (maybe_to_json v) as [j|].
    + left. exists j. split; [exact C|]. split; [reflexivity|]. intros t. apply LiveProofs3.infer_type_spec.
    + right. auto.
Qed.
Lemma messages l : Forall2 of_message l (map sample_of_key_value l).
Proof. induction l as [|x l IH]; constructor; [apply of_message_iff; reflexivity|exact IH]. Qed.
Lemma messages2 l : Forall2 (Forall2 of_message) l (map (map sample_of_key_value) l).
Proof. induction l as [|x l IH]; constructor; [apply messages|exact IH]. Qed.
Lemma handled_samples l before : handled l before -> samples_of l = flat_map (fun r => fst (process_request r)) before.
Proof.
  intros (N & H). assert (G : forall rest, (rest = [] \/ exists r, rest = RqStop :: r) -> samples_of (app before rest) = flat_map (fun r => fst (process_request r)) before).
  { intros rest Hr. clear H. induction before as [|r before IH]; cbn [app flat_map].
    - destruct Hr as [->|(r & ->)]; reflexivity.
    - cbn [samples_of]. assert (Nr : r <> RqStop) by (intros ->; apply N; left; reflexivity). assert (IH' := IH (fun I => N (or_intror I))). clear IH. rewrite <- IH'. destruct r; try reflexivity. congruence. }
  destruct H as [->|(rest & ->)]; [rewrite <- (app_nil_r before) at 1; apply G; left; reflexivity|apply G; right; exists rest; reflexivity].
Qed.
Lemma filter_flat {A B} (p : B -> bool) (f : A -> list B) l : filter p (flat_map f l) = flat_map (fun x => filter p (f x)) l.
Proof. induction l as [|x l IH]; cbn [flat_map]; [reflexivity|]. rewrite filter_app, IH. reflexivity. Qed.
Lemma forall2_flat {A B C} (R : B -> C -> Prop) (f : A -> list B) (g : A -> list C) l : (forall x, Forall2 R (f x) (g x)) -> Forall2 R (flat_map f l) (flat_map g l).
Proof. intros H. induction l as [|x l IH]; cbn [flat_map]; [constructor|]. apply Forall2_app; [apply H|exact IH]. Qed.
Lemma forall2_filter_map {A} (R : A -> isample -> Prop) (f : A -> isample) p l : (forall x, p (f x) = true) -> (forall x, R x (f x)) -> Forall2 R l (filter p (map f l)).
Proof. intros Hp H. induction l as [|x l IH]; cbn [map filter]; [constructor|]. rewrite Hp. constructor; [apply H|exact IH]. Qed.
Lemma filter_map_none {A} (f : A -> isample) p l : (forall x, p (f x) = false) -> filter p (map f l) = [].
Proof. intros Hp. induction l as [|x l IH]; cbn [map filter]; [reflexivity|]. rewrite Hp. exact IH. Qed.
Lemma sent_of {A} (R : A -> isample -> Prop) (f : A -> isample) p l : (forall x, p (f x) = true) -> (forall x, R x (f x)) -> (forall a, p (IResource a) = false) -> Forall2 R (content l) (filter p (sent_samples f l)).
Proof.
  intros Hp H Hr. unfold content, sent_samples. rewrite filter_flat. apply forall2_flat. intros [o x]. cbn [fst snd]. rewrite filter_app. assert (E : filter p (resource_sample o) = []) by (destruct o; cbn; rewrite ?Hr; reflexivity).
  rewrite E. apply forall2_filter_map; assumption.
Qed.
Lemma sent_none {A} (f : A -> isample) p l : (forall x, p (f x) = false) -> (forall a, p (IResource a) = false) -> filter p (sent_samples f l) = [].
Proof.
  intros Hp Hr. unfold sent_samples. rewrite filter_flat. induction l as [|[o x] l IH]; cbn [flat_map fst snd]; [reflexivity|]. rewrite filter_app, IH, filter_map_none by exact Hp. destruct o; cbn; rewrite ?Hr; reflexivity.
Qed.
Lemma sent_resources {A} (f : A -> isample) l : (forall x, is_resource (f x) = false) -> Forall2 resource_shown (resources_of l) (filter is_resource (sent_samples f l)).
Proof.
  intros Hp. unfold resources_of, sent_samples. rewrite filter_flat. apply forall2_flat. intros [o x]. cbn [fst snd]. rewrite filter_app, filter_map_none by exact Hp. rewrite app_nil_r.
  destruct o as [kvs|]; cbn; constructor; [|constructor]. exists (map sample_of_key_value kvs). split; [reflexivity|apply messages].
Qed.
Lemma span_shown_ok s : span_shown s (span_sample s).
Proof.
  exists (kind_of_otlp (os_kind s)), (map sample_of_key_value (os_attrs s)), (map (fun e => (fst e, map sample_of_key_value (snd e))) (os_events s)). split; [reflexivity|]. split; [destruct (os_kind s); cbn; tauto|].
  split; [apply messages|]. induction (os_events s) as [|e l IH]; constructor; [|exact IH]. split; [reflexivity|apply messages].
Qed.
Lemma metric_shown_ok m : metric_shown m (metric_sample m).
Proof.
  exists (instrument_of (om_data m)), (points_of (om_data m)). split; [reflexivity|]. destruct (om_data m); cbn; try reflexivity; (split; [reflexivity|]); eexists; (split; [reflexivity|apply messages2]).
Qed.
Lemma log_shown_ok l : log_shown l (log_sample l).
Proof. exists (map sample_of_key_value (ol_attrs l)). split; [reflexivity|apply messages]. Qed.
(* what is read from the messages, in order *)
Theorem C74_spans l before : handled l before -> Forall2 span_shown (flat_map spans_in before) (filter is_span (samples_of l)).
Proof.
  intros H. rewrite (handled_samples l before H), filter_flat. apply forall2_flat. intros r. destruct r as [x|x|x|x| |]; cbn [process_request fst spans_in]; try constructor; try (rewrite sent_none; [constructor|reflexivity|reflexivity]).
  apply sent_of; [reflexivity|apply span_shown_ok|reflexivity].
Qed.
Theorem C74_metrics l before : handled l before -> Forall2 metric_shown (flat_map metrics_in before) (filter is_metric (samples_of l)).
Proof.
  intros H. rewrite (handled_samples l before H), filter_flat. apply forall2_flat. intros r. destruct r as [x|x|x|x| |]; cbn [process_request fst metrics_in]; try constructor; try (rewrite sent_none; [constructor|reflexivity|reflexivity]).
  apply sent_of; [reflexivity|apply metric_shown_ok|reflexivity].
Qed.
Theorem C74_logs l before : handled l before -> Forall2 log_shown (flat_map logs_in before) (filter is_log (samples_of l)).
Proof.
  intros H. rewrite (handled_samples l before H), filter_flat. apply forall2_flat. intros r. destruct r as [x|x|x|x| |]; cbn [process_request fst logs_in]; try constructor; try (rewrite sent_none; [constructor|reflexivity|reflexivity]).
  apply sent_of; [reflexivity|apply log_shown_ok|reflexivity].
Qed.
Theorem C74_resources l before : handled l before -> Forall2 resource_shown (flat_map resources_in before) (filter is_resource (samples_of l)).
Proof.
  intros H. rewrite (handled_samples l before H), filter_flat. apply forall2_flat. intros r. destruct r as [x|x|x|x| |]; cbn [process_request fst resources_in]; try constructor; apply sent_resources; reflexivity.
Qed.
Lemma in_sent {A} (f : A -> isample) l s : In s (sent_samples f l) <-> exists rs, In rs l /\
  ((exists attrs, fst rs = Some attrs /\ s = IResource (map sample_of_key_value attrs)) \/ exists scope x, In scope (snd rs) /\ In x scope /\ s = f x).
Proof.
  unfold sent_samples. rewrite in_flat_map. split; intros (rs & I & H); exists rs; (split; [exact I|]).
  - apply in_app_iff in H as [H|H].
    + left. destruct (fst rs) as [attrs|]; cbn in H; [|destruct H]. destruct H as [<-|[]]. exists attrs. auto.
    + right. apply in_map_iff in H as (x & <- & H). apply in_concat in H as (scope & Is & Ix). exists scope, x. auto.
  - apply in_app_iff. destruct H as [(attrs & E & ->)|(scope & x & Is & Ix & ->)].
    + left. rewrite E. left. reflexivity.
    + right. apply in_map, in_concat. exists scope. auto.
Qed.
Lemma in_messages a kvs : In a (map sample_of_key_value kvs) <-> exists kv, In kv kvs /\ of_message kv a.
Proof.
  rewrite in_map_iff. split; intros (kv & H1 & H2); exists kv.
  - split; [exact H2|apply of_message_iff; congruence].
  - split; [symmetry; apply of_message_iff, H2|exact H1].
Qed.
Lemma held_observed r src a : (exists s, In s (fst (process_request r)) /\ In a (shown src s)) <-> exists kv, held r src kv /\ of_message kv a.
Proof.
  split.
  - intros (s & I & Ia). assert (Res : forall attrs, s = IResource (map sample_of_key_value attrs) -> src = FromResource /\ exists kv, In kv attrs /\ of_message kv a).
    { intros attrs ->. destruct src; cbn in Ia; try destruct Ia. split; [reflexivity|apply in_messages, Ia]. }
    destruct r as [x|x|x|x| |]; cbn [process_request fst] in I; try destruct I; apply in_sent in I as (rs & Irs & [(attrs & E & Es)|(scope & y & Is & Iy & Es)]);
      try (destruct (Res attrs Es) as (-> & kv & Ikv & Hm); exists kv; split; [|exact Hm]; econstructor; eassumption); subst s.
    + unfold log_sample in Ia. destruct src as [|n|n e|n|n]; cbn [shown] in Ia; try destruct Ia. destruct (String.eqb_spec (ol_event y) n) as [<-|Ne]; [|destruct Ia]. destruct (String.eqb_spec (ol_event y) "") as [E0|N0]; [destruct Ia|].
      cbn [andb negb] in Ia. apply in_messages in Ia as (kv & Ikv & Hm). exists kv. split; [|exact Hm]. econstructor; eassumption.
    + unfold metric_sample in Ia. destruct src as [|n|n e|n|n]; cbn [shown] in Ia; try destruct Ia. assert (Hp : exists ps, points_of (om_data y) = Some (map (map sample_of_key_value) ps) /\ om_name y = n /\ In a (concat (map (map sample_of_key_value) ps)) /\
        ((exists mono, om_data y = OdSum mono ps) \/ om_data y = OdGauge ps \/ om_data y = OdHistogram ps \/ om_data y = OdExponential ps)).
      { destruct (om_data y) as [b ps|ps|ps|ps| |]; cbn [instrument_of points_of] in Ia; try destruct Ia; (destruct (String.eqb_spec (om_name y) n) as [<-|Ne]; [|destruct Ia]); exists ps; (split; [reflexivity|]); (split; [reflexivity|]); (split; [exact Ia|]); eauto. }
      destruct Hp as (ps & _ & <- & Ic & Hd). apply in_concat in Ic as (q & Iq & Iaq). apply in_map_iff in Iq as (p & <- & Ip). apply in_messages in Iaq as (kv & Ikv & Hm). exists kv. split; [|exact Hm]. econstructor; eassumption.
    + unfold span_sample in Ia. destruct src as [|n|n e|n|n]; cbn [shown] in Ia; try destruct Ia; (destruct (String.eqb_spec (os_name y) n) as [<-|Ne]; [|destruct Ia]).
      * apply in_messages in Ia as (kv & Ikv & Hm). exists kv. split; [|exact Hm]. econstructor; eassumption.
      * apply in_flat_map in Ia as (z & Iz & Iaz). apply filter_In in Iz as (Iz & Ez). apply in_map_iff in Iz as (ev & <- & Iev). cbn [fst snd] in *. apply String.eqb_eq in Ez. subst e. apply in_messages in Iaz as (kv & Ikv & Hm).
        exists kv. split; [|exact Hm]. econstructor; eassumption.
    + destruct src; destruct Ia.
  - intros (kv & H & Hm). destruct H as [l rs kv attrs I E Ik|l rs kv attrs I E Ik|l rs kv attrs I E Ik|l rs kv attrs I E Ik|l rs scope r kv I Is Ir Ne Ik|l rs scope m ps p kv I Is Im Hd Ip Ik|l rs scope s kv I Is Ir Ik|l rs scope s e kv I Is Ir Ie Ik];
      cbn [process_request fst].
    1-4: exists (IResource (map sample_of_key_value attrs)); (split; [apply in_sent; exists rs; split; [exact I|]; left; exists attrs; auto|]); apply in_messages; exists kv; auto.
    + exists (log_sample r). split; [apply in_sent; exists rs; split; [exact I|]; right; exists scope, r; auto|]. cbn [shown log_sample]. rewrite String.eqb_refl. apply String.eqb_neq in Ne. rewrite Ne. cbn. apply in_messages. exists kv. auto.
    + exists (metric_sample m). split; [apply in_sent; exists rs; split; [exact I|]; right; exists scope, m; auto|]. unfold metric_sample. cbn [shown].
      assert (X : In a (concat (map (map sample_of_key_value) ps))). { apply in_concat. exists (map sample_of_key_value p). split; [apply in_map, Ip|]. apply in_messages. exists kv. auto. }
      destruct Hd as [(mono & ->)|[->|[->| ->]]]; cbn [instrument_of points_of]; rewrite String.eqb_refl; exact X.
    + exists (span_sample s). split; [apply in_sent; exists rs; split; [exact I|]; right; exists scope, s; auto|]. cbn [shown span_sample]. rewrite String.eqb_refl. apply in_messages. exists kv. auto.
    + exists (span_sample s). split; [apply in_sent; exists rs; split; [exact I|]; right; exists scope, s; auto|]. cbn [shown span_sample]. rewrite String.eqb_refl. apply in_flat_map. exists (fst e, map sample_of_key_value (snd e)). split.
      * apply filter_In. split; [apply in_map_iff; exists e; auto|apply String.eqb_refl].
      * cbn [snd]. apply in_messages. exists kv. auto.
Qed.
(* just the attributes that the requests hold are observed *)
Theorem C74_observed l before src a : handled l before -> (observed (samples_of l) src a <-> exists r kv, In r before /\ held r src kv /\ of_message kv a).
Proof.
  intros H. unfold observed. rewrite (handled_samples l before H). split.
  - intros (s & I & Ia). apply in_flat_map in I as (r & Ir & Is). destruct (proj1 (held_observed r src a)) as (kv & Hh & Hm); [exists s; auto|]. exists r, kv. auto.
  - intros (r & kv & Ir & Hh & Hm). destruct (proj2 (held_observed r src a)) as (s & Is & Ia); [exists kv; auto|]. exists s. split; [apply in_flat_map; exists r; auto|exact Ia].
Qed.
Lemma no_keys {A} (m : list (string * A)) : (forall k, slookup k m = None) -> m = [].
Proof. destruct m as [|[k v] m]; [reflexivity|]. intros H. specialize (H k). unfold slookup in H. cbn in H. rewrite String.eqb_refl in H. discriminate. Qed.
Lemma nothing_iff st : nothing st = true <-> st_resources st = [] /\ st_spans st = [] /\ st_metrics st = [] /\ st_events st = [].
Proof.
  unfold nothing. split.
  - destruct (st_resources st); [|discriminate]. destruct (st_spans st); [|discriminate]. destruct (st_metrics st); [|discriminate]. destruct (st_events st); [auto|discriminate].
  - intros (-> & -> & -> & ->). reflexivity.
Qed.
(* no file is written just if no handled request says anything *)
Theorem C74_written to_f64 order l before : handled l before -> (infer to_f64 order l = None <-> ~ exists r, In r before /\ says_something r).
Proof.
  intros H. unfold infer. set (samples := samples_of l).
  assert (Hd : forall P, (P <-> nothing (observe to_f64 samples) = true) -> ((if nothing (observe to_f64 samples) then None else Some (to_spec order (observe to_f64 samples))) = None <-> P)).
  { intros P Hp. rewrite Hp. destruct (nothing _); split; congruence. }
  apply Hd; clear Hd.
  rewrite nothing_iff. split.
  - intros N. assert (NS : forall s, In s samples -> match s with ISpan _ _ _ _ => False | IMetric _ (Some _) _ _ => False | ILog n _ => n = "" | _ => True end).
      { intros s I. unfold samples in I. rewrite (handled_samples l before H) in I. apply in_flat_map in I as (r & Ir & Is). destruct r as [x|x|x|x| |]; cbn [process_request fst] in Is; try destruct Is;
          apply in_sent in Is as (rs & Irs & [(attrs & E & ->)|(scope & y & Isc & Iy & ->)]); try exact Logic.I.
        * unfold log_sample. destruct (string_dec (ol_event y) "") as [E|E]; [exact E|]. destruct N. exists (RqLogs x). split; [exact Ir|]. eapply ss_log; eassumption.
        * unfold metric_sample. destruct (instrument_of (om_data y)) as [i|] eqn:Ei; [|exact Logic.I]. destruct N. exists (RqMetrics x). split; [exact Ir|]. eapply ss_metric; try eassumption; intros X; rewrite X in Ei; discriminate.
        * destruct N. exists (RqTraces x). split; [exact Ir|]. eapply ss_span; eassumption. }
      split; [|split; [|split]]; apply no_keys; intros k.
    + destruct (slookup k (st_resources (observe to_f64 samples))) as [c|] eqn:E; [|reflexivity]. assert (X : slookup k (acc (observe to_f64 samples) FromResource) <> None) by (cbn [acc]; congruence).
        apply acc_some in X as (a & _ & O). apply (C74_observed l before FromResource a H) in O as (r & kv & Ir & Hh & _). destruct N. exists r. split; [exact Ir|eapply ss_resource; exact Hh].
    + pose proof (spans_present to_f64 samples k) as X. destruct (slookup k _) as [s|]; [|reflexivity]. destruct X as (a & x & e & b & E & _). assert (I : In (ISpan k (ip_kind s) x e) samples) by (rewrite E; apply in_app_iff; right; left; reflexivity). destruct (NS _ I).
    + pose proof (metrics_present to_f64 samples k) as X. destruct (slookup k _) as [m|]; [|reflexivity]. destruct X as (a & p & b & E & _). assert (I : In (IMetric k (Some (im_instrument m)) (im_unit m) p) samples) by (rewrite E; apply in_app_iff; right; left; reflexivity). destruct (NS _ I).
    + destruct (slookup k (st_events (observe to_f64 samples))) as [c|] eqn:E; [|reflexivity]. assert (X : slookup k (st_events (observe to_f64 samples)) <> None) by congruence. apply events_present in X as (Nk & x & I). destruct (Nk (NS _ I)).
  - intros (E1 & E2 & E3 & E4) (r & Ir & Hs). assert (Is : forall s, In s (fst (process_request r)) -> In s samples) by (intros s I; unfold samples; rewrite (handled_samples l before H); apply in_flat_map; exists r; auto).
      destruct Hs as [r kv Hh|x rs scope y Irs Isc Iy Ne|x rs scope y Irs Isc Iy N1 N2|x rs scope y Irs Isc Iy].
    + assert (X : exists a, ia_name a = fst kv /\ observed samples FromResource a). { exists (sample_of_key_value kv). split; [reflexivity|]. apply (C74_observed l before _ _ H). exists r, kv. split; [exact Ir|]. split; [exact Hh|apply of_message_iff; reflexivity]. }
        apply (acc_some to_f64) in X. cbn [acc] in X. rewrite E1 in X. destruct (X eq_refl).
    + assert (I : In (log_sample y) samples) by (apply Is; cbn [process_request fst]; apply in_sent; exists rs; split; [exact Irs|]; right; exists scope, y; auto).
        assert (X : slookup (ol_event y) (st_events (observe to_f64 samples)) <> None) by (apply events_present; split; [exact Ne|]; eexists; exact I). rewrite E4 in X. destruct (X eq_refl).
    + assert (I : In (metric_sample y) samples) by (apply Is; cbn [process_request fst]; apply in_sent; exists rs; split; [exact Irs|]; right; exists scope, y; auto).
        pose proof (metrics_present to_f64 samples (om_name y)) as X. rewrite E3 in X. cbn in X. unfold metric_sample in I. destruct (instrument_of (om_data y)) as [i|] eqn:Ei; [destruct (X _ _ _ I)|]. destruct (om_data y); try discriminate; congruence.
    + assert (I : In (span_sample y) samples) by (apply Is; cbn [process_request fst]; apply in_sent; exists rs; split; [exact Irs|]; right; exists scope, y; auto).
        pose proof (spans_present to_f64 samples (os_name y)) as X. rewrite E2 in X. cbn in X. destruct (X _ _ _ I).
Qed.

(* ---------- C75 ---------- *)
Lemma strict_unique {A} (key : A -> string) l1 : forall l2, StronglySorted str_lt (map key l1) -> StronglySorted str_lt (map key l2) -> (forall x, In x l1 <-> In x l2) -> l1 = l2.
Proof.
  assert (Lt : forall a b, str_lt a b -> ~ str_lt b a) by (intros a b X Y; apply (str_lt_irrefl a); eapply str_lt_trans; eassumption).
  induction l1 as [|x l1 IH]; intros [|y l2] S1 S2 H; [reflexivity|destruct (proj2 (H y) (or_introl eq_refl))|destruct (proj1 (H x) (or_introl eq_refl))|].
  cbn [map] in S1, S2. inversion_clear S1 as [|? ? S1' F1]. inversion_clear S2 as [|? ? S2' F2]. rewrite Forall_forall in F1, F2.
  assert (E : x = y).
  { destruct (proj1 (H x) (or_introl eq_refl)) as [E|I]; [symmetry; exact E|]. destruct (proj2 (H y) (or_introl eq_refl)) as [E|J]; [exact E|].
    destruct (Lt _ _ (F1 _ (in_map key _ _ J)) (F2 _ (in_map key _ _ I))). }
  subst y. f_equal. apply IH; [exact S1'|exact S2'|]. intros z. split; intros I.
  - destruct (proj1 (H z) (or_intror I)) as [E|J]; [|exact J]. subst z. destruct (str_lt_irrefl _ (F1 _ (in_map key _ _ I))).
  - destruct (proj2 (H z) (or_intror I)) as [E|J]; [|exact J]. subst z. destruct (str_lt_irrefl _ (F2 _ (in_map key _ _ I))).
Qed.
Lemma refers_unique l l' P : refers l P -> refers l' P -> l = l'.
Proof.
  intros (n & -> & Sn & Hn) (n' & -> & Sn' & Hn'). f_equal. apply (strict_unique (fun x => x)); rewrite ?map_id; [exact Sn|exact Sn'|]. intros x. rewrite Hn, Hn'. reflexivity.
Qed.

Lemma names_same o1 o2 t1 t2 {A} (m : list (string * A)) : any_order o1 -> any_order o2 -> NoDup (map fst m) -> sort_names (keys o1 t1 m) = sort_names (keys o2 t2 m).
Proof.
  intros O1 O2 N. apply (strict_unique (fun x => x)); rewrite ?map_id; [apply strict_names, (keys_nodup _ O1), N|apply strict_names, (keys_nodup _ O2), N|].
  intros x. rewrite !sort_names_in, (keys_in _ O1), (keys_in _ O2). reflexivity.
Qed.
(* the signals do not depend on the iteration order of hash maps *)
Theorem C75_signals to_f64 o1 o2 samples : any_order o1 -> any_order o2 ->
  let f1 := to_spec o1 (observe to_f64 samples) in let f2 := to_spec o2 (observe to_f64 samples) in
  s2d_spans f1 = s2d_spans f2 /\ s2d_metrics f1 = s2d_metrics f2 /\ s2d_events f1 = s2d_events f2.
Proof.
  intros O1 O2 f1 f2. split; [|split].
  - apply (strict_unique sd_type); [apply (C45_spans to_f64 o1 samples O1)|apply (C45_spans to_f64 o2 samples O2)|]. intros s. unfold f1, f2. rewrite (spans_members _ _ _ O1), (spans_members _ _ _ O2).
    destruct (ok to_f64 samples) as (_ & _ & Hs & _). split; intros (p & E & ->); exists p; (split; [exact E|]); f_equal; f_equal; apply names_same; try assumption; apply (Hs _ _ E).
  - apply (strict_unique md_name); [apply (C45_metrics to_f64 o1 samples O1)|apply (C45_metrics to_f64 o2 samples O2)|]. intros s. unfold f1, f2. rewrite (metrics_members _ _ _ O1), (metrics_members _ _ _ O2).
    destruct (ok to_f64 samples) as (_ & _ & _ & _ & Hs & _). split; intros (p & E & ->); exists p; (split; [exact E|]); f_equal; f_equal; apply names_same; try assumption; apply (Hs _ _ E).
  - assert (G : forall o1 o2, any_order o1 -> any_order o2 -> forall v, In v (s2d_events (to_spec o1 (observe to_f64 samples))) -> In v (s2d_events (to_spec o2 (observe to_f64 samples)))).
    { clear. intros o1 o2 O1 O2 v. rewrite (events_members _ _ _ O1), (events_members _ _ _ O2). intros (n & l & E & ->).
      assert (X : slookup n (merged to_f64 o2 samples) <> None) by (apply (merged_names to_f64 _ O2), (merged_names to_f64 _ O1); congruence).
      destruct (slookup n (merged to_f64 o2 samples)) as [l2|] eqn:E2; [|destruct (X eq_refl)]. exists n, l2. split; [exact E2|]. f_equal. f_equal.
      apply (strict_unique (fun x => x)); rewrite ?map_id; [apply dedup_names|apply dedup_names|]. intros x. rewrite !dedup_in, !sort_names_in, (merged_members _ _ O1 _ _ _ _ E), (merged_members _ _ O2 _ _ _ _ E2). reflexivity. }
    apply (strict_unique vd_name); [apply (C45_events to_f64 o1 samples O1)|apply (C45_events to_f64 o2 samples O2)|]. intros v. split; apply G; assumption.
Qed.
(* nor do the definitions, as long as no two spans, metrics or events compete for one *)
Theorem C75_definitions_partial to_f64 o1 o2 samples : any_order o1 -> any_order o2 ->
  (forall n src src', rank src = rank src' -> stream samples src n <> [] -> stream samples src' n <> [] ->
     (forall s, rank s < rank src -> stream samples s n = []) -> src = src') ->
  to_spec o1 (observe to_f64 samples) = to_spec o2 (observe to_f64 samples).
Proof.
  intros O1 O2 Hs. assert (G : forall o1 o2, any_order o1 -> any_order o2 -> forall d, In d (s2d_attributes (to_spec o1 (observe to_f64 samples))) -> In d (s2d_attributes (to_spec o2 (observe to_f64 samples)))).
  { clear O1 O2 o1 o2. intros o1 o2 O1 O2 d I. apply (in_defs _ _ O1) in I. apply (in_defs _ _ O2). rewrite final_lookup in *. destruct (find _ (parts to_f64 o1 samples)) as [c1|] eqn:F1; [|discriminate].
    apply (found_parts _ _ O1) in F1 as (s1 & E1 & M1). assert (X : stream samples s1 (ad_key d) <> []) by (intros Y; apply (acc_none to_f64) in Y; congruence).
    pose proof (found_somewhere to_f64 _ O2 _ _ _ X) as F. destruct (find _ (parts to_f64 o2 samples)) as [c2|] eqn:F2; [|destruct (F eq_refl)].
    apply (found_parts _ _ O2) in F2 as (s2 & E2 & M2). assert (Y : stream samples s2 (ad_key d) <> []) by (intros Z; apply (acc_none to_f64) in Z; congruence).
    assert (R : rank s1 = rank s2). { destruct (Nat.lt_trichotomy (rank s1) (rank s2)) as [L|[R|L]]; [destruct X; apply M2, L|exact R|destruct Y; apply M1, L]. }
    pose proof (Hs _ _ _ R X Y M1) as <-. rewrite E1 in E2. injection E2 as <-. exact I. }
  assert (Ea : s2d_attributes (to_spec o1 (observe to_f64 samples)) = s2d_attributes (to_spec o2 (observe to_f64 samples))).
  { apply (strict_unique ad_key); [apply (defs_sorted _ _ O1)|apply (defs_sorted _ _ O2)|]. intros d. split; apply G; assumption. }
  destruct (C75_signals to_f64 o1 o2 samples O1 O2) as (E1 & E2 & E3).
  assert (Eta : forall f : spec2, f = {| s2d_attributes := s2d_attributes f; s2d_entities := s2d_entities f; s2d_events := s2d_events f; s2d_metrics := s2d_metrics f; s2d_spans := s2d_spans f; s2d_groups := s2d_groups f;
    s2d_entity_refinements := s2d_entity_refinements f; s2d_event_refinements := s2d_event_refinements f; s2d_metric_refinements := s2d_metric_refinements f; s2d_span_refinements := s2d_span_refinements f; s2d_imports := s2d_imports f |}) by (intros []; reflexivity).
  rewrite (Eta (to_spec o1 _)), (Eta (to_spec o2 _)), Ea, E1, E2, E3. reflexivity.
Qed.

Lemma no_order_any : any_order no_order.
Proof. intros tag A l. apply Permutation_refl. Qed.
Lemma reversed_any : any_order reversed.
Proof. intros tag A l. apply Permutation_rev. Qed.
(* the same telemetry gives different definitions *)
Theorem C75_hash_order_refuted : exists to_f64 o1 o2 samples, any_order o1 /\ any_order o2 /\
  map ad_type (s2d_attributes (to_spec o1 (observe to_f64 samples))) <> map ad_type (s2d_attributes (to_spec o2 (observe to_f64 samples))).
Proof.
  exists (fun _ => 0%N), no_order, reversed, two_metrics. split; [exact no_order_any|]. split; [exact reversed_any|]. vm_compute. discriminate.
Qed.
(* the order of arrival decides the type, even within one signal *)
Theorem C75_arrival_refuted : exists to_f64 samples samples', Permutation samples samples' /\ forall order, any_order order ->
  map ad_type (s2d_attributes (to_spec order (observe to_f64 samples))) <> map ad_type (s2d_attributes (to_spec order (observe to_f64 samples'))).
Proof.
  exists (fun _ => 0%N), (map one_resource [int_then; double_then]), (map one_resource [double_then; int_then]). split; [apply perm_swap|]. intros order O.
  assert (G : forall samples, (forall n src, stream samples src n <> [] -> src = FromResource) -> to_spec order (observe (fun _ => 0%N) samples) = to_spec no_order (observe (fun _ => 0%N) samples)).
  { intros samples H. apply C75_definitions_partial; [exact O|exact no_order_any|]. intros n src src' _ X Y _. rewrite (H _ _ X), (H _ _ Y). reflexivity. }
  rewrite !G; [vm_compute; discriminate| |]; intros n src H; destruct src; try reflexivity; destruct H; reflexivity.
Qed.
(* a definition may have examples that are not of its type *)
Theorem C75_type_refuted : exists to_f64 samples d, In d (s2d_attributes (to_spec no_order (observe to_f64 samples))) /\ ad_type d = TPrim PString /\ ad_examples d = Some (EInt 7).
Proof.
  exists (fun _ => 0%N), (samples_of untyped_first). eexists. split; [left; reflexivity|]. split; reflexivity.
Qed.

(* ---------- examples ---------- *)
Example infer_sample_written : exists f, infer (fun _ => 0%N) no_order infer_sample = Some f /\ length (s2d_attributes f) = 4 /\ map sd_type (s2d_spans f) = ["GET"] /\ map md_name (s2d_metrics f) = ["requests"] /\
  map vd_name (s2d_events f) = ["exception"; "login"].
Proof. eexists. split; [reflexivity|]. split; [reflexivity|]. split; [reflexivity|]. split; reflexivity. Qed.
Example infer_sample_handled : handled infer_sample (firstn 3 infer_sample).
Proof. split; [intros H; repeat (destruct H as [H|H]; [discriminate|]); destruct H|]. right. exists [RqTraces [(None, [[{| os_name := "late"; os_kind := OkServer; os_attrs := []; os_events := [] |}]])]]. reflexivity. Qed.
Example infer_sample_says : exists r, In r (firstn 3 infer_sample) /\ says_something r.
Proof. exists (nth 0 infer_sample RqError). split; [left; reflexivity|]. eapply ss_span; [left; reflexivity|left; reflexivity|left; reflexivity]. Qed.
Example infer_sample_single : forall n src src', rank src = rank src' -> stream (map one_resource [int_then; double_then]) src n <> [] -> stream (map one_resource [int_then; double_then]) src' n <> [] ->
  (forall s, rank s < rank src -> stream (map one_resource [int_then; double_then]) s n = []) -> src = src'.
Proof. intros n src src' _ H H' _. destruct src; [|destruct H; reflexivity..]. destruct src'; [reflexivity|destruct H'; reflexivity..]. Qed.
Example infer_sample_examples : map ad_examples (s2d_attributes (to_spec no_order (observe (fun _ => 0%N) (map one_resource many_values)))) = [Some (EInts [1; 2; 3; 4; 5]%Z)].
Proof. reflexivity. Qed.
Print Assumptions C45_spans.
Print Assumptions C45_metrics.
Print Assumptions C45_events.
Print Assumptions C45_definitions.
Print Assumptions C45_closed.
Print Assumptions C45_bounded.
Print Assumptions C74_spans.
Print Assumptions C74_metrics.
Print Assumptions C74_logs.
Print Assumptions C74_resources.
Print Assumptions C74_observed.
Print Assumptions C74_written.
Print Assumptions C75_signals.
Print Assumptions C75_definitions_partial.
Print Assumptions C75_hash_order_refuted.
Print Assumptions C75_arrival_refuted.
Print Assumptions C75_type_refuted.
