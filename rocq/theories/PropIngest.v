(* Reading OTLP messages for a live check. *)
From Coq Require Import String Ascii Bool Arith ZArith NArith Lia List.
Import ListNotations.
From Verif Require Import Base Json F64 SemTypes LiveModel LiveAdvisors LiveSpec LiveProofs LiveProofs2 LiveProofs3 IngestModel IngestSpec.
From Verif Require InferModel.
Local Open Scope string_scope.

Lemma forall2_map {A B} (R : A -> B -> Prop) (f : A -> B) : (forall x, R x (f x)) -> forall l, Forall2 R l (map f l).
Proof. intros H l. induction l; constructor; auto. Qed.

(* ---------- values ---------- *)
Fixpoint read_value (a : InferModel.any_value) : read_as a (InferModel.maybe_to_json a).
Proof.
  destruct a; cbn [InferModel.maybe_to_json]; try constructor.
  - unfold InferModel.json_of_double. destruct (decode bits) eqn:E.
    + apply RNotFinite. intros q. congruence.
    + apply RNotFinite. intros q. congruence.
    + apply RDouble with z. exact E.
  - induction l as [|x r IH]; [constructor|].
    pose proof (read_value x) as Hx. destruct (InferModel.maybe_to_json x).
    + apply RCons; assumption.
    + apply RSkip; assumption.
Qed.
Lemma attr_sent kv : attr_as_sent kv (attr_sample kv).
Proof.
  unfold attr_as_sent, attr_sample. cbn [sa_name sa_value sa_result sa_type].
  split; [reflexivity|]. split; [apply read_value|]. split; [reflexivity|].
  intros t. destruct (InferModel.maybe_to_json (snd kv)) as [v|].
  - rewrite infer_type_spec. split.
    + intros H. exists v. auto.
    + intros (w & E & H). injection E as <-. exact H.
  - split; [discriminate|]. intros (w & E & H). discriminate.
Qed.
Lemma attrs_sent l : Forall2 attr_as_sent l (map attr_sample l).
Proof. apply forall2_map, attr_sent. Qed.

(* ---------- items ---------- *)
Lemma point_sent p : point_as_sent p (point_sample p).
Proof.
  split; [apply attrs_sent|]. split; [|reflexivity]. apply forall2_map. intros l. split; [apply attrs_sent|reflexivity].
Qed.
Lemma points_sent l : Forall2 point_as_sent l (map point_sample l).
Proof. apply forall2_map, point_sent. Qed.
Lemma data_sent d : data_as_sent d (data_instrument d) (data_points_of d).
Proof. destruct d as [[] l|l|l|l| |]; cbn; constructor; apply points_sent. Qed.
Lemma metric_sent r m : metric_as_sent r m (metric_sample r m).
Proof. eexists. split; [reflexivity|]. cbn. do 2 (split; [reflexivity|]). split; [apply data_sent|]. split; reflexivity. Qed.
Lemma log_sent r m : log_as_sent r m (log_sample r m).
Proof. eexists. split; [reflexivity|]. cbn. split; [reflexivity|]. split; [apply attrs_sent|]. split; reflexivity. Qed.
Lemma span_sent r m : span_as_sent r m (span_sample r m).
Proof.
  eexists. split; [reflexivity|]. cbn. split; [reflexivity|]. split; [apply attrs_sent|].
  split; [apply forall2_map; intros e; split; [reflexivity|]; split; [apply attrs_sent|reflexivity]|].
  split; [apply forall2_map; intros e; split; [apply attrs_sent|reflexivity]|]. split; reflexivity.
Qed.
Lemma get_at_spec {A} (l : list A) i a : get_at l i = Some a <-> entry_at l i a.
Proof.
  unfold get_at, entry_at. split.
  - destruct (Z.ltb_spec i 0) as [Hi|Hi]; [discriminate|]. intros E.
    apply nth_error_split in E as (pre & post & El & Hl). exists pre, post. split; [exact El|]. lia.
  - intros (pre & post & -> & Hl). destruct (Z.ltb_spec i 0) as [Hi|Hi]; [lia|].
    replace (Z.to_nat i) with (length pre) by lia.
    rewrite nth_error_app2 by lia. rewrite Nat.sub_diag. reflexivity.
Qed.
Lemma get_at_none {A} (l : list A) i : get_at l i = None -> forall a, ~ entry_at l i a.
Proof. intros E a H. apply get_at_spec in H. congruence. Qed.
Lemma profile_attr_sent d i kv : get_at (di_attributes d) i = Some kv -> profile_attr d i (dictionary_attr d kv).
Proof.
  intros E. destruct kv as [k v]. unfold profile_attr, dictionary_attr. cbn [fst snd].
  exists k, v, (match get_at (di_strings d) k with Some s => s | None => "" end).
  split; [apply get_at_spec; exact E|]. split; [apply attr_sent|].
  destruct (get_at (di_strings d) k) eqn:F.
  - left. apply get_at_spec. exact F.
  - right. split; [reflexivity|]. apply get_at_none. exact F.
Qed.
Lemma profile_sent d r p : profile_as_sent d r p (profile_sample d r p).
Proof.
  eexists. split; [reflexivity|]. cbn [pf_result pf_resource pf_attrs]. split; [reflexivity|]. split; [reflexivity|].
  destruct d as [d|]; [|reflexivity].
  induction (of_indices p) as [|i l IH]; [constructor|]. cbn [flat_map].
  destruct (get_at (di_attributes d) i) as [kv|] eqn:E.
  - cbn [app]. constructor; [|exact IH]. apply profile_attr_sent. exact E.
  - cbn [app]. apply PSkip; [|exact IH]. apply get_at_none. exact E.
Qed.

(* ---------- messages ---------- *)
Lemma scope_sent {A} (s : oscope A) : scope_as_sent s (map SmpScope (opt_list (scope_sample (sc_scope s) (sc_url s)))).
Proof.
  destruct s as [sc u its]. cbn [sc_scope sc_url]. unfold scope_sample. destruct sc as [[n l]|].
  - cbn. eapply SScope; [reflexivity|reflexivity|apply attrs_sent|reflexivity].
  - destruct (String.eqb_spec u "") as [->|N]; cbn; [apply SNone; reflexivity|].
    apply SUrl; try reflexivity. exact N.
Qed.
Lemma resource_sent r : resource_as_sent r (resource_sample r).
Proof. destruct r as [l|]; cbn; [|exact I]. split; [apply attrs_sent|reflexivity]. Qed.
Lemma block_sent {A} (item : option sresource -> A -> sample -> Prop) f :
  (forall r x, item r x (f r x)) -> forall b, block_as_sent item b (sent_samples f b).
Proof.
  intros H b. exists (resource_sample (se_resource b)), (map (scope_samples f (resource_sample (se_resource b))) (se_scopes b)).
  split; [apply resource_sent|]. split.
  - unfold sent_samples. rewrite <- flat_map_concat_map. destruct (resource_sample (se_resource b)); reflexivity.
  - apply forall2_map. intros s. eexists _, _. split; [reflexivity|]. split; [apply scope_sent|].
    apply forall2_map. intros x. apply H.
Qed.
Lemma message_sent m l : fill_buffer m = Some l -> message_as_sent m l.
Proof.
  intros E. destruct m; cbn in E; try discriminate; injection E as <-; rewrite flat_map_concat_map.
  - exists (map (sent_samples log_sample) l0). split; [reflexivity|]. apply forall2_map, block_sent, log_sent.
  - exists (map (sent_samples metric_sample) l0). split; [reflexivity|]. apply forall2_map, block_sent, metric_sent.
  - exists (map (sent_samples span_sample) l0). split; [reflexivity|]. apply forall2_map, block_sent, span_sent.
  - exists (map (sent_samples (profile_sample d)) l0). split; [reflexivity|]. apply forall2_map, block_sent, profile_sent.
Qed.

(* C79: the live check of OTLP telemetry looks at just what was sent, in the order it was sent, up to the first
   request to stop or error of the receiver. *)
Theorem C79_samples : forall msgs, exists before after parts,
  msgs = app before after /\
  (after = [] \/ exists m rest, after = m :: rest /\ ends_reading m) /\
  Forall2 message_as_sent before parts /\ ingest msgs = concat parts.
Proof.
  intros msgs. induction msgs as [|m t (before & after & parts & -> & Ha & Hf & E)].
  - exists [], [], []. split; [reflexivity|]. split; [left; reflexivity|]. split; [constructor|reflexivity].
  - cbn [ingest]. destruct (fill_buffer m) as [s|] eqn:F.
    + exists (m :: before), after, (s :: parts). split; [reflexivity|]. split; [exact Ha|].
      split; [constructor; [apply message_sent; exact F|exact Hf]|]. cbn [concat]. rewrite E. reflexivity.
    + exists [], (m :: app before after), []. split; [reflexivity|]. split.
      * right. exists m, (app before after). split; [reflexivity|]. destruct m; try discriminate F; [left|right]; reflexivity.
      * split; [constructor|reflexivity].
Qed.
Print Assumptions C79_samples.

(* an element that is a map is left out of an array: the check sees another array than the one sent *)
Theorem C79_array_element_refuted : exists kv a,
  attr_sample kv = a /\ snd kv = InferModel.AnyArray [InferModel.AnyOther; InferModel.AnyInt 1] /\
  sa_value a = Some (JArr [JNum (NInt 1)]) /\ sa_type a = Some PInts.
Proof. exists ("k", InferModel.AnyArray [InferModel.AnyOther; InferModel.AnyInt 1]). eexists. repeat split. Qed.
Print Assumptions C79_array_element_refuted.

(* ---------- resources ---------- *)
Fixpoint consistent (cur : option sresource) (l : list sample) : Prop :=
  match l with
  | [] => True
  | s :: t => (takes_resource s -> forall r, sample_resource s = Some r -> next_resource cur s = Some r) /\
              consistent (next_resource cur s) t
  end.
Definition after (cur : option sresource) (l : list sample) : option sresource := fold_left next_resource l cur.
Lemma consistent_app : forall a cur b, consistent cur (app a b) <-> consistent cur a /\ consistent (after cur a) b.
Proof.
  induction a as [|x a IH]; intros cur b; cbn; [tauto|]. rewrite IH. unfold after. tauto.
Qed.
(* samples that set no resource and have at most the given one *)
Definition quiet (r : option sresource) (s : sample) : Prop :=
  (forall x, s <> SmpResource x) /\ (takes_resource s -> sample_resource s = r).
Lemma quiet_next cur r s : quiet r s -> next_resource cur s = cur.
Proof. intros [H _]. destruct s; try reflexivity. exfalso. apply (H r0). reflexivity. Qed.
Lemma quiet_after cur r l : Forall (quiet r) l -> after cur l = cur.
Proof.
  intros H. induction H as [|s t Hs Ht IH]; [reflexivity|]. unfold after in *. cbn [fold_left].
  rewrite (quiet_next cur r s Hs). exact IH.
Qed.
Lemma quiet_consistent r l : Forall (quiet (Some r)) l -> consistent (Some r) l.
Proof.
  intros H. induction H as [|s t Hs Ht IH]; [exact I|]. cbn [consistent].
  rewrite (quiet_next _ _ s Hs). split; [|exact IH]. intros T x E. rewrite (proj2 Hs T) in E. congruence.
Qed.
Lemma quiet_consistent_none l : forall cur, Forall (quiet None) l -> consistent cur l.
Proof.
  intros cur H. induction H as [|s t Hs Ht IH]; [exact I|]. cbn [consistent].
  rewrite (quiet_next _ _ s Hs). split; [|exact IH]. intros T x E. rewrite (proj2 Hs T) in E. discriminate.
Qed.
Section Items.
  Context {A : Type} (f : option sresource -> A -> sample).
  Hypothesis Hf : forall r x, quiet r (f r x).
  Lemma scopes_quiet r l : Forall (quiet r) (flat_map (scope_samples f r) l).
  Proof.
    apply Forall_forall. intros s H. apply in_flat_map in H as (sc & _ & H). apply in_app_iff in H as [H|H].
    - apply in_map_iff in H as (x & <- & _). split; [discriminate|]. intros [].
    - apply in_map_iff in H as (x & <- & _). apply Hf.
  Qed.
  Lemma blocks_consistent : forall l cur, consistent cur (flat_map (sent_samples f) l).
  Proof.
    induction l as [|b l IH]; intros cur; [exact I|]. cbn [flat_map]. apply consistent_app. split; [|apply IH].
    unfold sent_samples. destruct (resource_sample (se_resource b)) as [r|].
    - cbn [opt_list map app consistent next_resource]. split; [intros []|]. apply quiet_consistent, scopes_quiet.
    - cbn [opt_list map app]. apply quiet_consistent_none, scopes_quiet.
  Qed.
End Items.
Lemma ingest_consistent : forall msgs cur, consistent cur (ingest msgs).
Proof.
  induction msgs as [|m t IH]; intros cur; [exact I|]. cbn [ingest].
  destruct (fill_buffer m) as [s|] eqn:E; [|exact I]. apply consistent_app. split; [|apply IH].
  destruct m; cbn in E; try discriminate; injection E as <-; apply blocks_consistent; intros r x;
    (split; [discriminate|]); cbn; try reflexivity; intros [].
Qed.
Lemma run_all_keeps c : forall l cur st out st', consistent cur l -> run_all c cur l st = Ok (out, st') ->
  Forall2 (fun i o => takes_resource i -> forall r, sample_resource i = Some r -> sample_resource o = Some r) l out.
Proof.
  induction l as [|s t IH]; intros cur st out st' Hc H; cbn [run_all] in H.
  - injection H as <- _. constructor.
  - unfold rbind in H. destruct (run_sample c (attach (next_resource cur s) s) st) as [[s' st1]|e] eqn:E; [|discriminate].
    destruct (run_all c (next_resource cur s) t st1) as [[r' st2]|e] eqn:E2; [|discriminate]. injection H as <- _.
    destruct Hc as [H1 H2]. constructor; [|exact (IH _ _ _ _ H2 E2)].
    intros T r Er. assert (T' : takes_resource (attach (next_resource cur s) s)) by (destruct s; exact T).
    rewrite (run_sample_resource _ _ _ _ _ E T'). rewrite <- (H1 T r Er). destruct s; try destruct T; reflexivity.
Qed.

(* a span, metric or log that was sent with a resource is judged against this one, whatever was sent before *)
Theorem C79_own_resource_partial : forall c ns f msgs out st code,
  live_check c ns f (ingest msgs) = Ok (out, st, code) ->
  Forall2 (fun i o => takes_resource i -> forall r, sample_resource i = Some r -> sample_resource o = Some r)
    (ingest msgs) out.
Proof.
  intros c ns f msgs out st code H. unfold live_check, rbind in H.
  destruct (run_all c None (ingest msgs) _) as [[o st']|e] eqn:E; [|discriminate]. injection H as <- _ _.
  exact (run_all_keeps c _ _ _ _ _ (ingest_consistent msgs None) E).
Qed.
Print Assumptions C79_own_resource_partial.

(* one that was sent without a resource is judged against that of another sender, whose entities it then has *)
Theorem C79_no_resource_refuted : exists msgs c out st code o r,
  live_check c false FailNone (ingest msgs) = Ok (out, st, code) /\
  nth_error msgs 1 = Some (OMetrics [sent_by None [gauge "m2"]]) /\
  In o out /\ sample_name (match o with SmpMetric m => RfMetric m | _ => RfExemplar {| ex_attrs := []; ex_result := None |} end) = Some "m2" /\
  sample_resource o = Some r /\ map sa_value (sr_attrs r) = [Some (JStr "h1")].
Proof.
  exists two_senders, (checker_new (RegV1 []) (default_advisors (fun _ => "")) None).
  do 3 eexists. eexists (SmpMetric _). eexists. split; [vm_compute; reflexivity|].
  split; [reflexivity|]. split; [right; right; right; right; left; reflexivity|].
  split; [reflexivity|]. split; reflexivity.
Qed.
Print Assumptions C79_no_resource_refuted.

(* the messages after an error of the receiver are not looked at; a profile has the attributes its places stand for *)
Example C79_nonvacuous :
  map (fun s => match s with
                | SmpResource r => ("resource", length (sr_attrs r)) | SmpScope _ => ("scope", 0)
                | SmpMetric m => (sm_name m, 1) | SmpProfile p => ("profile", length (pf_attrs p)) | _ => ("", 0) end)
    (ingest two_senders)
  = [("resource", 1); ("scope", 0); ("m1", 1); ("scope", 0); ("m2", 1); ("scope", 0); ("profile", 1)].
Proof. reflexivity. Qed.
