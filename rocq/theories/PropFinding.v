(* C85: the findings of a policy are read as it states them. *)
From Coq Require Import String Ascii Bool Arith Lia List.
Import ListNotations.
From Verif Require Import Base Json BaseProofs BaseProofs2 ResultModel PolicyModel PolicySpec.
From Verif Require LiveModel.
Local Open Scope string_scope.

(* ---------- the last entry under some keys ---------- *)
Lemma lastly_snoc ks m k v w :
  lastly ks (app m [(k, v)]) w <-> (In k ks /\ w = v) \/ (~ In k ks /\ lastly ks m w).
Proof.
  split.
  - intros (pre & k0 & post & Em & Ik & Hp). destruct post as [|x post'] using rev_ind.
    + apply app_inj_tail in Em as [Ea Ex]. subst pre. injection Ex as Ek Ev. subst k0 w. left. auto.
    + clear IHpost'. rewrite app_comm_cons, app_assoc in Em. apply app_inj_tail in Em as [Ea Ex]. subst m x.
      right. split.
      * apply (Hp k). rewrite map_app. apply in_or_app. right. left. reflexivity.
      * exists pre, k0, post'. repeat split; auto. intros k' Ik'. apply Hp. rewrite map_app.
        apply in_or_app. auto.
  - intros [[Ik ->]|[Nk (pre & k0 & post & -> & Ik & Hp)]].
    + exists m, k, []. split; [reflexivity|]. split; [exact Ik|]. intros k' [].
    + exists pre, k0, (app post [(k, v)]). split; [|split]; auto.
      * rewrite <- app_assoc. reflexivity.
      * intros k' Ik'. rewrite map_app in Ik'. apply in_app_or in Ik' as [|[<-|[]]]; auto.
Qed.
Lemma lastly_nil ks w : ~ lastly ks [] w.
Proof. intros (pre & k & post & E & _). destruct pre; discriminate E. Qed.
Lemma absent_snoc ks m k v : absent ks (app m [(k, v)]) <-> ~ In k ks /\ absent ks m.
Proof.
  unfold absent. rewrite map_app. split.
  - intros H. split; [apply H; apply in_or_app; right; left; reflexivity|].
    intros k' Ik'. apply H. apply in_or_app. auto.
  - intros [Nk H] k' Ik'. apply in_app_or in Ik' as [|[<-|[]]]; auto.
Qed.
Lemma absent_nil ks : absent ks [].
Proof. intros k []. Qed.
Lemma absent_lastly ks m w : absent ks m -> ~ lastly ks m w.
Proof.
  intros Ha (pre & k & post & -> & Ik & _). apply (Ha k); auto. rewrite map_app. apply in_or_app.
  right. left. reflexivity.
Qed.
Lemma lastly_fun ks m v w : lastly ks m v -> lastly ks m w -> v = w.
Proof.
  induction m as [|[k x] m IH] using rev_ind; intros A B.
  - destruct (lastly_nil _ _ A).
  - apply lastly_snoc in A, B. destruct A as [[I1 ->]|[N1 A]], B as [[I2 ->]|[N2 B]]; auto; tauto.
Qed.
Lemma lastly_in ks m v : lastly ks m v -> exists k, In k ks /\ In (k, v) m.
Proof.
  intros (pre & k & post & -> & Ik & _). exists k. split; auto. apply in_or_app. right. left. reflexivity.
Qed.
Lemma absent_or ks m : absent ks m \/ exists v, lastly ks m v.
Proof.
  induction m as [|[k v] m IH] using rev_ind; [left; apply absent_nil|].
  destruct (in_dec string_dec k ks) as [I|N].
  - right. exists v. apply lastly_snoc. auto.
  - destruct IH as [Ha|[w Hw]].
    + left. apply absent_snoc. auto.
    + right. exists w. apply lastly_snoc. auto.
Qed.
Lemma legible_snoc m k v : legible (app m [(k, v)]) <-> legible m /\ fits k v.
Proof.
  unfold legible. split.
  - intros H. split; [intros k' v' I|]; apply H; apply in_or_app; [auto|right; left; reflexivity].
  - intros [H Hf] k' v' I. apply in_app_or in I as [I|[E|[]]]; [auto|]. injection E as <- <-. exact Hf.
Qed.

(* ---------- reading a field ---------- *)
Lemma read_text_iff v s : read_text v = Some s <-> v = JStr s.
Proof. destruct v; cbn; split; intro H; try discriminate; injection H as ->; reflexivity. Qed.
Lemma level_of_name_iff n l : level_of_name n = Some l <->
  (n = "information" /\ l = LiveModel.Information \/ n = "improvement" /\ l = LiveModel.Improvement
   \/ n = "violation" /\ l = LiveModel.Violation).
Proof.
  unfold level_of_name.
  destruct (String.eqb_spec n "information") as [->|N1].
  { split; [intros [= <-]; auto|]. intros [[_ ->]|[[E _]|[E _]]]; [reflexivity|discriminate E..]. }
  destruct (String.eqb_spec n "improvement") as [->|N2].
  { split; [intros [= <-]; auto|]. intros [[E _]|[[_ ->]|[E _]]]; [discriminate E|reflexivity|discriminate E]. }
  destruct (String.eqb_spec n "violation") as [->|N3].
  { split; [intros [= <-]; auto|]. intros [[E _]|[[E _]|[_ ->]]]; [discriminate E..|reflexivity]. }
  split; [discriminate|]. intros [[E _]|[[E _]|[E _]]]; contradiction.
Qed.
Lemma read_level_iff v l : read_level v = Some l <-> names_level v l.
Proof.
  unfold names_level. split.
  - intros H. destruct v as [| | |s| |m]; try discriminate H.
    + exists s. split; auto. apply level_of_name_iff. exact H.
    + destruct m as [|[s x] [|]]; try discriminate H; destruct x; try discriminate H.
      exists s. split; auto. apply level_of_name_iff. exact H.
  - intros (n & Hv & Hl). apply level_of_name_iff in Hl. destruct Hv as [->| ->]; exact Hl.
Qed.
Lemma names_level_fun v l l' : names_level v l -> names_level v l' -> l = l'.
Proof. intros A B. apply read_level_iff in A, B. congruence. Qed.

(* what the gathered fields say about the object read so far *)
Record gathered (m : list (string * json)) (b : fields) : Prop := mk_gathered {
  ga_type : maybe_text m "type" (fi_type b);
  ga_id : maybe_text m "id" (fi_id b);
  ga_category : maybe_text m "category" (fi_category b);
  ga_group : maybe_text m "group" (fi_group b);
  ga_attr : maybe_text m "attr" (fi_attr b);
  ga_advice_type : maybe_text m "advice_type" (fi_advice_type b);
  ga_message : maybe_text m "message" (fi_message b);
  ga_level : match fi_level b with Some l => of_level m l | None => absent level_keys m end;
  ga_context : maybe_context m (fi_context b);
  ga_signal_type : maybe_text m "signal_type" (fi_signal_type b);
  ga_signal_name : maybe_text m "signal_name" (fi_signal_name b) }.

Lemma maybe_other m k v key o : key <> k -> maybe_text m k o -> maybe_text (app m [(key, v)]) k o.
Proof.
  intros N H. destruct o as [s|]; cbn in *.
  - apply lastly_snoc. right. split; [|exact H]. intros [E|[]]. congruence.
  - apply absent_snoc. split; [|exact H]. intros [E|[]]. congruence.
Qed.
Lemma maybe_same m k s : maybe_text (app m [(k, JStr s)]) k (Some s).
Proof. cbn. apply lastly_snoc. left. split; [left; reflexivity|reflexivity]. Qed.
Lemma level_other m key v o : ~ In key level_keys ->
  match o with Some l => of_level m l | None => absent level_keys m end ->
  match o with Some l => of_level (app m [(key, v)]) l | None => absent level_keys (app m [(key, v)]) end.
Proof.
  intros N H. destruct o as [l|].
  - destruct H as (w & Hw & Hl). exists w. split; [|exact Hl]. apply lastly_snoc. auto.
  - apply absent_snoc. auto.
Qed.
Lemma level_same m key v l : In key level_keys -> names_level v l -> of_level (app m [(key, v)]) l.
Proof. intros I Hl. exists v. split; [|exact Hl]. apply lastly_snoc. auto. Qed.
Lemma context_other m key v o : ~ In key context_keys -> maybe_context m o -> maybe_context (app m [(key, v)]) o.
Proof.
  intros N H. destruct o; cbn in *; [apply lastly_snoc|apply absent_snoc]; auto.
Qed.

Ltac not_key := let E := fresh in cbn; intros E; decompose [or] E; congruence.
Ltac same_field :=
  match goal with
  | G : gathered _ _ |- gathered _ _ =>
    destruct G; constructor; cbn in *;
    first [ apply maybe_same
          | apply maybe_other; [congruence|assumption]
          | apply level_other; [not_key|assumption]
          | apply context_other; [not_key|assumption]
          | idtac ]
  end.

Lemma take_field_gathers m b key v b' :
  gathered m b -> take_field b key v = Some b' -> gathered (app m [(key, v)]) b' /\ fits key v.
Proof.
  intros G. destruct b as [t i c g a at_ ms l x st sn]. unfold take_field.
  assert (NF : ~ In key text_keys -> ~ In key level_keys -> fits key v).
  { intros N1 N2. split; intro I; [destruct (N1 I)|destruct (N2 I)]. }
  assert (TF : forall s, v = JStr s -> ~ In key level_keys -> fits key v).
  { intros s E N. split; intro I; [exists s; exact E|destruct (N I)]. }
  assert (LF : forall s, names_level v s -> ~ In key text_keys -> fits key v).
  { intros s E N. split; intro I; [destruct (N I)|exists s; exact E]. }
  repeat match goal with
  | |- (if String.eqb key ?k then match read_text v with _ => _ end else _) = _ -> _ =>
    destruct (String.eqb_spec key k) as [Ek|];
    [ destruct (read_text v) as [s|] eqn:Et; [|discriminate]; intros [= <-];
      apply read_text_iff in Et; subst key; split; [subst v; same_field
                                        | apply (TF s Et); not_key] | ]
  | |- (if String.eqb key ?k then match read_level v with _ => _ end else _) = _ -> _ =>
    destruct (String.eqb_spec key k) as [Ek|];
    [ destruct (read_level v) as [s|] eqn:Et; [|discriminate]; intros [= <-];
      apply read_level_iff in Et; subst key; split;
      [same_field; apply level_same; [cbn; auto|exact Et] | apply (LF s Et); not_key] | ]
  | |- (if String.eqb key ?k then Some _ else _) = _ -> _ =>
    destruct (String.eqb_spec key k) as [Ek|];
    [ intros [= <-]; subst key; split;
      [same_field; cbn; apply lastly_snoc; left; split; [cbn; auto|reflexivity] | apply NF; not_key] | ]
  end.
  intros [= <-]. split; [same_field|apply NF; not_key].
Qed.
Lemma take_field_fits b key v : fits key v -> exists b', take_field b key v = Some b'.
Proof.
  intros [Ht Hl]. destruct b as [t i c g a at_ ms l x st sn]. unfold take_field.
  repeat match goal with
  | |- exists b', (if String.eqb key ?k then match read_text v with _ => _ end else _) = _ =>
    destruct (String.eqb_spec key k) as [->|];
    [ destruct Ht as [s ->]; [cbn; tauto|]; cbn; eexists; reflexivity | ]
  | |- exists b', (if String.eqb key ?k then match read_level v with _ => _ end else _) = _ =>
    destruct (String.eqb_spec key k) as [->|];
    [ destruct Hl as [l' E]; [cbn; tauto|]; apply read_level_iff in E; rewrite E; eexists; reflexivity | ]
  | |- exists b', (if String.eqb key ?k then Some _ else _) = _ =>
    destruct (String.eqb_spec key k) as [->|]; [ eexists; reflexivity | ]
  end.
  eexists; reflexivity.
Qed.

Lemma take_fields_app b m1 m2 :
  take_fields b (app m1 m2) = match take_fields b m1 with ROk b' => take_fields b' m2 | RErr e => RErr e end.
Proof.
  revert b. induction m1 as [|[k v] m1 IH]; intro b; [reflexivity|]. cbn.
  destruct (take_field b k v); [apply IH|reflexivity].
Qed.
Lemma gathered_none : gathered [] no_fields.
Proof. constructor; cbn; apply absent_nil. Qed.

Lemma take_fields_gathers m :
  (forall b, take_fields no_fields m = ROk b -> legible m /\ gathered m b)
  /\ (legible m -> exists b, take_fields no_fields m = ROk b).
Proof.
  induction m as [|[k v] m IH] using rev_ind.
  - split; [|intros _; exists no_fields; reflexivity]. intros b [= <-].
    split; [intros k v []|apply gathered_none].
  - rewrite take_fields_app. destruct IH as [IH1 IH2]. split.
    + intros b H. destruct (take_fields no_fields m) as [b0|] eqn:E; [|discriminate H].
      cbn in H. destruct (take_field b0 k v) as [b1|] eqn:E1; [|discriminate H]. injection H as ->.
      destruct (IH1 b0 eq_refl) as [L G]. destruct (take_field_gathers _ _ _ _ _ G E1) as [G' F].
      split; [apply legible_snoc; auto|exact G'].
    + intros L. apply legible_snoc in L as [L F]. destruct (IH2 L) as [b0 E]. rewrite E.
      destruct (take_field_fits b0 k v F) as [b1 E1]. exists b1. cbn. rewrite E1. reflexivity.
Qed.
Lemma take_fields_err m e :
  take_fields no_fields m = RErr e <->
  exists pre k v post, m = app pre ((k, v) :: post) /\ e = FField k /\ legible pre /\ ~ fits k v.
Proof.
  split.
  - revert e. induction m as [|[k v] m IH] using rev_ind; intros e H; [discriminate H|].
    rewrite take_fields_app in H. destruct (take_fields no_fields m) as [b0|e0] eqn:E.
    + cbn in H. destruct (take_field b0 k v) as [b1|] eqn:E1; [discriminate H|].
      injection H as <-. exists m, k, v, []. split; [reflexivity|]. split; [reflexivity|]. split.
      * apply (proj1 (take_fields_gathers m) b0 E).
      * intro F. destruct (take_field_fits b0 k v F) as [b1 E2]. congruence.
    + injection H as <-. destruct (IH e0 eq_refl) as (pre & k0 & v0 & post & -> & -> & L & F).
      exists pre, k0, v0, (app post [(k, v)]). rewrite <- app_assoc. auto.
  - intros (pre & k & v & post & -> & -> & L & F). rewrite take_fields_app.
    destruct (proj2 (take_fields_gathers pre) L) as [b E]. rewrite E. cbn.
    destruct (take_field b k v) as [b1|] eqn:E1; [|reflexivity].
    destruct F. apply (take_field_gathers pre b k v b1); auto.
    apply (proj1 (take_fields_gathers pre) b E).
Qed.

Lemma maybe_fun m k o o' : maybe_text m k o -> maybe_text m k o' -> o = o'.
Proof.
  destruct o as [s|], o' as [s'|]; cbn; intros A B; auto.
  - pose proof (lastly_fun _ _ _ _ A B) as E. congruence.
  - destruct (absent_lastly _ _ _ B A).
  - destruct (absent_lastly _ _ _ A B).
Qed.
Lemma context_fun m o o' : maybe_context m o -> maybe_context m o' -> o = o'.
Proof.
  destruct o as [s|], o' as [s'|]; cbn; intros A B; auto.
  - f_equal. exact (lastly_fun _ _ _ _ A B).
  - destruct (absent_lastly _ _ _ B A).
  - destruct (absent_lastly _ _ _ A B).
Qed.
Lemma level_fun m l o : match o with Some l => of_level m l | None => absent level_keys m end ->
  of_level m l -> o = Some l.
Proof.
  destruct o as [s|]; intros A B.
  - destruct A as (v & Hv & Hl), B as (w & Hw & Hl'). rewrite (lastly_fun _ _ _ _ Hw Hv) in Hl'.
    f_equal. exact (names_level_fun _ _ _ Hl Hl').
  - destruct B as (w & Hw & _). destruct (absent_lastly _ _ _ A Hw).
Qed.
Lemma text_some m k o s : maybe_text m k o -> text m k s -> o = Some s.
Proof. intros A B. exact (maybe_fun m k o (Some s) A B). Qed.

Lemma build_states m b f : gathered m b -> (build_finding b = ROk f <-> states m f).
Proof.
  intros G. destruct b as [t i c g a at_ ms l x st sn]. unfold build_finding. cbn.
  destruct G; cbn in *. split.
  - intros H. destruct t as [t|].
    + destruct (String.eqb_spec t "semconv_attribute") as [->|].
      * destruct i as [i|]; [|discriminate H]. destruct c as [c|]; [|discriminate H].
        destruct g as [g|]; [|discriminate H]. destruct a as [a|]; [|discriminate H].
        cbn in H. injection H as <-. apply states_attribute; assumption.
      * destruct (String.eqb_spec t "advice") as [->|]; [|discriminate H].
        destruct l as [l|]; [|discriminate H]. destruct at_ as [at_|]; [|discriminate H].
        destruct ms as [ms|]; [|discriminate H]. cbn in H. injection H as <-.
        apply states_advice; assumption.
    + destruct i as [i|]; [|discriminate H]. destruct l as [l|]; [|discriminate H].
      destruct ms as [ms|]; [|discriminate H]. cbn in H. injection H as <-.
      apply states_finding; assumption.
  - intros Hs. destruct Hs as [i' c' g' a' Ht Hi Hc Hg Ha|f' Ht Hi Hm Hl Hx Hst Hsn|f' Ht Hi Hm Hl Hx Hst Hsn].
    + pose proof (text_some _ _ _ _ ga_type0 Ht) as ->. pose proof (text_some _ _ _ _ ga_id0 Hi) as ->.
      pose proof (text_some _ _ _ _ ga_category0 Hc) as ->. pose proof (text_some _ _ _ _ ga_group0 Hg) as ->.
      pose proof (text_some _ _ _ _ ga_attr0 Ha) as ->. reflexivity.
    + pose proof (text_some _ _ _ _ ga_type0 Ht) as ->. pose proof (text_some _ _ _ _ ga_advice_type0 Hi) as ->.
      pose proof (text_some _ _ _ _ ga_message0 Hm) as ->. pose proof (level_fun _ _ _ ga_level0 Hl) as ->.
      pose proof (context_fun _ _ _ ga_context0 Hx) as ->. pose proof (maybe_fun _ _ _ _ ga_signal_type0 Hst) as ->.
      pose proof (maybe_fun _ _ _ _ ga_signal_name0 Hsn) as ->. cbn. destruct f'; reflexivity.
    + pose proof (maybe_fun _ _ _ None ga_type0 Ht) as ->. pose proof (text_some _ _ _ _ ga_id0 Hi) as ->.
      pose proof (text_some _ _ _ _ ga_message0 Hm) as ->. pose proof (level_fun _ _ _ ga_level0 Hl) as ->.
      pose proof (context_fun _ _ _ ga_context0 Hx) as ->. pose proof (maybe_fun _ _ _ _ ga_signal_type0 Hst) as ->.
      pose proof (maybe_fun _ _ _ _ ga_signal_name0 Hsn) as ->. cbn. destruct f'; reflexivity.
Qed.

(* A value is read as a finding exactly when it is an object whose fields have their types and
   that states the finding in one of the three forms. *)
Theorem C85_read : forall v f, read_finding v = ROk f <-> read_as v f.
Proof.
  intros v f. unfold read_as. split.
  - destruct v as [| | | | |m]; try discriminate. cbn. intros H.
    destruct (take_fields no_fields m) as [b|] eqn:E; [|discriminate H].
    destruct (proj1 (take_fields_gathers m) b E) as [L G]. exists m. split; [reflexivity|]. split; [exact L|].
    apply (build_states m b f G). exact H.
  - intros (m & -> & L & Hs). cbn. destruct (proj2 (take_fields_gathers m) L) as [b E]. rewrite E.
    apply (build_states m b f); auto. apply (proj1 (take_fields_gathers m) b E).
Qed.

Lemma not_absent_some m k o : maybe_text m k o -> ~ absent [k] m -> exists s, o = Some s.
Proof. destruct o as [s|]; cbn; eauto; tauto. Qed.
Lemma some_not_absent m k s : maybe_text m k (Some s) -> ~ absent [k] m.
Proof. cbn. intros A B. exact (absent_lastly _ _ _ B A). Qed.
Lemma level_not_absent m l : of_level m l -> ~ absent level_keys m.
Proof. intros (v & Hv & _) B. exact (absent_lastly _ _ _ B Hv). Qed.

Lemma first_0 m k ks l k' : absent ks m -> k = k' -> first_missing m ((k, ks) :: l) k'.
Proof. intros A <-. exists [], ks, l. split; [reflexivity|]. split; [intros d []|exact A]. Qed.
Lemma first_S m k ks l k' : ~ absent ks m -> first_missing m l k' -> first_missing m ((k, ks) :: l) k'.
Proof.
  intros A (done & ks' & rest & -> & Hd & Ha). exists ((k, ks) :: done), ks', rest.
  split; [reflexivity|]. split; [|exact Ha]. intros d [<-|I]; auto.
Qed.
Lemma first_inv m k ks l k' : first_missing m ((k, ks) :: l) k' ->
  (absent ks m /\ k' = k) \/ (~ absent ks m /\ first_missing m l k').
Proof.
  intros ([|d done] & ks' & rest & E & Hd & Ha).
  - injection E as -> -> ->. left; auto.
  - injection E as <- ->. right. split; [apply (Hd (k, ks)); left; reflexivity|].
    exists done, ks', rest. split; [reflexivity|]. split; [|exact Ha]. intros d' I. apply Hd. right. exact I.
Qed.
Lemma first_none m k : ~ first_missing m [] k.
Proof. intros ([|d done] & ks' & rest & E & _); discriminate E. Qed.

Lemma build_refuses m b e : legible m -> gathered m b ->
  (build_finding b = RErr e <-> refused (JObj m) e).
Proof.
  intros L G. destruct b as [t i c g a at_ ms l x st sn]. unfold build_finding. cbn.
  destruct G; cbn in *.
  assert (NT : forall s : string, t = Some s -> ~ absent ["type"] m).
  { intros s E A. subst t. exact (absent_lastly _ _ _ A ga_type0). }
  split.
  - intros H. destruct t as [t|].
    + destruct (String.eqb_spec t "semconv_attribute") as [->|].
      * assert (forall k, first_missing m (needs KAttribute) k -> refused (JObj m) (FMissing k))
          by (intros k; apply refused_missing; [exact L|exact ga_type0]).
        destruct i as [i|]; cbn in H; [|injection H as <-; apply H0; apply first_0; [exact ga_id0|reflexivity]].
        destruct c as [c|]; cbn in H; [|injection H as <-; apply H0; apply first_S;
          [eapply some_not_absent; eassumption|apply first_0; [exact ga_category0|reflexivity]]].
        destruct g as [g|]; cbn in H; [|injection H as <-; apply H0; apply first_S;
          [eapply some_not_absent; exact ga_id0|apply first_S; [eapply some_not_absent; exact ga_category0|
            apply first_0; [exact ga_group0|reflexivity]]]].
        destruct a as [a|]; cbn in H; [discriminate H|]. injection H as <-; apply H0.
        apply first_S; [eapply some_not_absent; exact ga_id0|].
        apply first_S; [eapply some_not_absent; exact ga_category0|].
        apply first_S; [eapply some_not_absent; exact ga_group0|].
        apply first_0; [exact ga_attr0|reflexivity].
      * destruct (String.eqb_spec t "advice") as [->|].
        -- assert (forall k, first_missing m (needs KAdvice) k -> refused (JObj m) (FMissing k))
            by (intros k; apply refused_missing; [exact L|exact ga_type0]).
          destruct l as [l|]; cbn in H; [|injection H as <-; apply H0; apply first_0; [exact ga_level0|reflexivity]].
          destruct at_ as [at_|]; cbn in H; [|injection H as <-; apply H0; apply first_S;
            [eapply level_not_absent; eassumption|apply first_0; [exact ga_advice_type0|reflexivity]]].
          destruct ms as [ms|]; cbn in H; [discriminate H|]. injection H as <-; apply H0.
          apply first_S; [eapply level_not_absent; eassumption|].
          apply first_S; [eapply some_not_absent; exact ga_advice_type0|].
          apply first_0; [exact ga_message0|reflexivity].
        -- injection H as <-. eapply refused_kind; eauto.
    + assert (forall k, first_missing m (needs KFinding) k -> refused (JObj m) (FMissing k))
        by (intros k; apply refused_missing; [exact L|exact ga_type0]).
      destruct i as [i|]; cbn in H; [|injection H as <-; apply H0; apply first_0; [exact ga_id0|reflexivity]].
      destruct l as [l|]; cbn in H; [|injection H as <-; apply H0; apply first_S;
          [eapply some_not_absent; exact ga_id0|apply first_0; [exact ga_level0|reflexivity]]].
      destruct ms as [ms|]; cbn in H; [discriminate H|]. injection H as <-; apply H0.
      apply first_S; [eapply some_not_absent; exact ga_id0|].
      apply first_S; [eapply level_not_absent; eassumption|].
      apply first_0; [exact ga_message0|reflexivity].
  - intros Hr. inversion Hr as [v Hv|m0 pre k v post Em Lp Nf|m0 kd k Lm Hk Hf|m0 t0 Lm Ht N1 N2]; subst.
    + destruct (Hv m eq_refl).
    + destruct Nf. apply L. apply in_or_app. right. left. reflexivity.
    + destruct kd; cbn in Hk, Hf.
      * pose proof (text_some _ _ _ _ ga_type0 Hk) as ->. cbn.
        apply first_inv in Hf as [[A ->]|[A Hf]].
        { rewrite (maybe_fun _ _ _ None ga_id0 A). reflexivity. }
        destruct (not_absent_some _ _ _ ga_id0 A) as [? ->]. cbn.
        apply first_inv in Hf as [[A2 ->]|[A2 Hf]].
        { rewrite (maybe_fun _ _ _ None ga_category0 A2). reflexivity. }
        destruct (not_absent_some _ _ _ ga_category0 A2) as [? ->]. cbn.
        apply first_inv in Hf as [[A3 ->]|[A3 Hf]].
        { rewrite (maybe_fun _ _ _ None ga_group0 A3). reflexivity. }
        destruct (not_absent_some _ _ _ ga_group0 A3) as [? ->]. cbn.
        apply first_inv in Hf as [[A4 ->]|[A4 Hf]].
        { rewrite (maybe_fun _ _ _ None ga_attr0 A4). reflexivity. }
        destruct (first_none _ _ Hf).
      * pose proof (text_some _ _ _ _ ga_type0 Hk) as ->. cbn.
        apply first_inv in Hf as [[A ->]|[A Hf]].
        { destruct l as [l|]; [destruct (level_not_absent _ _ ga_level0 A)|reflexivity]. }
        destruct l as [l|]; [|tauto]. cbn.
        apply first_inv in Hf as [[A2 ->]|[A2 Hf]].
        { rewrite (maybe_fun _ _ _ None ga_advice_type0 A2). reflexivity. }
        destruct (not_absent_some _ _ _ ga_advice_type0 A2) as [? ->]. cbn.
        apply first_inv in Hf as [[A3 ->]|[A3 Hf]].
        { rewrite (maybe_fun _ _ _ None ga_message0 A3). reflexivity. }
        destruct (first_none _ _ Hf).
      * pose proof (maybe_fun _ _ _ None ga_type0 Hk) as ->. cbn.
        apply first_inv in Hf as [[A ->]|[A Hf]].
        { rewrite (maybe_fun _ _ _ None ga_id0 A). reflexivity. }
        destruct (not_absent_some _ _ _ ga_id0 A) as [? ->]. cbn.
        apply first_inv in Hf as [[A2 ->]|[A2 Hf]].
        { destruct l as [l|]; [destruct (level_not_absent _ _ ga_level0 A2)|reflexivity]. }
        destruct l as [l|]; [|tauto]. cbn.
        apply first_inv in Hf as [[A3 ->]|[A3 Hf]].
        { rewrite (maybe_fun _ _ _ None ga_message0 A3). reflexivity. }
        destruct (first_none _ _ Hf).
    + pose proof (text_some _ _ _ _ ga_type0 Ht) as ->.
      destruct (String.eqb_spec t0 "semconv_attribute"); [contradiction|].
      destruct (String.eqb_spec t0 "advice"); [contradiction|]. reflexivity.
Qed.

(* A value is refused for exactly the reason that is named. *)
Theorem C85_refused : forall v e, read_finding v = RErr e <-> refused v e.
Proof.
  intros v e. destruct v as [| | | | |m];
    try (cbn; split; [intros [= <-]; apply refused_shape; discriminate
                     |intros H; inversion H; reflexivity]).
  cbn. destruct (take_fields no_fields m) as [b|e0] eqn:E.
  - destruct (proj1 (take_fields_gathers m) b E) as [L G]. apply build_refuses; auto.
  - split.
    + intros [= <-]. apply take_fields_err in E as (pre & k & v & post & -> & -> & L & F).
      eapply refused_field; eauto.
    + intros Hr. apply take_fields_err in E as (pre & k & v & post & -> & -> & L & F).
      assert (NL : ~ legible (app pre ((k, v) :: post))).
      { intro A. apply F. apply A. apply in_or_app. right. left. reflexivity. }
      inversion Hr as [v0 Hv|m0 pre' k' v' post' Em Lp Nf|m0 kd k' Lm Hk Hf|m0 t0 Lm Ht N1 N2]; subst;
        try contradiction.
      * destruct (Hv _ eq_refl).
      * f_equal. f_equal. clear Hr NL.
        revert pre' Em Lp. induction pre as [|x pre IH]; intros [|y pre'] Em Lp; cbn in Em.
        -- injection Em as -> _ _. reflexivity.
        -- injection Em as <- _. destruct F. apply Lp. left. reflexivity.
        -- injection Em as -> _. destruct Nf. apply L. left. reflexivity.
        -- injection Em as <- Em. apply (IH (fun k0 v0 I => L k0 v0 (or_intror I)) pre' Em).
           intros k0 v0 I. apply Lp. right. exact I.
Qed.

(* The answer of a policy is read as a list of findings exactly when each of its values is
   read: one that is not makes the whole unreadable. *)
Theorem C85_list : forall v fs,
  read_findings v = ROk fs <-> exists vs, v = JArr vs /\ Forall2 read_as vs fs.
Proof.
  intros v fs.
  assert (H : forall vs fs, read_each vs = ROk fs <-> Forall2 read_as vs fs).
  { clear. induction vs as [|v vs IH]; intro fs; cbn.
    - split; [intros [= <-]; constructor|intros H; inversion H; reflexivity].
    - split.
      + intros H. destruct (read_finding v) as [f|] eqn:Ef; [|discriminate H].
        destruct (read_each vs) as [fs'|] eqn:Es; [|discriminate H]. injection H as <-.
        constructor; [apply C85_read; exact Ef|apply IH; reflexivity].
      + intros H. inversion H as [|? f ? fs' Hf Hs]; subst. apply C85_read in Hf. rewrite Hf.
        apply IH in Hs. rewrite Hs. reflexivity. }
  split.
  - destruct v as [| | | |vs|]; try discriminate. intros E. exists vs. split; [reflexivity|].
    apply H. exact E.
  - intros (vs & -> & Hs). cbn. apply H. exact Hs.
Qed.

(* Any finding can be stated. *)
Theorem C85_stated : forall f, read_finding (stated f) = ROk f.
Proof.
  intros [id [c|] m l [st|] [sn|]]; destruct l; reflexivity.
Qed.

(* In an object with one entry a key, sorted as they come from the policy engine, `level` and
   `context` win over their older names. *)
Theorem C85_newer_names : forall m v w f,
  (forall pre x y post, m = app pre (x :: y :: post) -> str_ltb (fst x) (fst y) = true) ->
  In ("level", v) m -> In ("context", w) m -> read_finding (JObj m) = ROk f ->
  LiveModel.f_id f <> "semconv_attribute" ->
  names_level v (LiveModel.f_level f) /\ LiveModel.f_context f = Some w.
Proof.
  intros m v w f Hs Iv Iw Hr Na. apply C85_read in Hr as (m0 & E & L & St). injection E as <-.
  assert (Hlt : forall pre x mid y post, m = app pre (x :: app mid (y :: post)) -> str_ltb (fst x) (fst y) = true).
  { intros pre x mid. revert pre x. induction mid as [|z mid IH]; intros pre x y post E.
    - exact (Hs pre x y post E).
    - cbn in E. pose proof (Hs _ _ _ _ E) as H1.
      assert (H2 : str_ltb (fst z) (fst y) = true).
      { apply (IH (app pre [x]) z y post). rewrite <- app_assoc. exact E. }
      unfold str_ltb in *. destruct (str_cmp (fst x) (fst z)) eqn:C1; try discriminate H1.
      destruct (str_cmp (fst z) (fst y)) eqn:C2; try discriminate H2.
      rewrite (str_cmp_trans_lt _ _ _ C1 C2). reflexivity. }
  assert (Last : forall a b k, k = b -> str_ltb b a = false -> a <> b ->
            forall x, In (b, x) m -> lastly [a; b] m x).
  { intros a b k _ Hab Nab x Ix. apply in_split in Ix as (pre & post & E).
    exists pre, b, post. split; [exact E|]. split; [right; left; reflexivity|].
    intros k' Ik' [<-|[<-|[]]].
    - apply in_map_iff in Ik' as ([k0 y] & <- & Iy). apply in_split in Iy as (mid & post' & ->).
      pose proof (Hlt pre (b, x) mid (k0, y) post' E) as H. cbn in H. cbn in Hab. congruence.
    - apply in_map_iff in Ik' as ([k0 y] & Ek & Iy). cbn in Ek. subst k0.
      apply in_split in Iy as (mid & post' & ->).
      pose proof (Hlt pre (b, x) mid (b, y) post' E) as H. cbn in H. unfold str_ltb in H.
      rewrite (proj2 (str_cmp_eq b b) eq_refl) in H. discriminate H. }
  pose proof (Last "advice_level" "level" _ eq_refl eq_refl ltac:(discriminate) v Iv) as Lv.
  pose proof (Last "advice_context" "context" _ eq_refl eq_refl ltac:(discriminate) w Iw) as Lw.
  assert (K : of_level m (LiveModel.f_level f) /\ maybe_context m (LiveModel.f_context f)).
  { destruct St; [destruct Na; reflexivity|split; assumption..]. }
  destruct K as [(v' & Hv' & Hl) Hc]. rewrite (lastly_fun _ _ _ _ Hv' Lv) in Hl. split; [exact Hl|].
  exact (context_fun _ _ (Some w) Hc Lw).
Qed.

(* What a program writes as a finding cannot be read back: the written `type` is unknown. *)
Theorem C85_reread_refuted : forall f, exists e, read_finding (write_finding f) = RErr e.
Proof.
  intros [id [c|] m l [st|] [sn|]]; destruct l; eexists; reflexivity.
Qed.

(* ---------- cases ---------- *)
Example read_attribute :
  read_finding (JObj [("attr", JStr "a.b"); ("category", JStr "naming"); ("group", JStr "g");
                      ("id", JStr "lower"); ("other", JNull); ("type", JStr "semconv_attribute")])
  = ROk (new_semconv_attribute "lower" "naming" "g" "a.b").
Proof. reflexivity. Qed.
Example read_advice :
  read_finding (JObj [("advice_level", JStr "improvement"); ("advice_type", JStr "x");
                      ("message", JStr "m"); ("type", JStr "advice")])
  = ROk (mk_finding "x" None "m" LiveModel.Improvement None None).
Proof. reflexivity. Qed.
Example newer_names_case :
  let m := [("advice_context", JNull); ("advice_level", JStr "information"); ("context", JStr "c");
            ("id", JStr "i"); ("level", JStr "violation"); ("message", JStr "m")] in
  (forall pre x y post, m = app pre (x :: y :: post) -> str_ltb (fst x) (fst y) = true)
  /\ read_finding (JObj m) = ROk (mk_finding "i" (Some (JStr "c")) "m" LiveModel.Violation None None).
Proof.
  cbv zeta. split; [|reflexivity]. intros pre x y post E.
  do 6 (destruct pre as [|? pre]; cbn in E;
          [solve [injection E; intros; subst; first [reflexivity|discriminate]]|injection E as ? E]).
  destruct pre; discriminate E.
Qed.
Example refused_cases :
  read_finding (JObj [("id", JStr "i"); ("message", JStr "m")]) = RErr (FMissing "level")
  /\ read_finding (JObj [("id", JStr "i"); ("signal_type", JNull)]) = RErr (FField "signal_type")
  /\ read_finding (JObj [("type", JStr "other")]) = RErr FKind.
Proof. repeat split. Qed.

Print Assumptions C85_read.
Print Assumptions C85_refused.
Print Assumptions C85_list.
Print Assumptions C85_stated.
Print Assumptions C85_newer_names.
Print Assumptions C85_reread_refuted.
