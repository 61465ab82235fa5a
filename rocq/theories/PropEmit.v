(* Emitting example telemetry, and checking what was emitted. *)
From Coq Require Import String Ascii Bool Arith ZArith NArith Lia List.
Import ListNotations.
From Verif Require Import Base Json F64 SemTypes Resolved LiveModel LiveAdvisors LiveSpec BaseProofs LiveProofs LiveProofs2 LiveProofs3 IngestModel IngestSpec PropIngest EmitModel EmitSpec.
From Verif Require InferModel.
Local Open Scope string_scope.

(* ---------- values ---------- *)
Lemma stands v : stands_for v (value_of_spec v).
Proof. destruct v; reflexivity. Qed.
Lemma forall2_map_r {A B} (f : A -> B) l : Forall2 (fun x y => y = f x) l (map f l).
Proof. induction l; constructor; auto. Qed.
Lemma any_sent v : sent_value v (any_of v).
Proof. destruct v; cbn; try reflexivity; eexists; (split; [reflexivity|apply forall2_map_r]). Qed.
Lemma prim_has p e : value_has p (prim_value p e).
Proof. destruct p; cbn [prim_value]; try constructor; destruct e as [[]|]; constructor. Qed.
Lemma template_has p : value_has p (template_value p).
Proof. destruct p; constructor. Qed.
Lemma name_value_ok n t e k v : name_value n t e = Ok (k, v) ->
  k = (if is_template t then n ++ ".key" else n) /\ value_conforms t v.
Proof.
  destruct t as [p|p|[|m ms]]; cbn; intros E; try discriminate; injection E as <- <-; (split; [reflexivity|]); constructor.
  - apply prim_has.
  - apply template_has.
  - apply stands.
Qed.
Lemma name_value_err n t e : (exists m, name_value n t e = Err m) <-> t = TEnum [].
Proof.
  split.
  - intros (m & E). destruct t as [p|p|[|x ms]]; cbn in E; try discriminate. reflexivity.
  - intros ->. eexists. reflexivity.
Qed.

(* ---------- lists of results ---------- *)
Lemma rmap_all_ok {A B} (f : A -> res B) : forall l r, rmap_all f l = Ok r <-> Forall2 (fun x y => f x = Ok y) l r.
Proof.
  induction l as [|x t IH]; intros r; cbn [rmap_all].
  - split; [intros E; injection E as <-; constructor|]. intros H. inversion H. reflexivity.
  - unfold rbind. destruct (f x) as [y|e] eqn:E.
    + destruct (rmap_all f t) as [r'|e] eqn:E2.
      * split.
        -- intros H. injection H as <-. constructor; [exact E|]. apply IH. reflexivity.
        -- intros H. inversion H as [|x0 y0 l0 l1 H1 H2]; subst. rewrite E in H1. injection H1 as ->.
           apply IH in H2. congruence.
      * split; [discriminate|]. intros H. inversion H as [|x0 y0 l0 l1 H1 H2]; subst. apply IH in H2. discriminate.
    + split; [discriminate|]. intros H. inversion H as [|x0 y0 l0 l1 H1 H2]; subst. congruence.
Qed.
Lemma rmap_all_err {A B} (f : A -> res B) : forall l, (exists e, rmap_all f l = Err e) <-> exists x e, In x l /\ f x = Err e.
Proof.
  induction l as [|x t IH]; cbn [rmap_all].
  - split; [intros (e & E); discriminate|]. intros (x & e & [] & _).
  - unfold rbind. destruct (f x) as [y|e] eqn:E.
    + destruct (rmap_all f t) as [r'|e].
      * split; [intros (e & H); discriminate|]. intros (x' & e & [<-|H] & F); [congruence|].
        exfalso. assert (X : exists e', @Ok (list B) r' = Err e') by (apply IH; exists x', e; auto). destruct X as (e' & X). discriminate.
      * split; [|intros _; eexists; reflexivity]. intros _. destruct (proj1 IH) as (x' & e' & H & F); [eexists; reflexivity|].
        exists x', e'. split; [right; exact H|exact F].
    + split; [|intros _; eexists; reflexivity]. intros _. exists x, e. split; [left; reflexivity|exact E].
Qed.
Lemma rconcat_ok {A B} (f : A -> res (list B)) l r : rconcat f l = Ok r ->
  exists parts, Forall2 (fun x y => f x = Ok y) l parts /\ r = concat parts.
Proof.
  unfold rconcat, rbind. destruct (rmap_all f l) as [p|] eqn:E; [|discriminate]. intros H. injection H as <-.
  exists p. split; [apply rmap_all_ok; exact E|reflexivity].
Qed.
Lemma rconcat_err {A B} (f : A -> res (list B)) l : (exists e, rconcat f l = Err e) <-> exists x e, In x l /\ f x = Err e.
Proof.
  rewrite <- rmap_all_err. unfold rconcat, rbind. destruct (rmap_all f l); split; intros (e' & E); try discriminate; eexists; reflexivity.
Qed.
Lemma rconcat_in {A B} (f : A -> res (list B)) l r y : rconcat f l = Ok r ->
  (In y r <-> exists x part, In x l /\ f x = Ok part /\ In y part).
Proof.
  intros H. apply rconcat_ok in H as (parts & HF & ->). split.
  - intros H. apply in_concat in H as (part & Hp & Hy). revert Hp. induction HF as [|a b l1 l2 H1 H2 IH]; intros Hp; [destruct Hp|].
    destruct Hp as [->|Hp]; [exists a, part; cbn; auto|].
    destruct (IH Hp) as (x & p & ? & ? & ?). exists x, p. cbn. auto.
  - intros (x & part & Hx & Hp & Hy). apply in_concat. exists part. split; [|exact Hy]. clear Hy.
    induction HF as [|a b l1 l2 H1 H2 IH]; [destruct Hx|]. destruct Hx as [->|Hx]; [left; congruence|right; auto].
Qed.
Lemma rconcat_length {A B} (f : A -> res (list B)) (n : A -> nat) :
  (forall x p, f x = Ok p -> length p = n x) -> forall l r, rconcat f l = Ok r ->
  length r = fold_right (fun x acc => n x + acc) 0 l.
Proof.
  intros Hn l r H. apply rconcat_ok in H as (parts & HF & ->).
  induction HF as [|a b l1 l2 H1 H2 IH]; [reflexivity|]. cbn. rewrite app_length, IH, (Hn a b H1). reflexivity.
Qed.
Lemma rmap_all_length {A B} (f : A -> res B) l r : rmap_all f l = Ok r -> length r = length l.
Proof. intros H. apply rmap_all_ok in H. induction H; cbn; congruence. Qed.

(* ---------- attributes ---------- *)
Lemma kv_of {A} (n : A -> string) (t : A -> attr_type) (e : A -> option examples) (f : A -> res key_value) :
  (forall a, f a = (let* (k, v) := name_value (n a) (t a) (e a) in Ok (k, any_of v))) ->
  forall l kvs, rmap_all f l = Ok kvs -> attrs_emitted (map (fun a => (n a, t a)) l) kvs.
Proof.
  intros Hf l kvs H. apply rmap_all_ok in H. unfold attrs_emitted. induction H as [|a kv l1 l2 H1 H2 IH]; constructor; [|exact IH].
  rewrite Hf in H1. unfold rbind in H1. destruct (name_value (n a) (t a) (e a)) as [[k v]|] eqn:E; [|discriminate].
  injection H1 as <-. apply name_value_ok in E as (-> & Hc). cbn. split; [reflexivity|]. exists v. split; [exact Hc|apply any_sent].
Qed.
Lemma attrs1_emitted l kvs : rmap_all attr1_kv l = Ok kvs -> attrs_emitted (attrs1 l) kvs.
Proof. apply (kv_of at_name at_type at_examples). reflexivity. Qed.
Lemma attrs2_emitted l kvs : rmap_all attr2_kv l = Ok kvs -> attrs_emitted (attrs2 l) kvs.
Proof. apply (kv_of (fun a => va_key (ea_base a)) (fun a => va_type (ea_base a)) ea_examples). reflexivity. Qed.
Lemma kv_err {A} (n : A -> string) (t : A -> attr_type) (e : A -> option examples) (f : A -> res key_value) :
  (forall a, f a = (let* (k, v) := name_value (n a) (t a) (e a) in Ok (k, any_of v))) ->
  forall l, (exists m, rmap_all f l = Err m) <-> exists k, In (k, TEnum []) (map (fun a => (n a, t a)) l).
Proof.
  intros Hf l. rewrite rmap_all_err. split.
  - intros (a & m & Ha & E). rewrite Hf in E. unfold rbind in E. destruct (name_value (n a) (t a) (e a)) as [[k v]|] eqn:F; [discriminate|].
    exists (n a). apply in_map_iff. exists a. split; [|exact Ha]. f_equal. apply (proj1 (name_value_err (n a) (t a) (e a))). eexists. exact F.
  - intros (k & H). apply in_map_iff in H as (a & E & Ha). injection E as Ek Et.
    destruct (proj2 (name_value_err (n a) (t a) (e a)) Et) as (m & F). exists a, m. split; [exact Ha|]. rewrite Hf, F. reflexivity.
Qed.
Lemma attrs1_err l : (exists m, rmap_all attr1_kv l = Err m) <-> exists k, In (k, TEnum []) (attrs1 l).
Proof. apply (kv_err at_name at_type at_examples). reflexivity. Qed.
Lemma attrs2_err l : (exists m, rmap_all attr2_kv l = Err m) <-> exists k, In (k, TEnum []) (attrs2 l).
Proof. apply (kv_err (fun a => va_key (ea_base a)) (fun a => va_type (ea_base a)) ea_examples). reflexivity. Qed.

(* ---------- signals ---------- *)
Lemma kind_of k kind : otel_span_kind k = kind <-> (k = Some kind \/ k = None /\ kind = SkInternal).
Proof.
  destruct k as [k|].
  - destruct k; cbn; split; [intros <-; auto|intros [E|[E _]]; congruence|intros <-; auto|intros [E|[E _]]; congruence|intros <-; auto|intros [E|[E _]]; congruence|intros <-; auto|intros [E|[E _]]; congruence|intros <-; auto|intros [E|[E _]]; congruence].
  - cbn. split; [intros <-; auto|]. intros [E|[_ E]]; congruence.
Qed.
Lemma opt_get_empty o s : opt_get o "" = s <-> or_empty o s.
Proof.
  unfold or_empty. destruct o; cbn; split; [intros ->; auto|intros [E|[E _]]; congruence|intros <-; auto|intros [E|[_ E]]; congruence].
Qed.
Definition is_log (e : emitted) : Prop := match e with EmLog _ _ => True | _ => False end.
Definition is_metric (e : emitted) : Prop := match e with EmMetric _ _ _ _ _ => True | _ => False end.
Definition is_span (e : emitted) : Prop := match e with EmSpan _ _ _ => True | _ => False end.
Ltac parts H := unfold rbind in H; match type of H with context [rmap_all ?f ?l] =>
  let E := fresh "E" in destruct (rmap_all f l) as [?kvs|] eqn:E; [|discriminate H] end.

(* each part of what is emitted *)
Definition spans_part (r : eregistry) : res (list emitted) :=
  match r with EReg1 l => rconcat group_span l | EReg2 r => rconcat span2 (er_spans r) end.
Definition metrics_part (r : eregistry) : res (list emitted) :=
  match r with EReg1 l => rconcat group_metric l | EReg2 r => rconcat metric2 (er_metrics r) end.
Definition logs_part (r : eregistry) : res (list emitted) :=
  match r with EReg1 l => rconcat group_log l | EReg2 r => rconcat event2 (er_events r) end.
Lemma emit_parts r path : emit r path =
  (let* s := spans_part r in let* m := metrics_part r in let* g := logs_part r in Ok (root_span path :: app s (app m g))).
Proof. destruct r; reflexivity. Qed.

Lemma rconcat_gives {A B} (f : A -> res (list B)) l r x : rconcat f l = Ok r -> In x l -> exists part, f x = Ok part /\ incl part r.
Proof.
  intros H Hx. pose proof H as H0. apply rconcat_ok in H as (parts & HF & ->).
  assert (X : exists part, f x = Ok part).
  { clear H0. induction HF as [|a b l1 l2 H1 H2 IH]; [destruct Hx|]. destruct Hx as [->|Hx]; [eexists; exact H1|auto]. }
  destruct X as (part & Hp). exists part. split; [exact Hp|]. intros y Hy. apply (rconcat_in _ _ _ _ H0). exists x, part. auto.
Qed.
Lemma spans_in r l : spans_part r = Ok l ->
  (forall e, In e l -> exists n k kvs attrs, e = EmSpan n k kvs /\ span_emitted r n k attrs /\ attrs_emitted attrs kvs) /\
  (forall n k attrs, span_emitted r n k attrs -> exists kvs, In (EmSpan n k kvs) l /\ attrs_emitted attrs kvs).
Proof.
  intros H. destruct r as [gs|r]; cbn [spans_part] in H; split.
  - intros e He. apply (rconcat_in _ _ _ _ H) in He as (g & part & Hg & Hp & He). unfold group_span in Hp.
    destruct (group_type_eqb (vg_type (eg_group g)) GSpan) eqn:T; [|injection Hp as <-; destruct He].
    parts Hp. injection Hp as <-. destruct He as [<-|[]]. do 4 eexists. split; [reflexivity|]. split.
    + exists g. split; [exact Hg|]. split; [apply group_type_eqb_spec; exact T|]. split; [reflexivity|].
      split; [apply kind_of; reflexivity|reflexivity].
    + apply attrs1_emitted. exact E.
  - intros n k attrs (g & Hg & Ht & -> & Hk & ->). destruct (rconcat_gives _ _ _ _ H Hg) as (part & Hp & Hi).
    unfold group_span in Hp. rewrite (proj2 (group_type_eqb_spec _ _) Ht) in Hp.
    parts Hp. injection Hp as <-. exists kvs. split; [|apply attrs1_emitted; exact E].
    apply Hi. left. f_equal. apply kind_of. exact Hk.
  - intros e He. apply (rconcat_in _ _ _ _ H) in He as (g & part & Hg & Hp & He). unfold span2 in Hp.
    parts Hp. injection Hp as <-. destruct He as [<-|[]]. do 4 eexists. split; [reflexivity|]. split.
    + exists g. split; [exact Hg|]. split; [reflexivity|]. split; [|reflexivity]. destruct (es_kind g); reflexivity.
    + apply attrs2_emitted. exact E.
  - intros n k attrs (g & Hg & -> & -> & ->). destruct (rconcat_gives _ _ _ _ H Hg) as (part & Hp & Hi). unfold span2 in Hp.
    parts Hp. injection Hp as <-. exists kvs. split; [|apply attrs2_emitted; exact E].
    apply Hi. left. f_equal. destruct (es_kind g); reflexivity.
Qed.
Lemma metrics_in r l : metrics_part r = Ok l ->
  (forall e, In e l -> exists s i n u d kvs attrs, e = EmMetric i n u d kvs /\ metric_emitted r s i n u d attrs /\ attrs_emitted attrs kvs) /\
  (forall s i n u d attrs, metric_emitted r s i n u d attrs -> exists kvs, In (EmMetric i n u d kvs) l /\ attrs_emitted attrs kvs).
Proof.
  intros H. destruct r as [gs|r]; cbn [metrics_part] in H; split.
  - intros e He. apply (rconcat_in _ _ _ _ H) in He as (g & part & Hg & Hp & He). unfold group_metric in Hp.
    destruct (group_type_eqb (vg_type (eg_group g)) GMetric) eqn:T; [|injection Hp as <-; destruct He].
    destruct (vg_instrument (eg_group g)) as [i|] eqn:Ei; [|injection Hp as <-; destruct He].
    parts Hp. injection Hp as <-. destruct He as [<-|[]]. exists (VSGroup (eg_group g)). do 6 eexists. split; [reflexivity|]. split.
    + exists g. split; [exact Hg|]. split; [apply group_type_eqb_spec; exact T|]. split; [exact Ei|].
      split; [apply opt_get_empty; reflexivity|]. split; [apply opt_get_empty; reflexivity|]. repeat split.
    + apply attrs1_emitted. exact E.
  - intros s i n u d attrs (g & Hg & Ht & Hi & Hn & Hu & -> & -> & _). destruct (rconcat_gives _ _ _ _ H Hg) as (part & Hp & Hin).
    unfold group_metric in Hp. rewrite (proj2 (group_type_eqb_spec _ _) Ht), Hi in Hp.
    apply opt_get_empty in Hn, Hu. rewrite Hn, Hu in Hp.
    parts Hp. injection Hp as <-. exists kvs. split; [|apply attrs1_emitted; exact E]. apply Hin. left. reflexivity.
  - intros e He. apply (rconcat_in _ _ _ _ H) in He as (g & part & Hg & Hp & He). unfold metric2 in Hp.
    parts Hp. injection Hp as <-. destruct He as [<-|[]]. exists (VSMetric (metric_view g)). do 6 eexists. split; [reflexivity|]. split.
    + exists g. split; [exact Hg|]. repeat split.
    + apply attrs2_emitted. exact E.
  - intros s i n u d attrs (g & Hg & -> & -> & -> & -> & -> & _). destruct (rconcat_gives _ _ _ _ H Hg) as (part & Hp & Hi). unfold metric2 in Hp.
    parts Hp. injection Hp as <-. exists kvs. split; [|apply attrs2_emitted; exact E]. apply Hi. left. reflexivity.
Qed.
Lemma logs_in r l : logs_part r = Ok l ->
  (forall e, In e l -> exists s n kvs attrs, e = EmLog n kvs /\ event_emitted r s n attrs /\ attrs_emitted attrs kvs) /\
  (forall s n attrs, event_emitted r s n attrs -> exists kvs, In (EmLog n kvs) l /\ attrs_emitted attrs kvs).
Proof.
  intros H. destruct r as [gs|r]; cbn [logs_part] in H; split.
  - intros e He. apply (rconcat_in _ _ _ _ H) in He as (g & part & Hg & Hp & He). unfold group_log in Hp.
    destruct (group_type_eqb (vg_type (eg_group g)) GEvent) eqn:T; [|injection Hp as <-; destruct He].
    parts Hp. injection Hp as <-. destruct He as [<-|[]]. exists (VSGroup (eg_group g)). do 3 eexists. split; [reflexivity|]. split.
    + exists g. split; [exact Hg|]. split; [apply group_type_eqb_spec; exact T|]. split; [|repeat split].
      destruct (vg_name (eg_group g)); cbn; auto.
    + apply attrs1_emitted. exact E.
  - intros s n attrs (g & Hg & Ht & Hn & -> & _). destruct (rconcat_gives _ _ _ _ H Hg) as (part & Hp & Hin).
    unfold group_log in Hp. rewrite (proj2 (group_type_eqb_spec _ _) Ht) in Hp.
    parts Hp. injection Hp as <-. exists kvs. split; [|apply attrs1_emitted; exact E]. apply Hin. left.
    destruct Hn as [Hn|[Hn ->]]; rewrite Hn; reflexivity.
  - intros e He. apply (rconcat_in _ _ _ _ H) in He as (g & part & Hg & Hp & He). unfold event2 in Hp.
    parts Hp. injection Hp as <-. destruct He as [<-|[]]. exists (VSEvent (event_view g)). do 3 eexists. split; [reflexivity|]. split.
    + exists g. split; [exact Hg|]. repeat split.
    + apply attrs2_emitted. exact E.
  - intros s n attrs (g & Hg & -> & -> & _). destruct (rconcat_gives _ _ _ _ H Hg) as (part & Hp & Hi). unfold event2 in Hp.
    parts Hp. injection Hp as <-. exists kvs. split; [|apply attrs2_emitted; exact E]. apply Hi. left. reflexivity.
Qed.
Lemma emit_ok r path l : emit r path = Ok l -> exists s m g, spans_part r = Ok s /\ metrics_part r = Ok m /\ logs_part r = Ok g /\
  l = root_span path :: app s (app m g).
Proof.
  rewrite emit_parts. unfold rbind. destruct (spans_part r) as [s|]; [|discriminate]. destruct (metrics_part r) as [m|]; [|discriminate].
  destruct (logs_part r) as [g|]; [|discriminate]. intros H. injection H as <-. exists s, m, g. auto.
Qed.
Lemma len_one {A B} (f : A -> res (list B)) l r : (forall x p, f x = Ok p -> length p = 1) -> rconcat f l = Ok r -> length r = length l.
Proof.
  intros Hf H. rewrite (rconcat_length f (fun _ => 1) Hf l r H). clear. induction l as [|x t IH]; [reflexivity|]. cbn [fold_right length]. rewrite IH. reflexivity.
Qed.
Lemma emit_length r path l : emit r path = Ok l -> length l = S (signal_count r).
Proof.
  intros H. apply emit_ok in H as (s & m & g & Hs & Hm & Hg & ->). cbn [length]. rewrite !app_length. f_equal.
  destruct r as [gs|r]; cbn [spans_part metrics_part logs_part signal_count] in *.
  - rewrite (rconcat_length _ (fun g => if group_type_eqb (vg_type (eg_group g)) GSpan then 1 else 0)) with (2 := Hs).
    2:{ intros x p E. unfold group_span in E. destruct (group_type_eqb _ _); [parts E|]; injection E as <-; reflexivity. }
    rewrite (rconcat_length _ (fun g => if group_type_eqb (vg_type (eg_group g)) GMetric then match vg_instrument (eg_group g) with Some _ => 1 | None => 0 end else 0)) with (2 := Hm).
    2:{ intros x p E. unfold group_metric in E. destruct (group_type_eqb _ _); [|injection E as <-; reflexivity].
        destruct (vg_instrument _); [parts E|]; injection E as <-; reflexivity. }
    rewrite (rconcat_length _ (fun g => if group_type_eqb (vg_type (eg_group g)) GEvent then 1 else 0)) with (2 := Hg).
    2:{ intros x p E. unfold group_log in E. destruct (group_type_eqb _ _); [parts E|]; injection E as <-; reflexivity. }
    clear. induction gs as [|x t IH]; [reflexivity|]. cbn [fold_right filter].
    destruct (vg_type (eg_group x)); cbn [group_type_eqb]; try (cbn [length]; lia); destruct (vg_instrument (eg_group x)); cbn [length]; lia.
  - rewrite (len_one span2) with (2 := Hs), (len_one metric2) with (2 := Hm), (len_one event2) with (2 := Hg).
    + lia.
    + intros x p E. unfold event2 in E. parts E. injection E as <-. reflexivity.
    + intros x p E. unfold metric2 in E. parts E. injection E as <-. reflexivity.
    + intros x p E. unfold span2 in E. parts E. injection E as <-. reflexivity.
Qed.

(* C80: each span, metric and event of the registry is emitted once, besides the span of the command, under its name
   and with a value of the declared type for each of its attributes. *)
Theorem C80_emitted : forall r path l, emit r path = Ok l ->
  (forall e, In e l ->
     (e = EmSpan "otel.weaver.emit" SkInternal [("otel.weaver.registry_path", InferModel.AnyString path)]) \/
     (exists n k kvs attrs, e = EmSpan n k kvs /\ span_emitted r n k attrs /\ attrs_emitted attrs kvs) \/
     (exists s i n u d kvs attrs, e = EmMetric i n u d kvs /\ metric_emitted r s i n u d attrs /\ attrs_emitted attrs kvs) \/
     (exists s n kvs attrs, e = EmLog n kvs /\ event_emitted r s n attrs /\ attrs_emitted attrs kvs)) /\
  (forall n k attrs, span_emitted r n k attrs -> exists kvs, In (EmSpan n k kvs) l /\ attrs_emitted attrs kvs) /\
  (forall s i n u d attrs, metric_emitted r s i n u d attrs -> exists kvs, In (EmMetric i n u d kvs) l /\ attrs_emitted attrs kvs) /\
  (forall s n attrs, event_emitted r s n attrs -> exists kvs, In (EmLog n kvs) l /\ attrs_emitted attrs kvs) /\
  length l = S (signal_count r).
Proof.
  intros r path l H. pose proof (emit_length _ _ _ H) as HL. apply emit_ok in H as (s & m & g & Hs & Hm & Hg & ->).
  destruct (spans_in _ _ Hs) as [S1 S2]. destruct (metrics_in _ _ Hm) as [M1 M2]. destruct (logs_in _ _ Hg) as [L1 L2].
  split; [|split; [|split; [|split; [|exact HL]]]].
  - intros e [<-|He]; [left; reflexivity|]. right. apply in_app_iff in He as [He|He]; [left; auto|].
    apply in_app_iff in He as [He|He]; right; [left|right]; auto.
  - intros n k attrs X. destruct (S2 _ _ _ X) as (kvs & HI & HA). exists kvs. split; [|exact HA]. right. apply in_app_iff. auto.
  - intros q i n u d attrs X. destruct (M2 _ _ _ _ _ _ X) as (kvs & HI & HA). exists kvs. split; [|exact HA].
    right. rewrite !in_app_iff. auto.
  - intros q n attrs X. destruct (L2 _ _ _ X) as (kvs & HI & HA). exists kvs. split; [|exact HA]. right. rewrite !in_app_iff. auto.
Qed.
Print Assumptions C80_emitted.

(* the command panics just when a signal it emits uses an enum without members *)
Lemma part_err {A} (x : res (list A)) (f : list A -> res (list emitted)) e : rbind x f = Err e ->
  x = Err e \/ exists y, x = Ok y /\ f y = Err e.
Proof. destruct x; cbn; intros H; [right; eexists; split; [reflexivity|exact H]|left; congruence]. Qed.
Lemma spans_err r : (exists e, spans_part r = Err e) <-> exists n k l a, span_emitted r n k l /\ In (a, TEnum []) l.
Proof.
  destruct r as [gs|r]; cbn [spans_part]; rewrite rconcat_err; split.
  - intros (g & e & Hg & E). unfold group_span in E. destruct (group_type_eqb _ _) eqn:T; [|discriminate].
    apply part_err in E as [E|(y & _ & E)]; [|discriminate]. destruct (proj1 (attrs1_err _) (ex_intro _ e E)) as (a & Ha).
    do 4 eexists. split; [|exact Ha]. exists g. split; [exact Hg|]. split; [apply group_type_eqb_spec; exact T|]. split; [reflexivity|].
    split; [apply kind_of; reflexivity|reflexivity].
  - intros (n & k & l & a & (g & Hg & Ht & _ & _ & ->) & Ha). destruct (proj2 (attrs1_err _) (ex_intro _ a Ha)) as (e & E).
    exists g, e. split; [exact Hg|]. unfold group_span. rewrite (proj2 (group_type_eqb_spec _ _) Ht), E. reflexivity.
  - intros (g & e & Hg & E). unfold span2 in E. apply part_err in E as [E|(y & _ & E)]; [|discriminate].
    destruct (proj1 (attrs2_err _) (ex_intro _ e E)) as (a & Ha). do 4 eexists. split; [|exact Ha]. exists g. repeat split. exact Hg.
  - intros (n & k & l & a & (g & Hg & _ & _ & ->) & Ha). destruct (proj2 (attrs2_err _) (ex_intro _ a Ha)) as (e & E).
    exists g, e. split; [exact Hg|]. unfold span2. rewrite E. reflexivity.
Qed.
Lemma metrics_err r : (exists e, metrics_part r = Err e) <-> exists s i n u d l a, metric_emitted r s i n u d l /\ In (a, TEnum []) l.
Proof.
  destruct r as [gs|r]; cbn [metrics_part]; rewrite rconcat_err; split.
  - intros (g & e & Hg & E). unfold group_metric in E. destruct (group_type_eqb _ _) eqn:T; [|discriminate].
    destruct (vg_instrument (eg_group g)) eqn:Ei; [|discriminate].
    apply part_err in E as [E|(y & _ & E)]; [|discriminate]. destruct (proj1 (attrs1_err _) (ex_intro _ e E)) as (a & Ha).
    do 7 eexists. split; [|exact Ha]. exists g. split; [exact Hg|]. split; [apply group_type_eqb_spec; exact T|].
    split; [exact Ei|]. split; [apply opt_get_empty; reflexivity|]. split; [apply opt_get_empty; reflexivity|]. repeat split.
  - intros (s & i & n & u & d & l & a & (g & Hg & Ht & Hi & _ & _ & _ & -> & _) & Ha). destruct (proj2 (attrs1_err _) (ex_intro _ a Ha)) as (e & E).
    exists g, e. split; [exact Hg|]. unfold group_metric. rewrite (proj2 (group_type_eqb_spec _ _) Ht), Hi, E. reflexivity.
  - intros (g & e & Hg & E). unfold metric2 in E. apply part_err in E as [E|(y & _ & E)]; [|discriminate].
    destruct (proj1 (attrs2_err _) (ex_intro _ e E)) as (a & Ha). do 7 eexists. split; [|exact Ha]. exists g. repeat split. exact Hg.
  - intros (s & i & n & u & d & l & a & (g & Hg & _ & _ & _ & _ & -> & _) & Ha). destruct (proj2 (attrs2_err _) (ex_intro _ a Ha)) as (e & E).
    exists g, e. split; [exact Hg|]. unfold metric2. rewrite E. reflexivity.
Qed.
Lemma logs_err r : (exists e, logs_part r = Err e) <-> exists s n l a, event_emitted r s n l /\ In (a, TEnum []) l.
Proof.
  destruct r as [gs|r]; cbn [logs_part]; rewrite rconcat_err; split.
  - intros (g & e & Hg & E). unfold group_log in E. destruct (group_type_eqb _ _) eqn:T; [|discriminate].
    apply part_err in E as [E|(y & _ & E)]; [|discriminate]. destruct (proj1 (attrs1_err _) (ex_intro _ e E)) as (a & Ha).
    exists (VSGroup (eg_group g)), (opt_get (vg_name (eg_group g)) (vg_id (eg_group g))). do 2 eexists. split; [|exact Ha].
    exists g. split; [exact Hg|]. split; [apply group_type_eqb_spec; exact T|]. split; [|repeat split].
    destruct (vg_name (eg_group g)); cbn; auto.
  - intros (s & n & l & a & (g & Hg & Ht & _ & -> & _) & Ha). destruct (proj2 (attrs1_err _) (ex_intro _ a Ha)) as (e & E).
    exists g, e. split; [exact Hg|]. unfold group_log. rewrite (proj2 (group_type_eqb_spec _ _) Ht), E. reflexivity.
  - intros (g & e & Hg & E). unfold event2 in E. apply part_err in E as [E|(y & _ & E)]; [|discriminate].
    destruct (proj1 (attrs2_err _) (ex_intro _ e E)) as (a & Ha). do 4 eexists. split; [|exact Ha]. exists g. repeat split. exact Hg.
  - intros (s & n & l & a & (g & Hg & _ & -> & _) & Ha). destruct (proj2 (attrs2_err _) (ex_intro _ a Ha)) as (e & E).
    exists g, e. split; [exact Hg|]. unfold event2. rewrite E. reflexivity.
Qed.
Theorem C80_panics : forall r path, (exists e, emit r path = Err e) <-> exists n, used r n (TEnum []).
Proof.
  intros r path. rewrite emit_parts. split.
  - intros (e & E). apply part_err in E as [E|(y & _ & E)].
    + destruct (proj1 (spans_err r) (ex_intro _ e E)) as (n & k & l & a & H & Ha). exists a, l. split; [exact Ha|]. left. eauto.
    + apply part_err in E as [E|(z & _ & E)].
      * destruct (proj1 (metrics_err r) (ex_intro _ e E)) as (s & i & n & u & d & l & a & H & Ha). exists a, l. split; [exact Ha|].
        right; left. do 5 eexists. exact H.
      * apply part_err in E as [E|(w & _ & E)]; [|discriminate].
        destruct (proj1 (logs_err r) (ex_intro _ e E)) as (s & n & l & a & H & Ha). exists a, l. split; [exact Ha|].
        right; right. eauto.
  - intros (a & l & Ha & H).
    assert (X : (exists e, spans_part r = Err e) \/ (exists e, metrics_part r = Err e) \/ exists e, logs_part r = Err e).
    { destruct H as [(n & k & H)|[(s & i & n & u & d & H)|(s & n & H)]].
      - left. apply spans_err. do 4 eexists. split; [exact H|exact Ha].
      - right; left. apply metrics_err. do 7 eexists. split; [exact H|exact Ha].
      - right; right. apply logs_err. do 4 eexists. split; [exact H|exact Ha]. }
    unfold rbind. destruct (spans_part r) as [x|e]; [|eexists; reflexivity]. destruct (metrics_part r) as [y|e]; [|eexists; reflexivity].
    destruct (logs_part r) as [z|e]; [|eexists; reflexivity]. destruct X as [(e & E)|[(e & E)|(e & E)]]; discriminate.
Qed.
Print Assumptions C80_panics.

(* the value is the first declared example, except for booleans *)
Theorem C80_example_partial : forall n p e v w, p <> PBoolean -> p <> PBooleans ->
  first_example p e w -> name_value n (TPrim p) (Some e) = Ok (n, v) -> v = w.
Proof.
  intros n p e v w N1 N2 H E. cbn in E. injection E as <-.
  destruct H; try congruence; try reflexivity; destruct s; cbn in *; congruence.
Qed.
Print Assumptions C80_example_partial.
Theorem C80_boolean_example_refuted : exists n e v w,
  first_example PBoolean e w /\ name_value n (TPrim PBoolean) (Some e) = Ok (n, v) /\ v <> w.
Proof. exists "a", (EBool false), (OvBool true), (OvBool false). split; [constructor|]. split; [reflexivity|discriminate]. Qed.
Print Assumptions C80_boolean_example_refuted.
