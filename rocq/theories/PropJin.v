(* C115: JSON samples are read as they say, and what a live check writes can be read again. *)
From Coq Require Import String Ascii Bool Arith ZArith NArith Lia Permutation List.
Import ListNotations.
From Verif Require Import Base Json SemTypes JinModel JinSpec JinProofs.
From Verif Require LiveModel LiveAdvisors PolicyModel ResultModel.
Local Open Scope string_scope.

(* ---------- the document ---------- *)
(* The samples are those of the array, each read by itself, in its order; a document with one
   sample that cannot be read gives none. *)
Theorem C115_each : forall f v l,
  ingest f v = Some l <->
  exists vs, v = JArr vs /\ Forall2 (fun v s => read_sample f v = Some s) vs l.
Proof.
  intros f v l. unfold ingest. split.
  - destruct v as [| | | |vs|]; cbn; try discriminate. intros H. exists vs. split; [reflexivity|].
    apply each_spec. exact H.
  - intros (vs & -> & H). apply each_spec. exact H.
Qed.
Print Assumptions C115_each.

Theorem C115_all_or_nothing : forall f vs v,
  In v vs -> read_sample f v = None -> ingest f (JArr vs) = None.
Proof. intros f vs v Hin Hv. exact (each_none _ v vs Hin Hv). Qed.
Print Assumptions C115_all_or_nothing.

(* A sample is an object of one key, which says its kind. *)
Theorem C115_kind : forall f v s,
  read_sample f v = Some s <->
  exists body, v = JObj [(tag s, body)] /\ read_as f (kind_of s) body = Some (TSample s).
Proof.
  intros f v s. split.
  - destruct v as [| | | | |[|[k b] [|]]]; try discriminate. cbn [read_sample].
    destruct (String.eqb_spec k "attribute") as [->|_];
      [intros H; exists b; destruct (read_attr b) as [x|] eqn:E; [|discriminate]; injection H as <-;
       split; [reflexivity|cbn; rewrite E; reflexivity]|].
    destruct (String.eqb_spec k "span") as [->|_];
      [intros H; exists b; destruct (read_span b) as [x|] eqn:E; [|discriminate]; injection H as <-;
       split; [reflexivity|cbn; rewrite E; reflexivity]|].
    destruct (String.eqb_spec k "span_event") as [->|_];
      [intros H; exists b; destruct (read_event b) as [x|] eqn:E; [|discriminate]; injection H as <-;
       split; [reflexivity|cbn; rewrite E; reflexivity]|].
    destruct (String.eqb_spec k "span_link") as [->|_];
      [intros H; exists b; destruct (read_link b) as [x|] eqn:E; [|discriminate]; injection H as <-;
       split; [reflexivity|cbn; rewrite E; reflexivity]|].
    destruct (String.eqb_spec k "resource") as [->|_];
      [intros H; exists b; destruct (read_resource b) as [x|] eqn:E; [|discriminate]; injection H as <-;
       split; [reflexivity|cbn; rewrite E; reflexivity]|].
    destruct (String.eqb_spec k "instrumentation_scope") as [->|_];
      [intros H; exists b; destruct (read_scope b) as [x|] eqn:E; [|discriminate]; injection H as <-;
       split; [reflexivity|cbn; rewrite E; reflexivity]|].
    destruct (String.eqb_spec k "metric") as [->|_];
      [intros H; exists b; destruct (read_metric f b) as [x|] eqn:E; [|discriminate]; injection H as <-;
       split; [reflexivity|cbn; rewrite E; reflexivity]|].
    destruct (String.eqb_spec k "log") as [->|_];
      [intros H; exists b; destruct (read_log b) as [x|] eqn:E; [|discriminate]; injection H as <-;
       split; [reflexivity|cbn; rewrite E; reflexivity]|].
    destruct (String.eqb_spec k "profile") as [->|_];
      [intros H; exists b; destruct (read_profile b) as [x|] eqn:E; [|discriminate]; injection H as <-;
       split; [reflexivity|cbn; rewrite E; reflexivity]|].
    discriminate.
  - intros (b & -> & H). destruct s; cbn in H |- *;
      match goal with H : option_map _ ?o = _ |- _ => destruct o; [|discriminate]; cbn in H end;
      injection H as ->; reflexivity.
Qed.
Print Assumptions C115_kind.

(* ---------- the fields of an entity ---------- *)
Lemma req_ext : forall {A} (rd : json -> option A) k m m', under k m = under k m' ->
  required rd k m = required rd k m'.
Proof. intros. unfold required. now rewrite (field_ext k m m'). Qed.
Lemma opt_ext : forall {A} (rd : json -> option A) k m m', under k m = under k m' ->
  optional rd k m = optional rd k m'.
Proof. intros. unfold optional. now rewrite (field_ext k m m'). Qed.
Lemma def_ext : forall {A} (d : A) (rd : json -> option A) k m m', under k m = under k m' ->
  defaulted d rd k m = defaulted d rd k m'.
Proof. intros. unfold defaulted. now rewrite (field_ext k m m'). Qed.

Ltac readers := cbn [read_as]; unfold read_attr, read_span, read_event, read_link, read_resource, read_scope,
  read_metric, read_log, read_profile, read_number, read_histogram, read_exponential, read_buckets,
  read_exemplar, read_status, result_of; cbn [entries obind].
Ltac ext m m' tac := repeat match goal with
  | |- context [required ?rd ?k m] => rewrite (req_ext rd k m m') by tac
  | |- context [optional ?rd ?k m] => rewrite (opt_ext rd k m m') by tac
  | |- context [defaulted ?d ?rd ?k m] => rewrite (def_ext d rd k m m') by tac
  end.

(* What an object is read as depends only on the fields of its kind: neither the order of its
   entries nor an entry under any other key changes it. *)
Theorem C115_keys : forall f k m m',
  (forall key, In key (map fst (table k)) -> under key m = under key m') ->
  read_as f k (JObj m) = read_as f k (JObj m').
Proof.
  intros f k m m' H.
  destruct k; cbn [table map fst] in H; readers; ext m m' ltac:(apply H; cbn; tauto); reflexivity.
Qed.
Print Assumptions C115_keys.

Lemma filter_perm : forall {A} (p : A -> bool) l l', Permutation l l' -> Permutation (filter p l) (filter p l').
Proof.
  intros A p l l' H. induction H; cbn.
  - constructor.
  - destruct (p x); [constructor|]; assumption.
  - destruct (p x), (p y); try apply Permutation_refl. constructor.
  - etransitivity; eassumption.
Qed.
Lemma under_nodup : forall key m, NoDup (map fst m) -> under key m = [] \/ exists v, under key m = [v].
Proof.
  intros key m. unfold under. induction m as [|[k v] m IH]; [left; reflexivity|].
  cbn. intros H. inversion H as [|? ? Hn Hd]; subst. destruct (String.eqb_spec k key) as [->|_].
  - right. exists v. cbn. f_equal. clear IH H Hd.
    induction m as [|[k' v'] m IHm]; [reflexivity|]. cbn.
    destruct (String.eqb_spec k' key) as [->|_]; [destruct Hn; left; reflexivity|].
    apply IHm. intros Hin. apply Hn. right. exact Hin.
  - exact (IH Hd).
Qed.
Theorem C115_order : forall f k m m',
  NoDup (map fst m) -> Permutation m m' -> read_as f k (JObj m) = read_as f k (JObj m').
Proof.
  intros f k m m' Hn Hp. apply C115_keys. intros key _.
  assert (P : Permutation (under key m) (under key m')).
  { unfold under. apply Permutation_map. apply filter_perm. exact Hp. }
  destruct (under_nodup key m Hn) as [E|[v E]]; rewrite E in *; symmetry.
  - apply Permutation_nil. exact P.
  - apply Permutation_length_1_inv. exact P.
Qed.
Print Assumptions C115_order.

Lemma under_other : forall k k' v m, String.eqb k' k = false -> under k (m ++ [(k', v)]) = under k m.
Proof.
  intros k k' v m H. unfold under. rewrite filter_app, map_app. cbn [filter fst]. rewrite H. cbn. apply app_nil_r.
Qed.
Lemma under_new : forall k v m, under k m = [] -> under k (m ++ [(k, v)]) = [v].
Proof.
  intros k v m H. unfold under in *. rewrite filter_app, map_app, H. cbn [filter fst].
  rewrite String.eqb_refl. reflexivity.
Qed.
Lemma opt_zero : forall {A} (rd : json -> option A) k m, under k m = [] -> optional rd k m = Some None.
Proof. intros A rd k m H. unfold optional. rewrite (field_zero k m H). reflexivity. Qed.
Lemma def_zero : forall {A} (d : A) (rd : json -> option A) k m, under k m = [] -> defaulted d rd k m = Some d.
Proof. intros A d rd k m H. unfold defaulted. rewrite (field_zero k m H). reflexivity. Qed.
Lemma map_none : forall {A B} (g : A -> B) o, o = None -> option_map g o = None.
Proof. intros A B g o ->. reflexivity. Qed.
Ltac alternatives H := match type of H with
  | _ \/ _ => destruct H as [H|H]; [|alternatives H]
  | False => destruct H
  end.
Ltac cases H := cbn [table In] in H; alternatives H; try discriminate H.
Ltac skip := apply obind_none; intro.

(* a field that must be there *)
Theorem C115_needed : forall f k key m,
  In (key, Needed) (table k) -> under key m = [] -> read_as f k (JObj m) = None.
Proof.
  intros f k key m Hin Hm. destruct k; cases Hin; injection Hin as <-; readers;
    apply map_none; repeat (first [rewrite (req_zero _ _ m Hm); reflexivity | skip]).
Qed.
Print Assumptions C115_needed.

(* a field that may be null *)
Theorem C115_optional : forall f k key m,
  In (key, Optional) (table k) -> under key m = [] ->
  read_as f k (JObj (m ++ [(key, JNull)])) = read_as f k (JObj m).
Proof.
  intros f k key m Hin Hm. destruct k; cases Hin; injection Hin as <-; readers;
    match goal with |- context [optional _ _ (m ++ [(?key, JNull)])] =>
      ext (m ++ [(key, JNull)])%list m ltac:(apply under_other; reflexivity)
    end;
    rewrite (opt_zero _ _ m Hm), (opt_null _ _ _ (under_new _ JNull m Hm)); reflexivity.
Qed.
Print Assumptions C115_optional.

(* a field with a default *)
Theorem C115_default : forall f k key d m,
  In (key, Default d) (table k) -> under key m = [] ->
  read_as f k (JObj (m ++ [(key, d)])) = read_as f k (JObj m).
Proof.
  intros f k key d m Hin Hm. destruct k; cases Hin; injection Hin as <- <-; readers;
    match goal with |- context [(m ++ [(?key, ?d)])%list] =>
      ext (m ++ [(key, d)])%list m ltac:(apply under_other; reflexivity);
      rewrite (def_zero _ _ _ m Hm); rewrite (def_one _ _ _ _ _ (under_new _ d m Hm)); reflexivity
    end.
Qed.
Print Assumptions C115_default.

(* A field with a default may be left out, but null is not taken for that: the document is
   refused. *)
Theorem C115_null_refuted : forall f k key d m,
  In (key, Default d) (table k) -> under key m = [] ->
  read_as f k (JObj (m ++ [(key, JNull)])) = None.
Proof.
  intros f k key d m Hin Hm. destruct k; cases Hin; injection Hin as <- <-; readers;
    apply map_none; repeat (first [rewrite (def_one _ _ _ _ _ (under_new _ JNull m Hm)); reflexivity | skip]).
Qed.
Print Assumptions C115_null_refuted.

(* a field given twice *)
Theorem C115_twice : forall f k key m v w r,
  In key (map fst (table k)) -> under key m = v :: w :: r -> read_as f k (JObj m) = None.
Proof.
  intros f k key m v w r Hin Hm. apply field_more in Hm.
  assert (Hr : forall A (rd : json -> option A), required rd key m = None)
    by (intros; unfold required; rewrite Hm; reflexivity).
  assert (Ho : forall A (rd : json -> option A), optional rd key m = None)
    by (intros; unfold optional; rewrite Hm; reflexivity).
  assert (Hd : forall A d (rd : json -> option A), defaulted d rd key m = None)
    by (intros; unfold defaulted; rewrite Hm; reflexivity).
  destruct k; cbn [table map fst] in Hin; repeat (destruct Hin as [<- | Hin]; [readers; apply map_none;
    repeat (first [rewrite Hr; reflexivity | rewrite Ho; reflexivity | rewrite Hd; reflexivity | skip])|]);
    destruct Hin.
Qed.
Print Assumptions C115_twice.

(* ---------- attributes ---------- *)
(* An attribute has the name and the value that are given, a null value is none; its type is the one
   given or else the one its value shows; a result that stands in the document is not taken over. *)
Theorem C115_attribute : forall m a,
  read_attr (JObj m) = Some a ->
  under "name" m = [JStr (LiveModel.sa_name a)] /\
  match LiveModel.sa_value a with
  | Some v => under "value" m = [v] /\ v <> JNull
  | None => under "value" m = [] \/ under "value" m = [JNull]
  end /\
  (forall t, under "type" m = [JStr t] -> exists p, LiveModel.sa_type a = Some p /\ prim_str p = t) /\
  (under "type" m = [] \/ under "type" m = [JNull] ->
   LiveModel.sa_type a = match LiveModel.sa_value a with
                         | Some v => LiveAdvisors.infer_type v
                         | None => None
                         end) /\
  LiveModel.sa_result a = None.
Proof.
  intros m a. unfold read_attr. cbn [entries obind].
  assert (Hreq : forall n, required read_string "name" m = Some n -> under "name" m = [JStr n]).
  { intros n. destruct (under "name" m) as [|v [|w r]] eqn:E.
    - rewrite (req_zero _ _ m E). discriminate.
    - rewrite (req_one _ _ m v E). destruct v; cbn; try discriminate. intros [= ->]. reflexivity.
    - unfold required. rewrite (field_more _ _ _ _ _ E). discriminate. }
  destruct (required read_string "name" m) as [n|]; [|discriminate].
  specialize (Hreq n eq_refl). cbn [obind].
  assert (Hval : forall o, optional read_value "value" m = Some o ->
    match o with
    | Some v => under "value" m = [v] /\ v <> JNull
    | None => under "value" m = [] \/ under "value" m = [JNull]
    end).
  { intros o. destruct (under "value" m) as [|v [|w r]] eqn:E.
    - rewrite (opt_zero _ _ m E). intros [= <-]. left. reflexivity.
    - destruct (json_eqb v JNull) eqn:Ev.
      + destruct v; try discriminate. rewrite (opt_null _ _ m E). intros [= <-]. right. reflexivity.
      + assert (Hv : v <> JNull) by (intros ->; discriminate).
        rewrite (opt_one _ _ m v E Hv). cbn. intros [= <-]. split; [reflexivity|exact Hv].
    - unfold optional. rewrite (field_more _ _ _ _ _ E). discriminate. }
  destruct (optional read_value "value" m) as [x|]; [|discriminate].
  specialize (Hval x eq_refl). cbn [obind].
  destruct (optional (read_named prim_of_name) "type" m) as [t|] eqn:Et; [|discriminate].
  cbn [obind]. intros [= <-].
  cbn [LiveModel.sa_name LiveModel.sa_value LiveModel.sa_type LiveModel.sa_result].
  split; [exact Hreq|]. split; [exact Hval|]. split; [|split; [|reflexivity]].
  - intros s Hs. rewrite (opt_one _ _ m _ Hs) in Et by discriminate. cbn [read_named] in Et.
    destruct (prim_of_name s) as [p|] eqn:Ep; [|discriminate]. injection Et as <-. exists p.
    split; [destruct x; reflexivity|]. unfold prim_of_name in Ep.
    repeat match type of Ep with
      | (if String.eqb s ?x then _ else _) = _ =>
          destruct (String.eqb_spec s x) as [-> | _]; [injection Ep as <-; reflexivity|]
      end. discriminate.
  - intros [Hs | Hs]; [rewrite (opt_zero _ _ m Hs) in Et|rewrite (opt_null _ _ m Hs) in Et];
      injection Et as <-; destruct x; reflexivity.
Qed.
Print Assumptions C115_attribute.

(* ---------- writing and reading again ---------- *)
(* Samples written as JSON are read as they were, without the results of their attributes. Missing:
   samples with findings, and the points of an exponential histogram (refuted below); doubles that
   are no numbers. *)
Theorem C115_round_trip_partial : forall f l,
  Forall sample_ok l -> ingest f (write_samples l) = Some (map bare_sample l).
Proof.
  intros f l H. unfold ingest, write_samples. apply vec_map. eapply Forall_impl; [|exact H].
  exact (sample_back f).
Qed.
Print Assumptions C115_round_trip_partial.

(* The points of an exponential histogram are read as those of a histogram without buckets, whatever
   they hold: scale, buckets, zero count and threshold are lost. *)
Theorem C115_exponential_refuted : forall f m l,
  instrument_ok (m_instrument m) -> advice (m_result m) = [] ->
  m_points m = Some (Exponentials l) -> l <> [] -> Forall exponential_ok l ->
  read_sample f (write_sample (Metric m)) =
  Some (Metric (mk_metric (m_name m) (m_instrument m) (m_unit m) (Some (Histograms (map flattened l)))
                  (m_result m))).
Proof.
  intros f m l Hi Hr Hm Hl Hok. cbn [write_sample read_sample]. cbn [String.eqb Ascii.eqb Bool.eqb].
  rewrite (metric_back f m (fun _ => Histograms (map flattened l)) Hi Hr).
  - rewrite Hm. reflexivity.
  - intros p Hp. rewrite Hm in Hp. injection Hp as <-. apply points_flat; assumption.
Qed.
Print Assumptions C115_exponential_refuted.

(* ---------- findings ---------- *)
Ltac last_res H := erewrite (result_lost _ _ H) by reflexivity; reflexivity.

Lemma exemplar_lost : forall x, advice (x_result x) <> [] -> read_exemplar (write_exemplar x) = None.
Proof.
  intros x H. unfold read_exemplar, write_exemplar. cbn [entries obind]. do 5 skip. last_res H.
Qed.
Lemma number_lost : forall p, advice (n_result p) <> [] -> read_number (write_number p) = None.
Proof. intros p H. unfold read_number, write_number. cbn [entries obind]. do 4 skip. last_res H. Qed.
Lemma number_lost_x : forall p x, In x (n_exemplars p) -> advice (x_result x) <> [] ->
  read_number (write_number p) = None.
Proof.
  intros p x Hx H. unfold read_number, write_number. cbn [entries obind]. do 3 skip.
  rewrite (def_one _ _ _ _ (write_vec write_exemplar (n_exemplars p))) by reflexivity.
  unfold read_exemplars. rewrite (vec_none _ _ x _ Hx (exemplar_lost x H)). reflexivity.
Qed.
Lemma histogram_lost : forall f p, advice (h_result p) <> [] -> read_histogram f (write_histogram p) = None.
Proof. intros f p H. unfold read_histogram, write_histogram. cbn [entries obind]. do 9 skip. last_res H. Qed.
Lemma histogram_lost_x : forall f p x, In x (h_exemplars p) -> advice (x_result x) <> [] ->
  read_histogram f (write_histogram p) = None.
Proof.
  intros f p x Hx H. unfold read_histogram, write_histogram. cbn [entries obind]. do 8 skip.
  rewrite (def_one _ _ _ _ (write_vec write_exemplar (h_exemplars p))) by reflexivity.
  unfold read_exemplars. rewrite (vec_none _ _ x _ Hx (exemplar_lost x H)). reflexivity.
Qed.
Lemma histogram_lost_e : forall f p, advice (h_result p) <> [] -> read_exponential f (write_histogram p) = None.
Proof. intros f p H. unfold read_exponential, write_histogram. cbn [entries obind]. do 12 skip. last_res H. Qed.
Lemma histogram_lost_ex : forall f p x, In x (h_exemplars p) -> advice (x_result x) <> [] ->
  read_exponential f (write_histogram p) = None.
Proof.
  intros f p x Hx H. unfold read_exponential, write_histogram. cbn [entries obind]. do 11 skip.
  rewrite (def_one _ _ _ _ (write_vec write_exemplar (h_exemplars p))) by reflexivity.
  unfold read_exemplars. rewrite (vec_none _ _ x _ Hx (exemplar_lost x H)). reflexivity.
Qed.
Lemma exponential_lost : forall f p, advice (p_result p) <> [] ->
  read_exponential f (write_exponential p) = None.
Proof. intros f p H. unfold read_exponential, write_exponential. cbn [entries obind]. do 12 skip. last_res H. Qed.
Lemma exponential_lost_x : forall f p x, In x (p_exemplars p) -> advice (x_result x) <> [] ->
  read_exponential f (write_exponential p) = None.
Proof.
  intros f p x Hx H. unfold read_exponential, write_exponential. cbn [entries obind]. do 11 skip.
  rewrite (def_one _ _ _ _ (write_vec write_exemplar (p_exemplars p))) by reflexivity.
  unfold read_exemplars. rewrite (vec_none _ _ x _ Hx (exemplar_lost x H)). reflexivity.
Qed.
Lemma exponential_lost_h : forall f p, advice (p_result p) <> [] -> read_histogram f (write_exponential p) = None.
Proof. intros f p H. unfold read_histogram, write_exponential. cbn [entries obind]. do 9 skip. last_res H. Qed.
Lemma exponential_lost_hx : forall f p x, In x (p_exemplars p) -> advice (x_result x) <> [] ->
  read_histogram f (write_exponential p) = None.
Proof.
  intros f p x Hx H. unfold read_histogram, write_exponential. cbn [entries obind]. do 8 skip.
  rewrite (def_one _ _ _ _ (write_vec write_exemplar (p_exemplars p))) by reflexivity.
  unfold read_exemplars. rewrite (vec_none _ _ x _ Hx (exemplar_lost x H)). reflexivity.
Qed.

Lemma points_lost : forall f p r,
  In r (match p with
        | Numbers l => map n_result l
        | Histograms l => map h_result l
        | Exponentials l => map p_result l
        end ++ map x_result (exemplars_of p))%list ->
  advice r <> [] -> read_points f (write_points p) = None.
Proof.
  intros f p r Hin Hr. apply in_app_or in Hin. unfold read_points.
  destruct p as [l|l|l]; cbn [write_points exemplars_of] in *.
  - assert (E : exists p, In p l /\ read_number (write_number p) = None).
    { destruct Hin as [Hin|Hin].
      - apply in_map_iff in Hin. destruct Hin as (p & <- & Hp). exists p. split; [exact Hp|now apply number_lost].
      - apply in_map_iff in Hin. destruct Hin as (x & <- & Hx). apply in_flat_map in Hx.
        destruct Hx as (p & Hp & Hx). exists p. split; [exact Hp|]. exact (number_lost_x p x Hx Hr). }
    destruct E as (p & Hp & E). rewrite (vec_none _ _ p l Hp E).
    rewrite (vec_none (read_histogram f) _ p l Hp (number_no_histogram f p)).
    rewrite (vec_none (read_exponential f) _ p l Hp (number_no_exponential f p)). reflexivity.
  - assert (E : exists p, In p l /\ read_histogram f (write_histogram p) = None /\
                          read_exponential f (write_histogram p) = None).
    { destruct Hin as [Hin|Hin].
      - apply in_map_iff in Hin. destruct Hin as (p & <- & Hp). exists p. split; [exact Hp|].
        split; [now apply histogram_lost|now apply histogram_lost_e].
      - apply in_map_iff in Hin. destruct Hin as (x & <- & Hx). apply in_flat_map in Hx.
        destruct Hx as (p & Hp & Hx). exists p. split; [exact Hp|].
        split; [exact (histogram_lost_x f p x Hx Hr)|exact (histogram_lost_ex f p x Hx Hr)]. }
    destruct E as (p & Hp & E1 & E2).
    rewrite (vec_none read_number _ p l Hp (histogram_no_number p)).
    rewrite (vec_none _ _ p l Hp E1), (vec_none _ _ p l Hp E2). reflexivity.
  - assert (E : exists p, In p l /\ read_histogram f (write_exponential p) = None /\
                          read_exponential f (write_exponential p) = None).
    { destruct Hin as [Hin|Hin].
      - apply in_map_iff in Hin. destruct Hin as (p & <- & Hp). exists p. split; [exact Hp|].
        split; [now apply exponential_lost_h|now apply exponential_lost].
      - apply in_map_iff in Hin. destruct Hin as (x & <- & Hx). apply in_flat_map in Hx.
        destruct Hx as (p & Hp & Hx). exists p. split; [exact Hp|].
        split; [exact (exponential_lost_hx f p x Hx Hr)|exact (exponential_lost_x f p x Hx Hr)]. }
    destruct E as (p & Hp & E1 & E2).
    rewrite (vec_none read_number _ p l Hp (exponential_no_number p)).
    rewrite (vec_none _ _ p l Hp E1), (vec_none _ _ p l Hp E2). reflexivity.
Qed.

Lemma sample_lost : forall f s r, In r (results_of s) -> advice r <> [] ->
  read_sample f (write_sample s) = None.
Proof.
  intros f [a|s|e|l|r0|o|m|g|p] r Hin Hr; cbn [results_of] in Hin;
    cbn [write_sample read_sample]; cbn [String.eqb Ascii.eqb Bool.eqb]; try apply map_none.
  - destruct Hin.
  - unfold read_span, write_span. cbn [entries obind]. do 4 skip. destruct Hin as [<-|Hin].
    + do 2 skip. last_res Hr.
    + apply in_app_or in Hin. destruct Hin as [Hin|Hin]; apply in_map_iff in Hin; destruct Hin as (e & <- & He).
      * rewrite (def_one _ _ _ _ (write_vec write_event (s_events s))) by reflexivity.
        rewrite (vec_none read_event write_event e _ He); [reflexivity|].
        unfold read_event, write_event. cbn [entries obind]. do 2 skip. last_res Hr.
      * skip. rewrite (def_one _ _ _ _ (write_vec write_link (s_links s))) by reflexivity.
        rewrite (vec_none read_link write_link e _ He); [reflexivity|].
        unfold read_link, write_link. cbn [entries obind]. skip. last_res Hr.
  - destruct Hin as [<-|[]]. unfold read_event, write_event. cbn [entries obind]. do 2 skip. last_res Hr.
  - destruct Hin as [<-|[]]. unfold read_link, write_link. cbn [entries obind]. skip. last_res Hr.
  - destruct Hin as [<-|[]]. unfold read_resource, write_resource. cbn [entries obind]. skip. last_res Hr.
  - destruct Hin as [<-|[]]. unfold read_scope, write_scope. cbn [entries obind]. do 5 skip. last_res Hr.
  - unfold read_metric, write_metric. cbn [entries obind]. do 3 skip. destruct Hin as [<-|Hin].
    + skip. last_res Hr.
    + destruct (m_points m) as [p|] eqn:Ep; [|destruct Hin].
      rewrite (opt_one _ _ _ (write_points p)) by (try reflexivity; destruct p; discriminate).
      rewrite (points_lost f p r Hin Hr). reflexivity.
  - destruct Hin as [<-|[]]. unfold read_log, write_log. cbn [entries obind]. do 7 skip. last_res Hr.
  - destruct Hin as [<-|[]]. unfold read_profile, write_profile. cbn [entries obind]. do 2 skip. last_res Hr.
Qed.

(* The samples of a report cannot be given to a live check again once one of them, other than an
   attribute, carries a finding: a finding is written with a `type` that its reader does not know.
   The whole document is refused. *)
Theorem C115_report_refuted : forall f l s,
  In s l -> findings_beside s <> [] -> ingest f (write_samples l) = None.
Proof.
  intros f l s Hin Hs. unfold ingest, write_samples. apply (vec_none _ _ s l Hin).
  assert (E : exists r, In r (results_of s) /\ advice r <> []).
  { unfold findings_beside in Hs. induction (results_of s) as [|r rs IH]; [destruct (Hs eq_refl)|].
    cbn [flat_map] in Hs. destruct (advice r) as [|x xs] eqn:Er.
    - destruct (IH Hs) as (r' & H1 & H2). exists r'. split; [right; exact H1|exact H2].
    - exists r. split; [left; reflexivity|]. rewrite Er. discriminate. }
  destruct E as (r & H1 & H2). exact (sample_lost f s r H1 H2).
Qed.
Print Assumptions C115_report_refuted.

(* An entry that no reader knows is skipped everywhere but in a finding of a span, a log, a metric, ...,
   where it makes the document unreadable; in a finding of a data point it is skipped. *)
Definition odd_result : json :=
  JObj [("all_advice", JArr [JObj [("id", JStr "i"); ("level", JStr "violation"); ("message", JStr "m");
                                   ("note", JStr "n")]])].
Theorem C115_extra_refuted : forall f,
  read_sample f (JObj [("resource", JObj [("live_check_result", odd_result)])]) = None /\
  read_sample f (JObj [("resource", JObj [("note", JNull); ("live_check_result", JNull)])]) =
    Some (Resource (mk_resource [] None)) /\
  exists p, read_points f (JArr [JObj [("attributes", JArr []); ("value", zero);
                                       ("live_check_result", odd_result)]]) = Some (Numbers [p]).
Proof. intros f. split; [reflexivity|]. split; [reflexivity|]. eexists. reflexivity. Qed.
Print Assumptions C115_extra_refuted.

(* The kind of data points is guessed from their keys: a histogram point that also has a `value` is
   read as a number, and one with an infinite bound is read as an exponential histogram. *)
Theorem C115_guess_refuted : forall f,
  (exists v p n, read_histogram f v = Some p /\ h_count p = 3%Z /\
                 read_points f (JArr [v]) = Some (Numbers [n])) /\
  (exists p x, h_count p = 3%Z /\ h_bounds p = [9218868437227405312%N] /\
               read_points f (write_points (Histograms [p])) = Some (Exponentials [x])).
Proof.
  intros f. split.
  - exists (JObj [("attributes", JArr []); ("count", JNum (NInt 3)); ("value", zero)]).
    do 2 eexists. split; [reflexivity|]. split; reflexivity.
  - exists (mk_histogram [] 3 None [1; 2]%Z [9218868437227405312%N] None None 0 [] None).
    eexists. split; [reflexivity|]. split; [reflexivity|]. vm_compute. reflexivity.
Qed.
Print Assumptions C115_guess_refuted.

(* ---------- the hypotheses are met ---------- *)
Lemma half : number 4609434218613702656.
Proof. exists 0%N, 1023%N, 2251799813685248%N. repeat split; reflexivity. Qed.
Lemma attr_ok_ex : forall n v, attr_ok (an_attr n v).
Proof. intros. split; discriminate. Qed.
Example C115_case :
  Forall sample_ok [a_span; a_metric (Numbers [a_number]) no_advice;
                    a_metric (Histograms [a_histogram; a_histogram]) no_advice; Attribute (an_attr "k" "v")] /\
  exponential_ok an_exponential /\ flattened an_exponential <> a_histogram /\
  findings_beside (a_metric (Numbers [a_number]) one_finding) <> [] /\
  (forall f, exists l, ingest f (write_samples [a_span]) = Some l /\ l = [a_span]) /\
  (forall f, ingest f (write_samples [a_span; a_metric (Numbers [a_number]) one_finding]) = None).
Proof.
  assert (A : forall n v, Forall attr_ok [an_attr n v]) by (intros; repeat constructor; discriminate).
  assert (H : histogram_ok a_histogram).
  { unfold histogram_ok, if_some. cbn.
    split; [apply A|]. split; [split; reflexivity || discriminate|]. split; [intros ? [= <-]; exact half|].
    split; [repeat constructor; discriminate|]. split; [repeat constructor; exact half|].
    split; [discriminate|]. split; [discriminate|]. split; [split; reflexivity || discriminate|].
    split; [constructor|reflexivity]. }
  assert (X : exponential_ok an_exponential).
  { unfold exponential_ok, if_some. cbn.
    split; [apply A|]. split; [split; reflexivity || discriminate|]. split; [intros ? [= <-]; exact half|].
    split; [discriminate|]. split; [discriminate|]. split; [split; reflexivity || discriminate|].
    split; [constructor|reflexivity]. }
  split.
  { constructor; [|constructor; [|constructor; [|constructor; [|constructor]]]].
    - cbn. split; [apply A|]. split; [constructor; [split; [apply A|reflexivity]|constructor]|].
      split; [constructor; [split; [constructor|reflexivity]|constructor]|reflexivity].
    - cbn. split; [exact (conj I I) || exact Logic.I|]. split; [|reflexivity].
      intros ? [= <-]. cbn. constructor; [|constructor]. split; [apply A|].
      split; [split; reflexivity || discriminate|]. split; [|reflexivity].
      constructor; [|constructor]. split; [apply A|reflexivity].
    - cbn. split; [exact Logic.I|]. split; [|reflexivity]. intros ? [= <-]. cbn.
      split; [discriminate|]. constructor; [exact H|constructor; [exact H|constructor]].
    - apply attr_ok_ex. }
  split; [exact X|]. split; [discriminate|]. split; [discriminate|].
  split; [intros f; eexists; split; reflexivity|intros f; reflexivity].
Qed.
Print Assumptions C115_case.
