From Coq Require Import String Ascii Bool Arith ZArith NArith Lia List.
Import ListNotations.
From Verif Require Import Base Json SemTypes JinModel JinSpec.
From Verif Require LiveModel LiveAdvisors PolicyModel ResultModel.
Local Open Scope string_scope.

(* ---------- combinators ---------- *)
Lemma each_map : forall {A B} (rd : json -> option B) (w : A -> json) (g : A -> B) l,
  Forall (fun a => rd (w a) = Some (g a)) l -> each rd (map w l) = Some (map g l).
Proof.
  intros A B rd w g l H. induction H as [|a l Ha _ IH]; [reflexivity|].
  cbn. rewrite Ha. cbn. rewrite IH. reflexivity.
Qed.

Lemma vec_map : forall {A B} (rd : json -> option B) (w : A -> json) (g : A -> B) l,
  Forall (fun a => rd (w a) = Some (g a)) l -> read_vec rd (write_vec w l) = Some (map g l).
Proof. intros. apply each_map. assumption. Qed.

Lemma vec_id : forall {A} (rd : json -> option A) (w : A -> json) l,
  Forall (fun a => rd (w a) = Some a) l -> read_vec rd (write_vec w l) = Some l.
Proof. intros A rd w l H. rewrite (vec_map rd w (fun a => a)) by exact H. now rewrite map_id. Qed.

Lemma each_none : forall {A} (rd : json -> option A) v l, In v l -> rd v = None -> each rd l = None.
Proof.
  intros A rd v l Hin Hv. induction l as [|x l IH]; [destruct Hin|].
  destruct Hin as [-> | Hin]; cbn; [rewrite Hv; reflexivity|].
  destruct (rd x); [|reflexivity]. cbn. now rewrite (IH Hin).
Qed.

Lemma vec_none : forall {A B} (rd : json -> option B) (w : A -> json) a l,
  In a l -> rd (w a) = None -> read_vec rd (write_vec w l) = None.
Proof. intros A B rd w a l Hin Hv. apply (each_none rd (w a)); [apply in_map; exact Hin|exact Hv]. Qed.

Lemma each_spec : forall {A} (rd : json -> option A) l xs,
  each rd l = Some xs <-> Forall2 (fun v x => rd v = Some x) l xs.
Proof.
  intros A rd l. induction l as [|v l IH]; intros xs; cbn.
  - split; [intros [= <-]; constructor|intros H; inversion H; reflexivity].
  - split.
    + destruct (rd v) as [x|] eqn:Ex; [|discriminate]. cbn.
      destruct (each rd l) as [ys|] eqn:Ey; [|discriminate]. cbn. intros [= <-].
      constructor; [exact Ex|]. apply IH. reflexivity.
    + intros H. inversion H as [|? ? ? ? Hx Hr]; subst. rewrite Hx. cbn.
      apply IH in Hr. rewrite Hr. reflexivity.
Qed.

(* ---------- values ---------- *)
Lemma u32_int : forall z, u32 z -> read_u32 (write_int z) = Some z.
Proof.
  intros z [H1 H2]. change (2 ^ 32)%Z with 4294967296%Z in H2. unfold read_u32, read_int, write_int.
  replace ((0 <=? z)%Z) with true by (symmetry; apply Z.leb_le; lia).
  replace ((z <=? 4294967295)%Z) with true by (symmetry; apply Z.leb_le; lia). reflexivity.
Qed.
Lemma u64_int : forall z, u64 z -> read_u64 (write_int z) = Some z.
Proof.
  intros z [H1 H2]. change (2 ^ 64)%Z with 18446744073709551616%Z in H2. unfold read_u64, read_int, write_int.
  replace ((0 <=? z)%Z) with true by (symmetry; apply Z.leb_le; lia).
  replace ((z <=? 18446744073709551615)%Z) with true by (symmetry; apply Z.leb_le; lia). reflexivity.
Qed.
Lemma i32_int : forall z, i32 z -> read_i32 (write_int z) = Some z.
Proof.
  intros z [H1 H2]. change (2 ^ 31)%Z with 2147483648%Z in *. unfold read_i32, read_int, write_int.
  replace ((-2147483648 <=? z)%Z) with true by (symmetry; apply Z.leb_le; lia).
  replace ((z <=? 2147483647)%Z) with true by (symmetry; apply Z.leb_le; lia). reflexivity.
Qed.
Lemma number_finite : forall b, number b -> finite b = true.
Proof.
  intros b (s & e & f & Hs & He & Hf & ->). unfold finite.
  change (2 ^ 63)%N with (2048 * 4503599627370496)%N. change (2 ^ 52)%N with 4503599627370496%N in *.
  replace (s * (2048 * 4503599627370496) + e * 4503599627370496 + f)%N
    with (f + (s * 2048 + e) * 4503599627370496)%N by lia.
  rewrite N.div_add by lia. rewrite N.div_small by exact Hf. rewrite N.add_0_l.
  rewrite N.add_comm. rewrite N.mod_add by lia. rewrite N.mod_small by lia.
  apply Bool.negb_true_iff, N.eqb_neq. lia.
Qed.
Lemma f64_num : forall f b, number b -> read_f64 f (write_f64 b) = Some b.
Proof. intros f b H. unfold write_f64. rewrite (number_finite b H). reflexivity. Qed.
Lemma prim_name : forall p, prim_of_name (prim_str p) = Some p.
Proof. destruct p; reflexivity. Qed.
Lemma level_name : forall l, PolicyModel.read_level (JStr (PolicyModel.level_name l)) = Some l.
Proof. destruct l; reflexivity. Qed.

(* a finding that was written is never read *)
Lemma finding_lost : forall text f, read_finding text (PolicyModel.write_finding f) = None.
Proof.
  intros text [i c m l st sn].
  unfold read_finding, PolicyModel.write_finding. cbn [entries obind].
  destruct (text && _)%bool; [reflexivity|].
  destruct c, l, st, sn; reflexivity.
Qed.

Lemma result_kept : forall text r, advice r = [] ->
  forall m, under "live_check_result" m = [snd (write_res r)] -> result_of text m = Some r.
Proof.
  intros text r Hr m Hm. unfold result_of, optional, field. unfold under in Hm.
  destruct (filter (fun kv : string * json => String.eqb (fst kv) "live_check_result") m) as [|[k v] [|]] eqn:Ef;
    cbn in Hm; try discriminate.
  injection Hm as ->. cbn. destruct r as [[a h]|]; [|reflexivity].
  cbn in Hr. subst a. cbn. destruct h as [l|]; [|reflexivity]. destruct l; reflexivity.
Qed.
Lemma result_lost : forall text r, advice r <> [] ->
  forall m, under "live_check_result" m = [snd (write_res r)] -> result_of text m = None.
Proof.
  intros text r Hr m Hm. unfold result_of, optional, field. unfold under in Hm.
  destruct (filter (fun kv : string * json => String.eqb (fst kv) "live_check_result") m) as [|[k v] [|]] eqn:Ef;
    cbn in Hm; try discriminate.
  injection Hm as ->. cbn [obind]. destruct r as [[a h]|]; [|destruct (Hr eq_refl)].
  cbn in Hr. destruct a as [|f a]; [destruct (Hr eq_refl)|].
  unfold write_res, write_opt, write_result. cbn [snd]. unfold read_result at 1. cbn [entries obind].
  unfold required, field. cbn [filter fst String.eqb Ascii.eqb Bool.eqb obind LiveModel.all_advice].
  rewrite (vec_none (read_finding text) PolicyModel.write_finding f (f :: a)) by (try apply finding_lost; now left).
  reflexivity.
Qed.


(* ---------- fields ---------- *)
Lemma field_one : forall k m v, under k m = [v] -> field k m = Some (Some v).
Proof.
  intros k m v H. unfold field. unfold under in H.
  destruct (filter (fun kv : string * json => String.eqb (fst kv) k) m) as [|[k' v'] [|]]; cbn in H; try discriminate.
  injection H as ->. reflexivity.
Qed.
Lemma field_zero : forall k m, under k m = [] -> field k m = Some None.
Proof.
  intros k m H. unfold field. unfold under in H.
  destruct (filter (fun kv : string * json => String.eqb (fst kv) k) m) as [|[k' v'] [|]]; cbn in H; try discriminate.
  reflexivity.
Qed.
Lemma field_more : forall k m v w r, under k m = v :: w :: r -> field k m = None.
Proof.
  intros k m v w r H. unfold field. unfold under in H.
  destruct (filter (fun kv : string * json => String.eqb (fst kv) k) m) as [|[k' v'] [|]]; cbn in H; try discriminate.
  reflexivity.
Qed.
Lemma field_ext : forall k m m', under k m = under k m' -> field k m = field k m'.
Proof.
  intros k m m' H. destruct (under k m') as [|v [|w r]] eqn:E.
  - rewrite (field_zero k m H), (field_zero k m' E). reflexivity.
  - rewrite (field_one k m v H), (field_one k m' v E). reflexivity.
  - rewrite (field_more k m v w r H), (field_more k m' v w r E). reflexivity.
Qed.
Lemma req_one : forall {A} (rd : json -> option A) k m v, under k m = [v] -> required rd k m = rd v.
Proof. intros A rd k m v H. unfold required. rewrite (field_one k m v H). reflexivity. Qed.
Lemma def_one : forall {A} (d : A) (rd : json -> option A) k m v,
  under k m = [v] -> defaulted d rd k m = rd v.
Proof. intros A d rd k m v H. unfold defaulted. rewrite (field_one k m v H). reflexivity. Qed.
Lemma opt_null : forall {A} (rd : json -> option A) k m, under k m = [JNull] -> optional rd k m = Some None.
Proof. intros A rd k m H. unfold optional. rewrite (field_one k m _ H). reflexivity. Qed.
Lemma opt_one : forall {A} (rd : json -> option A) k m v,
  under k m = [v] -> v <> JNull -> optional rd k m = option_map Some (rd v).
Proof.
  intros A rd k m v H Hv. unfold optional. rewrite (field_one k m v H). cbn [obind].
  destruct v; try reflexivity. destruct (Hv eq_refl).
Qed.
Lemma opt_back : forall {A B} (rd : json -> option B) (w : A -> json) (g : A -> B) o k m,
  under k m = [write_opt w o] -> (forall a, o = Some a -> rd (w a) = Some (g a) /\ w a <> JNull) ->
  optional rd k m = Some (option_map g o).
Proof.
  intros A B rd w g o k m H Ho. destruct o as [a|]; cbn in H |- *.
  - destruct (Ho a eq_refl) as [H1 H2]. rewrite (opt_one rd k m _ H H2), H1. reflexivity.
  - apply opt_null. exact H.
Qed.
Lemma opt_same : forall {A} (rd : json -> option A) (w : A -> json) o k m,
  under k m = [write_opt w o] -> (forall a, o = Some a -> rd (w a) = Some a /\ w a <> JNull) ->
  optional rd k m = Some o.
Proof.
  intros A rd w o k m H Ho. rewrite (opt_back rd w (fun a => a) o k m H Ho). destruct o; reflexivity.
Qed.

Lemma attr_back : forall a, attr_ok a -> read_attr (write_attr a) = Some (bare a).
Proof.
  intros [n v t r] [Hv Ht]. cbn in Hv, Ht. unfold read_attr, write_attr, bare.
  cbn [entries obind LiveModel.sa_name LiveModel.sa_value LiveModel.sa_type LiveModel.sa_result].
  rewrite (req_one read_string "name" _ (JStr n)) by reflexivity. cbn [read_string obind].
  erewrite (opt_same read_value (fun v => v) v "value");
    [|reflexivity|intros a ->; split; [reflexivity|congruence]].
  cbn [obind].
  erewrite (opt_same (read_named prim_of_name) (fun t => JStr (prim_str t)) t "type");
    [|reflexivity|intros a _; split; [apply prim_name|discriminate]].
  cbn [obind]. destruct t as [p|]; [reflexivity|]. destruct v as [v|]; [|reflexivity].
  rewrite (Ht eq_refl v eq_refl). reflexivity.
Qed.
Lemma attrs_back : forall l, Forall attr_ok l -> read_attrs (write_attrs l) = Some (map bare l).
Proof. intros l H. apply vec_map. eapply Forall_impl; [|exact H]. exact attr_back. Qed.

Ltac fields := cbn [entries obind].
Ltac res_back H := erewrite (result_kept _ _ H) by reflexivity; cbn [obind].
Ltac req v := rewrite (req_one _ _ _ v) by reflexivity; cbn [read_string read_value obind].
Ltac def v := rewrite (def_one _ _ _ _ v) by reflexivity; cbn [read_string obind].

Lemma exemplar_back : forall x, exemplar_ok x -> read_exemplar (write_exemplar x) = Some (bare_exemplar x).
Proof.
  intros x [Ha Hr]. unfold read_exemplar, write_exemplar. fields.
  req (write_attrs (x_attrs x)). rewrite (attrs_back _ Ha). cbn [obind].
  req (x_value x). req (JStr (x_timestamp x)). req (JStr (x_span_id x)). req (JStr (x_trace_id x)).
  res_back Hr. reflexivity.
Qed.
Lemma exemplars_back : forall l, Forall exemplar_ok l ->
  read_exemplars (write_vec write_exemplar l) = Some (map bare_exemplar l).
Proof. intros l H. apply vec_map. eapply Forall_impl; [|exact H]. exact exemplar_back. Qed.

Lemma number_back : forall p, number_ok p -> read_number (write_number p) = Some (bare_number p).
Proof.
  intros p (Ha & Hf & He & Hr). unfold read_number, write_number. fields.
  req (write_attrs (n_attrs p)). rewrite (attrs_back _ Ha). cbn [obind]. req (n_value p).
  def (write_int (n_flags p)). rewrite (u32_int _ Hf). cbn [obind].
  def (write_vec write_exemplar (n_exemplars p)). rewrite (exemplars_back _ He). cbn [obind].
  res_back Hr. reflexivity.
Qed.

Lemma f64_not_null : forall b, number b -> write_f64 b <> JNull.
Proof. intros b H. unfold write_f64. rewrite (number_finite b H). discriminate. Qed.
Ltac optf f o H := 
  erewrite (opt_same (read_f64 f) write_f64 o);
    [|reflexivity|let b := fresh in let E := fresh in
                  intros b E; split; [apply f64_num|apply f64_not_null]; exact (H b E)]; cbn [obind].

Lemma histogram_back : forall f p, histogram_ok p ->
  read_histogram f (write_histogram p) = Some (bare_histogram p).
Proof.
  intros f p (Ha & Hc & Hs & Hb & Ho & Hlo & Hhi & Hf & He & Hr). unfold read_histogram, write_histogram. fields.
  req (write_attrs (h_attrs p)). rewrite (attrs_back _ Ha). cbn [obind].
  req (write_int (h_count p)). rewrite (u64_int _ Hc). cbn [obind].
  optf f (h_sum p) Hs.
  def (write_vec write_int (h_bucket_counts p)).
  rewrite (vec_id read_u64 write_int) by (eapply Forall_impl; [|exact Hb]; exact u64_int). cbn [obind].
  def (write_vec write_f64 (h_bounds p)).
  rewrite (vec_id (read_f64 f) write_f64) by (eapply Forall_impl; [|exact Ho]; exact (f64_num f)). cbn [obind].
  optf f (h_min p) Hlo. optf f (h_max p) Hhi.
  def (write_int (h_flags p)). rewrite (u32_int _ Hf). cbn [obind].
  def (write_vec write_exemplar (h_exemplars p)). rewrite (exemplars_back _ He). cbn [obind].
  res_back Hr. reflexivity.
Qed.

Lemma exponential_flat : forall f p, exponential_ok p ->
  read_histogram f (write_exponential p) = Some (flattened p).
Proof.
  intros f p (Ha & Hc & Hs & Hlo & Hhi & Hf & He & Hr). unfold read_histogram, write_exponential. fields.
  req (write_attrs (p_attrs p)). rewrite (attrs_back _ Ha). cbn [obind].
  req (write_int (p_count p)). rewrite (u64_int _ Hc). cbn [obind].
  optf f (p_sum p) Hs.
  unfold defaulted at 1. rewrite field_zero by reflexivity. cbn [obind].
  unfold defaulted at 1. rewrite field_zero by reflexivity. cbn [obind].
  optf f (p_min p) Hlo. optf f (p_max p) Hhi.
  def (write_int (p_flags p)). rewrite (u32_int _ Hf). cbn [obind].
  def (write_vec write_exemplar (p_exemplars p)). rewrite (exemplars_back _ He). cbn [obind].
  res_back Hr. reflexivity.
Qed.

(* a needed field that is not there *)
Lemma req_zero : forall {A} (rd : json -> option A) k m, under k m = [] -> required rd k m = None.
Proof. intros A rd k m H. unfold required. rewrite (field_zero k m H). reflexivity. Qed.
Lemma obind_none : forall {A B} (o : option A) (f : A -> option B), (forall a, f a = None) -> obind o f = None.
Proof. intros A B [a|] f H; [apply H|reflexivity]. Qed.
Ltac skip := apply obind_none; intro.

Lemma histogram_no_number : forall p, read_number (write_histogram p) = None.
Proof.
  intros p. unfold read_number, write_histogram. fields. skip.
  rewrite (req_zero read_value) by reflexivity. reflexivity.
Qed.
Lemma exponential_no_number : forall p, read_number (write_exponential p) = None.
Proof.
  intros p. unfold read_number, write_exponential. fields. skip.
  rewrite (req_zero read_value) by reflexivity. reflexivity.
Qed.
Lemma number_no_histogram : forall f p, read_histogram f (write_number p) = None.
Proof.
  intros f p. unfold read_histogram, write_number. fields. skip.
  rewrite (req_zero read_u64) by reflexivity. reflexivity.
Qed.
Lemma number_no_exponential : forall f p, read_exponential f (write_number p) = None.
Proof.
  intros f p. unfold read_exponential, write_number. fields. skip.
  rewrite (req_zero read_u64) by reflexivity. reflexivity.
Qed.

Lemma points_back : forall f p, points_ok p -> read_points f (write_points p) = Some (bare_points p).
Proof.
  intros f [l|l|l] H; cbn [points_ok] in H; unfold read_points; cbn [write_points bare_points].
  - rewrite (vec_map read_number write_number bare_number); [reflexivity|].
    eapply Forall_impl; [|exact H]. exact number_back.
  - destruct H as [Hn H]. destruct l as [|p l]; [destruct (Hn eq_refl)|].
    rewrite (vec_none read_number write_histogram p) by (try apply histogram_no_number; now left).
    rewrite (vec_map (read_histogram f) write_histogram bare_histogram); [reflexivity|].
    eapply Forall_impl; [|exact H]. exact (histogram_back f).
  - destruct H.
Qed.
Lemma points_flat : forall f l, l <> [] -> Forall exponential_ok l ->
  read_points f (write_points (Exponentials l)) = Some (Histograms (map flattened l)).
Proof.
  intros f l Hn H. unfold read_points. cbn [write_points]. destruct l as [|p l]; [destruct (Hn eq_refl)|].
  rewrite (vec_none read_number write_exponential p) by (try apply exponential_no_number; now left).
  rewrite (vec_map (read_histogram f) write_exponential flattened); [reflexivity|].
  eapply Forall_impl; [|exact H]. exact (exponential_flat f).
Qed.

Lemma instrument_back : forall i, instrument_ok i -> read_instrument (write_instrument i) = Some i.
Proof.
  intros [i|n] H.
  - destruct i; reflexivity.
  - cbn in H. unfold read_instrument. cbn [write_instrument read_named read_string option_map].
    unfold instrument_of_name.
    destruct (String.eqb_spec n "updowncounter") as [->|_]; [exfalso; tauto|].
    destruct (String.eqb_spec n "counter") as [->|_]; [exfalso; tauto|].
    destruct (String.eqb_spec n "gauge") as [->|_]; [exfalso; tauto|].
    destruct (String.eqb_spec n "histogram") as [->|_]; [exfalso; tauto|]. reflexivity.
Qed.

Lemma event_back : forall e, event_ok e -> read_event (write_event e) = Some (bare_event e).
Proof.
  intros e [Ha Hr]. unfold read_event, write_event. fields. req (JStr (e_name e)).
  def (write_attrs (e_attrs e)). rewrite (attrs_back _ Ha). cbn [obind]. res_back Hr. reflexivity.
Qed.
Lemma link_back : forall l, link_ok l -> read_link (write_link l) = Some (bare_link l).
Proof.
  intros l [Ha Hr]. unfold read_link, write_link. fields.
  def (write_attrs (l_attrs l)). rewrite (attrs_back _ Ha). cbn [obind]. res_back Hr. reflexivity.
Qed.
Lemma status_back : forall u, read_status (write_status u) = Some u.
Proof. intros [c t]. destruct c; reflexivity. Qed.
Lemma kind_back : forall k, read_named kind_of_name (JStr (kind_name k)) = Some k.
Proof. destruct k; reflexivity. Qed.
Ltac opts o := erewrite (opt_same read_string JStr o);
  [|reflexivity|intros; split; [reflexivity|discriminate]]; cbn [obind].

(* a metric, given how its points are read *)
Lemma metric_back : forall f m p', instrument_ok (m_instrument m) -> advice (m_result m) = [] ->
  (forall p, m_points m = Some p -> read_points f (write_points p) = Some (p' p)) ->
  read_metric f (write_metric m) =
  Some (mk_metric (m_name m) (m_instrument m) (m_unit m) (option_map p' (m_points m)) (m_result m)).
Proof.
  intros f m p' Hi Hr Hp. unfold read_metric, write_metric. fields. req (JStr (m_name m)).
  req (write_instrument (m_instrument m)). rewrite (instrument_back _ Hi). cbn [obind]. req (JStr (m_unit m)).
  erewrite (opt_back (read_points f) write_points p' (m_points m));
    [|reflexivity|intros p Ep; split; [apply Hp; exact Ep|destruct p; discriminate]].
  cbn [obind]. res_back Hr. reflexivity.
Qed.

Lemma sample_back : forall f s, sample_ok s -> read_sample f (write_sample s) = Some (bare_sample s).
Proof.
  intros f [a|s|e|l|r|o|m|g|p] H; cbn [sample_ok] in H; cbn [write_sample read_sample];
    match goal with |- context [String.eqb ?a ?b] => cbn [String.eqb Ascii.eqb Bool.eqb] end.
  - rewrite (attr_back a H). reflexivity.
  - destruct H as (Ha & He & Hl & Hr). unfold read_span, write_span. fields. req (JStr (s_name s)).
    req (JStr (kind_name (s_kind s))). rewrite kind_back. cbn [obind].
    erewrite (opt_same read_status write_status (s_status s));
      [|reflexivity|intros; split; [apply status_back|discriminate]]. cbn [obind].
    def (write_attrs (s_attrs s)). rewrite (attrs_back _ Ha). cbn [obind].
    def (write_vec write_event (s_events s)).
    rewrite (vec_map read_event write_event bare_event) by (eapply Forall_impl; [|exact He]; exact event_back).
    cbn [obind]. def (write_vec write_link (s_links s)).
    rewrite (vec_map read_link write_link bare_link) by (eapply Forall_impl; [|exact Hl]; exact link_back).
    cbn [obind]. res_back Hr. reflexivity.
  - rewrite (event_back e H). reflexivity.
  - rewrite (link_back l H). reflexivity.
  - destruct H as [Ha Hr]. unfold read_resource, write_resource. fields.
    def (write_attrs (r_attrs r)). rewrite (attrs_back _ Ha). cbn [obind]. res_back Hr. reflexivity.
  - destruct H as (Ha & Hd & Hr). unfold read_scope, write_scope. fields.
    def (JStr (o_name o)). def (JStr (o_version o)). def (JStr (o_schema_url o)).
    def (write_attrs (o_attrs o)). rewrite (attrs_back _ Ha). cbn [obind].
    def (write_int (o_dropped o)). rewrite (u32_int _ Hd). cbn [obind]. res_back Hr. reflexivity.
  - destruct H as (Hi & Hp & Hr).
    rewrite (metric_back f m bare_points Hi Hr) by (intros p Ep; apply points_back; exact (Hp p Ep)). reflexivity.
  - destruct H as (Hs & Ha & Hr). unfold read_log, write_log. fields. req (JStr (g_event g)).
    erewrite (opt_same read_i32 write_int (g_severity_number g));
      [|reflexivity|intros z Ez; split; [apply i32_int; exact (Hs z Ez)|discriminate]]. cbn [obind].
    opts (g_severity_text g). opts (g_body g).
    def (write_attrs (g_attrs g)). rewrite (attrs_back _ Ha). cbn [obind].
    opts (g_trace_id g). opts (g_span_id g). res_back Hr. reflexivity.
  - destruct H as [Ha Hr]. unfold read_profile, write_profile. fields. req (JStr (f_format p)).
    def (write_attrs (f_attrs p)). rewrite (attrs_back _ Ha). cbn [obind]. res_back Hr. reflexivity.
Qed.
