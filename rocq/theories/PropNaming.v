(* C108: the naming policy of a live check. *)
From Coq Require Import String Ascii Bool Arith Lia Sorted List.
Import ListNotations.
From Verif Require Import Base BaseProofs BaseProofs2 Json SemTypes ResultModel Str LiveModel LiveSpec LiveProofs2 LiveProofs3.
From Verif Require Import NamingModel NamingSpec.
From Verif Require PolicyModel InferProofs PropSearch.
Local Open Scope string_scope.

(* ---------- regular expressions ---------- *)
Inductive star (L : string -> Prop) : string -> Prop :=
| star_nil : star L ""
| star_cons : forall u v, L u -> star L v -> star L (u ++ v).
Fixpoint lang (r : rx) (s : string) : Prop :=
  match r with
  | Never => False
  | Empty => s = ""
  | OneOf p => exists c, s = String c "" /\ p c = true
  | Seq a b => exists u v, s = u ++ v /\ lang a u /\ lang b v
  | Or a b => lang a s \/ lang b s
  | Many a => star (lang a) s
  end.
Lemma nullable_ok r : nullable r = true <-> lang r "".
Proof.
  induction r as [| |p|a IHa b IHb|a IHa b IHb|a IHa]; cbn [nullable lang].
  - split; [discriminate|tauto].
  - split; reflexivity.
  - split; [discriminate|]. intros (c & H & _). discriminate.
  - rewrite andb_true_iff, IHa, IHb. split.
    + intros (A & B). exists "", "". auto.
    + intros ([|? ?] & v & E & A & B); [|discriminate]. cbn in E. subst v. auto.
  - rewrite orb_true_iff, IHa, IHb. reflexivity.
  - split; [intros _; constructor|reflexivity].
Qed.
Lemma star_step L c s : star L (String c s) <-> exists u v, s = u ++ v /\ L (String c u) /\ star L v.
Proof.
  split.
  - intros H. remember (String c s) as x eqn:E. revert c s E. induction H as [|u v Hu Hv IH]; intros c s E; [discriminate|].
    destruct u as [|d u]; cbn in E; [apply IH, E|]. injection E as -> <-. exists u, v. auto.
  - intros (u & v & -> & Hu & Hv). exact (star_cons L (String c u) v Hu Hv).
Qed.
Lemma derive_ok c r : forall s, lang (derive c r) s <-> lang r (String c s).
Proof.
  induction r as [| |p|a IHa b IHb|a IHa b IHb|a IHa]; intros s; cbn [derive].
  - cbn. tauto.
  - cbn. split; [tauto|discriminate].
  - destruct (p c) eqn:E; cbn.
    + split; [intros ->; exists c; auto|]. intros (d & H & _). now injection H.
    + split; [tauto|]. intros (d & H & P). injection H as <- _. congruence.
  - assert (S : lang (Seq (derive c a) b) s <-> exists u v, String c s = String c u ++ v /\ lang a (String c u) /\ lang b v).
    { cbn [lang]. split; intros (u & v & E & A & B); exists u, v; rewrite IHa in *; (split; [|auto]).
      - rewrite E. reflexivity.
      - now injection E. }
    assert (G : lang (Seq a b) (String c s) <-> (exists u v, String c s = String c u ++ v /\ lang a (String c u) /\ lang b v) \/ (lang a "" /\ lang b (String c s))).
    { cbn [lang]. split.
      - intros ([|d u] & v & E & A & B); [right; cbn in E; subst v; auto|]. left. cbn in E. injection E as <- ->. exists u, v. auto.
      - intros [(u & v & E & A & B)|(A & B)]; [exists (String c u), v; auto|exists "", (String c s); auto]. }
    destruct (nullable a) eqn:N.
    + apply nullable_ok in N. change (lang (Or (Seq (derive c a) b) (derive c b)) s) with (lang (Seq (derive c a) b) s \/ lang (derive c b) s).
      rewrite S, G, IHb. tauto.
    + assert (N' : ~ lang a "") by (rewrite <- nullable_ok; congruence). rewrite S, G. tauto.
  - cbn [lang]. rewrite IHa, IHb. reflexivity.
  - cbn [lang]. rewrite star_step. split; intros (u & v & E & A & B); exists u, v; rewrite IHa in *; auto.
Qed.
Lemma rx_match_ok r s : rx_match r s = true <-> lang r s.
Proof. revert r; induction s as [|c s IH]; intros r; cbn [rx_match]; [apply nullable_ok|]. rewrite IH. apply derive_ok. Qed.

Lemma lower_ok c : between "a" "z" c = true <-> letter c.
Proof. unfold between, letter. rewrite andb_true_iff, !Nat.leb_le. reflexivity. Qed.
Lemma digit_ok c : between "0" "9" c = true <-> digit c.
Proof. unfold between, digit. rewrite andb_true_iff, !Nat.leb_le. reflexivity. Qed.
Lemma alnum_ok c : (between "a" "z" c || between "0" "9" c)%bool = true <-> letter c \/ digit c.
Proof. rewrite orb_true_iff, lower_ok, digit_ok. reflexivity. Qed.
Lemma sep_ok c : (Ascii.eqb c "." || Ascii.eqb c "_")%bool = true <-> c = "."%char \/ c = "_"%char.
Proof. rewrite orb_true_iff, !Ascii.eqb_eq. reflexivity. Qed.

Section Name.
  Let alnum := fun c => (between "a" "z" c || between "0" "9" c)%bool.
  Lemma many_alnum x : star (lang (OneOf alnum)) x <-> x = "" \/ word x.
  Proof.
    split.
    - intros H. induction H as [|u v (c & -> & P) _ IH]; [auto|]. right. apply alnum_ok in P. cbn. destruct IH as [->|IH]; [apply word_one, P|apply word_more; assumption].
    - intros [->|H]; [constructor|]. induction H as [c P|c s P _ IH]; apply alnum_ok in P.
      + apply (star_cons _ (String c "") ""); [exists c; auto|constructor].
      + apply (star_cons _ (String c "") s); [exists c; auto|exact IH].
  Qed.
  Lemma some_alnum x : lang (Seq (OneOf alnum) (Many (OneOf alnum))) x <-> word x.
  Proof.
    split.
    - intros (u & v & -> & (c & -> & P) & H). cbn [lang] in H. apply many_alnum in H. apply alnum_ok in P. cbn. destruct H as [->|H]; [apply word_one, P|apply word_more; assumption].
    - intros H. destruct H as [c P|c s P H]; apply alnum_ok in P.
      + exists (String c ""), "". split; [reflexivity|]. split; [exists c; auto|constructor].
      + exists (String c ""), s. split; [reflexivity|]. split; [exists c; auto|]. cbn [lang]. apply many_alnum. auto.
  Qed.
  Let tail := Many (Seq (OneOf (fun c => Ascii.eqb c "." || Ascii.eqb c "_")%bool) (Seq (OneOf alnum) (Many (OneOf alnum)))).
  Lemma tail_ok y : lang tail y <-> y = "" \/ exists c s, y = String c s /\ (c = "."%char \/ c = "_"%char) /\ words s.
  Proof.
    unfold tail; cbn [lang]; split.
    - intros H. induction H as [|u v (a & b & -> & (c & -> & P) & W) _ IH]; [auto|]. right. apply some_alnum in W. apply sep_ok in P. exists c, (b ++ v). split; [reflexivity|]. split; [exact P|].
      destruct IH as [->|(d & s & -> & D & S)]; [rewrite str_app_nil_r; apply words_one, W|apply words_more; assumption].
    - intros [->|(c & s & -> & C & W)]; [constructor|]. revert c C. induction W as [w W|w d s W D _ IH]; intros c C.
      + rewrite <- (str_app_nil_r (String c w)). apply star_cons; [|constructor]. exists (String c ""), w. split; [reflexivity|]. split; [exists c; split; [reflexivity|apply sep_ok, C]|]. apply some_alnum, W.
      + change (String c (w ++ String d s)) with (String c w ++ String d s). apply star_cons; [|apply IH, D]. exists (String c ""), w. split; [reflexivity|]. split; [exists c; split; [reflexivity|apply sep_ok, C]|]. apply some_alnum, W.
  Qed.
  Lemma words_split s : words s <-> exists w y, s = w ++ y /\ word w /\ lang tail y.
  Proof.
    split.
    - intros H. destruct H as [w W|w c s W C S].
      + exists w, "". rewrite str_app_nil_r. split; [reflexivity|]. split; [exact W|]. apply tail_ok. auto.
      + exists w, (String c s). split; [reflexivity|]. split; [exact W|]. apply tail_ok. right. exists c, s. auto.
    - intros (w & y & -> & W & T). apply tail_ok in T as [->|(c & s & -> & C & S)]; [rewrite str_app_nil_r; apply words_one, W|apply words_more; assumption].
  Qed.
  Lemma proper_ok s : rx_match name_regex s = true <-> proper_name s.
  Proof.
    rewrite rx_match_ok. change (lang name_regex s) with (exists u v, s = u ++ v /\ (exists c, u = String c "" /\ between "a" "z" c = true) /\ exists x y, v = x ++ y /\ star (lang (OneOf alnum)) x /\ lang tail y).
    unfold proper_name. split.
    - intros (u & v & -> & (c & -> & P) & x & y & -> & X & Y). apply lower_ok in P. apply many_alnum in X. split; [|exists c, (x ++ y); auto].
      apply words_split. exists (String c x), y. split; [reflexivity|]. split; [|exact Y]. destruct X as [->|X]; [apply word_one; auto|apply word_more; auto].
    - intros (W & c & t & -> & P). apply words_split in W as (w & y & E & W & Y). exists (String c ""), t. split; [reflexivity|]. split; [exists c; split; [reflexivity|apply lower_ok, P]|].
      destruct W as [d _|d x _ X]; cbn in E; injection E as <- ->; [exists "", y|exists x, y]; (split; [reflexivity|]; split; [apply many_alnum; auto|exact Y]).
  Qed.
End Name.
Lemma proper_no s : rx_match name_regex s = false <-> ~ proper_name s.
Proof. rewrite <- proper_ok. destruct (rx_match name_regex s); split; congruence. Qed.

(* ---------- namespaces ---------- *)
Fixpoint nss (s : string) : list string :=
  match s with
  | EmptyString => []
  | String d t => if Ascii.eqb d "." then "" :: map (String d) (nss t) else map (String d) (nss t)
  end.
Definition pre (l : list string) : list string := map (fun i => join "." (firstn i l)) (seq 1 (length l - 1)).
Lemma split_ne c s : split_char c s <> [].
Proof. destruct s; cbn; [discriminate|]. destruct (Ascii.eqb a c); [discriminate|]. destruct (split_char c s); discriminate. Qed.
Lemma pre_split s : pre (split_char "." s) = nss s.
Proof.
  induction s as [|d s IH]; [reflexivity|]. cbn [split_char nss]. destruct (Ascii.eqb_spec d ".") as [->|N].
  - rewrite <- IH. destruct (split_char "." s) as [|h t] eqn:E; [destruct (split_ne _ _ E)|]. unfold pre. cbn [length]. rewrite !Nat.sub_succ, !Nat.sub_0_r. cbn [seq map firstn join]. f_equal.
    rewrite <- seq_shift, !map_map. apply map_ext_in. intros i Hi. apply in_seq in Hi. destruct i as [|i]; [lia|]. reflexivity.
  - rewrite <- IH. destruct (split_char "." s) as [|h t] eqn:E; [destruct (split_ne _ _ E)|]. unfold pre. rewrite map_map. cbn [length]. apply map_ext_in. intros i Hi. apply in_seq in Hi. destruct i as [|i]; [lia|]. cbn [firstn join]. destruct (firstn i t); reflexivity.
Qed.
Lemma derive_nss n : derive_namespaces n = nss n.
Proof.
  unfold derive_namespaces. rewrite <- pre_split. unfold pre. destruct (Nat.ltb_spec 1 (length (split_char "." n))) as [L|L]; [reflexivity|].
  replace (length (split_char "." n) - 1) with 0 by lia. reflexivity.
Qed.
Lemma nss_ok n ns : In ns (nss n) <-> in_namespace n ns.
Proof.
  unfold in_namespace. revert ns; induction n as [|d n IH]; intros ns; cbn [nss].
  - split; [intros []|]. intros (r & E). destruct ns; discriminate.
  - assert (M : In ns (map (String d) (nss n)) <-> exists m, ns = String d m /\ exists r, n = m ++ "." ++ r).
    { rewrite in_map_iff. split; intros (m & E & H); exists m; rewrite IH in *; auto. }
    destruct (Ascii.eqb_spec d ".") as [->|N]; cbn [In]; rewrite M.
    + split.
      * intros [<-|(m & -> & r & ->)]; [exists n; reflexivity|exists r; reflexivity].
      * intros (r & E). destruct ns as [|c m]; [auto|]. right. cbn in E. injection E as <- ->. exists m. split; [reflexivity|exists r; reflexivity].
    + split.
      * intros (m & -> & r & ->). exists r. reflexivity.
      * intros (r & E). destruct ns as [|c m]; cbn in E; [injection E as -> _; congruence|]. injection E as <- ->. exists m. split; [reflexivity|exists r; reflexivity].
Qed.
Lemma nss_sorted n : StronglySorted (fun a b : string => String.length a < String.length b) (nss n).
Proof.
  assert (M : forall d l, StronglySorted (fun a b : string => String.length a < String.length b) l -> StronglySorted (fun a b : string => String.length a < String.length b) (map (String d) l)).
  { intros d l H. induction H as [|x l _ IH F]; constructor; [exact IH|]. apply Forall_map. eapply Forall_impl; [|exact F]. cbn. intros y. lia. }
  induction n as [|d n IH]; cbn [nss]; [constructor|]. destruct (Ascii.eqb d "."); [|apply M, IH]. constructor; [apply M, IH|]. apply Forall_map, Forall_forall. intros y _. cbn. lia.
Qed.
Lemma contains_dot n : contains "." n = true <-> exists ns, in_namespace n ns.
Proof. rewrite contains_spec. reflexivity. Qed.
Lemma sorted_filter {A} (R : A -> A -> Prop) (f : A -> bool) l : StronglySorted R l -> StronglySorted R (filter f l).
Proof. intros H. induction H as [|x l _ IH F]; cbn; [constructor|]. destruct (f x); [|exact IH]. constructor; [exact IH|]. apply Forall_forall. intros y Hy. apply filter_In in Hy as (Hy & _). rewrite Forall_forall in F. auto. Qed.
Lemma last_is {A} (l : list A) x : nth_error l (length l - 1) = Some x <-> exists l', l = app l' [x].
Proof.
  induction l as [|y l _] using rev_ind.
  - split; [discriminate|]. intros (l' & E). destruct l'; discriminate.
  - rewrite app_length. cbn [length]. rewrite Nat.add_sub, nth_error_app2, Nat.sub_diag by lia. cbn. split.
    + intros H. injection H as ->. exists l. reflexivity.
    + intros (l' & E). apply app_inj_tail in E as (_ & ->). reflexivity.
Qed.
Lemma sorted_nodup l : StronglySorted (fun a b : string => String.length a < String.length b) l -> NoDup l.
Proof. intros H. induction H as [|x l _ IH F]; constructor; [|exact IH]. intros I. rewrite Forall_forall in F. specialize (F x I). lia. Qed.
(* the last of the namespaces that satisfy a test is the longest *)
Lemma last_longest n f ns : let l := filter f (nss n) in
  nth_error l (length l - 1) = Some ns <->
  in_namespace n ns /\ f ns = true /\ forall o, in_namespace n o -> f o = true -> String.length o <= String.length ns.
Proof.
  intros l. assert (S : StronglySorted (fun a b : string => String.length a < String.length b) l) by apply sorted_filter, nss_sorted.
  assert (I : forall x, In x l <-> in_namespace n x /\ f x = true) by (intros x; unfold l; rewrite filter_In, nss_ok; reflexivity).
  rewrite last_is. split.
  - intros (l' & E). assert (H : In ns l) by (rewrite E; apply in_app_iff; right; left; reflexivity). apply I in H as (H1 & H2). split; [exact H1|]. split; [exact H2|].
    intros o O1 O2. assert (Ho : In o l) by (apply I; auto). rewrite E in Ho. apply in_app_iff in Ho as [Ho|[->|[]]]; [|lia].
    rewrite E in S. clear E I. induction l' as [|y l' IH]; [destruct Ho|]. inversion S as [|? ? S' F]; subst. destruct Ho as [->|Ho]; [|apply IH; assumption]. rewrite Forall_forall in F. specialize (F ns). rewrite in_app_iff in F. cbn in F. assert (String.length o < String.length ns) by auto. lia.
  - intros (H1 & H2 & H3). assert (H : In ns l) by (apply I; auto). apply in_split in H as (a & b & E). exists a. rewrite E. f_equal. f_equal. destruct b as [|z b]; [reflexivity|exfalso].
    rewrite E in S. assert (Z : In z l) by (rewrite E, in_app_iff; cbn; auto). apply I in Z as (Z1 & Z2). specialize (H3 z Z1 Z2). clear - S H3.
    induction a as [|y a IH]; cbn in S; inversion S as [|? ? S' F]; subst; [|auto]. rewrite Forall_forall in F. specialize (F z (or_introl eq_refl)). cbn in F. lia.
Qed.
Lemma in_namespace_len n a b : in_namespace n a -> in_namespace n b -> String.length a = String.length b -> a = b.
Proof.
  intros (x & ->) (y & E) L. revert b E L. induction a as [|c a IH]; intros [|d b] E L; try reflexivity; try discriminate. cbn in E, L. injection E as <- E. f_equal. apply IH; [exact E|lia].
Qed.

(* ---------- sets of jq ---------- *)
Definition truths (m : jset) : Prop := NoDup (map fst m) /\ forall k b, In (k, b) m -> b = true.
Lemma jin_ok m k : truths m -> (jin k m = true <-> In k (map fst m)).
Proof.
  intros (N & T). unfold jin. destruct (slookup k m) as [b|] eqn:E.
  - assert (I : In (k, b) m) by (apply slookup_in; assumption). rewrite (T k b I). split; [intros _; apply in_map_iff; exists (k, b); auto|reflexivity].
  - apply slookup_none in E. split; [discriminate|tauto].
Qed.
Lemma truths_insert m k : truths m -> truths (sinsert k true m) /\ forall x, In x (map fst (sinsert k true m)) <-> x = k \/ In x (map fst m).
Proof.
  intros (N & T). assert (N' : NoDup (map fst (sinsert k true m))) by apply InferProofs.sinsert_nodup, N. split; [split; [exact N'|]|intros x; apply (insert_in_keys _ string_eqb_spec)].
  intros x b H. apply (slookup_in _ _ _ N') in H. rewrite InferProofs.slookup_insert in H. destruct (String.eqb_spec x k) as [->|Ne]; [congruence|]. apply (slookup_in _ _ _ N) in H. exact (T x b H).
Qed.
Lemma jset_fold l : forall m, truths m -> let m' := fold_left (fun m k => sinsert k true m) l m in truths m' /\ forall x, In x (map fst m') <-> In x l \/ In x (map fst m).
Proof.
  induction l as [|k l IH]; intros m T; cbn [fold_left]; [split; [exact T|cbn; tauto]|]. destruct (truths_insert m k T) as (T' & K). destruct (IH _ T') as (A & B). split; [exact A|]. intros x. rewrite B, K. cbn. intuition (subst; auto).
Qed.
Lemma truths_nil : truths [].
Proof. split; [constructor|intros k b []]. Qed.
Lemma jset_of_ok l : truths (jset_of l) /\ forall x, In x (map fst (jset_of l)) <-> In x l.
Proof. destruct (jset_fold l [] truths_nil) as (A & B). split; [exact A|]. intros x. unfold jset_of. rewrite B. cbn. tauto. Qed.
Lemma jin_of l x : jin x (jset_of l) = true <-> In x l.
Proof. destruct (jset_of_ok l) as (A & B). rewrite (jin_ok _ _ A). apply B. Qed.
Lemma jset_add_ok n : forall m, truths m -> truths n -> truths (jset_add m n) /\ forall x, In x (map fst (jset_add m n)) <-> In x (map fst n) \/ In x (map fst m).
Proof.
  intros m Tm (_ & Tn). unfold jset_add. replace (fold_left (fun m kv => sinsert (fst kv) (snd kv) m) n m) with (fold_left (fun m k => sinsert k true m) (map fst n) m).
  - apply jset_fold, Tm.
  - revert m Tm. induction n as [|[k b] n IH]; intros m Tm; [reflexivity|]. cbn [fold_left map fst snd]. rewrite (Tn k b) by (left; reflexivity). apply IH; [|apply truths_insert, Tm]. intros x y H. apply (Tn x y). right. exact H.
Qed.
Lemma jkeys_ok {V} (m : list (string * V)) x : In x (jkeys m) <-> In x (map fst m).
Proof. unfold jkeys. split; apply Permutation.Permutation_in; [symmetry|]; apply stable_sort_perm. Qed.
Lemma prefixes_ok n : truths (jq_prefixes n) /\ forall x, In x (map fst (jq_prefixes n)) <-> in_namespace n x.
Proof.
  unfold jq_prefixes. destruct (jset_of_ok (pre (split_char "." n))) as (A & B). split; [exact A|]. intros x. fold (pre (split_char "." n)). rewrite B, pre_split. apply nss_ok.
Qed.

(* ---------- the data of a registry ---------- *)
Definition to_decl (p : string * vattr) : decl :=
  mk_decl (fst p) (is_template (vattr_type (snd p))) (match vattr_deprecated (snd p) with Some _ => true | None => false end).
Lemma decls_eq r : decls r = map to_decl (reg_attribute_list r).
Proof.
  destruct r as [gs|v]; cbn [decls reg_attribute_list].
  - rewrite flat_map_concat_map, concat_map, map_map. f_equal. apply map_ext. intros g. rewrite map_map. reflexivity.
  - rewrite map_map. reflexivity.
Qed.
Lemma insert_all_nodup {V} (kvs : list (string * V)) : NoDup (map fst (insert_all kvs [])).
Proof.
  unfold insert_all. assert (H : forall m : list (string * V), NoDup (map fst m) -> NoDup (map fst (fold_left (fun m kv => sinsert (fst kv) (snd kv) m) kvs m))).
  { induction kvs as [|kv kvs IH]; intros m N; [exact N|]. cbn [fold_left]. apply IH, InferProofs.sinsert_nodup, N. }
  apply H. constructor.
Qed.
Lemma insert_all_keys {V} (kvs : list (string * V)) k : In k (map fst (insert_all kvs [])) <-> exists v, In (k, v) kvs.
Proof.
  pose proof (insert_all_spec kvs k) as S. split.
  - intros H. destruct (slookup k (insert_all kvs [])) as [v|] eqn:E; [exists v; exact S|]. apply slookup_none in E. contradiction.
  - intros (v & H). destruct (slookup k (insert_all kvs [])) as [w|] eqn:E; [|destruct (S v H)]. apply (slookup_in _ _ _ (insert_all_nodup kvs)) in E. apply in_map_iff. exists (k, w). auto.
Qed.
Lemma keys_decl (b : bool) r k : (exists v, In (k, v) (filter (fun p => eqb b (is_template (vattr_type (snd p)))) (reg_attribute_list r))) <-> exists d, In d (decls r) /\ d_name d = k /\ d_template d = b.
Proof.
  rewrite decls_eq. split.
  - intros (v & H). apply filter_In in H as (H & T). apply eqb_prop in T. cbn in T. exists (to_decl (k, v)). split; [apply in_map, H|]. cbn. auto.
  - intros (d & H & N & T). apply in_map_iff in H as ([k' v] & <- & H). cbn in N, T. subst k'. exists v. apply filter_In. split; [exact H|]. cbn. rewrite T. apply eqb_reflx.
Qed.
Lemma filter_sel (b : bool) (l : list (string * vattr)) : filter (fun p => eqb b (is_template (vattr_type (snd p)))) l = if b then filter (fun p => is_template (vattr_type (snd p))) l else filter (fun p => negb (is_template (vattr_type (snd p)))) l.
Proof. destruct b; apply filter_ext; intros p; destruct (is_template _); reflexivity. Qed.

Section Reg.
  Variables (r : registry) (advs : list advisor) (md : option modifier).
  Let c := checker_new r advs md.
  Let d := advice_data_of c.
  Lemma attributes_ok n : jin n (ad_attributes d) = true <-> declares r n.
  Proof. unfold d, advice_data_of; cbn [ad_attributes]. rewrite jin_of, jkeys_ok. unfold c, checker_new; cbn [lc_attributes]. rewrite insert_all_keys. rewrite <- (filter_sel false). apply keys_decl. Qed.
  Lemma attributes_no n : jin n (ad_attributes d) = false <-> ~ declares r n.
  Proof. rewrite <- attributes_ok. destruct (jin n (ad_attributes d)); split; congruence. Qed.
  Lemma templates_ok t : In t (map fst (ad_templates d)) <-> declares_template r t.
  Proof. unfold d, advice_data_of; cbn [ad_templates]. destruct (jset_of_ok (jkeys (semconv_templates (lc_registry c)))) as (_ & B). rewrite B, jkeys_ok. unfold semconv_templates. rewrite insert_all_keys. rewrite <- (filter_sel true). apply keys_decl. Qed.
  Lemma template_type_ok n : is_template_type d n = true <-> begins_with_template r n.
  Proof.
    unfold is_template_type, begins_with_template. rewrite existsb_exists. split.
    - intros (t & H & S). apply templates_ok in H. apply starts_with_spec in S as (rest & E). exists t, rest. auto.
    - intros (t & rest & H & E). exists t. split; [apply templates_ok, H|apply starts_with_spec; exists rest; exact E].
  Qed.
  Lemma template_type_no n : is_template_type d n = false <-> ~ begins_with_template r n.
  Proof. rewrite <- template_type_ok. destruct (is_template_type d n); split; congruence. Qed.
  Lemma namespaces_ok ns : jin ns (ad_namespaces d) = true <-> has_namespace r ns.
  Proof.
    unfold d, advice_data_of; cbn [ad_namespaces].
    assert (H : forall l m, truths m -> let m' := fold_left (fun m n => jset_add m (jq_prefixes n)) l m in truths m' /\ forall x, In x (map fst m') <-> In x (map fst m) \/ exists n, In n l /\ in_namespace n x).
    { induction l as [|n l IH]; intros m T; cbn [fold_left]; [split; [exact T|]; intros x; split; [auto|]; intros [H|(n & [] & _)]; exact H|].
      destruct (prefixes_ok n) as (Tp & Kp). destruct (jset_add_ok _ m T Tp) as (Ta & Ka). destruct (IH _ Ta) as (A & B). split; [exact A|]. intros x. rewrite B, Ka, Kp. split.
      - intros [[H|H]|(k & H & E)]; [right; exists n; split; [left; reflexivity|exact H]|left; exact H|right; exists k; split; [right; exact H|exact E]].
      - intros [H|(k & [<-|H] & E)]; [auto|auto|right; exists k; auto]. }
    destruct (H (jkeys (lc_attributes c)) [] truths_nil) as (A & B). rewrite (jin_ok _ _ A), B. cbn [map In]. unfold has_namespace.
    assert (D : forall n, In n (jkeys (lc_attributes c)) <-> declares r n) by (intros n; rewrite <- attributes_ok; unfold d, advice_data_of; cbn [ad_attributes]; rewrite jin_of; reflexivity).
    split; [intros [[]|(n & I & E)]; exists n; rewrite <- D; auto|]. intros (n & I & E). right. exists n. rewrite D. auto.
  Qed.
  Lemma find_rev {A} (p : A -> bool) l x : find p (rev l) = Some x <-> exists a b, l = app a (x :: b) /\ p x = true /\ forall y, In y b -> p y = false.
  Proof.
    induction l as [|y l IH] using rev_ind.
    - split; [discriminate|]. intros (a & b & E & _). destruct a; discriminate.
    - rewrite rev_unit. cbn [find]. destruct (p y) eqn:P.
      + split.
        * intros H. injection H as ->. exists l, []. split; [reflexivity|]. split; [exact P|intros z []].
        * intros (a & b & E & Px & B). destruct (exists_last (l := x :: b)) as (b' & z & Eb); [discriminate|]. rewrite Eb, app_assoc in E. apply app_inj_tail in E as (_ & ->).
          destruct b' as [|w b']; cbn in Eb; injection Eb as -> Eb; [reflexivity|]. exfalso. rewrite B in P; [discriminate|]. rewrite Eb. apply in_app_iff. right. left. reflexivity.
      + rewrite IH. split.
        * intros (a & b & -> & Px & B). exists a, (app b [y]). split; [rewrite <- app_assoc; reflexivity|]. split; [exact Px|]. intros z Z. apply in_app_iff in Z as [Z|[<-|[]]]; auto.
        * intros (a & b & E & Px & B). destruct b as [|w b] using rev_ind; [apply app_inj_tail in E as (_ & ->); congruence|]. rewrite app_comm_cons, app_assoc in E. apply app_inj_tail in E as (-> & ->). exists a, b. split; [reflexivity|]. split; [exact Px|]. intros z Z. apply B. apply in_app_iff. auto.
  Qed.
  Lemma find_filter {A} (p q : A -> bool) l : find p (filter q l) = find (fun x => q x && p x)%bool l.
  Proof. induction l as [|x l IH]; [reflexivity|]. cbn [filter find]. destruct (q x); cbn [find andb]; [destruct (p x); [reflexivity|exact IH]|exact IH]. Qed.
  Lemma filter_rev' {A} (q : A -> bool) l : rev (filter q l) = filter q (rev l).
  Proof. induction l as [|x l IH]; [reflexivity|]. cbn [filter rev]. rewrite filter_app, <- IH. cbn. destruct (q x); cbn; [reflexivity|rewrite app_nil_r; reflexivity]. Qed.
  Lemma deprecated_ok n : jin n (ad_deprecated d) = true <-> deprecates r n.
  Proof.
    unfold d, advice_data_of; cbn [ad_deprecated]. rewrite jin_of, in_map_iff.
    assert (E : (exists x, fst x = n /\ In x (filter (fun kv => match vattr_deprecated (snd kv) with Some _ => true | None => false end) (lc_attributes c))) <-> exists v, slookup n (lc_attributes c) = Some v /\ vattr_deprecated v <> None).
    { assert (N : NoDup (map fst (lc_attributes c))) by apply insert_all_nodup. split.
      - intros ([k v] & <- & H). apply filter_In in H as (H & D). cbn [fst snd] in D |- *. exists v. rewrite (slookup_in _ _ _ N). split; [exact H|]. destruct (vattr_deprecated v); congruence.
      - intros (v & H & D). apply (slookup_in _ _ _ N) in H. exists (n, v). split; [reflexivity|]. apply filter_In. split; [exact H|]. cbn. destruct (vattr_deprecated v); congruence. }
    rewrite E. unfold c, checker_new; cbn [lc_attributes]. rewrite insert_all_last. cbn [slookup lookup].
    rewrite filter_rev', find_filter. unfold deprecates. rewrite decls_eq. split.
    - intros (v & H & D). destruct (find _ _) as [[k w]|] eqn:F; [|discriminate]. cbn in H. injection H as ->. apply find_rev in F as (a & b & L & P & B). cbn in P. apply andb_true_iff in P as (T & P). apply String.eqb_eq in P as <-. apply negb_true_iff in T.
      exists (map to_decl a), (to_decl (n, v)), (map to_decl b). split; [rewrite L, map_app; reflexivity|]. cbn. split; [reflexivity|]. split; [exact T|]. split; [destruct (vattr_deprecated v); congruence|].
      intros e He Ne. apply in_map_iff in He as ([k w] & <- & He). cbn in Ne |- *. subst k. specialize (B _ He). cbn in B. rewrite String.eqb_refl, andb_true_r in B. apply negb_false_iff in B. exact B.
    - intros (a & x & b & L & Nx & Tx & Dx & B). symmetry in L. apply eq_sym, map_eq_app in L as (a' & b0 & L & <- & Eb). destruct b0 as [|[k v] b']; [discriminate|]. cbn [map] in Eb. injection Eb as <- <-. cbn in Nx, Tx, Dx. subst k.
      assert (F : find (fun x => negb (is_template (vattr_type (snd x))) && String.eqb n (fst x))%bool (rev (reg_attribute_list r)) = Some (n, v)).
      { apply find_rev. exists a', b'. split; [exact L|]. cbn. rewrite Tx, String.eqb_refl. split; [reflexivity|]. intros [k w] I. cbn. destruct (String.eqb_spec n k) as [<-|_]; [|apply andb_false_r].
        rewrite andb_true_r. apply negb_false_iff. apply (B (to_decl (n, w))); [apply in_map, I|reflexivity]. }
      rewrite F. exists v. split; [reflexivity|]. destruct (vattr_deprecated v); congruence.
  Qed.
  Lemma deprecated_no n : jin n (ad_deprecated d) = false <-> ~ deprecates r n.
  Proof. rewrite <- deprecated_ok. destruct (jin n (ad_deprecated d)); split; congruence. Qed.

  (* ---------- findings ---------- *)
  Lemma says_eq f id l ctx m st sn : says f id l ctx m st sn <-> f = PolicyModel.mk_finding id (Some (JObj ctx)) m l st sn.
  Proof.
    destruct f as [i c0 m0 l0 st0 sn0]. unfold says, PolicyModel.mk_finding. cbn. split.
    - intros (-> & -> & -> & -> & -> & ->). reflexivity.
    - intros H. injection H as -> -> -> -> -> ->. repeat split.
  Qed.
  Section Sig.
  Variable signal : sample.
  Definition reads (l : list json) (P : finding -> Prop) : Prop :=
    exists fs, PolicyModel.read_each l = ROk fs /\ NoDup (map (fill signal) fs) /\ forall f, In f (map (fill signal) fs) <-> P f.
  Lemma reads_nil P : (forall f, ~ P f) -> reads [] P.
  Proof. intros H. exists []. split; [reflexivity|]. split; [constructor|]. intros f. cbn. split; [tauto|]. intros G. exact (H f G). Qed.
  Lemma read_app a b fa fb : PolicyModel.read_each a = ROk fa -> PolicyModel.read_each b = ROk fb -> PolicyModel.read_each (app a b) = ROk (app fa fb).
  Proof.
    revert fa; induction a as [|x a IH]; intros fa Ha Hb; cbn [app PolicyModel.read_each] in *; [injection Ha as <-; exact Hb|].
    destruct (PolicyModel.read_finding x) as [f|]; [|discriminate]. destruct (PolicyModel.read_each a) as [fs|]; [|discriminate]. injection Ha as <-. rewrite (IH fs eq_refl Hb). reflexivity.
  Qed.
  Lemma reads_app a b (P Q R : finding -> Prop) : reads a P -> reads b Q -> (forall f, P f -> Q f -> False) -> (forall f, R f <-> P f \/ Q f) -> reads (app a b) R.
  Proof.
    intros (fa & Ra & Na & Ia) (fb & Rb & Nb & Ib) D E. exists (app fa fb). split; [apply read_app; assumption|]. rewrite map_app. split.
    - revert Na Ia D. generalize (map (fill signal) fa) as l. clear Ra E. intros l Na Ia D. assert (X : forall f, In f l -> In f (map (fill signal) fb) -> False) by (intros f A B; apply (D f); [apply Ia, A|apply Ib, B]). clear Ia D.
      induction Na as [|x l H _ IH]; [exact Nb|]. cbn. constructor; [|apply IH; intros f A B; apply (X f); [right; exact A|exact B]]. rewrite in_app_iff. intros [A|A]; [contradiction|]. apply (X x); [left; reflexivity|exact A].
    - intros f. rewrite in_app_iff, Ia, Ib, E. reflexivity.
  Qed.
  Lemma read_advice ty lv ctx msg l : PolicyModel.level_of_name lv = Some l ->
    PolicyModel.read_finding (make_advice ty lv ctx msg) = ROk (PolicyModel.mk_finding ty (Some ctx) msg l None None).
  Proof. intros H. unfold make_advice. cbn. rewrite H. reflexivity. Qed.
  Lemma reads_one ty lv ctx msg l (P : finding -> Prop) : PolicyModel.level_of_name lv = Some l ->
    (forall f, P f <-> says f ty l ctx msg (signal_type signal) (signal_name signal)) ->
    reads [make_advice ty lv (JObj ctx) msg] P.
  Proof.
    intros H E. exists [PolicyModel.mk_finding ty (Some (JObj ctx)) msg l None None]. cbn [PolicyModel.read_each]. rewrite (read_advice _ _ _ _ _ H). split; [reflexivity|]. cbn [map]. split; [constructor; [intros []|constructor]|].
    intros f. rewrite E, says_eq. cbn. split; [intros [<-|[]]; reflexivity|auto].
  Qed.
  Lemma missing_reads n : reads (rule_missing n) (fun f => (forall ns, ~ in_namespace n ns) /\ says f "missing_namespace" Improvement [("attribute_key", JStr n)]
      ("Attribute key '" ++ n ++ "' must include a namespace (e.g. '{namespace}.{attribute_key}')") (signal_type signal) (signal_name signal)).
  Proof.
    unfold rule_missing. destruct (contains "." n) eqn:C; cbn [negb].
    - apply contains_dot in C as (ns & C). apply reads_nil. intros f (H & _). exact (H ns C).
    - eapply reads_one; [reflexivity|]. intros f. split; [intros (_ & H); exact H|]. intros H. split; [|exact H]. intros ns Hn. assert (contains "." n = true) by (apply contains_dot; eauto). congruence.
  Qed.
  Lemma format_reads n : reads (rule_format d n) (fun f => (~ proper_name n /\ ~ begins_with_template r n) /\ says f "invalid_format" Violation [("attribute_key", JStr n)]
      ("Attribute key '" ++ n ++ "' does not match name formatting rules.") (signal_type signal) (signal_name signal)).
  Proof.
    unfold rule_format. destruct (negb (is_template_type d n) && negb (rx_match name_regex n))%bool eqn:C.
    - apply andb_true_iff in C as (A & B). apply negb_true_iff in A, B. apply template_type_no in A. apply proper_no in B. eapply reads_one; [reflexivity|]. intros f. tauto.
    - apply reads_nil. intros f ((P & T) & _). apply template_type_no in T. apply proper_no in P. rewrite P, T in C. discriminate.
  Qed.
  Lemma collision_reads n : reads (rule_collision d n) (fun f => exists ns, (in_namespace n ns /\ declares r ns /\ ~ deprecates r ns) /\
      says f "illegal_namespace" Violation [("attribute_key", JStr n); ("namespace", JStr ns)]
      ("Namespace '" ++ ns ++ "' collides with existing attribute '" ++ n ++ "'") (signal_type signal) (signal_name signal)).
  Proof.
    unfold rule_collision. destruct (contains "." n) eqn:C.
    2:{ apply reads_nil. intros f (ns & (H & _) & _). assert (contains "." n = true) by (apply contains_dot; eauto). congruence. }
    rewrite derive_nss.
    assert (G : forall l, NoDup l -> reads (flat_map (fun ns => if (jin ns (ad_attributes d) && negb (jin ns (ad_deprecated d)))%bool then
        [make_advice "illegal_namespace" "violation" (JObj [("attribute_key", JStr n); ("namespace", JStr ns)]) ("Namespace '" ++ ns ++ "' collides with existing attribute '" ++ n ++ "'")] else []) l)
      (fun f => exists ns, (In ns l /\ declares r ns /\ ~ deprecates r ns) /\
      says f "illegal_namespace" Violation [("attribute_key", JStr n); ("namespace", JStr ns)]
      ("Namespace '" ++ ns ++ "' collides with existing attribute '" ++ n ++ "'") (signal_type signal) (signal_name signal))).
    { intros l N. induction N as [|ns l H _ IH]; [apply reads_nil; intros f (ns & ([] & _) & _)|]. cbn [flat_map].
      apply (reads_app _ _ (fun f => (declares r ns /\ ~ deprecates r ns) /\ says f "illegal_namespace" Violation [("attribute_key", JStr n); ("namespace", JStr ns)]
        ("Namespace '" ++ ns ++ "' collides with existing attribute '" ++ n ++ "'") (signal_type signal) (signal_name signal)) _ _) with (2 := IH).
      - destruct (jin ns (ad_attributes d) && negb (jin ns (ad_deprecated d)))%bool eqn:E.
        + apply andb_true_iff in E as (A & B). apply negb_true_iff in B. apply attributes_ok in A. apply deprecated_no in B. eapply reads_one; [reflexivity|]. intros f. tauto.
        + apply reads_nil. intros f ((A & B) & _). apply attributes_ok in A. apply deprecated_no in B. rewrite A, B in E. discriminate.
      - intros f (_ & S) (o & (I & _) & S'). destruct S as (_ & _ & S & _). destruct S' as (_ & _ & S' & _). rewrite S in S'. injection S' as ->. contradiction.
      - intros f. split.
        + intros (o & ([<-|I] & A & B) & S); [left; auto|right; exists o; auto].
        + intros [((A & B) & S)|(o & (I & A & B) & S)]; [exists ns|exists o]; cbn; auto. }
    destruct (G (nss n) (sorted_nodup _ (nss_sorted n))) as (fs & A & B & E). exists fs. split; [exact A|]. split; [exact B|]. intros f. rewrite E. split; intros (ns & H & S); exists ns; rewrite nss_ok in *; auto.
  Qed.
  Lemma extends_reads n : reads (rule_extends d n) (fun f => exists ns, (~ declares r n /\ ~ begins_with_template r n /\ in_namespace n ns /\ has_namespace r ns /\
      (forall other, in_namespace n other -> has_namespace r other -> String.length other <= String.length ns)) /\
      says f "extends_namespace" Information [("attribute_key", JStr n); ("namespace", JStr ns)]
      ("Attribute key '" ++ n ++ "' collides with existing namespace '" ++ ns ++ "'") (signal_type signal) (signal_name signal)).
  Proof.
    unfold rule_extends. destruct (contains "." n && negb (is_template_type d n) && negb (jin n (ad_attributes d)))%bool eqn:C.
    2:{ apply reads_nil. intros f (ns & (A & B & I & _) & _). apply attributes_no in A. apply template_type_no in B. assert (D : contains "." n = true) by (apply contains_dot; eauto). rewrite A, B, D in C. discriminate. }
    apply andb_true_iff in C as (C & A). apply andb_true_iff in C as (_ & B). apply negb_true_iff in A, B. apply attributes_no in A. apply template_type_no in B. cbv zeta. rewrite derive_nss.
    pose proof (last_longest n (fun ns => jin ns (ad_namespaces d))) as L. cbv zeta in L. set (fl := filter (fun ns => jin ns (ad_namespaces d)) (nss n)) in *.
    assert (L' : forall ns, nth_error fl (length fl - 1) = Some ns <-> in_namespace n ns /\ has_namespace r ns /\ forall o, in_namespace n o -> has_namespace r o -> String.length o <= String.length ns).
    { intros ns. rewrite L, namespaces_ok. split; intros (X & Y & Z); (split; [exact X|]; split; [exact Y|]); intros o O1 O2; apply Z; auto; apply namespaces_ok, O2. }
    destruct (nth_error fl (length fl - 1)) as [ns|] eqn:E.
    - specialize (proj1 (L' ns) eq_refl) as (I & H & M). eapply reads_one; [reflexivity|]. intros f. split.
      + intros (o & (_ & _ & I' & H' & M') & S). assert (o = ns) as ->; [|exact S]. apply (in_namespace_len n); auto. specialize (M o I' H'). specialize (M' ns I H). lia.
      + intros S. exists ns. auto 8.
    - apply reads_nil. intros f (ns & (_ & _ & H) & _). apply L' in H. discriminate.
  Qed.
  Lemma attribute_reads n : reads (app (rule_missing n) (app (rule_format d n) (app (rule_collision d n) (rule_extends d n)))) (attribute_finding r n signal).
  Proof.
    eapply reads_app; [apply missing_reads|eapply reads_app; [apply format_reads|eapply reads_app; [apply collision_reads|apply extends_reads| |]| |]| |].
    - intros f (ns & _ & S) (ns' & _ & S'). destruct S as (S & _), S' as (S' & _). congruence.
    - intros f. apply iff_refl.
    - cbv beta. intros f (_ & S) [(ns & _ & S')|(ns & _ & S')]; destruct S as (S & _), S' as (S' & _); congruence.
    - intros f. apply iff_refl.
    - cbv beta. intros f (_ & S) [(_ & S')|[(ns & _ & S')|(ns & _ & S')]]; destruct S as (S & _), S' as (S' & _); congruence.
    - intros f. cbv beta. split.
      + intros [N S|P T S|ns I D X S|ns D T I H M S]; [left; auto|right; left; auto|right; right; left; exists ns; auto|right; right; right; exists ns; auto 8].
      + intros [(N & S)|[((P & T) & S)|[(ns & (I & D & X) & S)|(ns & (D & T & I & H & M) & S)]]]; [apply no_namespace; auto|apply not_proper; auto|eapply namespace_is_attribute; eauto|eapply extends_namespace; eauto].
  Qed.
  End Sig.

  Theorem C108_attribute_partial : forall a signal ra rg, exists fs,
    naming_advisor c (RfAttribute a) signal ra rg = Ok fs /\ NoDup fs /\
    forall f, In f fs <-> attribute_finding r (sa_name a) signal f.
  Proof.
    intros a signal ra rg. destruct (attribute_reads signal (sa_name a)) as (fs & R & N & I). exists (map (fill signal) fs). split; [|auto].
    unfold naming_advisor. fold d. cbn [deny PolicyModel.read_findings]. rewrite R. reflexivity.
  Qed.
  Theorem C108_metric : forall m signal ra rg, exists fs,
    naming_advisor c (RfMetric m) signal ra rg = Ok fs /\ NoDup fs /\
    forall f, In f fs <-> metric_finding (sm_name m) f.
  Proof.
    intros m signal ra rg. unfold naming_advisor, metric_finding. fold d. cbn [deny]. unfold rule_metric. destruct (rx_match name_regex (sm_name m)) eqn:E; cbn [negb].
    - exists []. split; [reflexivity|]. split; [constructor|]. intros f. split; [intros []|]. intros (N & _). apply proper_no in N. congruence.
    - apply proper_no in E. eexists. split; [reflexivity|]. cbn [map fill]. split; [constructor; [intros []|constructor]|]. intros f. rewrite says_eq. cbn. split; [intros [<-|[]]; auto|]. intros (_ & ->). auto.
  Qed.
  Theorem C108_others : forall s signal ra rg,
    (forall a, s <> RfAttribute a) -> (forall m, s <> RfMetric m) -> naming_advisor c s signal ra rg = Ok [].
  Proof. intros s signal ra rg A M. destruct s; try reflexivity; [destruct (A a eq_refl)|destruct (M m eq_refl)]. Qed.
End Reg.
Print Assumptions C108_attribute_partial.
Print Assumptions C108_metric.
Print Assumptions C108_others.

(* the policy leaves alone what decides which attribute of the registry is counted (C03) *)
Theorem C108_counts : forall r advs m, never_says_template (naming_advisor (checker_new r advs m)).
Proof.
  intros r advs m s signal ra rg fs f E I. destruct s as [a| | | | | |mt| | | | | | ]; try (cbn in E; injection E as <-; destruct I).
  - destruct (C108_attribute_partial r advs m a signal ra rg) as (fs' & E' & _ & H). rewrite E in E'. injection E' as <-. apply H in I. destruct I as [_ S|_ _ S|ns _ _ _ S|ns _ _ _ _ _ S]; destruct S as (-> & _); discriminate.
  - destruct (C108_metric r advs m mt signal ra rg) as (fs' & E' & _ & H). rewrite E in E'. injection E' as <-. apply H in I. destruct I as (_ & -> & _). discriminate.
Qed.
Print Assumptions C108_counts.

(* ---------- what does not hold ---------- *)
(* a badly formed name is excused only as an instance of a template *)
Theorem C108_template_refuted : ~ (forall r advs m a signal ra rg fs,
  naming_advisor (checker_new r advs m) (RfAttribute a) signal ra rg = Ok fs ->
  ~ proper_name (sa_name a) -> ~ instance_of_template r (sa_name a) -> exists f, In f fs /\ f_id f = "invalid_format").
Proof.
  intros H. set (a := {| sa_name := "http.request.headers..X"; sa_value := None; sa_type := None; sa_result := None |}).
  destruct (H naming_registry [] None a a_resource None None [] eq_refl) as (f & [] & _).
  - rewrite <- proper_ok. vm_compute. discriminate.
  - intros (t & key & (d & I & <- & T) & E). cbn in I. destruct I as [<-|[<-|[<-|[<-|[<-|[]]]]]]; try discriminate T; vm_compute in E; discriminate E.
Qed.
Print Assumptions C108_template_refuted.

(* a new attribute in a namespace of the registry is pointed out *)
Theorem C108_namespace_refuted : ~ (forall r advs m a signal ra rg fs ns,
  naming_advisor (checker_new r advs m) (RfAttribute a) signal ra rg = Ok fs ->
  ~ declares r (sa_name a) -> ~ begins_with_template r (sa_name a) ->
  in_namespace (sa_name a) ns -> any_namespace r ns -> exists f, In f fs /\ f_id f = "extends_namespace").
Proof.
  intros H. set (a := {| sa_name := "rpc.metadata.size"; sa_value := None; sa_type := None; sa_result := None |}).
  destruct (H naming_registry [] None a a_resource None None [] "rpc.metadata" eq_refl) as (f & [] & _).
  - rewrite <- (attributes_ok naming_registry [] None). vm_compute. discriminate.
  - rewrite <- (template_type_ok naming_registry [] None). vm_compute. discriminate.
  - exists "size". reflexivity.
  - eexists. split; [right; right; right; right; left; reflexivity|]. exists "key". reflexivity.
Qed.
Print Assumptions C108_namespace_refuted.

(* ---------- cases ---------- *)
Definition ids (s : sref) : res (list (string * option json)) :=
  match naming_advisor (checker_new naming_registry [] None) s a_resource None None with
  | Ok fs => Ok (map (fun f => (f_id f, f_context f)) fs)
  | Err e => Err e
  end.
Example C108_case_collision : ids (sent "server.port.number") = Ok [
  ("illegal_namespace", Some (JObj [("attribute_key", JStr "server.port.number"); ("namespace", JStr "server.port")]));
  ("extends_namespace", Some (JObj [("attribute_key", JStr "server.port.number"); ("namespace", JStr "server")]))].
Proof. vm_compute. reflexivity. Qed.
Example C108_case_extends : ids (sent "server.net.peer.zone") = Ok [
  ("extends_namespace", Some (JObj [("attribute_key", JStr "server.net.peer.zone"); ("namespace", JStr "server.net.peer")]))].
Proof. vm_compute. reflexivity. Qed.
Example C108_case_format : ids (sent "Server") = Ok [
  ("missing_namespace", Some (JObj [("attribute_key", JStr "Server")])); ("invalid_format", Some (JObj [("attribute_key", JStr "Server")]))].
Proof. vm_compute. reflexivity. Qed.
Example C108_case_deprecated : ids (sent "http.method.name") = Ok [
  ("extends_namespace", Some (JObj [("attribute_key", JStr "http.method.name"); ("namespace", JStr "http")]))].
Proof. vm_compute. reflexivity. Qed.
Example C108_case_known : ids (sent "server.port") = Ok [].
Proof. vm_compute. reflexivity. Qed.
