(* C102: where the errors of a definition file are shown, and what is said about them. *)
From Coq Require Import String Ascii Bool Arith NArith Lia List.
Import ListNotations.
From Verif Require Import Base BaseProofs Json SemTypes Str StrProofs LocModel LocSpec.
From Verif Require ServeModel ServeSpec PropServe SearchSpec.
Local Open Scope string_scope.

(* ---------- pointers ---------- *)
Definition segment_of (st : step) (s : string) : Prop :=
  match st with SKey k => escaped (key_text k) s | SIdx n => ServeSpec.digits s n end.
Definition component_of (st : step) : component :=
  match st with SKey k => Key (key_text k) | SIdx n => Index n end.
Definition slashes (l : list string) : string := fold_right (fun x r => "/" ++ x ++ r) "" l.
Lemma points_split p s : points p s -> exists l, Forall2 segment_of p l /\ s = slashes l.
Proof.
  induction 1 as [|k e p s E _ (l & F & ->)|n d p s E _ (l & F & ->)].
  - exists []. split; [constructor|reflexivity].
  - exists (e :: l). split; [constructor; assumption|reflexivity].
  - exists (d :: l). split; [constructor; assumption|reflexivity].
Qed.
Lemma slashes_join x l : slashes (x :: l) = String "/" (join "/" (x :: l)).
Proof.
  revert x. induction l as [|y l IH]; intros x.
  - cbn. rewrite str_app_nil_r. reflexivity.
  - change (slashes (x :: y :: l)) with ("/" ++ x ++ slashes (y :: l)). rewrite IH. reflexivity.
Qed.
Lemma no_slash s : any_char (fun d => Ascii.eqb d "/") s = false <-> forall a b, s <> a ++ "/" ++ b.
Proof.
  assert (H : any_char (fun d => Ascii.eqb d "/") s = true <-> exists a b, s = a ++ "/" ++ b).
  { induction s as [|c s IH]; cbn [any_char]; [split; [discriminate|intros ([|? ?] & b & H); discriminate]|].
    rewrite orb_true_iff, IH. split.
    - intros [H|(a & b & ->)]; [apply Ascii.eqb_eq in H as ->; exists "", s; reflexivity|exists (String c a), b; reflexivity].
    - intros ([|d a] & b & H); cbn in H; injection H as -> ->; [left; reflexivity|right; exists a, b; reflexivity]. }
  rewrite <- not_true_iff_false, H. split; [intros N a b E; apply N; exists a, b; exact E|intros N (a & b & E); exact (N a b E)].
Qed.
Lemma digits_plain s n : ServeSpec.digits s n -> any_char (fun d => Ascii.eqb d "/") s = false.
Proof.
  assert (D : forall c d, String.get d "0123456789" = Some c -> Ascii.eqb c "/" = false).
  { intros c d H. do 10 (destruct d as [|d]; [vm_compute in H; injection H as <-; reflexivity|]). destruct d; discriminate. }
  assert (A : forall a b, any_char (fun d => Ascii.eqb d "/") (a ++ b) = any_char (fun d => Ascii.eqb d "/") a || any_char (fun d => Ascii.eqb d "/") b).
  { induction a as [|c a IH]; intros b; [reflexivity|]. cbn. rewrite IH, orb_assoc. reflexivity. }
  induction 1 as [c d H|s n c d _ IH H].
  - cbn. rewrite (D _ _ H). reflexivity.
  - rewrite A, IH. cbn. rewrite (D _ _ H). reflexivity.
Qed.
Lemma escaped_id k e : escaped k e -> (forall a b, k <> a ++ "/" ++ b) -> (forall a b, k <> a ++ "~" ++ b) -> e = k.
Proof.
  induction 1 as [|s e _ IH|s e _ IH|c s e Nt Ns _ IH]; intros S T.
  - reflexivity.
  - destruct (T "" s eq_refl).
  - destruct (S "" s eq_refl).
  - rewrite IH; [reflexivity| |]; intros a b E; [apply (S (String c a) b)|apply (T (String c a) b)]; rewrite E; reflexivity.
Qed.
Definition read_segment (s : string) : component := match ServeModel.read_usize s with Ok n => Index n | Err _ => Key s end.
Lemma plain_segments p l : plain p -> Forall2 segment_of p l ->
  Forall (fun s => any_char (fun d => Ascii.eqb d "/") s = false /\ s <> "") l /\ map read_segment l = map component_of p.
Proof.
  intros P. revert l. induction P as [|k p (Ne & S & T & N) _ IH|n p B _ IH]; intros l F; inversion F as [|st x ? l' G F']; subst.
  - split; [constructor|reflexivity].
  - cbn [segment_of key_text] in G. rewrite (escaped_id _ _ G S T). destruct (IH _ F') as (A & E). split.
    + constructor; [split; [apply no_slash, S|exact Ne]|exact A].
    + cbn [map component_of key_text]. rewrite E. f_equal. unfold read_segment. destruct (ServeModel.read_usize k) as [n|] eqn:R; [|reflexivity].
      apply PropServe.usize_iff in R. destruct (N n R).
  - cbn [segment_of] in G. destruct (IH _ F') as (A & E). split.
    + constructor; [split; [eapply digits_plain, G|apply (PropServe.digits_read _ _ G)]|exact A].
    + cbn [map component_of]. rewrite E. f_equal. unfold read_segment. rewrite (proj2 (PropServe.usize_iff x n)); [reflexivity|]. split; [left; exact G|exact B].
Qed.
Lemma parse_plain p s : p <> [] -> plain p -> points p s -> parse_xpath s = Ok (map component_of p).
Proof.
  intros Ne P Po. destruct (points_split _ _ Po) as (l & F & ->). destruct (plain_segments _ _ P F) as (A & E).
  destruct l as [|x l]; [inversion F; subst; congruence|]. rewrite slashes_join. cbn [parse_xpath Ascii.eqb Bool.eqb].
  change (join "/" (x :: l)) with (join (String "/" "") (x :: l)). rewrite PropServe.split_unique.
  - f_equal. rewrite <- E. fold read_segment. clear -A. induction A as [|y m (_ & N) _ IH]; [reflexivity|]. cbn [filter]. apply String.eqb_neq in N. rewrite N. cbn [negb map]. rewrite IH. reflexivity.
  - discriminate.
  - intros y Hy. rewrite Forall_forall in A. apply A, Hy.
Qed.

(* ---------- nodes ---------- *)
Lemma mapping_get_iff k m c : mapping_get k m = Some c <-> exists l r, m = app l ((YStr k, c) :: r) /\ ~ In (YStr k) (map fst l).
Proof.
  split.
  - induction m as [|[[s|s] n] m IH]; cbn [mapping_get]; [discriminate| |].
    + destruct (String.eqb_spec s k) as [->|N].
      * intros H. injection H as ->. exists [], m. split; [reflexivity|intros []].
      * intros H. destruct (IH H) as (l & r & -> & I). exists ((YStr s, n) :: l), r. split; [reflexivity|]. cbn. intros [E|E]; [congruence|exact (I E)].
    + intros H. destruct (IH H) as (l & r & -> & I). exists ((YOther s, n) :: l), r. split; [reflexivity|]. cbn. intros [E|E]; [congruence|exact (I E)].
  - intros (l & r & -> & I). induction l as [|[[s|s] n] l IH]; cbn in *; [rewrite String.eqb_refl; reflexivity| |].
    + destruct (String.eqb_spec s k) as [->|N]; [tauto|]. apply IH. tauto.
    + apply IH. tauto.
Qed.
Lemma node_at_plain root p n : plain p -> sits root p n -> node_at root (map component_of p) = Some n.
Proof.
  intros P S. revert P. induction S as [n|a b m k l r c p n -> I _ IH|a b l i c p n E _ IH]; intros P; [reflexivity| |]; inversion P; subst; cbn [map component_of key_text node_at node_step].
  - rewrite (proj2 (mapping_get_iff k0 _ c)); [apply IH; assumption|]. exists l, r. auto.
  - rewrite E. apply IH. assumption.
Qed.
Lemma node_at_sits root p n : node_at root p = Some n -> exists q, sits root q n.
Proof.
  revert root. induction p as [|c p IH]; intros root; cbn [node_at].
  - intros H. injection H as ->. exists []. constructor.
  - destruct (node_step root c) as [m|] eqn:E; [|discriminate]. intros H. destruct (IH m H) as (q & S). destruct c as [k|i], root as [a b|a b l|a b l]; try discriminate; cbn in E.
    + apply mapping_get_iff in E as (l1 & l2 & -> & I). exists (SKey (YStr k) :: q). eapply si_key; [reflexivity|exact I|exact S].
    + exists (SIdx i :: q). eapply si_idx; [exact E|exact S].
Qed.
Lemma offsets_nth l : forall o k, k <= List.length l -> nth_error (offsets_from o l) k = Some (o + String.length (text_of (firstn k l))).
Proof.
  induction l as [|c l IH]; intros o k H; cbn [List.length] in H.
  - replace k with 0 by lia. cbn. f_equal. lia.
  - destruct k as [|k]; cbn [offsets_from nth_error firstn].
    + cbn. f_equal. lia.
    + rewrite IH by lia. cbn [text_of fold_right]. rewrite str_length_app. f_equal. fold (text_of (firstn k l)). lia.
Qed.
Lemma text_app a b : text_of (app a b) = text_of a ++ text_of b.
Proof. unfold text_of. induction a as [|x a IH]; cbn; [reflexivity|]. rewrite IH, str_app_assoc. reflexivity. Qed.
Lemma span_shows d n : within d n -> exists offset len, shows d n offset len /\
  match nth_error (char_offsets d) (fst (node_span n)), nth_error (char_offsets d) (snd (node_span n)) with
  | Some x, Some y => if Nat.leb x y then At x (y - x) else LPanic
  | _, _ => LPanic
  end = At offset len.
Proof.
  unfold within, shows, char_offsets. destruct (node_span n) as [a b]. cbn [fst snd]. intros (L & H).
  exists (String.length (text_of (firstn a (yd_chars d)))), (String.length (text_of (firstn (b - a) (skipn a (yd_chars d))))). split.
  - exists (firstn a (yd_chars d)), (firstn (b - a) (skipn a (yd_chars d))), (skipn (b - a) (skipn a (yd_chars d))).
    rewrite !firstn_skipn. split; [reflexivity|]. rewrite app_length, !firstn_length, skipn_length. split; [lia|]. split; [lia|]. auto.
  - rewrite !offsets_nth by lia. cbn [Nat.add].
    assert (E : firstn b (yd_chars d) = app (firstn a (yd_chars d)) (firstn (b - a) (skipn a (yd_chars d)))).
    { rewrite <- (firstn_skipn a (yd_chars d)) at 1. rewrite firstn_app, firstn_length, firstn_firstn. replace (Nat.min b a) with a by lia. replace (b - Nat.min a (List.length (yd_chars d))) with (b - a) by lia. reflexivity. }
    rewrite E, text_app, str_length_app. destruct (Nat.leb_spec (String.length (text_of (firstn a (yd_chars d)))) (String.length (text_of (firstn a (yd_chars d))) + String.length (text_of (firstn (b - a) (skipn a (yd_chars d)))))); [|lia].
    f_equal. lia.
Qed.

(* an error is shown at the node it is about, if the keys on the way to it are plain *)
Theorem C102_location_partial d p n pointer : p <> [] -> plain p -> sits (yd_root d) p n -> points p pointer -> within d n ->
  exists offset len, source_span d pointer = At offset len /\ shows d n offset len.
Proof.
  intros Ne P S Po W. unfold source_span, block_position. rewrite (parse_plain _ _ Ne P Po), (node_at_plain _ _ _ P S).
  destruct (span_shows d n W) as (o & l & Sh & E). exists o, l. split; [|exact Sh]. destruct (node_span n) as [a b]. exact E.
Qed.
(* the place that is shown is that of a node of the document, whatever the pointer *)
Theorem C102_some_node d pointer : sound d ->
  source_span d pointer = Nowhere \/ exists p n offset len, sits (yd_root d) p n /\ source_span d pointer = At offset len /\ shows d n offset len.
Proof.
  intros So. unfold source_span, block_position. destruct (parse_xpath pointer) as [q|]; [|left; reflexivity].
  destruct (node_at (yd_root d) q) as [n|] eqn:E; [|left; reflexivity]. right. apply node_at_sits in E as (p & S).
  destruct (span_shows d n (So p n S)) as (o & l & Sh & F). exists p, n, o, l. split; [exact S|]. split; [|exact Sh]. destruct (node_span n) as [a b]. exact F.
Qed.

(* ---------- descriptions ---------- *)
Lemma lookup_member j k v : get_key k j = Some v <-> member j k v.
Proof.
  unfold get_key, member. destruct j as [| | | | |m]; cbv beta iota; try (split; [intros E; discriminate E|intros (l1 & l2 & H & _); discriminate H]).
  split.
  - unfold slookup. induction m as [|[k' v'] m IH]; cbn [lookup]; [discriminate|].
    destruct (String.eqb_spec k k') as [<-|N].
    + cbn. intros H. injection H as ->. exists [], m. split; [reflexivity|intros []].
    + intros H. destruct (IH H) as (l & r & E & I). injection E as ->. exists ((k', v') :: l), r. split; [reflexivity|]. cbn. intros [X|X]; [congruence|exact (I X)].
  - intros (l & r & E & I). injection E as ->. unfold slookup. induction l as [|[k' v'] l IH]; cbn in *.
    + rewrite String.eqb_refl. reflexivity.
    + destruct (String.eqb_spec k k') as [<-|N]; [tauto|]. apply IH. tauto.
Qed.
Lemma get_all_chain parts j w : chain j parts w -> get_all parts j = Some w.
Proof. induction 1 as [j|j k v p w M _ IH]; [reflexivity|]. cbn [get_all]. apply lookup_member in M. rewrite M. exact IH. Qed.
Lemma ref_refers schema r d : refers schema r d -> ref_definition schema r = Some d.
Proof.
  intros (parts & Ne & S & -> & C). unfold ref_definition. destruct parts as [|x l]; [congruence|].
  change ("#/" ++ join "/" (x :: l)) with (join (String "/" "") ("#" :: x :: l)). rewrite PropServe.split_unique.
  - apply get_all_chain, C.
  - discriminate.
  - intros y [<-|Hy]; [reflexivity|]. apply no_slash, S, Hy.
Qed.
Lemma describes_iff j d : description_of j = Some d <-> describes j d.
Proof.
  unfold description_of, describes. rewrite <- lookup_member. destruct (get_key "description" j) as [v|]; [|split; discriminate].
  destruct v; cbn; split; congruence.
Qed.
Definition last_description (l : list json) (d : string) : string := fold_left (fun d j => opt_get (description_of j) d) l d.
Lemma describe_leads schema j p l : leads schema j p l -> forall d, describe schema j d (map component_of p) = Ok (last_description l d).
Proof.
  induction 1 as [j|j k v p l N M _ IH|j r d p l M R _ IH|a i v p l E _ IH]; intros d0; cbn [map component_of key_text describe last_description fold_left].
  - reflexivity.
  - apply lookup_member in M. rewrite M. apply String.eqb_neq in N. rewrite N. apply IH.
  - apply lookup_member in M. rewrite M. cbn [String.eqb Ascii.eqb Bool.eqb as_str opt_get]. rewrite (ref_refers _ _ _ R). apply IH.
  - cbn [get_index]. rewrite E. apply IH.
Qed.
Lemma last_innermost l d : innermost l d -> last_description l "No description available" = d.
Proof.
  assert (None_ : forall b d0, (forall x y, In x b -> ~ describes x y) -> last_description b d0 = d0).
  { induction b as [|x b IH]; intros d0 H; [reflexivity|]. cbn [last_description fold_left]. destruct (description_of x) as [y|] eqn:E.
    - apply describes_iff in E. destruct (H x y (or_introl eq_refl) E).
    - apply IH. intros z y I. apply H. right. exact I. }
  intros [(a & j & b & -> & D & N)|(N & ->)]; [|apply None_, N].
  unfold last_description. rewrite fold_left_app. cbn [fold_left]. apply describes_iff in D. rewrite D. apply None_, N.
Qed.
(* the advice is the description of the innermost schema on the way that has one *)
Theorem C102_advice schema p pointer l d : p <> [] -> plain p -> points p pointer -> leads schema schema p l -> innermost l d ->
  build_description schema pointer = Ok d.
Proof.
  intros Ne P Po L I. unfold build_description. rewrite (parse_plain _ _ Ne P Po), (describe_leads _ _ _ _ L). f_equal. apply last_innermost, I.
Qed.

(* ---------- messages ---------- *)
Lemma says_app_l t a b : SearchSpec.says t a -> SearchSpec.says t (a ++ b).
Proof. intros (x & y & ->). exists x, (y ++ b). rewrite !str_app_assoc. reflexivity. Qed.
Lemma says_app_r t a b : SearchSpec.says t b -> SearchSpec.says t (a ++ b).
Proof. intros (x & y & ->). exists (a ++ x), y. rewrite !str_app_assoc. reflexivity. Qed.
Lemma says_join t sep x l : In x l -> SearchSpec.says t x -> SearchSpec.says t (join sep l).
Proof.
  induction l as [|y l IH]; [intros []|]. intros I S. destruct l as [|z l].
  - destruct I as [->|[]]. exact S.
  - change (join sep (y :: z :: l)) with (y ++ sep ++ join sep (z :: l)). destruct I as [->|I]; [apply says_app_l, S|]. apply says_app_r, says_app_r, IH; assumption.
Qed.
Lemma mapi_in {A B} (f : nat -> A -> B) x l : In x l -> forall i, exists j, In (f j x) (mapi f i l).
Proof.
  induction l as [|y l IH]; [intros []|]. intros [->|I] i; cbn [mapi].
  - exists i. left. reflexivity.
  - destruct (IH I (S i)) as (j & J). exists j. right. exact J.
Qed.
Lemma message_self e : forall indent, SearchSpec.says (verror_text e) (message indent e).
Proof. intros indent. destruct e as [t|t ctx]; cbn [message verror_text]; [exists "", ""; cbn; rewrite str_app_nil_r; reflexivity|]. exists "", (lf ++ join lf (mapi (fun idx errors => indent ++ "(Variant " ++ show_nat (idx + 1) ++ "):" ++ lf ++ join lf (map (fun e => indent ++ "- " ++ message (indent ++ "  ") e) errors)) 0 ctx)). reflexivity. Qed.
(* a message says what is wrong with each variant *)
Theorem C102_message e x indent : within_error e x -> SearchSpec.says (verror_text x) (message indent e).
Proof.
  intros W. revert indent. induction W as [e|t ctx errors x e I J _ IH]; intros indent; [apply message_self|].
  cbn [message]. apply says_app_r, says_app_r.
  destruct (mapi_in (fun idx errors => indent ++ "(Variant " ++ show_nat (idx + 1) ++ "):" ++ lf ++ join lf (map (fun e => indent ++ "- " ++ message (indent ++ "  ") e) errors)) errors ctx I 0) as (j & K).
  eapply says_join; [exact K|]. do 5 apply says_app_r. eapply says_join; [apply in_map_iff; exists x; split; [reflexivity|exact J]|]. do 2 apply says_app_r. apply IH.
Qed.

(* ---------- what is reported ---------- *)
Definition reports (schema : json) (d : ydoc) (v : violation) (r : reported) : Prop :=
  re_text r = message "" (vi_error v) /\ re_advice r = ok_of (build_description schema (vi_schema v)) /\
  match re_span r with Some (o, n) => source_span d (vi_instance v) = At o n | None => source_span d (vi_instance v) = Nowhere end.
Lemma report_all schema d l : sound d -> exists rs, report schema d l = Some rs /\ Forall2 (reports schema d) l rs.
Proof.
  intros So. induction l as [|v l (rs & E & F)]; [exists []; split; [reflexivity|constructor]|]. cbn [report]. cbv zeta. rewrite E.
  destruct (C102_some_node d (vi_instance v) So) as [N|(p & n & o & k & _ & N & _)]; rewrite N.
  - eexists. split; [reflexivity|]. constructor; [|exact F]. repeat split. exact N.
  - eexists. split; [reflexivity|]. constructor; [|exact F]. repeat split. exact N.
Qed.
(* every error of the validator is reported, in its order, with what is wrong, where and what was expected *)
Theorem C102_reported schema d violations serde : sound d ->
  (violations = [] -> better_error schema true (Ok d) violations serde = Deserialization serde) /\
  (violations <> [] -> exists rs, better_error schema true (Ok d) violations serde = Invalid rs /\ Forall2 (answered schema d) violations rs).
Proof.
  intros So. destruct (report_all schema d violations So) as (rs & E & F). unfold better_error. cbn [negb]. rewrite E. split.
  - intros ->. inversion F. reflexivity.
  - intros Ne. exists rs. split; [inversion F; subst; [congruence|reflexivity]|]. clear E Ne. induction F as [|v r l rs (T & A & S) _ IH]; constructor; [|exact IH].
    repeat split.
    + intros x W. rewrite T. apply C102_message, W.
    + intros o k R. rewrite R in S. destruct (C102_some_node d (vi_instance v) So) as [N|(p & n & o' & k' & Si & N & Sh)]; [congruence|].
      rewrite S in N. injection N as <- <-. exists p, n. split; assumption.
    + intros p n Ne P Po Si. destruct (C102_location_partial d p n _ Ne P Si Po (So _ _ Si)) as (o & k & L & Sh). exists o, k. split; [|exact Sh].
      destruct (re_span r) as [[o' k']|]; rewrite L in S; [injection S as <- <-; reflexivity|discriminate].
    + intros p l0 t Ne P Po Le I. rewrite A, (C102_advice _ _ _ _ _ Ne P Po Le I). reflexivity.
Qed.
(* and reporting never crashes *)
Theorem C102_no_crash schema jsonable doc violations serde : (forall d, doc = Ok d -> sound d) ->
  better_error schema jsonable doc violations serde <> OPanicked.
Proof.
  intros So. unfold better_error. destruct jsonable; [|discriminate]. cbn [negb]. destruct doc as [d|e]; [|discriminate].
  destruct (report_all schema d violations (So d eq_refl)) as (rs & -> & _). destruct rs; discriminate.
Qed.
(* a document without a JSON form keeps the error of the deserializer *)
Theorem C102_no_json schema doc violations serde : better_error schema false doc violations serde = Deserialization serde.
Proof. reflexivity. Qed.

(* ---------- where the location is lost or wrong ---------- *)
(* an error about the whole document has no place *)
Theorem C102_root_refuted d : points [] "" /\ sits (yd_root d) [] (yd_root d) /\ source_span d "" = Nowhere.
Proof. repeat split; constructor. Qed.
Lemma escaped_no_slash k e : escaped k e -> any_char (fun d => Ascii.eqb d "/") e = false.
Proof.
  induction 1 as [|s e _ IH|s e _ IH|c s e Nt Ns _ IH]; cbn; try assumption; [reflexivity|].
  apply Ascii.eqb_neq in Ns. rewrite Ns. exact IH.
Qed.
Lemma segments_no_slash p l : Forall2 segment_of p l -> forall y, In y l -> any_char (fun d => Ascii.eqb d "/") y = false.
Proof.
  induction 1 as [|st x p l S _ IH]; [intros y []|]. intros y [<-|I]; [|apply IH, I].
  destruct st; [eapply escaped_no_slash, S|eapply digits_plain, S].
Qed.
Lemma parse_any p l : p <> [] -> Forall2 segment_of p l -> parse_xpath (slashes l) = Ok (map read_segment (filter (fun s => negb (String.eqb s "")) l)).
Proof.
  intros Ne F. destruct l as [|x l]; [inversion F; subst; congruence|]. rewrite slashes_join. cbn [parse_xpath Ascii.eqb Bool.eqb].
  change (join "/" (x :: l)) with (join (String "/" "") (x :: l)). rewrite PropServe.split_unique; [reflexivity|discriminate|].
  apply (segments_no_slash _ _ F).
Qed.
Lemma str_last_inj s a c d : s ++ String c "" = a ++ String d "" -> s = a /\ c = d.
Proof.
  revert a. induction s as [|x s IH]; intros [|y a] H; cbn in H.
  - injection H as ->. split; reflexivity.
  - injection H. destruct a; discriminate.
  - injection H. destruct s; discriminate.
  - injection H as -> H. destruct (IH _ H) as (-> & ->). split; reflexivity.
Qed.
Lemma number_chars k n c : ServeSpec.number k n -> c = "/"%char \/ c = "~"%char -> forall a b, k <> a ++ String c b.
Proof.
  assert (D : forall d i, String.get i "0123456789" = Some d -> d <> "/"%char /\ d <> "~"%char).
  { intros d i H. do 10 (destruct i as [|i]; [vm_compute in H; injection H as <-; split; discriminate|]). destruct i; discriminate. }
  assert (L : forall a b x d, a ++ String x b = String d "" -> x = d).
  { intros [|y a] b x d H; cbn in H; injection H; [congruence|]. destruct a; discriminate. }
  assert (G : forall s m, ServeSpec.digits s m -> c = "/"%char \/ c = "~"%char -> forall a b, s <> a ++ String c b).
  { intros s m H C. induction H as [d i H|s m d i _ IH H]; intros a b E.
    - symmetry in E. apply L in E. destruct (D _ _ H), C; congruence.
    - destruct (str_last b) as [->|(b' & x & ->)].
      + assert (X : s = a /\ d = c) by (apply str_last_inj; exact E). destruct X as (_ & ->). destruct (D _ _ H), C; congruence.
      + apply (IH a b'). assert (X : s = a ++ String c b' /\ d = x) by (apply str_last_inj; rewrite E, str_app_assoc; reflexivity). apply X. }
  intros ([H|(d & -> & H)] & _) C a b E.
  - exact (G _ _ H C a b E).
  - destruct a as [|y a]; cbn in E; injection E; [destruct C as [-> | ->]; discriminate|]. intros E' _. exact (G _ _ H C a b E').
Qed.
(* nor does anything under a key that looks like a number *)
Theorem C102_number_refuted d a b m k n p pointer : yd_root d = YMap a b m -> ServeSpec.number k n -> points (SKey (YStr k) :: p) pointer ->
  source_span d pointer = Nowhere.
Proof.
  intros R N Po. destruct (points_split _ _ Po) as (l & F & ->). unfold source_span, block_position.
  rewrite (parse_any (SKey (YStr k) :: p) l) by (discriminate || exact F). inversion F as [|st x ? l' S F']; subst. cbn [segment_of key_text] in S.
  rewrite (escaped_id _ _ S (number_chars _ _ _ N (or_introl eq_refl)) (number_chars _ _ _ N (or_intror eq_refl))) in *.
  cbn [filter]. destruct (String.eqb_spec k "") as [->|_].
  - apply PropServe.usize_iff in N. vm_compute in N. discriminate N.
  - cbn [negb map node_at]. unfold read_segment at 1. apply PropServe.usize_iff in N. rewrite N, R. reflexivity.
Qed.
Lemma sample_sits key p n : sits (yd_root (sample_doc key)) p n -> (p = [] /\ n = yd_root (sample_doc key)) \/ (p = [SKey key] /\ n = YScalar 3 4).
Proof.
  intros S. inversion S as [|a b m k l r c q x E I T|]; subst; [left; split; reflexivity|]. right. destruct l as [|y l].
  - injection E as <- <- <-. inversion T; subst. split; reflexivity.
  - injection E as _ E. destruct l; discriminate.
Qed.
Lemma sample_sound key : sound (sample_doc key).
Proof. intros p n S. apply sample_sits in S as [(_ & ->)|(_ & ->)]; unfold within; cbn; lia. Qed.
Lemma sample_node key : sits (yd_root (sample_doc key)) [SKey key] (YScalar 3 4).
Proof. eapply (si_key 0 4 _ key [] []); [reflexivity|intros []|constructor]. Qed.
(* nor does the value of a key that is not a string *)
Theorem C102_other_key_refuted : let d := sample_doc (YOther "true") in
  sound d /\ sits (yd_root d) [SKey (YOther "true")] (YScalar 3 4) /\ points [SKey (YOther "true")] "/true" /\ source_span d "/true" = Nowhere.
Proof.
  cbv zeta. split; [apply sample_sound|]. split; [apply sample_node|]. split; [|reflexivity].
  apply (po_key (YOther "true") "true" [] ""); [|constructor]. cbn. repeat (apply es_char; [discriminate|discriminate|]). constructor.
Qed.
(* nor one whose key has a slash *)
Theorem C102_slash_refuted : let d := sample_doc (YStr "a/b") in
  sound d /\ sits (yd_root d) [SKey (YStr "a/b")] (YScalar 3 4) /\ points [SKey (YStr "a/b")] "/a~1b" /\ source_span d "/a~1b" = Nowhere.
Proof.
  cbv zeta. split; [apply sample_sound|]. split; [apply sample_node|]. split; [|reflexivity].
  apply (po_key (YStr "a/b") "a~1b" [] ""); [|constructor]. cbn. apply es_char; [discriminate|discriminate|]. apply (es_slash "b" "b"). apply es_char; [discriminate|discriminate|]. constructor.
Qed.
(* an error under an empty key is shown at the mapping *)
Theorem C102_empty_refuted : let d := sample_doc (YStr "") in
  sound d /\ sits (yd_root d) [SKey (YStr "")] (YScalar 3 4) /\ points [SKey (YStr "")] "/" /\
  exists o k, source_span d "/" = At o k /\ shows d (yd_root d) o k /\ ~ shows d (YScalar 3 4) o k.
Proof.
  cbv zeta. split; [apply sample_sound|]. split; [apply sample_node|]. split; [apply (po_key (YStr "") "" [] ""); constructor|].
  exists 0, 4. split; [reflexivity|]. split.
  - exists [], ["a"; ":"; " "; "1"], []. repeat split.
  - intros (b & n & a & E & L & _ & O & _). cbn in E, L. destruct b as [|x b]; [discriminate|]. cbn in E. injection E as <- _. discriminate.
Qed.
(* and one whose key has a tilde may be shown at the value of another key *)
Theorem C102_tilde_refuted : let d := sample_two in
  sits (yd_root d) [SKey (YStr "a~b")] (YScalar 0 1) /\ points [SKey (YStr "a~b")] "/a~0b" /\
  exists o k, source_span d "/a~0b" = At o k /\ shows d (YScalar 2 3) o k /\ ~ shows d (YScalar 0 1) o k.
Proof.
  cbv zeta. split; [eapply (si_key 0 3 _ (YStr "a~b") []); [reflexivity|intros []|constructor]|]. split.
  - apply (po_key (YStr "a~b") "a~0b" [] ""); [|constructor]. cbn. apply es_char; [discriminate|discriminate|]. apply (es_tilde "b" "b"). apply es_char; [discriminate|discriminate|]. constructor.
  - exists 2, 1. split; [reflexivity|]. split.
    + exists ["x"; "y"], ["z"], []. repeat split.
    + intros (b & n & a & E & L & _ & O & _). destruct b; discriminate.
Qed.
(* a reference with an escape is not followed *)
Theorem C102_ref_escape_refuted : exists schema v, member schema "definitions" v /\ member v "a/b" (JObj [("description", JStr "Text.")]) /\
  ref_definition schema "#/definitions/a~1b" = None.
Proof.
  exists (JObj [("definitions", JObj [("a/b", JObj [("description", JStr "Text.")])])]), (JObj [("a/b", JObj [("description", JStr "Text.")])]).
  split; [exists [], []; split; [reflexivity|intros []]|]. split; [exists [], []; split; [reflexivity|intros []]|]. reflexivity.
Qed.

(* ---------- examples ---------- *)
Lemma plain_k : plain_key "k".
Proof.
  split; [discriminate|]. split; [intros [|x [|y a]] b; discriminate|]. split; [intros [|x [|y a]] b; discriminate|].
  intros n N. apply PropServe.usize_iff in N. vm_compute in N. discriminate N.
Qed.
Lemma escaped_k : escaped "k" "k".
Proof. apply es_char; [discriminate|discriminate|constructor]. Qed.
(* offsets are in bytes: the character before the node has two *)
Example C102_location_ex : [SKey (YStr "k")] <> [] /\ plain [SKey (YStr "k")] /\ sits (yd_root sample_wide) [SKey (YStr "k")] (YScalar 3 4) /\
  points [SKey (YStr "k")] "/k" /\ within sample_wide (YScalar 3 4) /\ source_span sample_wide "/k" = At 4 1.
Proof.
  split; [discriminate|]. split; [constructor; [apply plain_k|constructor]|].
  split; [eapply (si_key 0 4 _ (YStr "k") [] []); [reflexivity|intros []|constructor]|].
  split; [apply (po_key (YStr "k") "k" [] ""); [apply escaped_k|constructor]|]. split; [unfold within; cbn; lia|reflexivity].
Qed.
Example C102_reported_ex : sound (sample_doc (YStr "k")) /\
  better_error sample_schema true (Ok (sample_doc (YStr "k")))
    [{| vi_error := VMany "not valid" [[VOne "not a string"]; [VOne "not a list"; VOne "too short"]]; vi_instance := "/k"; vi_schema := "/properties/k/$ref/type" |}] "serde" =
  Invalid [{| re_text := join lf ["not valid"; "(Variant 1):"; "- not a string"; "(Variant 2):"; "- not a list"; "- too short"];
              re_span := Some (3, 1); re_advice := Some "An item." |}].
Proof. split; [apply sample_sound|reflexivity]. Qed.
Example C102_advice_ex : exists l, leads sample_schema sample_schema [SKey (YStr "properties"); SKey (YStr "k"); SKey (YStr "$ref"); SKey (YStr "type")] l /\
  innermost l "An item." /\ build_description sample_schema "/properties/k/$ref/type" = Ok "An item.".
Proof.
  assert (M : forall (a b : list (string * json)) k v, ~ In k (map fst a) -> member (JObj (app a ((k, v) :: b))) k v).
  { intros a b k v N. exists a, b. split; [reflexivity|exact N]. }
  eexists. split; [|split; [|reflexivity]].
  - eapply le_key; [discriminate|eapply (M [_; _] []); cbn; intuition discriminate|].
    eapply le_key; [discriminate|eapply (M [] []); intros []|].
    eapply le_ref; [eapply (M [] []); intros []| |].
    + exists ["definitions"; "item"]. split; [discriminate|]. split; [intros p I; apply no_slash; destruct I as [<-|[<-|[]]]; reflexivity|]. split; [reflexivity|].
      eapply cn_step; [eapply (M []); intros []|]. eapply cn_step; [eapply (M [] []); intros []|]. constructor.
    + eapply le_key; [discriminate|eapply (M [_] []); cbn; intuition discriminate|]. constructor.
  - left. eexists [_; _; _], _, []. split; [reflexivity|]. split; [eapply (M []); intros []|intros x y []].
Qed.
Print Assumptions C102_location_partial.
Print Assumptions C102_some_node.
Print Assumptions C102_advice.
Print Assumptions C102_message.
Print Assumptions C102_reported.
Print Assumptions C102_no_crash.
Print Assumptions C102_no_json.
Print Assumptions C102_root_refuted.
Print Assumptions C102_number_refuted.
Print Assumptions C102_other_key_refuted.
Print Assumptions C102_slash_refuted.
Print Assumptions C102_empty_refuted.
Print Assumptions C102_tilde_refuted.
Print Assumptions C102_ref_escape_refuted.
