(* Proofs about results and diagnostic collections. *)
From Coq Require Import String Bool Arith Lia List Permutation.
Import ListNotations.
From Verif Require Import Base BaseProofs SemTypes ResultModel ResultSpec.

Lemma partition_filter : forall (A : Type) (f : A -> bool) (l : list A),
  partition f l = (filter f l, filter (fun x => negb (f x)) l).
Proof.
  induction l as [|a l IH]; cbn; [reflexivity|].
  rewrite IH. destruct (f a); reflexivity.
Qed.

Lemma filter_split_perm : forall (A : Type) (f : A -> bool) (l : list A),
  Permutation l (filter f l ++ filter (fun x => negb (f x)) l).
Proof.
  induction l as [|a l IH]; cbn; [constructor|].
  destruct (f a); cbn.
  - apply perm_skip, IH.
  - apply Permutation_cons_app, IH.
Qed.

Section R.
  Variables (T E : Type) (sev : E -> option severity).

  Lemma errors_with_nfes : forall (t : T) (es : list E),
    errors_of (match es with [] => WOk t | _ => WOkNfe t es end) = es.
  Proof. intros t [|e es]; reflexivity. Qed.

  Lemma extend_errors : forall (r : wresult T E) es,
    is_fatal r = false -> errors_of (extend_nfes r es) = errors_of r ++ es.
  Proof. intros [t|t l|e] es H; cbn in *; congruence. Qed.

  Lemma capture_warnings_split : forall fut (r r' : wresult T E) d d',
    is_fatal r = false ->
    capture_warnings sev fut r d = (r', d') ->
    errors_of r' = filter (fun e => negb (is_warning E sev e)) (errors_of r) /\
    d' = d ++ map (diag_new sev fut) (filter (is_warning E sev) (errors_of r)) /\
    value_of r' = value_of r.
  Proof.
    intros fut [t|t l|e] r' d d' Hf H; cbn in H.
    - injection H as <- <-. cbn. rewrite app_nil_r. auto.
    - rewrite partition_filter in H. injection H as <- <-.
      split; [|split]; cbn; [apply errors_with_nfes| reflexivity |].
      destruct (filter _ l); reflexivity.
    - discriminate Hf.
  Qed.

  Lemma ignore_errors : forall ign (r : wresult T E),
    is_fatal r = false ->
    errors_of (ignore_nfes ign r) = filter (fun e => negb (ign e)) (errors_of r) /\
    value_of (ignore_nfes ign r) = value_of r.
  Proof.
    intros ign [t|t l|e] Hf; cbn in *; try discriminate; auto.
    destruct (filter _ l); auto.
  Qed.

  Lemma step_fatal : forall fut (s : step T E) r d,
    is_fatal r = true -> fst (run_step sev fut (r, d) s) = r /\ snd (run_step sev fut (r, d) s) = d.
  Proof.
    intros fut [es| |ign|f] [t|t l|e] d H; cbn in *; try discriminate; auto.
  Qed.

  Lemma steps_fatal : forall fut (ss : list (step T E)) r d,
    is_fatal r = true -> run_steps sev fut (r, d) ss = (r, d).
  Proof.
    induction ss as [|s ss IH]; intros r d H; [reflexivity|].
    unfold run_steps; cbn [fold_left].
    destruct (step_fatal fut s r d H) as [H1 H2].
    destruct (run_step sev fut (r, d) s) as [r1 d1]. cbn in H1, H2. subst.
    apply IH, H.
  Qed.

  Lemma step_not_fatal : forall fut (s : step T E) r d,
    is_fatal r = false -> is_fatal (fst (run_step sev fut (r, d) s)) = false.
  Proof.
    intros fut [es| |ign|f] [t|t l|e] d H; cbn in *; try discriminate; auto.
    - rewrite partition_filter. cbn. destruct (filter _ l); reflexivity.
    - destruct (filter _ l); reflexivity.
  Qed.

  (* one step keeps every error *)
  Lemma step_conserves : forall fut (s : step T E) r d e,
    is_fatal r = false ->
    (In e (errors_of r) \/ In e (map dm_error d) \/ In e (added [s])) ->
    In e (errors_of (fst (run_step sev fut (r, d) s))) \/
    In e (map dm_error (snd (run_step sev fut (r, d) s))) \/
    asked_to_ignore [s] e.
  Proof.
    intros fut s r d e Hf H. destruct s as [es| |ign|f]; cbn [run_step fst snd].
    - rewrite (extend_errors r es Hf). cbn in H. rewrite app_nil_r in H.
      rewrite in_app_iff. tauto.
    - destruct (capture_warnings sev fut r d) as [r' d'] eqn:Ec.
      destruct (capture_warnings_split fut r r' d d' Hf Ec) as (He & Hd & _).
      cbn [fst snd]. rewrite He, Hd. cbn in H. rewrite map_app, in_app_iff.
      rewrite map_map. cbn. rewrite map_id.
      destruct H as [H|[H|[]]]; [|tauto].
      destruct (is_warning E sev e) eqn:Ew.
      + right; left; right. apply filter_In; auto.
      + left. apply filter_In. rewrite Ew. auto.
    - destruct (ignore_errors ign r Hf) as [He _]. rewrite He. cbn in H.
      destruct H as [H|[H|[]]]; [|tauto].
      destruct (ign e) eqn:Ei.
      + right; right. exists ign. split; [left; reflexivity|assumption].
      + left. apply filter_In. rewrite Ei. auto.
    - cbn in H. destruct H as [H|[H|[]]]; [|tauto].
      left. destruct r; cbn in *; auto.
  Qed.

  Lemma steps_conserve : forall fut (ss : list (step T E)) r d e,
    is_fatal r = false ->
    (In e (errors_of r) \/ In e (map dm_error d) \/ In e (added ss)) ->
    In e (errors_of (fst (run_steps sev fut (r, d) ss))) \/
    In e (map dm_error (snd (run_steps sev fut (r, d) ss))) \/
    asked_to_ignore ss e.
  Proof.
    induction ss as [|s ss IH]; intros r d e Hf H.
    - cbn in *. tauto.
    - unfold run_steps; cbn [fold_left].
      pose proof (step_conserves fut s r d e Hf) as Hs.
      pose proof (step_not_fatal fut s r d Hf) as Hn.
      destruct (run_step sev fut (r, d) s) as [r1 d1]. cbn [fst snd] in Hs, Hn.
      assert (Hadd : added (s :: ss) = added [s] ++ added ss)
        by (unfold added; cbn; rewrite app_nil_r; reflexivity).
      rewrite Hadd, in_app_iff in H.
      assert (Hcase : In e (errors_of r1) \/ In e (map dm_error d1) \/
                      asked_to_ignore [s] e \/ In e (added ss)) by tauto.
      destruct Hcase as [H1|[H1|[H1|H1]]].
      + destruct (IH r1 d1 e Hn (or_introl H1)) as [K|[K|K]]; auto.
        right; right. destruct K as (g & Hg & Ke). exists g. split; [right|]; assumption.
      + destruct (IH r1 d1 e Hn (or_intror (or_introl H1))) as [K|[K|K]]; auto.
        right; right. destruct K as (g & Hg & Ke). exists g. split; [right|]; assumption.
      + right; right. destruct H1 as (g & [Hg|[]] & Ke). exists g. split; [left|]; assumption.
      + destruct (IH r1 d1 e Hn (or_intror (or_intror H1))) as [K|[K|K]]; auto.
        right; right. destruct K as (g & Hg & Ke). exists g. split; [right|]; assumption.
  Qed.

  (* nothing is invented either *)
  Lemma step_sound : forall fut (s : step T E) r d e,
    In e (errors_of (fst (run_step sev fut (r, d) s))) \/
    In e (map dm_error (snd (run_step sev fut (r, d) s))) ->
    In e (errors_of r) \/ In e (map dm_error d) \/ In e (added [s]).
  Proof.
    intros fut s r d e H.
    destruct (is_fatal r) eqn:Hf.
    { destruct (step_fatal fut s r d Hf) as [H1 H2]. rewrite H1, H2 in H. tauto. }
    destruct s as [es| |ign|f]; cbn [run_step fst snd] in H.
    - rewrite (extend_errors r es Hf), in_app_iff in H. cbn. rewrite app_nil_r. tauto.
    - destruct (capture_warnings sev fut r d) as [r' d'] eqn:Ec.
      destruct (capture_warnings_split fut r r' d d' Hf Ec) as (He & Hd & _).
      cbn [fst snd] in H. rewrite He, Hd, map_app, in_app_iff, map_map in H.
      cbn in H. rewrite map_id in H. rewrite !filter_In in H. tauto.
    - destruct (ignore_errors ign r Hf) as [He _]. rewrite He, filter_In in H. tauto.
    - destruct r; cbn in *; tauto.
  Qed.

  Lemma steps_sound : forall fut (ss : list (step T E)) r d e,
    In e (errors_of (fst (run_steps sev fut (r, d) ss))) \/
    In e (map dm_error (snd (run_steps sev fut (r, d) ss))) ->
    In e (errors_of r) \/ In e (map dm_error d) \/ In e (added ss).
  Proof.
    induction ss as [|s ss IH]; intros r d e H.
    - cbn in *. tauto.
    - unfold run_steps in H; cbn [fold_left] in H.
      pose proof (step_sound fut s r d e) as Hs.
      destruct (run_step sev fut (r, d) s) as [r1 d1]. cbn [fst snd] in Hs.
      assert (Hadd : added (s :: ss) = added [s] ++ added ss)
        by (unfold added; cbn; rewrite app_nil_r; reflexivity).
      rewrite Hadd, in_app_iff.
      destruct (IH r1 d1 e H) as [K|[K|K]]; tauto.
  Qed.

End R.

Lemma has_error_iff : forall (E : Type) (ds : list (diag E)),
  has_error ds = true <-> exists d, In d ds /\ counts_as_error d.
Proof.
  intros E ds. unfold has_error. cbv zeta. rewrite Nat.ltb_lt.
  set (f := fun d : diag E => match dm_severity d with
                     | Some SevWarning | Some SevAdvice => true | _ => false end).
  assert (Hf : forall d, f d = false <-> counts_as_error d).
  { intros d. unfold f, counts_as_error. destruct (dm_severity d) as [[| |]|]; split; intros H;
      try discriminate; try (split; discriminate); try reflexivity;
      destruct H as [H1 H2]; congruence. }
  induction ds as [|d ds IH].
  - cbn. split; [lia|]. intros (d & [] & _).
  - rewrite count_if_cons.
    assert (Hle : count_if f ds <= length ds) by apply count_if_le.
    destruct (f d) eqn:Ed; cbn [length].
    + split.
      * intros H. assert (H' : 0 < length ds - count_if f ds) by lia.
        apply IH in H'. destruct H' as (x & Hx & Hc). exists x. split; [right|]; assumption.
      * intros (x & [<-|Hx] & Hc).
        -- apply Hf in Hc. congruence.
        -- assert (H' : exists y, In y ds /\ counts_as_error y) by (exists x; auto).
           apply IH in H'. lia.
    + split; [|lia]. intros _. exists d. split; [left; reflexivity|]. apply Hf, Ed.
Qed.
