(* C15 and C16: results and diagnostics. *)
From Coq Require Import String Bool Arith Lia List Permutation.
Import ListNotations.
From Verif Require Import Base BaseProofs SemTypes ResultModel ResultSpec ResultProofs.

(* C15: whatever chain of steps is applied to a non-fatal result, every error
   attached at the start or handed in on the way is still attached at the end,
   or in the caller's diagnostics, or was dropped by a filter the caller gave;
   and no error appears out of nowhere. *)
Theorem C15_no_error_lost_partial :
  forall (T E : Type) (sev : E -> option severity) (future : bool)
         (ss : list (step T E)) (r : wresult T E) (d : list (diag E)) (e : E),
    is_fatal r = false ->
    let fin := run_steps sev future (r, d) ss in
    (In e (errors_of r) \/ In e (map dm_error d) \/ In e (added ss) ->
       In e (errors_of (fst fin)) \/ In e (map dm_error (snd fin)) \/ asked_to_ignore ss e) /\
    (In e (errors_of (fst fin)) \/ In e (map dm_error (snd fin)) ->
       In e (errors_of r) \/ In e (map dm_error d) \/ In e (added ss)).
Proof.
  intros T E sev future ss r d e Hf. cbv zeta. split.
  - apply steps_conserve; assumption.
  - apply steps_sound.
Qed.

(* A fatal result keeps its fatal error and the captured diagnostics through any
   chain. *)
Theorem C15_fatal_kept :
  forall (T E : Type) (sev : E -> option severity) (future : bool)
         (ss : list (step T E)) (e : E) (d : list (diag E)),
    run_steps sev future (WFatal e, d) ss = (WFatal e, d).
Proof. intros. apply steps_fatal. reflexivity. Qed.

(* What is missing from the full claim: non-fatal errors handed to a fatal result
   are dropped. *)
Theorem C15_extend_fatal_refuted :
  exists (e n : string) (sev : string -> option severity),
    let fin := run_steps (T := unit) sev false (WFatal e, []) [SExtend [n]] in
    ~ In n (errors_of (fst fin)) /\ ~ In n (map dm_error (snd fin)) /\
    In n (added (T := unit) [SExtend [n]]).
Proof.
  exists "fatal"%string, "nfe"%string, (fun _ => None). cbn.
  split; [|split]; [intros [H|[]]; discriminate | tauto | auto].
Qed.

(* The conversions that end a chain: each either returns the value together with
   or after recording every error, or returns a failure made of all of them. *)
Theorem C15_conversions_account_for_every_error :
  forall (T E : Type) (sev : E -> option severity) (compound : list E -> E)
         (future : bool) (r : wresult T E) (d : list (diag E)),
    (* capture into the caller's list *)
    (forall t d', capture_nfes sev future r d = (ROk t, d') ->
       value_of r = Some t /\ map dm_error d' = map dm_error d ++ errors_of r) /\
    (forall e d', capture_nfes sev future r d = (RErr e, d') ->
       errors_of r = [e] /\ value_of r = None /\ d' = d) /\
    (* success only without errors *)
    (forall t, failing_nfes compound r = ROk t <-> value_of r = Some t /\ errors_of r = []) /\
    (forall e, failing_nfes compound r = RErr e ->
       errors_of r = [e] \/ (2 <= length (errors_of r) /\ e = compound (errors_of r))) /\
    (* value and errors side by side *)
    (forall t es, result_with_nfes r = ROk (t, es) <-> value_of r = Some t /\ errors_of r = es) /\
    (forall e, result_with_nfes r = RErr e <-> value_of r = None /\ errors_of r = [e]) /\
    (* the queries agree with the carried errors *)
    (has_errors r = true <-> errors_of r <> []) /\
    num_errors r = length (errors_of r) /\
    (is_fatal r = true <-> value_of r = None).
Proof.
  intros T E sev compound future r d.
  split; [|split; [|split; [|split; [|split; [|split; [|split; [|split]]]]]]].
  - intros t d' H. destruct r as [v|v l|e]; cbn in H; try discriminate; injection H as <- <-; cbn.
    + rewrite app_nil_r. auto.
    + rewrite map_app, map_map. cbn. rewrite map_id. auto.
  - intros e d' H. destruct r as [v|v l|f]; cbn in H; try discriminate; injection H as <- <-; auto.
  - intros t. destruct r as [v|v l|f]; cbn.
    + split; [intros H; injection H as <-; auto | intros [H _]; injection H as <-; reflexivity].
    + destruct l as [|a [|b l]]; cbn.
      * split; [intros H; injection H as <-; auto | intros [H _]; injection H as <-; reflexivity].
      * split; [discriminate | intros [_ H]; discriminate].
      * split; [discriminate | intros [_ H]; discriminate].
    + split; [discriminate | intros [H _]; discriminate].
  - intros e. destruct r as [v|v l|f]; cbn; [discriminate| |].
    + destruct l as [|a [|b l]]; intros H; [discriminate| |]; injection H as <-; auto.
      right. split; [cbn; lia|reflexivity].
    + intros H; injection H as <-; auto.
  - intros t es. destruct r as [v|v l|f]; cbn; split; intros H; try discriminate H.
    + injection H as <- <-; auto.
    + destruct H as [H1 H2]; injection H1 as <-; subst; reflexivity.
    + injection H as <- <-; auto.
    + destruct H as [H1 H2]; injection H1 as <-; subst; reflexivity.
    + destruct H as [H1 _]; discriminate.
  - intros e. destruct r as [v|v l|f]; cbn; split; intros H; try discriminate H;
      try (destruct H as [H1 _]; discriminate).
    + injection H as <-; auto.
    + destruct H as [_ H]; injection H as <-; reflexivity.
  - destruct r as [v|v [|a l]|f]; cbn; split; intros H; try discriminate; try reflexivity;
      exfalso; apply H; reflexivity.
  - destruct r; reflexivity.
  - destruct r; cbn; split; congruence.
Qed.

(* Capturing warnings takes exactly the warnings, in order, and leaves exactly
   the rest, in order; the value is untouched. *)
Theorem C15_capture_warnings_exact :
  forall (T E : Type) (sev : E -> option severity) (future : bool)
         (t : T) (es : list E) (d : list (diag E)),
    exists warnings errors r',
      capture_warnings sev future (WOkNfe t es) d = (r', d ++ warnings) /\
      errors_of r' = errors /\ value_of r' = Some t /\
      Permutation es (map dm_error warnings ++ errors) /\
      (forall e, In e (map dm_error warnings) <-> In e es /\ sev e = Some SevWarning) /\
      (forall e, In e errors <-> In e es /\ sev e <> Some SevWarning).
Proof.
  intros T E sev future t es d.
  destruct (capture_warnings sev future (WOkNfe t es) d) as [r' d'] eqn:Ec.
  destruct (capture_warnings_split T E sev future (WOkNfe t es) r' d d' eq_refl Ec) as (He & Hd & Hv).
  assert (Hw : forall e, is_warning E sev e = true <-> sev e = Some SevWarning).
  { intros e. unfold is_warning. destruct (sev e) as [[| |]|]; split; congruence. }
  exists (map (diag_new sev future) (filter (is_warning E sev) es)),
         (filter (fun e => negb (is_warning E sev e)) es), r'.
  cbn in He, Hd. subst d'.
  assert (Hm : map dm_error (map (diag_new sev future) (filter (is_warning E sev) es))
               = filter (is_warning E sev) es)
    by (rewrite map_map; cbn; apply map_id).
  rewrite Hm.
  split; [reflexivity|]. split; [exact He|]. split; [exact Hv|]. split; [apply filter_split_perm|].
  split; intros e; rewrite filter_In.
  - rewrite Hw. tauto.
  - rewrite <- Hw. destruct (is_warning E sev e); cbn; split; intros [A B]; split; auto; congruence.
Qed.

(* C16: a collection has an error exactly when one message is neither a warning
   nor an advice; in future mode every message recorded is one. *)
Theorem C16_has_error_exact :
  forall (E : Type) (ds : list (diag E)),
    has_error ds = true <-> exists d, In d ds /\ counts_as_error d.
Proof. exact has_error_iff. Qed.

Theorem C16_future_mode :
  forall (E : Type) (sev : E -> option severity) (es : list E),
    has_error (map (diag_new sev true) es) = true <-> es <> [].
Proof.
  intros E sev es. rewrite has_error_iff. split.
  - intros (d & Hd & _) ->. destruct Hd.
  - destruct es as [|e es]; [congruence|]. intros _.
    exists (diag_new sev true e). split; [left; reflexivity|].
    split; discriminate.
Qed.

(* Outside future mode a recorded message is an error exactly when the error it
   was made from is one. *)
Theorem C16_recorded_severity :
  forall (E : Type) (sev : E -> option severity) (es : list E),
    has_error (map (diag_new sev false) es) = true <->
    exists e, In e es /\ sev e <> Some SevWarning /\ sev e <> Some SevAdvice.
Proof.
  intros E sev es. rewrite has_error_iff. split.
  - intros (d & Hd & Hc). apply in_map_iff in Hd. destruct Hd as (e & <- & He).
    exists e. split; [assumption|]. exact Hc.
  - intros (e & He & Hc). exists (diag_new sev false e). split; [apply in_map, He|]. exact Hc.
Qed.

(* The exit code: when the command failed, 1 exactly when one of its messages is an error or
   the messages could not be rendered, else 0; the command's own code when it succeeded,
   whatever warnings it carries. *)
Theorem C16_exit_code :
  forall (E : Type) (render : list (diag E) -> bool)
         (r : result (exit_directives E) (list (diag E))),
    (forall ms, r = RErr ms ->
       (ed_code (process_diagnostics render r) = 1 /\
        (render ms = false \/ exists d, In d ms /\ counts_as_error d)) \/
       (ed_code (process_diagnostics render r) = 0 /\
        render ms = true /\ forall d, In d ms -> ~ counts_as_error d)) /\
    (forall d, r = ROk d -> ed_code (process_diagnostics render r) = ed_code d).
Proof.
  intros E render r. split.
  - intros ms ->. unfold process_diagnostics. destruct (render ms); cbn [negb].
    + destruct (has_error ms) eqn:Eh.
      * left. split; [reflexivity|]. right. apply has_error_iff, Eh.
      * right. split; [reflexivity|]. split; [reflexivity|]. intros d Hd Hc.
        assert (H : has_error ms = true) by (apply has_error_iff; exists d; auto). congruence.
    + left. split; [reflexivity|]. left. reflexivity.
  - intros d ->. reflexivity.
Qed.

(* Diagnostics captured from or added to a failing result are all kept. *)
Theorem C16_captured_diagnostics_kept :
  forall (T E : Type) (r : result T (list (diag E))) (d : list (diag E)),
    (forall v, r = ROk v -> capture_diag_msgs r d = (Some v, d) /\ combine_diag_msgs r d = ROk v) /\
    (forall ms, r = RErr ms ->
       capture_diag_msgs r d = (None, d ++ ms) /\ combine_diag_msgs r d = RErr (ms ++ d) /\
       (has_error (d ++ ms) = true <-> has_error d = true \/ has_error ms = true)).
Proof.
  intros T E r d. split.
  - intros v ->. split; reflexivity.
  - intros ms ->. split; [reflexivity|]. split; [reflexivity|].
    rewrite !has_error_iff. split.
    + intros (x & Hx & Hc). apply in_app_iff in Hx. destruct Hx; [left|right]; exists x; auto.
    + intros [(x & Hx & Hc)|(x & Hx & Hc)]; exists x; split; auto; apply in_app_iff; auto.
Qed.

(* Concrete cases. *)
Example C15_chain :
  let sev := fun e : string => if String.eqb e "w" then Some SevWarning else None in
  run_steps sev false (WOk 7, []) [SExtend ["w"; "a"]%string; SCaptureWarnings; SMap S;
                                   SIgnore (fun e => String.eqb e "b"); SExtend ["b"]%string]
  = (WOkNfe 8 ["a"; "b"]%string, [mk_diag "w"%string (Some SevWarning)]).
Proof. reflexivity. Qed.

Example C16_mixed :
  has_error [mk_diag 1 (Some SevWarning); mk_diag 2 (Some SevAdvice)] = false /\
  has_error [mk_diag 1 (Some SevWarning); mk_diag 2 None] = true.
Proof. split; reflexivity. Qed.

Print Assumptions C15_no_error_lost_partial.
Print Assumptions C15_fatal_kept.
Print Assumptions C15_extend_fatal_refuted.
Print Assumptions C15_conversions_account_for_every_error.
Print Assumptions C15_capture_warnings_exact.
Print Assumptions C16_has_error_exact.
Print Assumptions C16_future_mode.
Print Assumptions C16_recorded_severity.
Print Assumptions C16_exit_code.
Print Assumptions C16_captured_diagnostics_kept.
