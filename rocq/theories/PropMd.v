(* C28, C62, C63: updating markdown files. *)
From Coq Require Import String Ascii Bool Arith Lia List.
Import ListNotations.
From Verif Require Import Base BaseProofs BaseProofs2 SemTypes Str StrProofs CodeModel CodeSpec CodeProofs MdModel MdSpec MdProofs.
Local Open Scope string_scope.

(* ** C62: what is a directive *)

(* A line is taken as a directive, with the given arguments, exactly when it is written as one. *)
Theorem C62_semconv_directive : forall line a, semconv_directive line = Some a <-> semconv_header line a.
Proof. exact semconv_directive_iff. Qed.
Theorem C62_weaver_directive : forall line a, weaver_directive line = Some a <-> weaver_header line a.
Proof. exact weaver_directive_iff. Qed.
Theorem C62_trailers : forall line,
  (is_semconv_trailer line = true <-> trailer "endsemconv" line) /\ (is_weaver_trailer line = true <-> trailer "endweaver" line).
Proof. intros line. split; [apply semconv_trailer_iff|apply weaver_trailer_iff]. Qed.
Print Assumptions C62_semconv_directive.
Print Assumptions C62_weaver_directive.
Print Assumptions C62_trailers.

(* The ids of snippets of a version 2 registry. *)
Lemma partial_word s : ident partial_char s -> forall r, parse_partial_id (s ++ "." ++ r) = Some ("." ++ r, s).
Proof.
  intros H r. apply parse_partial_iff. split; [reflexivity|]. split; [apply partial_text_iff, H|].
  intros c x E. cbn in E. injection E as <- _. reflexivity.
Qed.

Lemma blank_stop g : blank g -> forall c r, g = String c r -> id_char c = false.
Proof.
  intros H c r ->. inversion H as [|d s Hw Hb]; subst. destruct (id_char c) eqn:E; [|reflexivity].
  exfalso. apply id_char_iff in E. unfold white in Hw. unfold letter, digit in E. cbn in Hw.
  destruct E as [E|[E|E]]; [lia|lia|]. cbn in E. destruct E as [<-|[<-|[<-|[]]]]; cbn in Hw; lia.
Qed.

Theorem C62_lookup : forall s l, parse_id_lookup_v2 s = Some l <-> lookup_text l s.
Proof.
  intros s l. unfold parse_id_lookup_v2, parse_id_lookup. split.
  - destruct (parse_partial_id s) as [[r name]|] eqn:E1; [|discriminate]. apply parse_partial_iff in E1 as (-> & _).
    destruct (tag "." r) as [r2|] eqn:E2; [|discriminate]. apply tag_iff in E2 as ->.
    destruct (String.eqb_spec name "registry") as [->|_]; [|destruct (String.eqb_spec name "refinements") as [->|_]; [|discriminate]].
    + unfold parse_registry_lookup. destruct (parse_partial_id r2) as [[r3 n]|] eqn:E3; [|discriminate].
      apply parse_partial_iff in E3 as (-> & _). destruct (tag "." r3) as [r4|] eqn:E4; [|discriminate]. apply tag_iff in E4 as ->.
      destruct (parse_id r4) as [[rest id]|] eqn:E5; [|discriminate]. apply parse_id_iff in E5 as (-> & Hid & _).
      repeat match goal with |- context [String.eqb n ?w] => destruct (String.eqb_spec n w) as [->|_] end; try discriminate;
      (destruct (all_white rest) eqn:Ew; [|discriminate]; apply all_white_iff in Ew; intros H; injection H as <-;
       split; [exact Hid|exists rest; split; [exact Ew|reflexivity]]).
    + unfold parse_refinement_lookup. destruct (parse_partial_id r2) as [[r3 n]|] eqn:E3; [|discriminate].
      apply parse_partial_iff in E3 as (-> & _). destruct (tag "." r3) as [r4|] eqn:E4; [|discriminate]. apply tag_iff in E4 as ->.
      destruct (parse_id r4) as [[rest id]|] eqn:E5; [|discriminate]. apply parse_id_iff in E5 as (-> & Hid & _).
      repeat match goal with |- context [String.eqb n ?w] => destruct (String.eqb_spec n w) as [->|_] end; try discriminate;
      (destruct (all_white rest) eqn:Ew; [|discriminate]; apply all_white_iff in Ew; intros H; injection H as <-;
       split; [exact Hid|split; [discriminate|split; [discriminate|exists rest; split; [exact Ew|reflexivity]]]]).
  - assert (T : forall r, tag "." ("." ++ r) = Some r) by (intros r; apply tag_iff; reflexivity).
    assert (W : forall k, ident partial_char (lookup_word k)) by (intros []; (eexists _, _; split; [reflexivity|]; split; reflexivity)).
    assert (P : forall id g, id_text id -> blank g -> parse_id (id ++ g) = Some (g, id))
      by (intros id g H1 H2; apply parse_id_iff; split; [reflexivity|]; split; [exact H1|apply blank_stop, H2]).
    destruct l as [k id|k id]; cbn [lookup_text].
    + intros (Hid & g & Hg & ->). change ("registry." ++ lookup_word k ++ "." ++ id ++ g) with ("registry" ++ "." ++ lookup_word k ++ "." ++ id ++ g).
      rewrite (partial_word "registry") by (eexists _, _; split; [reflexivity|]; split; reflexivity). rewrite T. cbn [String.eqb Ascii.eqb Bool.eqb].
      unfold parse_registry_lookup. rewrite (partial_word _ (W k)), T, (P id g Hid Hg). apply all_white_iff in Hg.
      destruct k; cbn; rewrite Hg; reflexivity.
    + intros (Hid & Hk1 & Hk2 & g & Hg & ->). change ("refinements." ++ lookup_word k ++ "." ++ id ++ g) with ("refinements" ++ "." ++ lookup_word k ++ "." ++ id ++ g).
      rewrite (partial_word "refinements") by (eexists _, _; split; [reflexivity|]; split; reflexivity). rewrite T. cbn [String.eqb Ascii.eqb Bool.eqb].
      unfold parse_refinement_lookup. rewrite (partial_word _ (W k)), T, (P id g Hid Hg). apply all_white_iff in Hg.
      destruct k; try congruence; cbn; rewrite Hg; reflexivity.
Qed.
Print Assumptions C62_lookup.

(* Claim: a directive with a mistake in it is reported.  False: the line is taken as text and the
   snippet is never updated. *)
Theorem C62_malformed_refuted : forall gs gw,
  let doc := "<!-- semconv http(ful) -->" ++ eol ++ "old" ++ eol ++ "<!-- endsemconv -->" ++ eol in
  update_markdown_contents gs gw doc = Ok doc.
Proof. intros gs gw. reflexivity. Qed.
Print Assumptions C62_malformed_refuted.

(* Claim: a comment that only starts like a directive is text.  False for weaver: any comment
   starting with these letters is one, and the lines after it are removed. *)
Theorem C62_weaver_prefix_refuted : weaver_header "<!-- weaverbird -->" {| wa_query := "bird"; wa_template := None |}.
Proof. apply weaver_directive_iff. reflexivity. Qed.
Print Assumptions C62_weaver_prefix_refuted.

(* Claim: all tags of a directive are used as filters.  False: only the first one is. *)
Theorem C62_tags_refuted : tag_filters {| sa_id := "a"; sa_args := [PTag "x"; PTag "y"] |} = ["x"].
Proof. reflexivity. Qed.
Theorem C62_first_tag_partial : forall a,
  (is_metric_table a = true <-> In PMetricTable (sa_args a)) /\
  (forall t, In t (tag_filters a) -> In (PTag t) (sa_args a)) /\
  (tag_filters a = [] <-> forall t, ~ In (PTag t) (sa_args a)).
Proof.
  intros [id ps]. unfold is_metric_table, tag_filters. cbn [sa_args]. split; [|split].
  - rewrite existsb_exists. split; [intros ([] & H & E); try discriminate E; exact H|intros H; exists PMetricTable; auto].
  - intros t. induction ps as [|p ps IH]; cbn; [intros []|]. destruct p; cbn; try (intros H; right; apply IH; exact H).
    intros [->|[]]. left. reflexivity.
  - induction ps as [|p ps IH]; cbn; [split; [intros _ t []|reflexivity]|].
    destruct p; cbn; try (rewrite IH; split; intros H t; [intros [K|K]; [discriminate K|apply (H t K)]|intros K; apply (H t); right; exact K]).
    split; [discriminate|]. intros H. exfalso. apply (H v). left. reflexivity.
Qed.
Print Assumptions C62_tags_refuted.
Print Assumptions C62_first_tag_partial.

Example C62_ex :
  semconv_header "<!-- semconv http.server(tag=tech-spec,omit_requirement_level) -->"
    {| sa_id := "http.server"; sa_args := [PTag "tech-spec"; POmit] |} /\
  weaver_header "<!-- weaver template:t.j2 .registry | .metrics -->" {| wa_query := ".registry | .metrics"; wa_template := Some "t.j2" |} /\
  lookup_text (LRegistry LMetric "http.server.duration") "registry.metrics.http.server.duration" /\
  trailer "endsemconv" "<!--endsemconv-->".
Proof.
  split; [apply semconv_directive_iff; reflexivity|]. split; [apply weaver_directive_iff; reflexivity|].
  split; [apply C62_lookup; reflexivity|apply semconv_trailer_iff; reflexivity].
Qed.

(* ** C28: updating a document *)

Section Proofs.
  Variable gs : semargs -> res string.
  Variable gw : weavargs -> res string.

  Lemma not_semconv_trailer l : ~ trailer "endsemconv" l -> is_semconv_trailer l = false.
  Proof. intros H. destruct (is_semconv_trailer l) eqn:E; [|reflexivity]. apply semconv_trailer_iff in E. contradiction. Qed.
  Lemma not_weaver_trailer l : ~ trailer "endweaver" l -> is_weaver_trailer l = false.
  Proof. intros H. destruct (is_weaver_trailer l) eqn:E; [|reflexivity]. apply weaver_trailer_iff in E. contradiction. Qed.
  Lemma not_semconv_header l : (forall a, ~ semconv_header l a) -> semconv_directive l = None.
  Proof. intros H. destruct (semconv_directive l) as [a|] eqn:E; [|reflexivity]. apply semconv_directive_iff in E. destruct (H a E). Qed.
  Lemma not_weaver_header l : (forall a, ~ weaver_header l a) -> weaver_directive l = None.
  Proof. intros H. destruct (weaver_directive l) as [a|] eqn:E; [|reflexivity]. apply weaver_directive_iff in E. destruct (H a E). Qed.

  Lemma html_comment_det line r i r' i' : parse_html_comment line = Some (r, i) -> parse_html_comment line = Some (r', i') -> i = i'.
  Proof. congruence. Qed.

  Lemma weaver_not_semconv l a : weaver_header l a -> semconv_directive l = None.
  Proof.
    intros H. apply weaver_directive_iff in H. unfold weaver_directive, semconv_directive in *.
    destruct (parse_html_comment l) as [[rest inner]|]; [|reflexivity]. unfold parse_weaver_args in H. unfold parse_semconv_args.
    destruct (tag "weaver" (multispace0 inner)) as [r|] eqn:E; [|discriminate H]. apply tag_iff in E. rewrite E. reflexivity.
  Qed.

  Lemma skip_semconv body : Forall (fun x => ~ trailer "endsemconv" x) body -> forall acc rest,
    update_lines gs gw (Some KSemconv) acc (app body rest) = update_lines gs gw (Some KSemconv) acc rest.
  Proof.
    intros H. induction H as [|l body Hl H IH]; intros acc rest; [reflexivity|]. cbn [app update_lines].
    rewrite (not_semconv_trailer l Hl). apply IH.
  Qed.
  Lemma skip_weaver body : Forall (fun x => ~ trailer "endweaver" x) body -> forall acc rest,
    update_lines gs gw (Some KWeaver) acc (app body rest) = update_lines gs gw (Some KWeaver) acc rest.
  Proof.
    intros H. induction H as [|l body Hl H IH]; intros acc rest; [reflexivity|]. cbn [app update_lines].
    rewrite (not_weaver_trailer l Hl). apply IH.
  Qed.

  Lemma step_plain l ls acc : (forall a, ~ semconv_header l a) -> (forall a, ~ weaver_header l a) ->
    update_lines gs gw None acc (l :: ls) = update_lines gs gw None (acc ++ l ++ nl) ls.
  Proof. intros H1 H2. cbn [update_lines]. rewrite (not_semconv_header l H1), (not_weaver_header l H2). reflexivity. Qed.
  Lemma step_semconv l a rest acc : semconv_header l a ->
    update_lines gs gw None acc (l :: rest) =
    match gs a with Ok s => update_lines gs gw (Some KSemconv) ((acc ++ l ++ nl) ++ s) rest | Err e => Err e end.
  Proof. intros H. apply semconv_directive_iff in H. cbn [update_lines]. rewrite H. destruct (gs a); reflexivity. Qed.
  Lemma step_weaver l a rest acc : weaver_header l a ->
    update_lines gs gw None acc (l :: rest) =
    match gw a with Ok s => update_lines gs gw (Some KWeaver) ((acc ++ l ++ nl) ++ s) rest | Err e => Err e end.
  Proof.
    intros H. pose proof (weaver_not_semconv _ _ H) as E. apply weaver_directive_iff in H. cbn [update_lines]. rewrite E, H.
    destruct (gw a); reflexivity.
  Qed.
  Lemma step_semconv_end t rest acc : trailer "endsemconv" t ->
    update_lines gs gw (Some KSemconv) acc (t :: rest) = update_lines gs gw None (acc ++ t ++ nl) rest.
  Proof. intros H. apply semconv_trailer_iff in H. cbn [update_lines]. rewrite H. reflexivity. Qed.
  Lemma step_weaver_end t rest acc : trailer "endweaver" t ->
    update_lines gs gw (Some KWeaver) acc (t :: rest) = update_lines gs gw None (acc ++ t ++ nl) rest.
  Proof. intros H. apply weaver_trailer_iff in H. cbn [update_lines]. rewrite H. reflexivity. Qed.

  (* a closed beginning of a document is replaced, whatever follows *)
  Lemma replaced_prefix ls o : replaced gs gw ls o -> forall acc rest,
    update_lines gs gw None acc (app ls rest) = update_lines gs gw None (acc ++ o) rest.
  Proof.
    intros H. induction H as [|l ls o H1 H2 H IH|l a body t ls s o Hh Hb Ht Hs H IH|l a body t ls s o Hh Hb Ht Hs H IH]; intros acc rest.
    - rewrite str_app_nil_r. reflexivity.
    - cbn [app]. rewrite step_plain by assumption. rewrite IH, !str_app_assoc. reflexivity.
    - rewrite <- app_assoc. cbn [app]. rewrite (step_semconv _ _ _ _ Hh), Hs, (skip_semconv _ Hb), (step_semconv_end _ _ _ Ht), IH, !str_app_assoc. reflexivity.
    - rewrite <- app_assoc. cbn [app]. rewrite (step_weaver _ _ _ _ Hh), Hs, (skip_weaver _ Hb), (step_weaver_end _ _ _ Ht), IH, !str_app_assoc. reflexivity.
  Qed.

  Lemma replaced_update ls o : replaced gs gw ls o -> update_lines gs gw None "" ls = Ok o.
  Proof. intros H. pose proof (replaced_prefix _ _ H "" []) as E. rewrite app_nil_r in E. exact E. Qed.

  Lemma closed_update ls : closed ls -> 
    (exists o, replaced gs gw ls o) \/
    (exists e, (forall acc, update_lines gs gw None acc ls = Err e) /\
      exists l, In l ls /\ ((exists a, semconv_header l a /\ gs a = Err e) \/ (exists a, weaver_header l a /\ gw a = Err e))).
  Proof.
    intros H. induction H as [|l ls H1 H2 H IH|l a body t ls Hh Hb Ht H IH|l a body t ls Hh Hb Ht H IH].
    - left. eexists. constructor.
    - destruct IH as [(o & IH)|(e & IH & l' & Hin & K)].
      + left. eexists. constructor; eassumption.
      + right. exists e. split; [intros acc; rewrite step_plain by assumption; apply IH|]. exists l'. split; [right; exact Hin|exact K].
    - destruct (gs a) as [s|e] eqn:Es.
      + destruct IH as [(o & IH)|(e & IH & l' & Hin & K)].
        * left. eexists. eapply rp_semconv; eassumption.
        * right. exists e. split; [|exists l'; split; [|exact K]].
          -- intros acc. cbn [app]. rewrite (step_semconv _ _ _ _ Hh), Es, (skip_semconv _ Hb), (step_semconv_end _ _ _ Ht). apply IH.
          -- cbn. right. apply in_or_app. right. right. exact Hin.
      + right. exists e. split; [intros acc; cbn [app]; rewrite (step_semconv _ _ _ _ Hh), Es; reflexivity|].
        exists l. split; [left; reflexivity|]. left. eauto.
    - destruct (gw a) as [s|e] eqn:Es.
      + destruct IH as [(o & IH)|(e & IH & l' & Hin & K)].
        * left. eexists. eapply rp_weaver; eassumption.
        * right. exists e. split; [|exists l'; split; [|exact K]].
          -- intros acc. cbn [app]. rewrite (step_weaver _ _ _ _ Hh), Es, (skip_weaver _ Hb), (step_weaver_end _ _ _ Ht). apply IH.
          -- cbn. right. apply in_or_app. right. right. exact Hin.
      + right. exists e. split; [intros acc; cbn [app]; rewrite (step_weaver _ _ _ _ Hh), Es; reflexivity|].
        exists l. split; [left; reflexivity|]. right. eauto.
  Qed.
End Proofs.

Lemma find_closing (P : string -> bool) ls :
  Forall (fun x => P x = false) ls \/ exists b t r, ls = app b (t :: r) /\ Forall (fun x => P x = false) b /\ P t = true.
Proof.
  induction ls as [|x ls IH]; [left; constructor|]. destruct (P x) eqn:E.
  - right. exists [], x, ls. repeat split; [constructor|exact E].
  - destruct IH as [IH|(b & t & r & -> & Hb & Ht)]; [left; constructor; assumption|].
    right. exists (x :: b), t, r. repeat split; [constructor; assumption|exact Ht].
Qed.

(* Every document either has only closed snippets, or has a closed beginning followed by a
   snippet that is never closed. *)
Theorem C28_closed_or_open : forall ls,
  closed ls \/
  exists pre l body, ls = app pre (l :: body) /\ closed pre /\
    ((exists a, semconv_header l a) /\ Forall (fun x => ~ trailer "endsemconv" x) body \/
     (exists a, weaver_header l a) /\ Forall (fun x => ~ trailer "endweaver" x) body).
Proof.
  assert (G : forall n ls, length ls <= n -> closed ls \/
    exists pre l body, ls = app pre (l :: body) /\ closed pre /\
    ((exists a, semconv_header l a) /\ Forall (fun x => ~ trailer "endsemconv" x) body \/
     (exists a, weaver_header l a) /\ Forall (fun x => ~ trailer "endweaver" x) body)).
  2: { intros ls. apply (G (length ls)). lia. }
  assert (NT : forall w P b, (forall x, P x = true <-> trailer w x) -> Forall (fun x => P x = false) b -> Forall (fun x => ~ trailer w x) b).
  { intros w P b HP H. induction H as [|x b Hx H IH]; constructor; [|exact IH]. intros K. apply HP in K. congruence. }
  induction n as [|n IH]; intros [|l ls] Hn; [left; apply cl_nil|cbn in Hn; lia|left; apply cl_nil|]. cbn in Hn.
  destruct (semconv_directive l) as [a|] eqn:E1; [|destruct (weaver_directive l) as [a|] eqn:E2].
  - apply semconv_directive_iff in E1. destruct (find_closing is_semconv_trailer ls) as [F|(b & t & r & -> & Fb & Ft)].
    + right. exists [], l, ls. split; [reflexivity|]. split; [constructor|]. left. split; [eauto|]. apply (NT _ _ _ semconv_trailer_iff F).
    + apply semconv_trailer_iff in Ft. pose proof (NT _ _ _ semconv_trailer_iff Fb) as Fb'.
      destruct (IH r) as [C|(pre & l' & body & -> & C & K)]; [rewrite app_length in Hn; cbn in Hn; lia| |].
      * left. apply (cl_semconv l a b t r); assumption.
      * right. exists (app (l :: b) (t :: pre)), l', body. split; [rewrite <- app_assoc; reflexivity|]. split; [eapply cl_semconv; eassumption|exact K].
  - apply weaver_directive_iff in E2. destruct (find_closing is_weaver_trailer ls) as [F|(b & t & r & -> & Fb & Ft)].
    + right. exists [], l, ls. split; [reflexivity|]. split; [constructor|]. right. split; [eauto|]. apply (NT _ _ _ weaver_trailer_iff F).
    + apply weaver_trailer_iff in Ft. pose proof (NT _ _ _ weaver_trailer_iff Fb) as Fb'.
      destruct (IH r) as [C|(pre & l' & body & -> & C & K)]; [rewrite app_length in Hn; cbn in Hn; lia| |].
      * left. apply (cl_weaver l a b t r); assumption.
      * right. exists (app (l :: b) (t :: pre)), l', body. split; [rewrite <- app_assoc; reflexivity|]. split; [eapply cl_weaver; eassumption|exact K].
  - assert (N1 : forall a, ~ semconv_header l a) by (intros a H; apply semconv_directive_iff in H; congruence).
    assert (N2 : forall a, ~ weaver_header l a) by (intros a H; apply weaver_directive_iff in H; congruence).
    destruct (IH ls) as [C|(pre & l' & body & -> & C & K)]; [lia| |].
    + left. constructor; assumption.
    + right. exists (l :: pre), l', body. split; [reflexivity|]. split; [constructor; assumption|exact K].
Qed.
Print Assumptions C28_closed_or_open.

(* A document with closed snippets only: the update yields the document with exactly the bodies
   of its snippets replaced, or fails because a generator fails; there is only one such result. *)
Theorem C28_update_partial : forall gs gw contents ls,
  reads_as contents ls -> closed ls ->
  match update_markdown_contents gs gw contents with
  | Ok o => replaced gs gw ls o /\ forall o', replaced gs gw ls o' -> o' = o
  | Err e => exists l, In l ls /\ ((exists a, semconv_header l a /\ gs a = Err e) \/ (exists a, weaver_header l a /\ gw a = Err e))
  end.
Proof.
  intros gs gw contents ls Hr Hc. unfold update_markdown_contents. rewrite <- (reads_as_lines _ _ Hr).
  destruct (closed_update gs gw ls Hc) as [(o & Ho)|(e & He & K)].
  - rewrite (replaced_update _ _ _ _ Ho). split; [exact Ho|]. intros o' Ho'. apply replaced_update in Ho, Ho'. congruence.
  - rewrite He. exact K.
Qed.
Print Assumptions C28_update_partial.

(* Full claim (every document): false.  Everything after a snippet that is not closed is
   removed, and the update succeeds. *)
Theorem C28_unclosed_refuted : forall gs gw contents pre o l a body s,
  reads_as contents (app pre (l :: body)) -> replaced gs gw pre o ->
  semconv_header l a -> gs a = Ok s -> Forall (fun x => ~ trailer "endsemconv" x) body ->
  update_markdown_contents gs gw contents = Ok (o ++ l ++ eol ++ s).
Proof.
  intros gs gw contents pre o l a body s Hr Hp Hh Hs Hb. unfold update_markdown_contents. rewrite <- (reads_as_lines _ _ Hr).
  rewrite (replaced_prefix _ _ _ _ Hp), (step_semconv _ _ _ _ _ _ Hh), Hs. cbn [append].
  rewrite <- (app_nil_r body), (skip_semconv _ _ _ Hb). cbn [update_lines]. rewrite !str_app_assoc. reflexivity.
Qed.
Example C28_unclosed_ex : forall gw,
  update_markdown_contents (fun _ => Ok "new") gw ("# T" ++ eol ++ "<!-- semconv a -->" ++ eol ++ "old" ++ eol ++ "## Important" ++ eol)
  = Ok ("# T" ++ eol ++ "<!-- semconv a -->" ++ eol ++ "new").
Proof. intros gw. reflexivity. Qed.
Print Assumptions C28_unclosed_refuted.

(* reading back what was written *)
Lemma reads_line l s ls : ~ has_newline l -> (forall a, l <> a ++ String return_ "") -> reads_as s ls -> reads_as (l ++ eol ++ s) (l :: ls).
Proof. intros H1 H2 H3. exact (reads_lf l s ls H1 H2 H3). Qed.

Lemma ends_tail x s : (x ++ s = "" \/ exists a, x ++ s = a ++ eol) -> (s = "" \/ exists a, s = a ++ eol).
Proof.
  induction x as [|c x IH]; intros H; [exact H|]. apply IH. cbn [append] in H. destruct H as [H|(a & H)]; [discriminate H|].
  destruct a as [|d a]; cbn [append] in H; injection H as Hc H; [left; exact H|right; exists a; exact H].
Qed.

Lemma reads_app s sl : reads_as s sl -> (s = "" \/ exists a, s = a ++ eol) -> forall r rl, reads_as r rl -> reads_as (s ++ r) (app sl rl).
Proof.
  intros H. induction H as [|x Hx Hn|x s ls Hn Hc H IH|x s ls Hn H IH]; intros E r rl Hr.
  - exact Hr.
  - exfalso. destruct E as [->|(a & ->)]; [congruence|]. apply Hn. exists a, "". reflexivity.
  - rewrite str_app_assoc. cbn. constructor; [exact Hn|exact Hc|]. apply IH; [|exact Hr].
    apply (ends_tail x), (ends_tail (String newline "")) in E. exact E.
  - rewrite str_app_assoc. cbn. constructor; [exact Hn|]. apply IH; [|exact Hr].
    apply (ends_tail x), (ends_tail (String return_ (String newline ""))) in E. exact E.
Qed.

Lemma replaced_again gs gw ls o :
  (forall a s, gs a = Ok s -> snippet_text "endsemconv" s) -> (forall a s, gw a = Ok s -> snippet_text "endweaver" s) ->
  Forall (fun l => ~ has_newline l) ls -> no_return ls ->
  replaced gs gw ls o -> exists ls', reads_as o ls' /\ replaced gs gw ls' o.
Proof.
  intros Gs Gw Hn Hr H. induction H as [|l ls o H1 H2 H IH|l a body t ls s o Hh Hb Ht Hs H IH|l a body t ls s o Hh Hb Ht Hs H IH].
  - exists []. split; constructor.
  - inversion Hn; inversion Hr; subst. destruct IH as (ls' & I1 & I2); [assumption|assumption|].
    exists (l :: ls'). split; [apply reads_line; assumption|constructor; assumption].
  - assert (N : ~ has_newline l /\ ~ has_newline t /\ Forall (fun l => ~ has_newline l) ls).
    { cbn in Hn. inversion Hn as [|x y A B]; subst. apply Forall_app in B as [_ B]. inversion B; auto. }
    assert (R : (forall a, l <> a ++ String return_ "") /\ (forall a, t <> a ++ String return_ "") /\ no_return ls).
    { unfold no_return in *. cbn in Hr. inversion Hr as [|x y A B]; subst. apply Forall_app in B as [_ B]. inversion B; auto. }
    destruct N as (N1 & N2 & N3). destruct R as (R1 & R2 & R3). destruct (IH N3 R3) as (ls' & I1 & I2).
    destruct (Gs a s Hs) as (sl & S1 & S2 & S3).
    exists (app (l :: sl) (t :: ls')). split.
    + cbn [app]. apply reads_line; [assumption..|]. apply (reads_app s sl S1 S2). apply reads_line; assumption.
    + eapply rp_semconv; eassumption.
  - assert (N : ~ has_newline l /\ ~ has_newline t /\ Forall (fun l => ~ has_newline l) ls).
    { cbn in Hn. inversion Hn as [|x y A B]; subst. apply Forall_app in B as [_ B]. inversion B; auto. }
    assert (R : (forall a, l <> a ++ String return_ "") /\ (forall a, t <> a ++ String return_ "") /\ no_return ls).
    { unfold no_return in *. cbn in Hr. inversion Hr as [|x y A B]; subst. apply Forall_app in B as [_ B]. inversion B; auto. }
    destruct N as (N1 & N2 & N3). destruct R as (R1 & R2 & R3). destruct (IH N3 R3) as (ls' & I1 & I2).
    destruct (Gw a s Hs) as (sl & S1 & S2 & S3).
    exists (app (l :: sl) (t :: ls')). split.
    + cbn [app]. apply reads_line; [assumption..|]. apply (reads_app s sl S1 S2). apply reads_line; assumption.
    + eapply rp_weaver; eassumption.
Qed.

(* Updating twice is updating once, if the generators yield whole lines that do not close the
   snippet, and the document has closed snippets and ordinary line ends. *)
Theorem C28_idempotent_partial : forall gs gw contents ls o,
  (forall a s, gs a = Ok s -> snippet_text "endsemconv" s) -> (forall a s, gw a = Ok s -> snippet_text "endweaver" s) ->
  reads_as contents ls -> closed ls -> no_return ls ->
  update_markdown_contents gs gw contents = Ok o -> update_markdown_contents gs gw o = Ok o.
Proof.
  intros gs gw contents ls o Gs Gw Hr Hc Hn H. pose proof (C28_update_partial gs gw contents ls Hr Hc) as K. rewrite H in K.
  destruct K as [K _]. destruct (replaced_again gs gw ls o Gs Gw (reads_no_newline _ _ Hr) Hn K) as (ls' & I1 & I2).
  unfold update_markdown_contents. rewrite <- (reads_as_lines _ _ I1). apply replaced_update, I2.
Qed.
Print Assumptions C28_idempotent_partial.

(* Full claim: false when a generated snippet contains an end marker: each update adds lines. *)
Theorem C28_idempotent_refuted :
  let gen := fun _ : semargs => Ok ("<!-- endsemconv -->" ++ eol ++ "x" ++ eol) in
  let doc := "<!-- semconv a -->" ++ eol ++ "<!-- endsemconv -->" ++ eol in
  exists o1 o2, update_markdown_contents gen (fun _ => Err "") doc = Ok o1 /\
    update_markdown_contents gen (fun _ => Err "") o1 = Ok o2 /\ o1 <> o2.
Proof. eexists _, _. split; [reflexivity|]. split; [reflexivity|discriminate]. Qed.
Print Assumptions C28_idempotent_refuted.

Example C28_ex :
  let doc := ["# Title"; "<!-- semconv a(full) -->"; "old 1"; "old 2"; "<!-- endsemconv -->"; "tail"] in
  closed doc /\ no_return doc /\ snippet_text "endsemconv" ("new" ++ eol) /\
  replaced (fun _ => Ok ("new" ++ eol)) (fun _ => Err "") doc
    ("# Title" ++ eol ++ "<!-- semconv a(full) -->" ++ eol ++ "new" ++ eol ++ "<!-- endsemconv -->" ++ eol ++ "tail" ++ eol).
Proof.
  assert (NH : forall l, semconv_directive l = None -> forall a, ~ semconv_header l a) by (intros l E a K; apply semconv_directive_iff in K; congruence).
  assert (NW : forall l, weaver_directive l = None -> forall a, ~ weaver_header l a) by (intros l E a K; apply weaver_directive_iff in K; congruence).
  assert (NT : forall l, is_semconv_trailer l = false -> ~ trailer "endsemconv" l) by (intros l E K; apply semconv_trailer_iff in K; congruence).
  assert (H : semconv_header "<!-- semconv a(full) -->" {| sa_id := "a"; sa_args := [PFull] |}) by (apply semconv_directive_iff; reflexivity).
  assert (T : trailer "endsemconv" "<!-- endsemconv -->") by (apply semconv_trailer_iff; reflexivity).
  assert (B : Forall (fun x => ~ trailer "endsemconv" x) ["old 1"; "old 2"]) by (repeat constructor; apply NT; reflexivity).
  cbv zeta. split; [|split; [|split]].
  - constructor; [apply NH; reflexivity|apply NW; reflexivity|]. apply (cl_semconv _ _ ["old 1"; "old 2"] _ ["tail"] H B T).
    constructor; [apply NH; reflexivity|apply NW; reflexivity|constructor].
  - repeat constructor; intros a E; repeat (destruct a as [|? a]; [discriminate E|cbn in E; injection E as _ E]); destruct a; discriminate E.
  - exists ["new"]. split; [|split].
    + change (reads_as ("new" ++ String newline "") ["new"]). constructor; [apply no_newline_any; reflexivity| |constructor].
      intros a E; repeat (destruct a as [|? a]; [discriminate E|cbn in E; injection E as _ E]); destruct a; discriminate E.
    + right. exists "new". reflexivity.
    + repeat constructor. apply NT. reflexivity.
  - apply (rp_plain _ _ "# Title"); [apply NH; reflexivity|apply NW; reflexivity|].
    apply (rp_semconv _ _ _ _ ["old 1"; "old 2"] _ ["tail"] ("new" ++ eol) ("tail" ++ eol) H B T eq_refl).
    apply (rp_plain _ _ "tail" [] ""); [apply NH; reflexivity|apply NW; reflexivity|constructor].
Qed.

(* ** C63: files, dry runs and the command *)

(* A dry run never changes a file, and neither does a failed update. *)
Theorem C63_no_unwanted_write : forall gs gw f,
  fst (update_markdown gs gw f true) = f /\
  (forall dry e, snd (update_markdown gs gw f dry) = Err e -> fst (update_markdown gs gw f dry) = f).
Proof.
  intros gs gw f. unfold update_markdown. split.
  - destruct f as [t|]; [|reflexivity]. destruct (update_markdown_contents gs gw (crlf_to_lf t)) as [o|e]; [|reflexivity].
    cbn. destruct (String.eqb (crlf_to_lf t) o); reflexivity.
  - intros dry e. destruct f as [t|]; [|reflexivity]. destruct (update_markdown_contents gs gw (crlf_to_lf t)) as [o|e']; [|reflexivity].
    destruct dry; cbn; [|discriminate]. destruct (String.eqb (crlf_to_lf t) o); [discriminate|reflexivity].
Qed.
Print Assumptions C63_no_unwanted_write.

Lemma crlf_no_return text : any_char (fun c => Ascii.eqb c cr) text = false -> crlf_to_lf text = text.
Proof.
  induction text as [|c text IH]; intros H; [reflexivity|]. cbn in H. apply orb_false_iff in H as [H1 H2]. specialize (IH H2).
  destruct text as [|d r]; [reflexivity|]. cbn. rewrite H1. cbn. f_equal. exact IH.
Qed.

(* A dry run succeeds exactly when the update would succeed and write back the text of the file
   (for files without carriage returns). *)
Theorem C63_dry_run_exact_partial : forall gs gw text,
  any_char (fun c => Ascii.eqb c return_) text = false ->
  (snd (update_markdown gs gw (Some text) true) = Ok tt <-> update_markdown gs gw (Some text) false = (Some text, Ok tt)).
Proof.
  intros gs gw text H. unfold update_markdown. rewrite (crlf_no_return text H). clear H.
  destruct (update_markdown_contents gs gw text) as [o|e]; cbn; [|split; discriminate].
  destruct (String.eqb_spec text o) as [->|N]; cbn; split; intros H; try reflexivity; try discriminate H.
  injection H as H. congruence.
Qed.
(* Full claim (every file): false.  With carriage returns the dry run succeeds on a file that an
   update rewrites. *)
Theorem C63_crlf_refuted : forall gs gw,
  let text := "a" ++ String return_ (String newline "") in
  snd (update_markdown gs gw (Some text) true) = Ok tt /\ fst (update_markdown gs gw (Some text) false) = Some ("a" ++ eol).
Proof. intros gs gw. split; reflexivity. Qed.
(* Claim: a file without snippets is up to date.  False when it does not end with a line end. *)
Theorem C63_last_line_refuted : forall gs gw, snd (update_markdown gs gw (Some "a") true) = Err "MarkdownIsNotEqual".
Proof. intros gs gw. reflexivity. Qed.
Print Assumptions C63_dry_run_exact_partial.
Print Assumptions C63_crlf_refuted.
Print Assumptions C63_last_line_refuted.

(* the line ends are made uniform *)
Lemma crlf_line x s : ~ has_newline x -> (forall a, x <> a ++ String return_ "") -> crlf_to_lf (x ++ String newline s) = x ++ String newline (crlf_to_lf s).
Proof.
  induction x as [|c x IH]; intros H1 H2.
  - cbn [append]. destruct s as [|d s]; [reflexivity|]. cbn. reflexivity.
  - assert (N : ~ has_newline x) by (intros (a & b & ->); apply H1; exists (String c a), b; reflexivity).
    assert (R : forall a, x <> a ++ String return_ "") by (intros a ->; apply (H2 (String c a)); reflexivity).
    specialize (IH N R). cbn [append]. destruct x as [|d x].
    + cbn [append] in *. cbn. destruct (Ascii.eqb_spec c cr) as [->|Hc]; [exfalso; apply (H2 ""); reflexivity|]. cbn. f_equal. 
      destruct s as [|e s]; reflexivity.
    + cbn [append] in *. cbn. destruct (Ascii.eqb_spec d lf) as [->|Hd]; [exfalso; apply N; exists "", x; reflexivity|].
      rewrite andb_false_r. f_equal. exact IH.
Qed.

Lemma crlf_line2 x s : ~ has_newline x -> (forall a, x <> a ++ String return_ "") ->
  crlf_to_lf (x ++ String return_ (String newline s)) = x ++ String newline (crlf_to_lf s).
Proof.
  induction x as [|c x IH]; intros H1 H2.
  - reflexivity.
  - assert (N : ~ has_newline x) by (intros (a & b & ->); apply H1; exists (String c a), b; reflexivity).
    assert (R : forall a, x <> a ++ String return_ "") by (intros a ->; apply (H2 (String c a)); reflexivity).
    specialize (IH N R). cbn [append]. destruct x as [|d x].
    + change (String c (crlf_to_lf (String return_ (String newline s))) = String c (String newline (crlf_to_lf s))) with
             (String c (crlf_to_lf ("" ++ String return_ (String newline s))) = String c ("" ++ String newline (crlf_to_lf s))).
      rewrite <- IH. cbn [append]. 
      change (crlf_to_lf (String c (String return_ (String newline s)))) with
        (if Ascii.eqb c cr && Ascii.eqb return_ lf then String lf (crlf_to_lf (String newline s)) else String c (crlf_to_lf (String return_ (String newline s)))).
      change (Ascii.eqb return_ lf) with false. rewrite andb_false_r. reflexivity.
    + cbn [append] in *. rewrite <- IH.
      change (crlf_to_lf (String c (String d (x ++ String return_ (String newline s))))) with
        (if Ascii.eqb c cr && Ascii.eqb d lf then String lf (crlf_to_lf (x ++ String return_ (String newline s)))
         else String c (crlf_to_lf (String d (x ++ String return_ (String newline s))))).
      destruct (Ascii.eqb_spec d lf) as [->|Hd]; [exfalso; apply N; exists "", x; reflexivity|].
      rewrite andb_false_r. reflexivity.
Qed.

Lemma crlf_plain x : ~ has_newline x -> crlf_to_lf x = x.
Proof.
  induction x as [|c x IH]; intros H; [reflexivity|].
  assert (N : ~ has_newline x) by (intros (a & b & ->); apply H; exists (String c a), b; reflexivity).
  specialize (IH N). destruct x as [|d x]; [reflexivity|].
  change (crlf_to_lf (String c (String d x))) with
    (if Ascii.eqb c cr && Ascii.eqb d lf then String lf (crlf_to_lf x) else String c (crlf_to_lf (String d x))).
  destruct (Ascii.eqb_spec d lf) as [->|Hd]; [exfalso; apply N; exists "", x; reflexivity|].
  rewrite andb_false_r, IH. reflexivity.
Qed.

Lemma reads_normalised text ls : reads_as text ls -> no_return ls -> reads_as (crlf_to_lf text) ls.
Proof.
  intros H. induction H as [|x Hx Hn|x s ls Hn Hc H IH|x s ls Hn H IH]; intros R; [constructor| | |].
  - rewrite crlf_plain by exact Hn. constructor; assumption.
  - inversion R as [|y l R1 R2]; subst. rewrite crlf_line by assumption. constructor; [assumption|assumption|apply IH, R2].
  - inversion R as [|y l R1 R2]; subst. rewrite crlf_line2 by assumption. constructor; [assumption|assumption|apply IH, R2].
Qed.

(* A file with closed snippets and ordinary line ends, whether LF or CRLF: an update that
   succeeds writes the document with its snippets replaced. *)
Theorem C63_file_update_partial : forall gs gw text ls,
  reads_as text ls -> closed ls -> no_return ls ->
  match update_markdown gs gw (Some text) false with
  | (Some o, Ok _) => replaced gs gw ls o
  | (f, Err e) => f = Some text /\
      exists l, In l ls /\ ((exists a, semconv_header l a /\ gs a = Err e) \/ (exists a, weaver_header l a /\ gw a = Err e))
  | (None, Ok _) => False
  end.
Proof.
  intros gs gw text ls Hr Hc Hn. unfold update_markdown. pose proof (C28_update_partial gs gw _ _ (reads_normalised _ _ Hr Hn) Hc) as K.
  destruct (update_markdown_contents gs gw (crlf_to_lf text)) as [o|e]; cbn; [exact (proj1 K)|auto].
Qed.
Print Assumptions C63_file_update_partial.

(* After an update a dry run finds nothing to do, under the conditions of C28_idempotent. *)
Theorem C63_update_then_dry_run_partial : forall gs gw text ls o,
  (forall a s, gs a = Ok s -> snippet_text "endsemconv" s /\ any_char (fun c => Ascii.eqb c return_) s = false) ->
  (forall a s, gw a = Ok s -> snippet_text "endweaver" s /\ any_char (fun c => Ascii.eqb c return_) s = false) ->
  reads_as text ls -> closed ls -> Forall (fun l => any_char (fun c => Ascii.eqb c return_) l = false) ls ->
  update_markdown gs gw (Some text) false = (Some o, Ok tt) ->
  snd (update_markdown gs gw (Some o) true) = Ok tt /\ update_markdown gs gw (Some o) false = (Some o, Ok tt).
Proof.
  intros gs gw text ls o Gs Gw Hr Hc Hf H.
  assert (Hn : no_return ls).
  { refine (Forall_impl _ _ Hf). intros l Hl a ->. rewrite any_char_app in Hl. apply orb_false_iff in Hl as [_ Hl]. discriminate Hl. }
  assert (Ho : any_char (fun c => Ascii.eqb c return_) o = false).
  { pose proof (C63_file_update_partial gs gw text ls Hr Hc Hn) as K. rewrite H in K. clear -K Hf Gs Gw.
    assert (A : forall l x, any_char (fun c => Ascii.eqb c return_) l = false -> any_char (fun c => Ascii.eqb c return_) x = false ->
       any_char (fun c => Ascii.eqb c return_) (l ++ eol ++ x) = false) by (intros l x E1 E2; rewrite !any_char_app, E1, E2; reflexivity).
    induction K as [|l ls o H1 H2 K IH|l a body t ls s o Hh Hb Ht Hs K IH|l a body t ls s o Hh Hb Ht Hs K IH]; [reflexivity| | |].
    - inversion Hf; subst. apply A; [assumption|apply IH; assumption].
    - cbn in Hf. inversion Hf as [|x y F1 F2]; subst. apply Forall_app in F2 as [_ F2]. inversion F2 as [|x y F3 F4]; subst.
      apply A; [exact F1|]. rewrite any_char_app, (proj2 (Gs _ _ Hs)). apply A; [exact F3|apply IH, F4].
    - cbn in Hf. inversion Hf as [|x y F1 F2]; subst. apply Forall_app in F2 as [_ F2]. inversion F2 as [|x y F3 F4]; subst.
      apply A; [exact F1|]. rewrite any_char_app, (proj2 (Gw _ _ Hs)). apply A; [exact F3|apply IH, F4]. }
  assert (U : update_markdown gs gw (Some o) false = (Some o, Ok tt)).
  { unfold update_markdown in H |- *. rewrite (crlf_no_return o Ho).
    destruct (update_markdown_contents gs gw (crlf_to_lf text)) as [o'|e] eqn:E; cbn in H; [|discriminate H]. injection H as ->.
    rewrite (C28_idempotent_partial gs gw _ ls o (fun a s K => proj1 (Gs a s K)) (fun a s K => proj1 (Gw a s K))
              (reads_normalised _ _ Hr Hn) Hc Hn E). reflexivity. }
  split; [|exact U]. apply C63_dry_run_exact_partial; assumption.
Qed.
Print Assumptions C63_update_then_dry_run_partial.

(* The command treats every file, whatever happens to the others, and succeeds exactly when all
   of them do. *)
Theorem C63_command : forall gs gw files dry,
  fst (update_all gs gw files dry) = map (fun f => fst (update_markdown gs gw f dry)) files /\
  (snd (update_all gs gw files dry) = true <-> Forall (fun f => snd (update_markdown gs gw f dry) = Ok tt) files).
Proof.
  intros gs gw files dry. induction files as [|f r [I1 I2]]; cbn [update_all map]; [split; [reflexivity|split; [constructor|reflexivity]]|].
  destruct (update_markdown gs gw f dry) as [f' res] eqn:E. destruct (update_all gs gw r dry) as [r' ok]. cbn [fst snd] in *.
  split; [rewrite I1; reflexivity|]. split.
  - intros H. destruct res as [[]|e]; [|discriminate H]. constructor; [rewrite E; reflexivity|apply I2, H].
  - intros H. inversion H as [|x y H1 H2]; subst. rewrite E in H1. cbn in H1. rewrite H1. apply I2, H2.
Qed.
Print Assumptions C63_command.
