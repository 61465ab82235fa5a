(* Proofs about registry paths, archive unpacking and credentials. *)
From Coq Require Import String Ascii Bool Arith Lia Permutation Sorted List.
Import ListNotations.
From Verif Require Import Base BaseProofs BaseProofs2 SemTypes VdirModel VdirSpec.
Local Open Scope string_scope.
Local Open Scope list_scope.

(* ---------------- the matcher ---------------- *)

Lemma ascii_eqb_true : forall a b : ascii, Ascii.eqb a b = true -> a = b.
Proof. intros a b H. destruct (Ascii.eqb_spec a b); congruence. Qed.
Lemma ascii_eqb_false : forall a b : ascii, Ascii.eqb a b = false -> a <> b.
Proof. intros a b H. destruct (Ascii.eqb_spec a b); congruence. Qed.

Section Lazy.
  Context {K : Type} (k : string -> option K).

  Lemma lazy_plus_sound : forall r m x,
    lazy_plus k r = Some (m, x) ->
    exists rest, r = (m ++ rest)%string /\ k rest = Some x /\ m <> "" /\ ~ has_char newline m.
  Proof.
    induction r as [|c r IH]; intros m x H; [discriminate|]. cbn in H.
    destruct (Ascii.eqb c newline) eqn:Ec; [discriminate|].
    apply ascii_eqb_false in Ec.
    destruct (k r) as [y|] eqn:Ek.
    - injection H as <- <-. exists r. split; [reflexivity|]. split; [assumption|].
      split; [discriminate|]. cbn. tauto.
    - destruct (lazy_plus k r) as [[m' x']|] eqn:El; [|discriminate].
      injection H as <- <-. destruct (IH m' x' eq_refl) as (rest & -> & Hk & Hm & Hn).
      exists rest. split; [reflexivity|]. split; [assumption|]. split; [discriminate|].
      cbn. tauto.
  Qed.

  (* the shortest match *)
  Lemma lazy_plus_shortest : forall r m x,
    lazy_plus k r = Some (m, x) ->
    forall p q, m = (p ++ q)%string -> p <> "" -> q <> "" ->
    forall rest, r = (m ++ rest)%string -> k (q ++ rest)%string = None.
  Proof.
    induction r as [|c r IH]; intros m x H p q Hm Hp Hq rest Hr; [discriminate|]. cbn in H.
    destruct (Ascii.eqb c newline) eqn:Ec; [discriminate|].
    destruct (k r) as [y|] eqn:Ek.
    - injection H as <- <-. destruct p as [|a p]; [congruence|]. cbn in Hm.
      injection Hm as -> Hpq. destruct p; [|discriminate]. cbn in Hpq. congruence.
    - destruct (lazy_plus k r) as [[m' x']|] eqn:El; [|discriminate].
      injection H as <- <-. destruct p as [|a p]; [congruence|]. cbn in Hm, Hr.
      injection Hm as <- Hpq. injection Hr as Hr.
      destruct p as [|b p].
      + cbn in Hpq. subst m'. rewrite <- Hr. assumption.
      + apply (IH m' x' eq_refl (String b p) q); auto. discriminate.
  Qed.

  Lemma lazy_plus_complete : forall p rest x,
    p <> "" -> ~ has_char newline p ->
    k rest = Some x ->
    (forall p1 p2, p = (p1 ++ p2)%string -> p1 <> "" -> p2 <> "" ->
                   k (p2 ++ rest)%string = None) ->
    lazy_plus k (p ++ rest)%string = Some (p, x).
  Proof.
    induction p as [|c p IH]; intros rest x Hne Hn Hk Hs; [congruence|]. cbn.
    destruct (Ascii.eqb_spec c newline) as [E|E]; [exfalso; apply Hn; left; exact E|].
    destruct p as [|d p].
    - cbn. rewrite Hk. reflexivity.
    - rewrite (Hs (String c "") (String d p) eq_refl) by discriminate.
      rewrite (IH rest x).
      + reflexivity.
      + discriminate.
      + intros H. apply Hn. right. exact H.
      + assumption.
      + intros p1 p2 Hp Hp1 Hp2. apply (Hs (String c p1) p2); auto.
        * cbn. rewrite <- Hp. reflexivity.
        * discriminate.
  Qed.

  Lemma lazy_plus_none : forall r,
    lazy_plus k r = None ->
    forall p rest, r = (p ++ rest)%string -> p <> "" -> ~ has_char newline p -> k rest = None.
  Proof.
    induction r as [|c r IH]; intros H p rest Hr Hp Hn.
    - destruct p; [congruence|discriminate].
    - cbn in H. destruct p as [|a p]; [congruence|]. cbn in Hr. injection Hr as <- Hr.
      destruct (Ascii.eqb_spec c newline) as [E|E]; [exfalso; apply Hn; left; exact E|].
      destruct (k r) as [y|] eqn:Ek; [discriminate|].
      destruct (lazy_plus k r) as [[m' x']|] eqn:El; [discriminate|].
      destruct p as [|b p].
      + cbn in Hr. subst. assumption.
      + apply (IH eq_refl (String b p)); auto; [discriminate|].
        intros Hh. apply Hn. right. exact Hh.
  Qed.
End Lazy.

Lemma str_app_cons : forall c (a b : string), (String c a ++ b)%string = String c (a ++ b)%string.
Proof. reflexivity. Qed.

Lemma app_eq_nil_str : forall a b : string, (a ++ b)%string = "" -> a = "" /\ b = "".
Proof. intros [|c a] b H; [auto|discriminate]. Qed.

Lemma has_char_app : forall c a b,
  has_char c (a ++ b)%string <-> has_char c a \/ has_char c b.
Proof. induction a as [|d a IH]; intros b; cbn; [tauto|]. rewrite IH. tauto. Qed.

(* the sub-folder part *)
Lemma match_close_spec : forall r, match_close r = Some tt <-> r = "]".
Proof.
  intros r. unfold match_close. destruct (String.eqb_spec r "]"); split; congruence.
Qed.

Lemma match_sub_sound : forall r o,
  match_sub r = Some o ->
  match o with
  | None => r = ""
  | Some f => r = ("[" ++ f ++ "]")%string /\ f <> "" /\ ~ has_char newline f
  end.
Proof.
  intros r o. unfold match_sub. destruct r as [|c r].
  - cbn. intros H. injection H as <-. reflexivity.
  - destruct (Ascii.eqb c "["%char) eqn:Ec.
    + destruct (lazy_plus match_close r) as [[m x]|] eqn:El.
      * intros H. injection H as <-. apply ascii_eqb_true in Ec. subst c.
        destruct (lazy_plus_sound _ _ _ _ El) as (rest & -> & Hk & Hm & Hn).
        destruct x. apply match_close_spec in Hk. subst rest. auto.
      * cbn. discriminate.
    + cbn. discriminate.
Qed.

Lemma match_sub_nil : match_sub "" = Some None.
Proof. reflexivity. Qed.

Lemma match_sub_bracket : forall f,
  f <> "" -> ~ has_char newline f -> match_sub ("[" ++ f ++ "]")%string = Some (Some f).
Proof.
  intros f Hf Hn. cbn [append]. unfold match_sub. cbn [Ascii.eqb Bool.eqb].
  rewrite (lazy_plus_complete match_close f "]" tt); auto.
  intros p1 p2 -> H1 H2. unfold match_close.
  destruct (String.eqb_spec (p2 ++ "]")%string "]") as [E|E]; [|reflexivity].
  exfalso. destruct p2 as [|a p2]; [congruence|]. cbn in E. injection E as _ E.
  apply app_eq_nil_str in E. destruct E; discriminate.
Qed.

Lemma match_sub_other : forall c r, c <> "["%char -> match_sub (String c r) = None.
Proof.
  intros c r Hc. unfold match_sub. destruct (Ascii.eqb_spec c "["%char); [congruence|]. reflexivity.
Qed.

(* the tail *)
Lemma match_tail_sound : forall r ref sub,
  match_tail r = Some (ref, sub) ->
  r = written "" ref sub /\
  plain_opt (fun x => x <> "" /\ ~ has_char newline x) ref /\
  plain_opt (fun x => x <> "" /\ ~ has_char newline x) sub.
Proof.
  intros r ref sub. unfold match_tail.
  assert (Hno : forall o, match_sub r = Some o -> Some (@None string, o) = Some (ref, sub) ->
    r = written "" ref sub /\
    plain_opt (fun x => x <> "" /\ ~ has_char newline x) ref /\
    plain_opt (fun x => x <> "" /\ ~ has_char newline x) sub).
  { intros o Hs H. injection H as <- <-. apply match_sub_sound in Hs. unfold written. cbn.
    destruct o as [f|]; cbn.
    - destruct Hs as (-> & H1 & H2). cbn. auto.
    - subst r. auto. }
  destruct r as [|c r].
  - cbn. intros H. injection H as <- <-. cbn. auto.
  - destruct (Ascii.eqb c "@"%char) eqn:Ec.
    + destruct (lazy_plus match_sub r) as [[m x]|] eqn:El.
      * intros H. injection H as <- <-. apply ascii_eqb_true in Ec. subst c.
        destruct (lazy_plus_sound _ _ _ _ El) as (rest & -> & Hk & Hm & Hn).
        apply match_sub_sound in Hk. unfold written. cbn [append plain_opt].
        destruct x as [f|].
        -- destruct Hk as (-> & H1 & H2). split; [reflexivity|]. cbn. auto.
        -- subst rest. cbn. auto.
      * intros H. destruct (match_sub (String c r)) as [o|] eqn:Es; [|discriminate].
        exact (Hno o eq_refl H).
    + intros H. destruct (match_sub (String c r)) as [o|] eqn:Es; [|discriminate].
      exact (Hno o eq_refl H).
Qed.

(* any non-empty text after '@' is a refspec at least *)
Lemma match_sub_dec_end : forall r, { exists o, match_sub r = Some o } + { match_sub r = None }.
Proof. intros r. destruct (match_sub r) as [o|]; [left; eauto|right; reflexivity]. Qed.

Lemma match_tail_at : forall r, r <> "" -> ~ has_char newline r ->
  match_tail (String "@"%char r) <> None.
Proof.
  intros r Hr Hn. unfold match_tail. cbn [Ascii.eqb Bool.eqb].
  destruct (lazy_plus match_sub r) as [[m x]|] eqn:El; [discriminate|].
  exfalso.
  pose proof (lazy_plus_none match_sub r El r "") as H.
  rewrite str_app_nil_r in H. specialize (H eq_refl Hr Hn). discriminate H.
Qed.

Lemma match_tail_other : forall c r, c <> "@"%char -> c <> "["%char -> match_tail (String c r) = None.
Proof.
  intros c r H1 H2. unfold match_tail.
  destruct (Ascii.eqb_spec c "@"%char); [congruence|].
  rewrite match_sub_other by assumption. reflexivity.
Qed.

Lemma match_tail_nil : match_tail "" = Some (None, None).
Proof. reflexivity. Qed.

Lemma match_tail_bracket : forall r o, match_sub (String "["%char r) = o ->
  match_tail (String "["%char r) = match o with Some s => Some (None, s) | None => None end.
Proof. intros r o <-. reflexivity. Qed.

Lemma written_split : forall src ref sub,
  written src ref sub = (src ++ written "" ref sub)%string.
Proof. intros. reflexivity. Qed.

Lemma match_tail_written : forall ref sub,
  plain_opt plain_refspec ref -> plain_opt plain_sub_folder sub ->
  match_tail (written "" ref sub) = Some (ref, sub).
Proof.
  intros [r|] sub Hr Hs.
  - destruct Hr as (Hr1 & Hr2 & Hr3). unfold written. cbn [append]. unfold match_tail.
    cbn [Ascii.eqb Bool.eqb].
    set (tail := match sub with Some f => String "[" (f ++ "]")%string | None => "" end).
    assert (Hsub : match_sub tail = Some sub).
    { unfold tail. destruct sub as [f|]; [|reflexivity]. destruct Hs as [Hf1 Hf2].
      exact (match_sub_bracket f Hf1 Hf2). }
    rewrite (lazy_plus_complete match_sub r tail sub Hr1 Hr2 Hsub); [reflexivity|].
    intros p1 p2 -> H1 H2. destruct p2 as [|c p2]; [congruence|].
    rewrite str_app_cons. apply match_sub_other. intros ->.
    apply Hr3. apply has_char_app. right. left. reflexivity.
  - unfold written. cbn [append]. destruct sub as [f|]; [|reflexivity].
    destruct Hs as [Hf1 Hf2].
    rewrite (match_tail_bracket _ _ (match_sub_bracket f Hf1 Hf2)). reflexivity.
Qed.

Lemma captures_written : forall src ref sub,
  plain_source src -> plain_opt plain_refspec ref -> plain_opt plain_sub_folder sub ->
  captures (written src ref sub) = Some (src, (ref, sub)).
Proof.
  intros src ref sub (H1 & H2 & H3 & H4) Hr Hs. rewrite written_split. unfold captures.
  apply lazy_plus_complete; auto.
  - apply match_tail_written; assumption.
  - intros p1 p2 -> Hp1 Hp2. destruct p2 as [|c p2]; [congruence|].
    destruct p1 as [|a p1]; [congruence|]. cbn [append after_first] in *.
    rewrite ?str_app_cons. apply match_tail_other.
    + intros ->. apply H3. apply has_char_app. right; left; reflexivity.
    + intros ->. apply H4. apply has_char_app. right; left; reflexivity.
Qed.

Lemma captures_sound : forall s src ref sub,
  captures s = Some (src, (ref, sub)) ->
  s = written src ref sub /\ src <> "" /\ ~ has_char newline s.
Proof.
  intros s src ref sub H. unfold captures in H.
  destruct (lazy_plus_sound _ _ _ _ H) as (rest & -> & Hk & Hm & Hn).
  apply match_tail_sound in Hk. destruct Hk as (-> & Hr & Hs).
  split; [reflexivity|]. split; [assumption|].
  rewrite has_char_app. intros [A|A]; [contradiction|].
  unfold written in A. cbn [append] in A. rewrite has_char_app in A. destruct A as [A|A].
  - destruct ref as [r|]; [|contradiction]. cbn in A, Hr. destruct A as [A|A]; [discriminate|].
    destruct Hr. contradiction.
  - destruct sub as [f|]; [|contradiction]. cbn in A, Hs. destruct A as [A|A]; [discriminate|].
    rewrite has_char_app in A. destruct Hs. destruct A as [A|A]; [contradiction|].
    cbn in A. destruct A as [A|A]; [discriminate|contradiction].
Qed.

Lemma captures_none : forall s, captures s = None <-> s = "" \/ has_char newline s.
Proof.
  intros s. split.
  - intros H. destruct s as [|c s]; [left; reflexivity|]. right.
    assert (Hd : forall t, has_char newline t \/ ~ has_char newline t).
    { induction t as [|d t IH]; cbn; [tauto|].
      destruct (ascii_dec d newline); tauto. }
    destruct (Hd (String c s)) as [A|A]; [assumption|].
    exfalso. pose proof (lazy_plus_none match_tail _ H (String c s) "") as K.
    rewrite str_app_nil_r in K. specialize (K eq_refl). discriminate K; [discriminate|assumption].
  - intros H. destruct (captures s) as [[src [ref sub]]|] eqn:E; [|reflexivity].
    destruct (captures_sound _ _ _ _ E) as (Hs & Hne & Hn).
    destruct H as [->|H]; [|contradiction].
    unfold written in Hs. symmetry in Hs. apply app_eq_nil_str in Hs. destruct Hs. contradiction.
Qed.

(* what can occur inside a captured source *)
Lemma captures_source_at : forall s src ref sub,
  captures s = Some (src, (ref, sub)) ->
  forall p q, src = (p ++ String "@" q)%string -> p <> "" ->
    q = "" /\ ref = None /\ sub = None.
Proof.
  intros s src ref sub H p q Hsrc Hp.
  destruct (captures_sound _ _ _ _ H) as (Hs & Hne & Hn).
  pose proof (lazy_plus_shortest match_tail s src (ref, sub) H p (String "@" q) Hsrc Hp) as K.
  specialize (K ltac:(discriminate) (written "" ref sub)). rewrite <- written_split in K.
  specialize (K Hs). rewrite str_app_cons in K.
  destruct (string_dec (q ++ written "" ref sub)%string "") as [E|E].
  - apply app_eq_nil_str in E. destruct E as [-> E]. unfold written in E. cbn [append] in E.
    apply app_eq_nil_str in E. destruct E as [E1 E2].
    destruct ref; [discriminate|]. destruct sub; [discriminate|]. auto.
  - exfalso. revert K. apply match_tail_at; [assumption|].
    intros A. apply Hn. rewrite Hs, written_split, Hsrc.
    rewrite !has_char_app in *. cbn. tauto.
Qed.

Lemma captures_source_bracket : forall s src ref sub,
  captures s = Some (src, (ref, sub)) ->
  forall p q, src = (p ++ String "[" q)%string -> p <> "" ->
    match_sub (String "[" (q ++ written "" ref sub)%string) = None.
Proof.
  intros s src ref sub H p q Hsrc Hp.
  destruct (captures_sound _ _ _ _ H) as (Hs & Hne & Hn).
  pose proof (lazy_plus_shortest match_tail s src (ref, sub) H p (String "[" q) Hsrc Hp) as K.
  specialize (K ltac:(discriminate) (written "" ref sub)). rewrite <- written_split in K.
  specialize (K Hs). rewrite str_app_cons in K.
  rewrite (match_tail_bracket _ _ eq_refl) in K.
  destruct (match_sub _); [discriminate|reflexivity].
Qed.

Lemma has_char_split : forall c s, has_char c s -> exists p q, s = (p ++ String c q)%string.
Proof.
  induction s as [|d s IH]; cbn; [tauto|]. intros [->|H].
  - exists "", s. reflexivity.
  - destruct (IH H) as (p & q & ->). exists (String d p), q. reflexivity.
Qed.

Lemma ends_with_spec : forall suf s, ends_with suf s = true <-> exists p, s = (p ++ suf)%string.
Proof.
  intros suf. induction s as [|c s IH].
  - cbn [ends_with]. rewrite orb_false_r. split.
    + intros H. apply String.eqb_eq in H. exists "". exact H.
    + intros (p & H). symmetry in H. apply app_eq_nil_str in H. destruct H as [_ ->]. reflexivity.
  - cbn [ends_with]. rewrite orb_true_iff, IH, String.eqb_eq. split.
    + intros [H|(p & ->)]; [exists ""; exact H | exists (String c p); reflexivity].
    + intros ([|a p] & H); [left; exact H|]. right. cbn in H. injection H as -> ->. eauto.
Qed.

(* the text of a sub-folder match ends with a bracket, and conversely *)
Lemma match_sub_bracket_none : forall q,
  ~ has_char newline q -> match_sub (String "[" q) = None ->
  forall f, q = (f ++ "]")%string -> f = "".
Proof.
  intros q Hn H f ->. destruct f as [|a f]; [reflexivity|].
  exfalso. pose proof (match_sub_bracket (String a f)) as K.
  cbn [append] in K, H. rewrite K in H; [discriminate|discriminate|].
  intros A. apply Hn. rewrite has_char_app. left. exact A.
Qed.

(* re-parsing a captured source on its own *)
Lemma captures_source_again : forall s src ref sub,
  captures s = Some (src, (ref, sub)) ->
  ends_with "]" src = false ->
  captures src = Some (src, (None, None)).
Proof.
  intros s src ref sub H He.
  destruct (captures_sound _ _ _ _ H) as (Hs & Hne & Hn).
  assert (Hnsrc : ~ has_char newline src).
  { intros A. apply Hn. rewrite Hs, written_split, has_char_app. auto. }
  unfold captures. rewrite <- (str_app_nil_r src) at 1.
  apply lazy_plus_complete; auto.
  intros p1 p2 Hp Hp1 Hp2. rewrite str_app_nil_r.
  destruct p2 as [|c p2]; [congruence|].
  destruct (ascii_dec c "@") as [->|Hc].
  - destruct (captures_source_at _ _ _ _ H p1 p2 Hp Hp1) as (-> & -> & ->). reflexivity.
  - destruct (ascii_dec c "[") as [->|Hb]; [|apply match_tail_other; assumption].
    rewrite (match_tail_bracket _ _ eq_refl).
    destruct (match_sub (String "[" p2)) as [o|] eqn:Em; [|reflexivity].
    exfalso. apply match_sub_sound in Em. destruct o as [f|]; [|discriminate].
    destruct Em as (Em & _ & _). cbn [append] in Em. injection Em as Em.
    assert (ends_with "]" src = true).
    { apply ends_with_spec. exists (p1 ++ String "[" f)%string.
      rewrite Hp, Em, str_app_assoc. reflexivity. }
    congruence.
Qed.

(* a source with a sub-folder has no bracket after its first character *)
Lemma captures_sub_plain : forall s src ref f,
  captures s = Some (src, (ref, Some f)) -> plain_source src.
Proof.
  intros s src ref f H.
  destruct (captures_sound _ _ _ _ H) as (Hs & Hne & Hn).
  assert (Hnsrc : ~ has_char newline src).
  { intros A. apply Hn. rewrite Hs, written_split, has_char_app. auto. }
  split; [assumption|]. split; [assumption|].
  assert (Hdec : forall c, has_char c (after_first src) ->
            exists p q, src = (p ++ String c q)%string /\ p <> "").
  { intros c Hc. destruct src as [|a src]; [contradiction|]. cbn in Hc.
    destruct (has_char_split c src Hc) as (p & q & ->). exists (String a p), q.
    split; [reflexivity|discriminate]. }
  split; intros Hc.
  - destruct (Hdec _ Hc) as (p & q & Hsrc & Hp).
    destruct (captures_source_at _ _ _ _ H p q Hsrc Hp) as (_ & _ & K). discriminate K.
  - destruct (Hdec _ Hc) as (p & q & Hsrc & Hp).
    pose proof (captures_source_bracket _ _ _ _ H p q Hsrc Hp) as K.
    assert (Hq : ~ has_char newline (q ++ written "" ref (Some f))%string).
    { intros A. apply Hn. rewrite Hs, written_split, Hsrc. rewrite has_char_app in A.
      rewrite !has_char_app. cbn [has_char]. tauto. }
    assert (Hw : exists x, (q ++ written "" ref (Some f))%string = (x ++ "]")%string /\ x <> "").
    { exists (q ++ match ref with Some r => String "@" r | None => "" end ++ String "[" f)%string.
      split.
      - unfold written. cbn [append]. rewrite !str_app_assoc. reflexivity.
      - intros A. apply app_eq_nil_str in A. destruct A as [_ A].
        apply app_eq_nil_str in A. destruct A as [_ A]. discriminate A. }
    destruct Hw as (x & Hx & Hxne). apply Hxne.
    exact (match_sub_bracket_none _ Hq K x Hx).
Qed.

Lemma ends_with_app : forall a b c, ends_with c b = true -> ends_with c (a ++ b)%string = true.
Proof.
  intros a b c H. apply ends_with_spec in H. destruct H as (p & ->).
  apply ends_with_spec. exists (a ++ p)%string. symmetry. apply str_app_assoc.
Qed.

Lemma last_unique : forall (p q : string) (a b : ascii),
  (p ++ String a "")%string = (q ++ String b "")%string -> a = b.
Proof.
  induction p as [|c p IH]; intros [|d q] a b H; cbn in H.
  - congruence.
  - injection H as _ H. symmetry in H. apply app_eq_nil_str in H. destruct H; discriminate.
  - injection H as _ H. apply app_eq_nil_str in H. destruct H; discriminate.
  - injection H as _ H. eapply IH, H.
Qed.

Lemma archive_no_bracket : forall s, is_archive s = true -> ends_with "]" s = false.
Proof.
  intros s H. destruct (ends_with "]" s) eqn:E; [|reflexivity]. exfalso.
  apply ends_with_spec in E. destruct E as (q & ->). unfold is_archive in H.
  apply orb_true_iff in H. rewrite !ends_with_spec in H.
  destruct H as [(p & H)|(p & H)].
  - assert (A : (q ++ "]" = (p ++ ".zi") ++ "p")%string) by (rewrite H, str_app_assoc; reflexivity).
    apply last_unique in A. discriminate A.
  - assert (A : (q ++ "]" = (p ++ ".tar.g") ++ "z")%string) by (rewrite H, str_app_assoc; reflexivity).
    apply last_unique in A. discriminate A.
Qed.

Lemma sub_plain : forall s src ref f,
  captures s = Some (src, (ref, Some f)) -> plain_sub_folder f.
Proof.
  intros s src ref f H. unfold captures in H.
  destruct (lazy_plus_sound _ _ _ _ H) as (rest & -> & Hk & Hm & Hn).
  apply match_tail_sound in Hk. destruct Hk as (_ & _ & Hs). exact Hs.
Qed.

Lemma classify_reparse : forall s src ref sub,
  captures s = Some (src, (ref, sub)) ->
  (forall p, classify src ref sub = LocalFolder p -> ends_with "]" p = false) ->
  parse_vdir (show_vdir (classify src ref sub)) = Some (classify src ref sub).
Proof.
  intros s src ref sub H Hb.
  destruct (captures_sound _ _ _ _ H) as (Hs & Hne & Hn).
  (* archives keep the sub-folder and drop the refspec *)
  assert (Harch : is_archive src = true ->
    captures (match sub with Some f => (src ++ "[" ++ f ++ "]")%string | None => src end)
    = Some (src, (None, sub))).
  { intros Ha. destruct sub as [f|].
    - apply (captures_written src None (Some f)).
      + eapply captures_sub_plain, H.
      + exact I.
      + eapply sub_plain, H.
    - eapply captures_source_again; [exact H|]. apply archive_no_bracket, Ha. }
  unfold classify in *.
  destruct (is_http src) eqn:Eh.
  - destruct (is_archive src) eqn:Ea.
    + unfold parse_vdir.
      assert (E : captures (show_vdir (RemoteArchive src sub)) = Some (src, (None, sub)))
        by (specialize (Harch eq_refl); destruct sub; exact Harch).
      rewrite E. unfold classify. rewrite Eh, Ea. reflexivity.
    + destruct (ends_with ".git" src || is_some ref || is_some sub) eqn:Eg.
      * assert (E : show_vdir (GitRepo src ref sub) = s).
        { rewrite Hs. unfold written. destruct ref, sub; cbn; rewrite ?str_app_nil_r; reflexivity. }
        rewrite E. unfold parse_vdir. rewrite H. unfold classify. rewrite Eh, Ea, Eg. reflexivity.
      * apply orb_false_iff in Eg. destruct Eg as [Eg1 Eg2].
        apply orb_false_iff in Eg1. destruct Eg1 as [Eg0 Eg1].
        destruct ref; [discriminate|]. destruct sub; [discriminate|].
        assert (E : show_vdir (RemoteFile src) = s).
        { rewrite Hs. unfold written. cbn. rewrite str_app_nil_r. reflexivity. }
        rewrite E. unfold parse_vdir. rewrite H. unfold classify. rewrite Eh, Ea, Eg0. reflexivity.
  - destruct (is_archive src) eqn:Ea.
    + unfold parse_vdir.
      assert (E : captures (show_vdir (LocalArchive src sub)) = Some (src, (None, sub)))
        by (specialize (Harch eq_refl); destruct sub; exact Harch).
      rewrite E. unfold classify. rewrite Eh, Ea. reflexivity.
    + cbn [show_vdir]. unfold parse_vdir.
      rewrite (captures_source_again s src ref sub H (Hb src eq_refl)).
      unfold classify. rewrite Eh, Ea. reflexivity.
Qed.

Lemma show_not_empty : forall s v, parse_vdir s = Some v ->
  show_vdir v <> "" /\ ~ has_char newline (show_vdir v).
Proof.
  intros s v H. unfold parse_vdir in H.
  destruct (captures s) as [[src [ref sub]]|] eqn:E; [|discriminate]. injection H as <-.
  destruct (captures_sound _ _ _ _ E) as (Hs & Hne & Hn).
  assert (Hgen : forall r' o,
    (r' = ref \/ r' = None) -> (o = sub \/ o = None) ->
    written src r' o <> "" /\ ~ has_char newline (written src r' o)).
  { intros r' o Hr Ho. rewrite written_split. split.
    - intros A. apply app_eq_nil_str in A. tauto.
    - intros A. apply Hn. rewrite Hs. unfold written in A |- *. cbn [append] in A |- *.
      rewrite !has_char_app in *. destruct A as [A|[A|A]]; [tauto| |].
      + destruct Hr as [Hr|Hr]; subst r'; [tauto|destruct A].
      + destruct Ho as [Ho|Ho]; subst o; [tauto|destruct A]. }
  unfold classify.
  assert (W : forall r' o, written src r' o =
     match r', o with
     | Some r, Some f => (src ++ "@" ++ r ++ "[" ++ f ++ "]")%string
     | Some r, None => (src ++ "@" ++ r)%string
     | None, Some f => (src ++ "[" ++ f ++ "]")%string
     | None, None => src end).
  { intros [r|] [f|]; unfold written; cbn; rewrite ?str_app_nil_r; reflexivity. }
  pose proof (Hgen None None (or_intror eq_refl) (or_intror eq_refl)) as G0. rewrite W in G0.
  pose proof (Hgen None sub (or_intror eq_refl) (or_introl eq_refl)) as G1. rewrite W in G1.
  pose proof (Hgen ref sub (or_introl eq_refl) (or_introl eq_refl)) as G2. rewrite W in G2.
  destruct (is_http src); destruct (is_archive src); cbn [show_vdir].
  - destruct sub; exact G1.
  - destruct (_ || _); cbn [show_vdir]; [destruct ref, sub; exact G2 | exact G0].
  - destruct sub; exact G1.
  - exact G0.
Qed.

(* ---------------- archives ---------------- *)

Lemma resolve_in_normal : forall cs st,
  (forall c, In c cs -> exists n, c = Normal n) ->
  exists st', resolve_in st cs = Some (st' ++ st)%list /\ length st' = length cs.
Proof.
  induction cs as [|c cs IH]; intros st H; [exists []; auto|].
  destruct (H c (or_introl eq_refl)) as (n & ->). cbn.
  destruct (IH (n :: st)) as (st' & E & L); [intros x Hx; apply H; right; exact Hx|].
  exists (st' ++ [n]). rewrite E, <- app_assoc. split; [reflexivity|].
  rewrite app_length, L. cbn. lia.
Qed.

Lemma seg_component_kind : forall seg c, In c (seg_component seg) ->
  c = ParentDir \/ exists n, c = Normal n.
Proof.
  intros seg c. unfold seg_component.
  destruct (String.eqb seg ""); [intros []|].
  destruct (String.eqb seg "."); [intros []|].
  destruct (String.eqb seg ".."); cbn; intros [<-|[]]; eauto.
Qed.

Lemma seg_component_length : forall seg, length (seg_component seg) <= 1.
Proof.
  intros seg. unfold seg_component.
  destruct (String.eqb seg ""); [cbn; lia|].
  destruct (String.eqb seg "."); [cbn; lia|].
  destruct (String.eqb seg ".."); cbn; lia.
Qed.

(* after the first component only names and ".." remain *)
Lemma components_tail_kind : forall s c, In c (tl (components s)) ->
  c = ParentDir \/ exists n, c = Normal n.
Proof.
  intros s c. unfold components. destruct (split_slash s) as [|first rest]; [intros []|].
  assert (Hrest : In c (flat_map seg_component rest) -> c = ParentDir \/ exists n, c = Normal n).
  { intros H. apply in_flat_map in H. destruct H as (g & _ & Hc).
    eapply seg_component_kind, Hc. }
  assert (Htl : forall A (l : list A) x, In x (tl l) -> In x l)
    by (intros A [|a l] x Hx; [destruct Hx|right; exact Hx]).
  destruct (starts_with "/" s); [exact Hrest|].
  destruct (String.eqb first "."); [exact Hrest|].
  intros H. apply Htl, in_app_iff in H. destruct H as [H|H]; [|auto].
  eapply seg_component_kind, H.
Qed.

(* ---------------- credentials ---------------- *)

Definition longer_first (a b : auth_rule) : bool :=
  Nat.leb (String.length (ar_prefix b)) (String.length (ar_prefix a)).

Lemma longer_total : forall a b, longer_first a b = true \/ longer_first b a = true.
Proof. intros a b. unfold longer_first. rewrite !Nat.leb_le. lia. Qed.
Lemma longer_trans : forall a b c,
  longer_first a b = true -> longer_first b c = true -> longer_first a c = true.
Proof. intros a b c. unfold longer_first. rewrite !Nat.leb_le. lia. Qed.

Lemma applies_iff : forall r url, starts_with (ar_prefix r) url = true <-> applies r url.
Proof. intros r url. unfold applies. apply starts_with_spec. Qed.

Lemma find_split : forall (A : Type) (f : A -> bool) (l : list A) (x : A),
  find f l = Some x ->
  exists pre post, l = pre ++ x :: post /\ f x = true /\ (forall y, In y pre -> f y = false).
Proof.
  induction l as [|a l IH]; intros x H; [discriminate|]. cbn in H.
  destruct (f a) eqn:E.
  - injection H as ->. exists [], l. split; [reflexivity|]. split; [assumption|]. intros y [].
  - destruct (IH x H) as (pre & post & -> & Hx & Hp). exists (a :: pre), post.
    split; [reflexivity|]. split; [assumption|]. intros y [<-|Hy]; auto.
Qed.

Lemma find_none_all : forall (A : Type) (f : A -> bool) (l : list A),
  find f l = None -> forall x, In x l -> f x = false.
Proof. intros A f l H x Hx. eapply find_none; eauto. Qed.

Lemma strongly_sorted_app : forall (A : Type) (R : A -> A -> Prop) (pre post : list A) x,
  StronglySorted R (pre ++ x :: post) -> forall y, In y post -> R x y.
Proof.
  induction pre as [|a pre IH]; intros post x H y Hy; cbn in H;
    inversion H as [|? ? Hs Hf]; subst.
  - rewrite Forall_forall in Hf. apply Hf, Hy.
  - eapply IH; eauto.
Qed.

Lemma auth_match_some : forall rules url r,
  auth_match (auth_new rules) url = Some r -> chosen_rule rules url r.
Proof.
  intros rules url r H. unfold auth_match, auth_new in H.
  change (fun a b : auth_rule => Nat.leb (String.length (ar_prefix b)) (String.length (ar_prefix a)))
    with longer_first in H.
  destruct (find_split _ _ _ _ H) as (pre & post & Hs & Hr & Hpre).
  assert (Hsorted := stable_sort_sorted longer_first longer_total longer_trans rules).
  rewrite Hs in Hsorted.
  split; [apply applies_iff, Hr|]. split.
  - intros r' Hin Ha. apply applies_iff in Ha.
    apply (stable_sort_in longer_first) in Hin. rewrite Hs in Hin.
    apply in_app_iff in Hin. destruct Hin as [Hin|[->|Hin]].
    + rewrite (Hpre _ Hin) in Ha. discriminate Ha.
    + lia.
    + pose proof (strongly_sorted_app _ _ _ _ _ Hsorted _ Hin) as K.
      unfold BaseProofs.le, longer_first in K. apply Nat.leb_le in K. exact K.
  - set (q := fun x => String.eqb (ar_prefix x) (ar_prefix r)).
    assert (Hq : filter q (stable_sort longer_first rules) = filter q rules).
    { apply stable_sort_stable. intros x y Hx Hy. unfold q in *.
      apply String.eqb_eq in Hx, Hy. unfold longer_first. rewrite Hx, Hy. apply Nat.leb_refl. }
    rewrite Hs, filter_app in Hq. cbn [filter] in Hq.
    assert (Hqr : q r = true) by (unfold q; apply String.eqb_refl). rewrite Hqr in Hq.
    assert (Hnil : filter q pre = []).
    { assert (Hall : forall y, In y pre -> q y = false).
      { intros y Hy. unfold q. destruct (String.eqb_spec (ar_prefix y) (ar_prefix r)) as [E|E]; [|reflexivity].
        exfalso. specialize (Hpre y Hy). rewrite E in Hpre. congruence. }
      clear - Hall. induction pre as [|a pre IH]; [reflexivity|]. cbn.
      rewrite (Hall a (or_introl eq_refl)). apply IH. intros y Hy. apply Hall. right. exact Hy. }
    rewrite Hnil in Hq. cbn [app] in Hq.
    assert (Hf : forall l tl0, r :: tl0 = filter q l ->
      exists before after, l = before ++ r :: after /\ forall x, In x before -> ar_prefix x <> ar_prefix r).
    { induction l as [|a l IH]; intros tl0 E; [discriminate|]. cbn in E.
      destruct (q a) eqn:Ea.
      - injection E as <- _. exists [], l. split; [reflexivity|]. intros x [].
      - destruct (IH _ E) as (b & af & -> & Hb). exists (a :: b), af. split; [reflexivity|].
        intros x [<-|Hx]; [|auto]. unfold q in Ea. apply String.eqb_neq in Ea. exact Ea. }
    exact (Hf _ _ Hq).
Qed.

Lemma auth_match_none : forall rules url,
  auth_match (auth_new rules) url = None -> forall r, In r rules -> ~ applies r url.
Proof.
  intros rules url H r Hr Ha. unfold auth_match, auth_new in H.
  apply applies_iff in Ha.
  assert (K : starts_with (ar_prefix r) url = false).
  { apply (find_none_all _ _ _ H). apply stable_sort_in, Hr. }
  congruence.
Qed.

Lemma chosen_unique : forall rules url r1 r2,
  chosen_rule rules url r1 -> chosen_rule rules url r2 -> r1 = r2.
Proof.
  intros rules url r1 r2 (A1 & L1 & b1 & a1 & E1 & N1) (A2 & L2 & b2 & a2 & E2 & N2).
  assert (I1 : In r1 rules) by (rewrite E1; apply in_elt).
  assert (I2 : In r2 rules) by (rewrite E2; apply in_elt).
  assert (Hlen : String.length (ar_prefix r1) = String.length (ar_prefix r2)).
  { pose proof (L1 _ I2 A2). pose proof (L2 _ I1 A1). lia. }
  assert (Hp : ar_prefix r1 = ar_prefix r2).
  { destruct A1 as (t1 & ->), A2 as (t2 & E). clear - Hlen E.
    revert E Hlen. generalize (ar_prefix r1) as p, (ar_prefix r2) as q.
    induction p as [|c p IH]; intros [|d q] E Hl; cbn in *; try reflexivity; try discriminate.
    injection E as -> E. f_equal. apply IH; [assumption|lia]. }
  clear - E1 E2 N1 N2 Hp. subst rules.
  revert b2 E2 N2. induction b1 as [|x b1 IH]; intros [|y b2] E2 N2; cbn in E2.
  - injection E2 as -> _. reflexivity.
  - injection E2 as <- _. exfalso. apply (N2 r1); [left; reflexivity|assumption].
  - injection E2 as <- _. exfalso. apply (N1 x); [left; reflexivity|]. congruence.
  - injection E2 as <- E2. apply (IH (fun z Hz => N1 z (or_intror Hz)) b2 E2).
    intros z Hz. apply N2. right. exact Hz.
Qed.

Lemma chosen_match : forall rules url r,
  chosen_rule rules url r -> auth_match (auth_new rules) url = Some r.
Proof.
  intros rules url r H.
  destruct (auth_match (auth_new rules) url) as [r'|] eqn:E.
  - apply auth_match_some in E. f_equal. eapply chosen_unique; eauto.
  - exfalso. destruct H as (Ha & _ & b & a & Er & _).
    apply (auth_match_none _ _ E r); [rewrite Er; apply in_elt|assumption].
Qed.

(* reordering rules with pairwise distinct prefixes changes nothing *)
Lemma chosen_perm : forall rules rules' url r,
  NoDup (map ar_prefix rules) -> Permutation rules rules' ->
  chosen_rule rules url r -> chosen_rule rules' url r.
Proof.
  intros rules rules' url r Hnd Hp (Ha & Hl & b & a & E & _).
  split; [assumption|]. split.
  - intros r' Hr'. apply Hl. eapply Permutation_in; [symmetry; exact Hp|assumption].
  - assert (Hin : In r rules') by (eapply Permutation_in; [exact Hp|rewrite E; apply in_elt]).
    destruct (in_split r rules' Hin) as (b' & a' & E'). exists b', a'. split; [assumption|].
    assert (Hnd' : NoDup (map ar_prefix rules'))
      by (eapply Permutation_NoDup; [apply Permutation_map, Hp|assumption]).
    rewrite E', map_app in Hnd'. cbn in Hnd'. apply NoDup_remove_2 in Hnd'.
    intros x Hx Heq. apply Hnd'. apply in_app_iff. left. rewrite <- Heq. apply in_map, Hx.
Qed.

(* ---- the command cache ---- *)
Lemma argv_eqb_spec : forall a b, argv_eqb a b = true <-> a = b.
Proof. intros a b. unfold argv_eqb. destruct (list_eq_dec string_dec a b); split; congruence. Qed.

Definition cache_ok (past : history) (cache : cmd_cache) : Prop :=
  forall argv tok t, lookup argv_eqb argv cache = Some (tok, t) ->
    exists w url, In (w, url) past /\ w_run w argv = Some tok /\ w_now w = t.

Lemma run_command_ok : forall past w url cache argv tok cache',
  cache_ok past cache ->
  (forall w' u, In (w', u) past -> w_now w' <= w_now w) ->
  run_command_cached w cache argv = (tok, cache') ->
  cache_ok (past ++ [(w, url)]) cache' /\
  (forall t, tok = Some t -> argv <> [] /\
     (w_run w argv = Some t \/
      exists w' url', In (w', url') past /\ w_run w' argv = Some t /\ w_now w < w_now w' + 30 * 1000)).
Proof.
  intros past w url cache argv tok cache' Hc Ht H.
  assert (Hkeep : cache_ok (past ++ [(w, url)]) cache).
  { intros a t n L. destruct (Hc a t n L) as (w' & u' & Hin & Hr & Hn).
    exists w', u'. split; [apply in_app_iff; left; exact Hin|]. auto. }
  assert (Hins : forall t, w_run w argv = Some t ->
            cache_ok (past ++ [(w, url)]) (insert argv_eqb argv (t, w_now w) cache)).
  { intros t Hr a t' n L.
    destruct (list_eq_dec string_dec a argv) as [->|Hne].
    - rewrite (lookup_insert_eq _ argv_eqb_spec) in L. injection L as <- <-.
      exists w, url. split; [apply in_app_iff; right; left; reflexivity|]. auto.
    - rewrite (lookup_insert_ne _ argv_eqb_spec) in L by assumption. apply Hkeep, L. }
  unfold run_command_cached in H. destruct argv as [|a0 av].
  - injection H as <- <-. split; [assumption|discriminate].
  - assert (Hfresh : forall o c, (match w_run w (a0 :: av) with
                  | None => (None, cache)
                  | Some tok' => (Some tok', insert argv_eqb (a0 :: av) (tok', w_now w) cache)
                  end) = (o, c) ->
        cache_ok (past ++ [(w, url)]) c /\
        (forall t, o = Some t -> a0 :: av <> [] /\
           (w_run w (a0 :: av) = Some t \/
            exists w' url', In (w', url') past /\ w_run w' (a0 :: av) = Some t /\
                            w_now w < w_now w' + 30 * 1000))).
    { intros o c Ho. destruct (w_run w (a0 :: av)) as [t|] eqn:Er; injection Ho as <- <-.
      - split; [apply Hins; reflexivity|]. intros t' E. injection E as <-.
        split; [discriminate|]. left. reflexivity.
      - split; [assumption|discriminate]. }
    destruct (lookup argv_eqb (a0 :: av) cache) as [[t n]|] eqn:El.
    + destruct (Nat.ltb (w_now w - n) cache_ttl) eqn:Eb.
      * injection H as <- <-. split; [assumption|]. intros t' E. injection E as <-.
        split; [discriminate|]. right.
        destruct (Hc _ _ _ El) as (w' & u' & Hin & Hr & Hn).
        exists w', u'. split; [assumption|]. split; [assumption|].
        apply Nat.ltb_lt in Eb. unfold cache_ttl in Eb. pose proof (Ht _ _ Hin). lia.
      * exact (Hfresh _ _ H).
    + exact (Hfresh _ _ H).
Qed.

Lemma resolve_ok : forall past rules w url cache tok cache',
  cache_ok past cache ->
  (forall w' u, In (w', u) past -> w_now w' <= w_now w) ->
  auth_resolve w (auth_new rules) cache url = (tok, cache') ->
  cache_ok (past ++ [(w, url)]) cache' /\
  (forall t, tok = Some t -> exists r, chosen_rule rules url r /\ token_of_rule past w r t).
Proof.
  intros past rules w url cache tok cache' Hc Ht H. unfold auth_resolve in H.
  assert (Hkeep : cache_ok (past ++ [(w, url)]) cache).
  { intros a t n L. destruct (Hc a t n L) as (w' & u' & Hin & Hr & Hn).
    exists w', u'. split; [apply in_app_iff; left; exact Hin|]. auto. }
  destruct (auth_match (auth_new rules) url) as [r|] eqn:Em.
  - apply auth_match_some in Em. unfold materialize in H.
    destruct (ar_source r) as [t|name|argv] eqn:Es.
    + injection H as <- <-. split; [assumption|]. intros t' E. injection E as <-.
      exists r. split; [assumption|]. unfold token_of_rule. rewrite Es. reflexivity.
    + injection H as <- <-. split; [assumption|]. intros t' E.
      exists r. split; [assumption|]. unfold token_of_rule. rewrite Es.
      destruct (w_env w name) as [t|]; [|discriminate].
      destruct (String.eqb_spec t "") as [E0|E0]; [discriminate|]. injection E as <-. auto.
    + destruct (run_command_ok past w url cache argv tok cache' Hc Ht H) as [H1 H2].
      split; [assumption|]. intros t E. exists r. split; [assumption|].
      unfold token_of_rule. rewrite Es. apply H2, E.
  - injection H as <- <-. split; [assumption|discriminate].
Qed.

Lemma history_ok : forall rules h past cache toks cache' t0,
  cache_ok past cache ->
  (forall w' u, In (w', u) past -> w_now w' <= t0) ->
  times_ordered t0 h ->
  run_history (auth_new rules) cache h = (toks, cache') ->
  length toks = length h /\
  forall pre w url post, h = pre ++ (w, url) :: post ->
    forall t, nth_error toks (length pre) = Some (Some t) ->
    exists r, chosen_rule rules url r /\ token_of_rule (past ++ pre) w r t.
Proof.
  intros rules. induction h as [|[w0 u0] h IH]; intros past cache toks cache' t0 Hc Ht Hto H.
  - cbn in H. injection H as <- <-. split; [reflexivity|].
    intros [|x pre] w url post E; discriminate.
  - cbn in H, Hto. destruct Hto as [Hle Hto].
    destruct (auth_resolve w0 (auth_new rules) cache u0) as [tok cache1] eqn:Er.
    destruct (run_history (auth_new rules) cache1 h) as [toks1 cache2] eqn:Eh.
    injection H as <- <-.
    assert (Ht0 : forall w' u, In (w', u) past -> w_now w' <= w_now w0)
      by (intros w' u Hin; specialize (Ht _ _ Hin); lia).
    destruct (resolve_ok past rules w0 u0 cache tok cache1 Hc Ht0 Er) as [Hc1 Hr].
    assert (Ht1 : forall w' u, In (w', u) (past ++ [(w0, u0)]) -> w_now w' <= w_now w0).
    { intros w' u Hin. apply in_app_iff in Hin. destruct Hin as [Hin|[E|[]]].
      - apply (Ht0 _ _ Hin).
      - injection E as <- _. lia. }
    destruct (IH (past ++ [(w0, u0)]) cache1 toks1 cache2 (w_now w0) Hc1 Ht1 Hto Eh) as [Hl Hn].
    split; [cbn; rewrite Hl; reflexivity|].
    intros [|x pre] w url post E t Hnth; cbn in E, Hnth.
    + injection E as <- <- <-. injection Hnth as ->. rewrite app_nil_r. apply Hr. reflexivity.
    + injection E as <- E. specialize (Hn pre w url post E t Hnth).
      rewrite <- app_assoc in Hn. exact Hn.
Qed.

(* Splitting on slashes and putting them back gives the string again. *)
Fixpoint slashed (l : list string) : string :=
  match l with
  | [] => ""
  | [x] => x
  | x :: l' => (x ++ "/" ++ slashed l')%string
  end.

Lemma splitn_slash_ne n s : splitn_slash (S n) s <> [].
Proof.
  destruct n as [|n]; [discriminate|].
  assert (G : forall s acc, (fix go (acc r : string) {struct r} : list string :=
            match r with
            | EmptyString => [acc]
            | String c r' =>
              if Ascii.eqb c "/"%char then acc :: splitn_slash (S n) r'
              else go (acc ++ String c EmptyString)%string r'
            end) acc s <> []).
  { clear s. induction s as [|d s IH]; intros acc; [discriminate|].
    destruct (Ascii.eqb d "/"%char); [discriminate|apply IH]. }
  exact (G s "").
Qed.

Lemma splitn_slash_join : forall n s, slashed (splitn_slash (S n) s) = s.
Proof.
  induction n as [|n IH]; intros s; [reflexivity|].
  change (splitn_slash (S (S n)) s) with
    ((fix go (acc r : string) {struct r} : list string :=
            match r with
            | EmptyString => [acc]
            | String c r' =>
              if Ascii.eqb c "/"%char then acc :: splitn_slash (S n) r'
              else go (acc ++ String c EmptyString)%string r'
            end) "" s).
  enough (G : forall s acc, slashed ((fix go (acc r : string) {struct r} : list string :=
            match r with
            | EmptyString => [acc]
            | String c r' =>
              if Ascii.eqb c "/"%char then acc :: splitn_slash (S n) r'
              else go (acc ++ String c EmptyString)%string r'
            end) acc s) = (acc ++ s)%string) by exact (G s "").
  clear s. induction s as [|c s IHs]; intros acc.
  - cbn. rewrite str_app_nil_r. reflexivity.
  - destruct (Ascii.eqb_spec c "/"%char) as [->|Hc].
    + pose proof (splitn_slash_ne n s) as Hne. pose proof (IH s) as Hs.
      destruct (splitn_slash (S n) s) as [|x l]; [congruence|].
      change (slashed (acc :: x :: l)) with (acc ++ "/" ++ slashed (x :: l))%string.
      rewrite Hs. reflexivity.
    + rewrite IHs, str_app_assoc. reflexivity.
Qed.
