(* C22: Prometheus names are valid and stable. *)
From Coq Require Import String Ascii Bool Arith NArith Lia List.
Import ListNotations.
From Verif Require Import Base BaseProofs Str StrProofs PromModel PromSpec.
Local Open Scope N_scope.

Lemma c_digit_iff c : c_digit c = true <-> digit c.
Proof. unfold c_digit, digit. rewrite andb_true_iff, !N.leb_le. tauto. Qed.

Lemma ascii_alnum_iff c : c_ascii_alnum c = true <-> letter c \/ digit c.
Proof.
  unfold c_ascii_alnum, letter. rewrite !orb_true_iff, c_digit_iff, !andb_true_iff, !N.leb_le. tauto.
Qed.

Lemma fix_ok_iff c : c_ascii_alnum c || N.eqb c c_under || N.eqb c c_colon = true <-> name_char c.
Proof.
  rewrite !orb_true_iff, ascii_alnum_iff, !N.eqb_eq. unfold name_char, first_char, c_under, c_colon. tauto.
Qed.

Lemma fix_char_legal c : name_char (fix_char c).
Proof.
  unfold fix_char. destruct (_ || _ || _) eqn:E; [apply fix_ok_iff, E|].
  unfold name_char, first_char, c_under. auto.
Qed.

Lemma fix_char_id c : name_char c -> fix_char c = c.
Proof. intros H. apply fix_ok_iff in H. unfold fix_char. rewrite H. reflexivity. Qed.

Lemma fix_char_under s : underscored s (map fix_char s).
Proof.
  induction s as [|c s IH]; cbn; [constructor|]. unfold fix_char at 1.
  destruct (_ || _ || _) eqn:E; [constructor; exact IH|].
  apply us_repl; [|exact IH]. intros H. apply fix_ok_iff in H. congruence.
Qed.

Lemma underscored_refl s : underscored s s.
Proof. induction s; constructor; auto. Qed.

Lemma underscored_app a a' b b' : underscored a a' -> underscored b b' ->
  underscored (a ++ b)%list (a' ++ b')%list.
Proof. intros H K. induction H; cbn; [exact K|constructor; auto|apply us_repl; auto]. Qed.

Section S.
  Variable alnum : N -> bool.
  Hypothesis table : unicode_table alnum.

  Lemma kept_ascii c : c < 128 -> (kept alnum c = true <-> name_char c).
  Proof.
    intros H. unfold kept. rewrite !orb_true_iff, (table c H), !N.eqb_eq.
    unfold name_char, first_char, c_under, c_colon. tauto.
  Qed.

  Lemma kept_name c : name_char c -> kept alnum c = true.
  Proof.
    intros H. apply kept_ascii; [|exact H].
    unfold name_char, first_char, letter, digit in H. lia.
  Qed.

  Lemma split_valid_some s v r : split_valid alnum s = Some (v, r) ->
    s = (v ++ r)%list /\ Forall (fun c => kept alnum c = true) v /\
    exists c r', r = c :: r' /\ kept alnum c = false.
  Proof.
    revert v r. induction s as [|c s IH]; cbn; intros v r H; [discriminate|].
    destruct (kept alnum c) eqn:E; cbn in H.
    - destruct (split_valid alnum s) as [[v' r']|]; [|discriminate].
      injection H as <- <-. destruct (IH _ _ eq_refl) as (-> & Hf & He).
      repeat split; auto.
    - injection H as <- <-. repeat split; [constructor|]. eauto.
  Qed.

  Lemma split_valid_none s : split_valid alnum s = None <-> Forall (fun c => kept alnum c = true) s.
  Proof.
    induction s as [|c s IH]; cbn; [split; [constructor|reflexivity]|].
    destruct (kept alnum c) eqn:E; cbn.
    - destruct (split_valid alnum s) as [[v r]|]; split; intros H; try discriminate; auto.
      + inversion H as [|x y H1 H2]; subst. apply IH in H2. discriminate.
      + constructor; [exact E|apply IH; reflexivity].
    - split; [discriminate|]. intros H. inversion H; congruence.
  Qed.
End S.

(* An ASCII metric name becomes a legal Prometheus name. *)
Theorem C22_sanitize_legal_partial : forall alnum n,
  unicode_table alnum -> ascii_name n -> n <> [] -> legal (sanitize_name alnum n).
Proof.
  intros alnum n T Ha Hn. destruct n as [|c n]; [congruence|].
  assert (F : forall l, Forall name_char (map fix_char l)).
  { intros l. apply Forall_forall. intros y Hy. apply in_map_iff in Hy as (x & <- & _). apply fix_char_legal. }
  unfold sanitize_name. destruct (c_digit c) eqn:Ed.
  - exists c_under, (map fix_char (c :: n)). split; [reflexivity|]. split; [unfold first_char, c_under; auto|apply F].
  - assert (K : forall l, ascii_name l -> Forall (fun c => kept alnum c = true) l -> Forall name_char l).
    { intros l Hl Hk. unfold ascii_name in Hl. rewrite Forall_forall in *. intros x Hx.
      apply (kept_ascii alnum T x (Hl _ Hx)). apply Hk, Hx. }
    assert (Fst : name_char c -> first_char c).
    { intros [H|H]; [exact H|]. apply c_digit_iff in H. congruence. }
    destruct (split_valid alnum (c :: n)) as [[v r]|] eqn:E.
    + apply split_valid_some in E as (Es & Hv & d & r' & -> & Hd).
      destruct v as [|c' v].
      * cbn in Es. injection Es as <- <-. cbn. exists (fix_char c), (map fix_char n). repeat split; [|apply F].
        unfold fix_char. destruct (_ || _ || _) eqn:E2; [|unfold first_char, c_under; auto].
        apply Fst, fix_ok_iff, E2.
      * cbn in Es. injection Es as <- Es. cbn. exists c, (v ++ map fix_char (d :: r'))%list. split; [reflexivity|].
        inversion Ha as [|x y Hc Hn']; subst. inversion Hv as [|x y Hkc Hkv]; subst.
        split; [apply Fst, (kept_ascii alnum T c Hc), Hkc|].
        apply Forall_app in Hn' as [Hav _].
        apply Forall_app. split; [apply K; assumption|apply F].
    + apply split_valid_none in E. pose proof (K _ Ha E) as Hall. inversion Hall; subst.
      exists c, n. auto.
Qed.
Print Assumptions C22_sanitize_legal_partial.

(* Full claim (every name): false.  A letter outside ASCII in front of the first replaced
   character is kept. *)
Theorem C22_sanitize_legal_refuted : exists alnum n,
  unicode_table alnum /\ n <> [] /\ ~ legal (sanitize_name alnum n) /\
  (* although the same letter is replaced after a dot *)
  legal (sanitize_name alnum (97 :: 46 :: n)).
Proof.
  (* e with acute accent, U+00E9, is alphanumeric *)
  exists (fun c => c_ascii_alnum c || N.eqb c 233), [233].
  split.
  { intros c Hc. rewrite orb_true_iff, ascii_alnum_iff, N.eqb_eq. split; [intros [H|H]; [exact H|lia]|auto]. }
  split; [discriminate|]. split.
  - cbn. intros (c & r & E & H & _). injection E as <- _. unfold first_char, letter in H. lia.
  - cbn. exists 97, [95; 95]. repeat split; repeat constructor; unfold first_char, letter; lia.
Qed.
Print Assumptions C22_sanitize_legal_refuted.

(* Sanitising changes only characters that are not legal, one for one, and puts an underscore
   in front exactly when the name starts with a digit; so a legal name is unchanged. *)
Theorem C22_sanitize_minimal : forall alnum n,
  unicode_table alnum ->
  (exists d r t, n = d :: r /\ digit d /\ sanitize_name alnum n = 95 :: t /\ underscored n t) \/
  ((forall d r, n = d :: r -> ~ digit d) /\ underscored n (sanitize_name alnum n)).
Proof.
  intros alnum n T. destruct n as [|c n].
  - right. split; [discriminate|constructor].
  - unfold sanitize_name. destruct (c_digit c) eqn:Ed.
    + left. exists c, n, (map fix_char (c :: n)). repeat split; [| |apply fix_char_under]; apply c_digit_iff in Ed; apply Ed.
    + right. split.
      * intros d r [= <- _] H. apply c_digit_iff in H. congruence.
      * destruct (split_valid alnum (c :: n)) as [[v r]|] eqn:E; [|apply underscored_refl].
        apply split_valid_some in E as (-> & _ & _). apply underscored_app; [apply underscored_refl|apply fix_char_under].
Qed.
Print Assumptions C22_sanitize_minimal.

Theorem C22_legal_unchanged : forall alnum n,
  unicode_table alnum -> legal n -> sanitize_name alnum n = n.
Proof.
  intros alnum n T (c & r & -> & Hc & Hr). unfold sanitize_name.
  destruct (c_digit c) eqn:Ed.
  - exfalso. apply c_digit_iff in Ed. unfold first_char, letter, digit in *. lia.
  - destruct (split_valid alnum (c :: r)) as [[v w]|] eqn:E; [|reflexivity].
    assert (N0 : split_valid alnum (c :: r) = None).
    { apply split_valid_none. apply Forall_forall. intros x Hx. apply kept_name; [exact T|].
      destruct Hx as [<-|Hx]; [left; exact Hc|]. rewrite Forall_forall in Hr. apply Hr, Hx. }
    congruence.
Qed.
Print Assumptions C22_legal_unchanged.

(* Sanitising twice is the same as once, for every name. *)
Theorem C22_sanitize_idempotent : forall alnum n,
  unicode_table alnum ->
  sanitize_name alnum (sanitize_name alnum n) = sanitize_name alnum n.
Proof.
  intros alnum n T.
  assert (Fix : forall c l, c_digit c = false -> Forall (fun c => kept alnum c = true) (c :: l) ->
                sanitize_name alnum (c :: l) = c :: l).
  { intros c l Hd Hk. unfold sanitize_name. rewrite Hd. apply split_valid_none in Hk. rewrite Hk. reflexivity. }
  assert (F : forall l, Forall (fun c => kept alnum c = true) (map fix_char l)).
  { intros l. apply Forall_forall. intros y Hy. apply in_map_iff in Hy as (x & <- & _).
    apply kept_name; [exact T|apply fix_char_legal]. }
  destruct n as [|c n]; [reflexivity|].
  assert (E0 : sanitize_name alnum (c :: n) =
    if c_digit c then c_under :: map fix_char (c :: n)
    else match split_valid alnum (c :: n) with
         | Some (valid, rest) => (valid ++ map fix_char rest)%list
         | None => c :: n
         end) by reflexivity.
  destruct (c_digit c) eqn:Ed.
  - rewrite E0. apply Fix; [reflexivity|]. constructor; [|apply F].
    apply kept_name; [exact T|]. unfold name_char, first_char, c_under. auto.
  - destruct (split_valid alnum (c :: n)) as [[v r]|] eqn:E.
    + rewrite E0. apply split_valid_some in E as (Es & Hv & d & r' & -> & Hd).
      destruct v as [|c' v]; cbn in Es; injection Es as <- Es.
      * cbn. apply Fix; [|constructor; [|apply F]].
        -- unfold fix_char. destruct (_ || _ || _); [exact Ed|reflexivity].
        -- apply kept_name; [exact T|apply fix_char_legal].
      * cbn. apply Fix; [exact Ed|]. inversion Hv; subst. constructor; [assumption|].
        apply Forall_app. split; [assumption|apply (F (d :: r'))].
    + rewrite E0. exact E0.
Qed.
Print Assumptions C22_sanitize_idempotent.

Lemma chars_legal_suffix u : Forall name_char (chars u) ->
  forall n, legal n -> legal (n ++ c_under :: chars u)%list.
Proof.
  intros Hu n (c & r & -> & Hc & Hr). exists c, (r ++ c_under :: chars u)%list.
  repeat split; [exact Hc|]. apply Forall_app. split; [exact Hr|]. constructor; [|exact Hu].
  left. right. left. reflexivity.
Qed.

Lemma chars_app a b : chars (a ++ b)%string = (chars a ++ chars b)%list.
Proof. induction a as [|c a IH]; cbn; [reflexivity|]. rewrite IH. reflexivity. Qed.

Definition legal_word (s : string) : bool :=
  forallb (fun c => c_ascii_alnum c || N.eqb c c_under || N.eqb c c_colon) (chars s).

Lemma legal_word_ok s : legal_word s = true -> Forall name_char (chars s).
Proof.
  unfold legal_word. rewrite forallb_forall, Forall_forall. intros H x Hx. apply fix_ok_iff, H, Hx.
Qed.

Lemma unit_words u w : get_prom_units u = Some w -> legal_word w = true.
Proof.
  unfold get_prom_units. intros H. apply (lookup_in String.eqb string_eqb_spec) in H.
  assert (A : forallb (fun p => legal_word (snd p)) prom_units = true) by reflexivity.
  rewrite forallb_forall in A. exact (A _ H).
Qed.
Lemma per_words u w : get_prom_per_unit u = Some w -> legal_word w = true.
Proof.
  unfold get_prom_per_unit. intros H. apply (lookup_in String.eqb string_eqb_spec) in H.
  assert (A : forallb (fun p => legal_word (snd p)) prom_per_units = true) by reflexivity.
  rewrite forallb_forall in A. exact (A _ H).
Qed.

Lemma legal_word_app a b : legal_word (a ++ b)%string = legal_word a && legal_word b.
Proof. unfold legal_word. rewrite chars_app, forallb_app. reflexivity. Qed.

Lemma suffix_words unit s : get_unit_suffixes unit = Some s -> legal_word s = true.
Proof.
  unfold get_unit_suffixes. destruct unit as [|c u]; [discriminate|].
  destruct (get_prom_units (String c u)) as [m|] eqn:E1.
  - intros [= <-]. eapply unit_words, E1.
  - destruct (split_once "/" (String c u)) as [[f p]|]; [|discriminate].
    destruct (str_mem f non_applicable_on_per_unit); destruct (get_prom_units f) as [fw|] eqn:E2;
      destruct (get_prom_per_unit p) as [pw|] eqn:E3; intros H; try discriminate; injection H as <-;
      rewrite ?legal_word_app; try (apply (per_words _ _ E3)); try (rewrite (unit_words _ _ E2));
      cbn [legal_word andb]; apply per_words in E3; exact E3.
Qed.

(* The two escaping strategies give legal names for every ASCII metric name, unit and
   instrument. *)
Theorem C22_translated_name_legal_partial : forall alnum n unit instrument st,
  unicode_table alnum -> ascii_name n -> n <> [] ->
  st = EscapeNoSuffix \/ st = EscapeSuffix ->
  legal (get_name alnum n unit instrument st).
Proof.
  intros alnum n unit instrument st T Ha Hn Hst.
  pose proof (C22_sanitize_legal_partial alnum n T Ha Hn) as L.
  destruct Hst as [->| ->]; cbn; [exact L|].
  unfold with_suffixes, get_suffixes.
  assert (A : forall l n, Forall (fun s => legal_word s = true) l -> legal n ->
     legal (fold_left (fun acc suffix => (acc ++ c_under :: chars suffix)%list) l n)).
  { induction l as [|s l IH]; intros m Hl Hm; [exact Hm|]. inversion Hl; subst. cbn. apply IH; [assumption|].
    apply chars_legal_suffix; [apply legal_word_ok; assumption|exact Hm]. }
  apply A; [|exact L]. apply Forall_app. split.
  - destruct (get_unit_suffixes unit) as [u|] eqn:E; [|constructor]. constructor; [eapply suffix_words, E|constructor].
  - destruct (String.eqb instrument "counter"); repeat constructor.
Qed.
Print Assumptions C22_translated_name_legal_partial.

(* The name with suffixes is the name without, the unit word if the unit has one, and
   "total" for counters. *)
Theorem C22_suffixes : forall alnum n unit instrument,
  let unit_part := match get_unit_suffixes unit with Some u => chars ("_" ++ u) | None => [] end in
  let total_part := if String.eqb instrument "counter" then chars "_total" else [] in
  get_name alnum n unit instrument NoEscapeSuffix = (n ++ unit_part ++ total_part)%list /\
  get_name alnum n unit instrument EscapeSuffix =
    (get_name alnum n unit instrument EscapeNoSuffix ++ unit_part ++ total_part)%list.
Proof.
  intros alnum n unit instrument. cbn [get_name]. unfold with_suffixes, get_suffixes.
  destruct (get_unit_suffixes unit) as [u|]; destruct (String.eqb instrument "counter"); cbn [app fold_left];
    rewrite <- ?app_assoc, ?app_nil_r; split; reflexivity.
Qed.
Print Assumptions C22_suffixes.

(* "a required suffix is present exactly once": false, a metric already named with the suffix
   gets it a second time. *)
Theorem C22_suffix_once_refuted : forall alnum, unicode_table alnum ->
  get_name alnum (chars "requests_total") "" "counter" EscapeSuffix = chars "requests_total_total" /\
  get_name alnum (chars "wait_seconds") "s" "histogram" EscapeSuffix = chars "wait_seconds_seconds".
Proof.
  intros alnum T. unfold get_name.
  rewrite !C22_legal_unchanged; [split; reflexivity|exact T| |exact T|].
  - exists (N_of_ascii "w"), (chars "ait_seconds"). repeat split; [left; unfold letter; cbn; lia|].
    apply legal_word_ok. reflexivity.
  - exists (N_of_ascii "r"), (chars "equests_total"). repeat split; [left; unfold letter; cbn; lia|].
    apply legal_word_ok. reflexivity.
Qed.
Print Assumptions C22_suffix_once_refuted.

(* "never yields runs of underscores": false. *)
Theorem C22_underscore_runs_refuted : forall alnum, unicode_table alnum ->
  sanitize_name alnum (chars "a..b") = chars "a__b".
Proof.
  intros alnum T. cbn. unfold kept.
  assert (Ha : alnum 97 = true) by (apply T; [lia|left; unfold letter; lia]).
  assert (Hd : alnum 46 = false).
  { destruct (alnum 46) eqn:E; [|reflexivity]. apply T in E; [|lia]. unfold letter, digit in E. lia. }
  rewrite Ha, Hd. reflexivity.
Qed.
Print Assumptions C22_underscore_runs_refuted.

Lemma dedup_in {A} (eqb : A -> A -> bool) (Heq : forall a b, eqb a b = true <-> a = b) l x :
  In x (dedup_by eqb l) <-> In x l.
Proof.
  induction l as [|y l IH]; cbn; [tauto|]. rewrite filter_In, IH.
  destruct (eqb y x) eqn:E.
  - apply Heq in E. subst. split; [intros [H|[H _]]; auto|]. auto.
  - split; [intros [H|[H _]]; auto|]. intros [->|H]; [auto|]. right. auto.
Qed.

Lemma dedup_nodup {A} (eqb : A -> A -> bool) (Heq : forall a b, eqb a b = true <-> a = b) l :
  NoDup (dedup_by eqb l).
Proof.
  induction l as [|y l IH]; cbn; constructor.
  - rewrite filter_In. intros [_ H]. assert (K : eqb y y = true) by (apply Heq; reflexivity). rewrite K in H. discriminate.
  - apply NoDup_filter, IH.
Qed.

Lemma name_eqb_spec a b : name_eqb a b = true <-> a = b.
Proof. unfold name_eqb. destruct (list_eq_dec N.eq_dec a b); split; congruence. Qed.

(* Without a strategy, the names listed for a metric are exactly the names the four strategies
   produce, each once. *)
Theorem C22_all_names : forall alnum n unit instrument m,
  (In m (get_names alnum n unit instrument None false) <->
   exists st, m = get_name alnum n unit instrument st) /\
  NoDup (get_names alnum n unit instrument None false).
Proof.
  intros alnum n unit instrument m.
  assert (E : get_names alnum n unit instrument None false =
    dedup_by name_eqb [n; sanitize_name alnum n; with_suffixes n unit instrument;
                       with_suffixes (sanitize_name alnum n) unit instrument]).
  { unfold get_names. induction (dedup_by _ _) as [|x l IH]; [reflexivity|]. cbn. rewrite IH. reflexivity. }
  rewrite E. split; [|apply (dedup_nodup _ name_eqb_spec)]. rewrite (dedup_in _ name_eqb_spec). cbn [In]. split.
  - intros [<-|[<-|[<-|[<-|[]]]]]; [exists NoTranslation|exists EscapeNoSuffix|exists NoEscapeSuffix|exists EscapeSuffix]; reflexivity.
  - intros ([] & ->); cbn; auto.
Qed.
Print Assumptions C22_all_names.

(* With a strategy, the list starts with the single name of that strategy; for histograms and
   summaries the series names are that name with their suffixes. *)
Theorem C22_series_names : forall alnum n unit instrument st m,
  In m (get_names alnum n unit instrument (Some st) true) <->
  m = get_name alnum n unit instrument st \/
  exists s, m = (get_name alnum n unit instrument st ++ chars s)%list /\
    (instrument = "histogram"%string /\ In s ["_bucket"; "_count"; "_sum"]%string \/
     instrument = "summary"%string /\ In s ["_count"; "_sum"]%string).
Proof.
  intros alnum n unit instrument st m.
  assert (E : get_names alnum n unit instrument (Some st) true =
              expand_name instrument true (get_name alnum n unit instrument st)).
  { unfold get_names. destruct st; cbn [dedup_by filter flat_map get_name]; apply app_nil_r. }
  rewrite E. set (x := get_name alnum n unit instrument st). unfold expand_name.
  destruct (String.eqb_spec instrument "histogram") as [->|Hh].
  - cbn [In]. split.
    + intros [<-|[<-|[<-|[<-|[]]]]]; [left; reflexivity|right|right|right].
      * exists "_bucket"%string. auto.
      * exists "_count"%string. auto 6.
      * exists "_sum"%string. auto 7.
    + intros [->|(s & -> & [[_ H]|[H _]])]; [auto| |discriminate].
      destruct H as [<-|[<-|[<-|[]]]]; auto.
  - destruct (String.eqb_spec instrument "summary") as [->|Hs].
    + cbn [In]. split.
      * intros [<-|[<-|[<-|[]]]]; [left; reflexivity|right|right].
        -- exists "_count"%string. auto.
        -- exists "_sum"%string. auto 6.
      * intros [->|(s & -> & [[H _]|[_ H]])]; [auto|discriminate|].
        destruct H as [<-|[<-|[]]]; auto.
    + cbn [In]. split; [intros [<-|[]]; auto|].
      intros [->|(s & _ & [[H _]|[H _]])]; [auto|congruence|congruence].
Qed.
Print Assumptions C22_series_names.

(* Unit translation.  A known unit gives its word; "f/p" with a known divisor p gives
   "F_per_P", without F when f is unknown, dimensionless or a time unit; anything else gives
   no suffix. *)
Lemma split_once_app f p : ~ In "/"%char (list_ascii_of_string f) ->
  split_once "/" (f ++ "/" ++ p)%string = Some (f, p).
Proof.
  induction f as [|c f IH]; intros H; [reflexivity|]. cbn [append split_once].
  destruct (Ascii.eqb_spec c "/"%char) as [->|Hne]; [exfalso; apply H; left; reflexivity|].
  cbn [append] in IH. rewrite IH; [reflexivity|]. intros K. apply H. right. exact K.
Qed.

Lemma unit_no_slash u w : get_prom_units u = Some w -> ~ In "/"%char (list_ascii_of_string u).
Proof.
  unfold get_prom_units. intros H. apply (lookup_in String.eqb string_eqb_spec) in H.
  assert (A : forallb (fun p : string * string => negb (existsb (Ascii.eqb "/") (list_ascii_of_string (fst p)))) prom_units = true) by reflexivity.
  rewrite forallb_forall in A. specialize (A _ H). cbn [fst] in A. apply negb_true_iff in A. intros K.
  assert (T : existsb (Ascii.eqb "/") (list_ascii_of_string u) = true).
  { apply existsb_exists. exists "/"%char. split; [exact K|reflexivity]. }
  congruence.
Qed.

Lemma slash_in f p : In "/"%char (list_ascii_of_string (f ++ "/" ++ p)).
Proof. induction f as [|c f IH]; cbn; [left; reflexivity|right; exact IH]. Qed.

Theorem C22_unit_word : forall unit w, lookup String.eqb unit known_units = Some w ->
  get_unit_suffixes unit = Some w.
Proof.
  change known_units with prom_units. intros unit w H. unfold get_unit_suffixes. destruct unit; [discriminate H|].
  unfold get_prom_units, slookup. rewrite H. reflexivity.
Qed.
Print Assumptions C22_unit_word.

Theorem C22_unit_per : forall f p,
  ~ In "/"%char (list_ascii_of_string f) ->
  get_unit_suffixes (f ++ "/" ++ p) =
    match lookup String.eqb p known_per_units with
    | None => None
    | Some pw =>
      Some (if in_dec string_dec f ["1"; "d"; "h"; "min"; "s"; "ms"; "us"; "ns"]%string then "per_" ++ pw
            else match lookup String.eqb f known_units with
                 | Some fw => fw ++ "_per_" ++ pw
                 | None => "per_" ++ pw
                 end)%string
    end.
Proof.
  change known_units with prom_units. change known_per_units with prom_per_units. intros f p H.
  assert (N0 : get_prom_units (f ++ "/" ++ p) = None).
  { destruct (get_prom_units (f ++ "/" ++ p)) eqn:E; [|reflexivity]. destruct (unit_no_slash _ _ E (slash_in f p)). }
  assert (E : get_unit_suffixes (f ++ "/" ++ p) =
     match get_prom_units (f ++ "/" ++ p) with
     | Some m => Some m
     | None =>
      match split_once "/"%char (f ++ "/" ++ p) with
      | Some (first, second) =>
        match str_mem first non_applicable_on_per_unit, get_prom_units first, get_prom_per_unit second with
        | true, _, Some p | false, None, Some p => Some ("per_" ++ p)
        | false, Some f, Some p => Some (f ++ "_per_" ++ p)
        | _, _, _ => None
        end
      | None => None
      end
     end%string) by (destruct f; reflexivity).
  rewrite E, N0, split_once_app by exact H.
  unfold get_prom_per_unit, get_prom_units, slookup.
  destruct (in_dec string_dec f _) as [Hin|Hin].
  - assert (M : str_mem f non_applicable_on_per_unit = true) by (apply str_mem_spec; exact Hin).
    rewrite M. destruct (lookup String.eqb f prom_units); destruct (lookup String.eqb p prom_per_units); reflexivity.
  - assert (M : str_mem f non_applicable_on_per_unit = false) by (apply str_mem_false; exact Hin).
    rewrite M. destruct (lookup String.eqb f prom_units); destruct (lookup String.eqb p prom_per_units); reflexivity.
Qed.
Print Assumptions C22_unit_per.

Theorem C22_unit_other : forall unit,
  lookup String.eqb unit known_units = None -> ~ In "/"%char (list_ascii_of_string unit) ->
  get_unit_suffixes unit = None.
Proof.
  change known_units with prom_units. intros unit H Hs. unfold get_unit_suffixes. destruct unit as [|c u]; [reflexivity|].
  unfold get_prom_units, slookup. rewrite H.
  assert (E : split_once "/" (String c u) = None).
  { revert Hs. generalize (String c u). clear. induction s as [|d s IH]; intros Hs; [reflexivity|]. cbn.
    destruct (Ascii.eqb_spec d "/"%char) as [->|]; [exfalso; apply Hs; left; reflexivity|].
    rewrite IH; [reflexivity|]. intros K. apply Hs. right. exact K. }
  rewrite E. reflexivity.
Qed.
Print Assumptions C22_unit_other.

Example C22_ex : legal (chars "http_server_duration_seconds") /\
  get_unit_suffixes "m/s" = Some "meters_per_second"%string /\
  get_unit_suffixes "1/y" = Some "per_year"%string /\
  (forall alnum, unicode_table alnum ->
    get_name alnum (chars "1http.server") "By/s" "counter" EscapeSuffix = chars "_1http_server_bytes_per_second_total").
Proof.
  split; [|split; [reflexivity|split; reflexivity]].
  exists (N_of_ascii "h"), (chars "ttp_server_duration_seconds"). repeat split; [left; unfold letter; cbn; lia|].
  apply legal_word_ok. reflexivity.
Qed.
