(* C20: schema URLs. *)
From Coq Require Import String Ascii Bool Arith Lia List.
Import ListNotations.
From Verif Require Import Base BaseProofs SemTypes Str StrProofs UrlModel UrlSpec.
Local Open Scope string_scope.

Lemma no_slash_all s : all_chars (fun d => negb (Ascii.eqb d "/"%char)) s = true -> no_slash s.
Proof.
  intros H a b ->. rewrite all_chars_app in H. apply andb_true_iff in H. destruct H as [_ H].
  discriminate H.
Qed.

Lemma last_seg s : forall i, rfind_char "/"%char s = Some i ->
  forall t, s = trim_end is_slash t -> i + 1 < String.length s.
Proof.
  intros i H t ->. destruct (rfind_char_spec _ _ _ H) as (a & b & E & Hl & _).
  destruct (trim_end_spec is_slash t) as (r & _ & _ & Hn).
  destruct b as [|c b].
  - rewrite E in Hn. specialize (Hn a "/"%char eq_refl). discriminate Hn.
  - rewrite E, str_length_app. cbn. lia.
Qed.

(* Whatever URL parser is used, an accepted text is, trailing slashes aside, some
   scheme part, the name, a slash, the version and a rest; the version is not empty
   and has no slash in it, and reading name and version never panics. *)
Theorem C20_decomposition :
  forall url_parse s u, schema_url_new url_parse s = Ok u ->
    exists name version pre post,
      su_get_name u = Some name /\ su_get_version u = Some version /\
      su_url u = pre ++ name ++ "/" ++ version ++ post /\
      version <> "" /\ no_slash version /\
      exists slashes, s = su_url u ++ slashes /\ all_chars is_slash slashes = true.
Proof.
  intros url_parse s u H. unfold schema_url_new in H. cbv zeta in H.
  destruct (trim_end_spec is_slash s) as (sl & Hs & Hsl & _).
  set (url := trim_end is_slash s) in *.
  destruct (url_parse url) as [p|]; [|discriminate].
  destruct (negb _); [discriminate|].
  destruct (slice_from (String.length (pu_scheme p)) url) as [as_|] eqn:E1; [|discriminate].
  destruct (find_char host_char as_) as [ho|] eqn:E2; [|discriminate].
  set (se := String.length (pu_scheme p) + ho) in *.
  destruct (slice_from se url) as [rest|] eqn:E3; [|discriminate].
  destruct (find_str (pu_path p) rest) as [i|] eqn:E4; [|discriminate].
  destruct (rfind_char "/"%char (trim_end is_slash (pu_path p))) as [ls|] eqn:E5; [|discriminate].
  injection H as <-. unfold su_get_name, su_get_version. cbn [su_name su_version su_url fst snd].
  destruct (slice_from_spec _ _ _ E3) as (pre & Hpre & Lpre).
  destruct (find_str_spec _ _ _ E4) as (mid & tail & Hrest & Lmid).
  destruct (trim_end_spec is_slash (pu_path p)) as (psl & Hp & _ & _).
  destruct (rfind_char_spec _ _ _ E5) as (dirs & ver & Htp & Ldirs & Hver).
  pose proof (last_seg _ _ E5 _ eq_refl) as Hlen.
  rewrite Htp, str_length_app in Hlen. cbn in Hlen.
  assert (Hurl : url = pre ++ (mid ++ dirs) ++ "/" ++ ver ++ psl ++ tail).
  { rewrite Hpre, Hrest, Hp, Htp, !str_app_assoc. reflexivity. }
  exists (mid ++ dirs), ver, pre, (psl ++ tail).
  split; [|split; [|split; [|split; [|split]]]].
  - rewrite Hurl at 1. rewrite <- Lpre at 1.
    replace (i + se + ls) with (String.length pre + String.length (mid ++ dirs))
      by (rewrite str_length_app; lia).
    apply slice_app.
  - replace (i + se + ls + 1) with (String.length (pre ++ (mid ++ dirs) ++ "/"))
      by (rewrite !str_length_app; cbn; lia).
    replace (i + se + String.length (trim_end is_slash (pu_path p)))
      with (String.length (pre ++ (mid ++ dirs) ++ "/") + String.length ver)
      by (rewrite Htp, !str_length_app; cbn; lia).
    rewrite Hurl.
    replace (pre ++ (mid ++ dirs) ++ "/" ++ ver ++ psl ++ tail)
      with ((pre ++ (mid ++ dirs) ++ "/") ++ ver ++ (psl ++ tail))
      by (rewrite !str_app_assoc; reflexivity).
    apply slice_app.
  - exact Hurl.
  - intros ->. cbn in Hlen. lia.
  - apply no_slash_all, Hver.
  - exists sl. split; [exact Hs | exact Hsl].
Qed.

(* Two accepted texts are the same schema URL exactly when they differ by trailing
   slashes only, and then they have the same name and version. *)
Theorem C20_identity :
  forall url_parse s1 s2 u1 u2,
    schema_url_new url_parse s1 = Ok u1 -> schema_url_new url_parse s2 = Ok u2 ->
    (su_eqb u1 u2 = true <-> trim_end is_slash s1 = trim_end is_slash s2) /\
    (su_eqb u1 u2 = true -> u1 = u2) /\
    (su_cmp u1 u2 = Eq <-> su_eqb u1 u2 = true).
Proof.
  intros url_parse s1 s2 u1 u2 H1 H2.
  assert (G : forall s u, schema_url_new url_parse s = Ok u -> su_url u = trim_end is_slash s).
  { intros s u H. unfold schema_url_new in H. cbv zeta in H.
    repeat match type of H with
           | context [match ?x with _ => _ end] => destruct x; try discriminate
           end.
    injection H as <-. reflexivity. }
  unfold su_eqb. rewrite (G _ _ H1), (G _ _ H2), String.eqb_eq.
  split; [reflexivity|]. split.
  - intros E. unfold schema_url_new in H1, H2. cbv zeta in H1, H2. rewrite E in H1.
    rewrite H1 in H2. congruence.
  - unfold su_cmp. rewrite (G _ _ H1), (G _ _ H2). rewrite str_cmp_eq, ?String.eqb_eq. reflexivity.
Qed.

Lemma path_of_app a b : path_of (a ++ b) = path_of a ++ path_of b.
Proof. induction a as [|x a IH]; cbn; [reflexivity|]. rewrite IH, str_app_assoc. reflexivity. Qed.

Lemma path_char_not_slash c : path_char c = true -> Ascii.eqb c "/"%char = false.
Proof. intros H. destruct (Ascii.eqb_spec c "/"%char) as [->|]; [discriminate H|reflexivity]. Qed.

Lemma seg_last s : plain_segment s -> exists a c, s = a ++ String c "" /\ is_slash c = false.
Proof.
  intros (Hne & _ & _ & Hc). destruct (str_last s) as [->|(a & c & ->)]; [congruence|].
  exists a, c. split; [reflexivity|]. rewrite all_chars_app in Hc. apply andb_true_iff in Hc.
  destruct Hc as [_ Hc]. cbn in Hc. rewrite andb_true_r in Hc.
  unfold is_slash. apply path_char_not_slash, Hc.
Qed.

Lemma trim_end_seg pre s : plain_segment s -> trim_end is_slash (pre ++ s) = pre ++ s.
Proof.
  intros H. destruct (seg_last s H) as (a & c & -> & Hc).
  rewrite <- str_app_assoc. apply trim_end_id, Hc.
Qed.

Lemma host_char_first c : is_digit c || is_lower c = true -> host_char c = true.
Proof. intros H. unfold host_char, is_ascii_alnum. rewrite H. reflexivity. Qed.

Lemma digit_lower_not_slash c : is_digit c || is_lower c = true -> Ascii.eqb c "/"%char = false.
Proof. intros H. destruct (Ascii.eqb_spec c "/"%char) as [->|]; [discriminate H|reflexivity]. Qed.

Lemma split_no_slash s r :
  any_char is_slash s = false -> split_char "/"%char (s ++ "/" ++ r) = s :: split_char "/"%char r.
Proof.
  induction s as [|c s IH]; intros H; [reflexivity|].
  cbn in H. apply orb_false_iff in H. destruct H as [Hc Hs].
  cbn [append split_char]. unfold is_slash in Hc. rewrite Hc.
  change (s ++ String "/" r) with (s ++ "/" ++ r). rewrite IH by assumption. reflexivity.
Qed.

(* the core: a plain URL is accepted and read as written *)
Lemma plain_url_read url_parse scheme host dirs v :
  reads_plain_urls url_parse -> scheme = "http" \/ scheme = "https" -> plain_host host ->
  Forall plain_segment dirs -> plain_segment v ->
  exists u, schema_url_new url_parse (scheme ++ "://" ++ host ++ path_of dirs ++ "/" ++ v) = Ok u /\
    su_get_name u = Some (host ++ path_of dirs) /\ su_get_version u = Some v /\
    su_url u = scheme ++ "://" ++ host ++ path_of dirs ++ "/" ++ v.
Proof.
  intros HP Hsch Hh Hd Hv.
  set (url := scheme ++ "://" ++ host ++ path_of dirs ++ "/" ++ v).
  assert (Hpath : path_of (dirs ++ [v]) = path_of dirs ++ "/" ++ v)
    by (rewrite path_of_app; cbn; rewrite str_app_nil_r; reflexivity).
  assert (Hsegs : Forall plain_segment (dirs ++ [v]))
    by (apply Forall_app; split; [assumption|constructor; [assumption|constructor]]).
  assert (Hparse : url_parse url = Some (mk_parsed scheme (path_of dirs ++ "/" ++ v) false)).
  { unfold url. rewrite <- Hpath. apply HP; auto. destruct dirs; discriminate. }
  assert (Htrim : trim_end is_slash url = url).
  { unfold url. replace (scheme ++ "://" ++ host ++ path_of dirs ++ "/" ++ v)
      with ((scheme ++ "://" ++ host ++ path_of dirs ++ "/") ++ v)
      by (rewrite !str_app_assoc; reflexivity).
    apply trim_end_seg, Hv. }
  unfold schema_url_new. cbv zeta. rewrite Htrim, Hparse. cbn [pu_scheme pu_path].
  (* has a path *)
  assert (Hhas : match path_segments (mk_parsed scheme (path_of dirs ++ "/" ++ v) false) with
                 | Some segs => Nat.ltb 0 (count_if (fun s => negb (String.eqb s "")) segs)
                 | None => false
                 end = true).
  { unfold path_segments. cbn [pu_opaque pu_path]. rewrite <- Hpath.
    assert (K : exists s segs, path_of (dirs ++ [v]) = "/" ++ s ++ path_of segs /\ plain_segment s).
    { destruct dirs as [|d dirs]; cbn [app path_of].
      - exists v, []. split; [reflexivity|assumption].
      - exists d, (dirs ++ [v])%list. split; [reflexivity|]. inversion Hd; assumption. }
    destruct K as (s & segs & -> & Hs). cbn [append].
    apply Nat.ltb_lt, count_if_pos. exists s. split.
    - destruct segs as [|x segs].
      + cbn [path_of]. rewrite str_app_nil_r.
        assert (E : split_char "/"%char s = [s]).
        { destruct Hs as (_ & _ & _ & Hc). clear - Hc. induction s as [|c s IH]; [reflexivity|].
          cbn in Hc. apply andb_true_iff in Hc. destruct Hc as [Hc Hs].
          cbn. rewrite (path_char_not_slash _ Hc), (IH Hs). reflexivity. }
        rewrite E. left. reflexivity.
      + cbn [path_of]. rewrite split_no_slash; [left; reflexivity|].
        destruct Hs as (_ & _ & _ & Hc). rewrite any_all. apply negb_false_iff.
        eapply all_chars_imp; [|exact Hc]. intros c H. unfold is_slash.
        rewrite (path_char_not_slash _ H). reflexivity.
    - destruct Hs as (Hne & _). destruct (String.eqb_spec s ""); [congruence|reflexivity]. }
  rewrite Hhas. cbn [negb].
  unfold url at 1. rewrite slice_from_app.
  destruct Hh as (hc & hr & -> & Hhc & Hhr).
  change ("://" ++ String hc hr ++ path_of dirs ++ "/" ++ v)
    with ("://" ++ String hc (hr ++ path_of dirs ++ "/" ++ v)).
  rewrite (find_char_app host_char "://" hc) by (try reflexivity; apply host_char_first, Hhc).
  set (se := String.length scheme + String.length "://").
  assert (Hse : se = String.length (scheme ++ "://")) by (unfold se; rewrite str_length_app; reflexivity).
  assert (Hu1 : url = (scheme ++ "://") ++ String hc hr ++ (path_of dirs ++ "/" ++ v))
    by (unfold url; rewrite !str_app_assoc; reflexivity).
  assert (Hsl : slice_from se url = Some (String hc hr ++ (path_of dirs ++ "/" ++ v)))
    by (rewrite Hse, Hu1; apply slice_from_app).
  rewrite Hsl, Hse. clear Hsl.
  assert (Hpn : exists pr, path_of dirs ++ "/" ++ v = String "/"%char pr).
  { destruct dirs as [|d dirs]; cbn; eexists; reflexivity. }
  destruct Hpn as (pr & Hpr).
  assert (Hf : find_str (path_of dirs ++ "/" ++ v) (String hc hr ++ path_of dirs ++ "/" ++ v)
               = Some (String.length (String hc hr))).
  { rewrite Hpr. pose proof (find_str_first "/"%char pr (String hc hr) "") as F.
    rewrite str_app_nil_r in F. apply F. cbn [all_chars].
    rewrite (digit_lower_not_slash _ Hhc). cbn [negb andb].
    eapply all_chars_imp; [|exact Hhr]. intros c Hc.
    destruct (Ascii.eqb_spec c "/"%char) as [->|]; [discriminate Hc|reflexivity]. }
  rewrite Hf.
  assert (Ht : trim_end is_slash (path_of dirs ++ "/" ++ v) = path_of dirs ++ String "/"%char v).
  { replace (path_of dirs ++ "/" ++ v) with ((path_of dirs ++ "/") ++ v)
      by (rewrite str_app_assoc; reflexivity).
    rewrite trim_end_seg by assumption. rewrite str_app_assoc. reflexivity. }
  rewrite Ht.
  assert (Hr : rfind_char "/"%char (path_of dirs ++ String "/"%char v) = Some (String.length (path_of dirs))).
  { apply rfind_char_app. destruct Hv as (_ & _ & _ & Hc). eapply all_chars_imp; [|exact Hc].
    intros c H. rewrite (path_char_not_slash _ H). reflexivity. }
  rewrite Hr. eexists. split; [reflexivity|].
  unfold su_get_name, su_get_version. cbn [su_name su_version su_url fst snd].
  split; [|split; [|reflexivity]].
  - replace (String.length (String hc hr) + String.length (scheme ++ "://") + String.length (path_of dirs))
      with (String.length (scheme ++ "://") + String.length (String hc hr ++ path_of dirs))
      by (rewrite !str_length_app; lia).
    replace url with ((scheme ++ "://") ++ (String hc hr ++ path_of dirs) ++ ("/" ++ v))
      by (rewrite Hu1, !str_app_assoc; reflexivity).
    apply slice_app.
  - replace (String.length (String hc hr) + String.length (scheme ++ "://") + String.length (path_of dirs) + 1)
      with (String.length ((scheme ++ "://") ++ String hc hr ++ path_of dirs ++ "/"))
      by (rewrite !str_length_app; cbn; lia).
    replace (String.length (String hc hr) + String.length (scheme ++ "://") +
             String.length (path_of dirs ++ String "/"%char v))
      with (String.length ((scheme ++ "://") ++ String hc hr ++ path_of dirs ++ "/") + String.length v)
      by (rewrite !str_length_app; cbn; lia).
    replace url with (((scheme ++ "://") ++ String hc hr ++ path_of dirs ++ "/") ++ v ++ "")
      by (rewrite Hu1, str_app_nil_r, !str_app_assoc; reflexivity).
    apply slice_app.
Qed.

Lemma path_no_colon l : Forall plain_segment l ->
  all_chars (fun d => negb (Ascii.eqb d ":"%char)) (path_of l) = true.
Proof.
  induction 1 as [|s l Hs Hl IH]; [reflexivity|]. cbn [path_of].
  rewrite !all_chars_app. apply andb_true_iff. split; [reflexivity|].
  apply andb_true_iff. split; [|exact IH].
  destruct Hs as (_ & _ & _ & Hc). eapply all_chars_imp; [|exact Hc]. intros d Hd'.
  destruct (Ascii.eqb_spec d ":"%char) as [->|]; [discriminate Hd'|reflexivity].
Qed.

(* Building a schema URL from a plain name and version gives that name and version
   back; the URL is the https one. *)
Theorem C20_build_then_read_partial :
  forall url_parse host dirs v,
    reads_plain_urls url_parse -> plain_host host -> Forall plain_segment dirs -> plain_segment v ->
    exists u, try_from_name_version url_parse (host ++ path_of dirs) v = Ok u /\
      su_get_name u = Some (host ++ path_of dirs) /\ su_get_version u = Some v /\
      su_url u = "https://" ++ host ++ path_of dirs ++ "/" ++ v.
Proof.
  intros url_parse host dirs v HP Hh Hd Hv.
  destruct (plain_url_read url_parse "https" host dirs v HP (or_intror eq_refl) Hh Hd Hv)
    as (u & Hu & Hn & Hve & Hurl).
  exists u. split; [|auto].
  unfold try_from_name_version.
  assert (Hb1 : blank_str (host ++ path_of dirs) = false).
  { destruct Hh as (c & r & -> & Hc & _). cbn. apply andb_false_iff. left.
    destruct c as [[] [] [] [] [] [] [] []]; try reflexivity; discriminate Hc. }
  assert (Hb2 : blank_str v = false).
  { destruct Hv as (Hne & _ & _ & Hc). destruct v as [|c v]; [congruence|]. cbn.
    apply andb_false_iff. left. cbn in Hc. apply andb_true_iff in Hc. destruct Hc as [Hc _].
    destruct c as [[] [] [] [] [] [] [] []]; try reflexivity; discriminate Hc. }
  rewrite Hb1, Hb2. cbn [orb].
  assert (Hns : forall pre, pre = "http://" \/ pre = "https://" -> starts_with pre (host ++ path_of dirs) = false).
  { intros pre Hpre. destruct (starts_with pre (host ++ path_of dirs)) eqn:E; [|reflexivity].
    exfalso. apply starts_with_spec in E. destruct E as (t & E).
    assert (Hcolon : all_chars (fun d => negb (Ascii.eqb d ":"%char)) (host ++ path_of dirs) = true).
    { rewrite all_chars_app. apply andb_true_iff. split.
      - destruct Hh as (c & r & -> & Hc & Hr). cbn. apply andb_true_iff. split.
        + destruct (Ascii.eqb_spec c ":"%char) as [->|]; [discriminate Hc|reflexivity].
        + eapply all_chars_imp; [|exact Hr]. intros d Hd'.
          destruct (Ascii.eqb_spec d ":"%char) as [->|]; [discriminate Hd'|reflexivity].
      - apply path_no_colon, Hd. }
    rewrite E in Hcolon. destruct Hpre as [-> | ->]; discriminate Hcolon. }
  rewrite (Hns "http://"), (Hns "https://") by auto. cbn [orb].
  assert (Ht : trim_end is_slash (host ++ path_of dirs) = host ++ path_of dirs).
  { destruct (rev dirs) as [|d ds] eqn:Er.
    - assert (dirs = []) by (rewrite <- (rev_involutive dirs), Er; reflexivity). subst dirs.
      cbn [path_of]. rewrite str_app_nil_r.
      destruct Hh as (c & r & -> & Hc & Hr).
      destruct (str_last r) as [->|(a & e & ->)].
      + apply (trim_end_id is_slash "" c). apply digit_lower_not_slash, Hc.
      + change (String c (a ++ String e "")) with (String c a ++ String e "").
        apply trim_end_id. rewrite all_chars_app in Hr. apply andb_true_iff in Hr.
        destruct Hr as [_ Hr]. cbn in Hr. rewrite andb_true_r in Hr.
        unfold is_slash. destruct (Ascii.eqb_spec e "/"%char) as [->|]; [discriminate Hr|reflexivity].
    - assert (dirs = rev ds ++ [d])%list by (rewrite <- (rev_involutive dirs), Er; reflexivity).
      subst dirs. rewrite path_of_app. cbn [path_of]. rewrite str_app_nil_r.
      replace (host ++ path_of (rev ds) ++ "/" ++ d) with ((host ++ path_of (rev ds) ++ "/") ++ d)
        by (rewrite !str_app_assoc; reflexivity).
      apply trim_end_seg. apply Forall_app in Hd. destruct Hd as [_ Hd]. inversion Hd; assumption. }
  rewrite Ht.
  replace ("https://" ++ (host ++ path_of dirs) ++ "/" ++ v)
    with ("https" ++ "://" ++ host ++ path_of dirs ++ "/" ++ v)
    by (rewrite !str_app_assoc; reflexivity).
  exact Hu.
Qed.

(* A plain https URL is recovered from its name and version. *)
Theorem C20_read_then_build_partial :
  forall url_parse host dirs v,
    reads_plain_urls url_parse -> plain_host host -> Forall plain_segment dirs -> plain_segment v ->
    exists u name version,
      schema_url_new url_parse ("https://" ++ host ++ path_of dirs ++ "/" ++ v) = Ok u /\
      su_get_name u = Some name /\ su_get_version u = Some version /\
      try_from_name_version url_parse name version = Ok u.
Proof.
  intros url_parse host dirs v HP Hh Hd Hv.
  destruct (plain_url_read url_parse "https" host dirs v HP (or_intror eq_refl) Hh Hd Hv)
    as (u & Hu & Hn & Hve & Hurl).
  destruct (C20_build_then_read_partial url_parse host dirs v HP Hh Hd Hv)
    as (u' & Hu' & _ & _ & Hurl').
  exists u, (host ++ path_of dirs), v.
  change ("https://" ++ host ++ path_of dirs ++ "/" ++ v)
    with ("https" ++ "://" ++ host ++ path_of dirs ++ "/" ++ v).
  split; [exact Hu|]. split; [exact Hn|]. split; [exact Hve|].
  unfold try_from_name_version in *.
  destruct (blank_str (host ++ path_of dirs) || blank_str v); [discriminate|].
  assert (E : su_eqb u u' = true).
  { unfold su_eqb. rewrite Hurl, Hurl'. apply String.eqb_refl. }
  destruct (starts_with "http://" (host ++ path_of dirs) || starts_with "https://" (host ++ path_of dirs));
    rewrite Hu'; f_equal; symmetry; eapply (C20_identity _ _ _ _ _ Hu Hu'); exact E.
Qed.

(* The assumption on the URL parser can be met. *)
Theorem C20_parser_exists : reads_plain_urls simple_parser.
Proof.
  intros scheme host segs Hs Hh Hne Hf.
  assert (G : from_slash (host ++ path_of segs) = path_of segs).
  { destruct Hh as (c & r & -> & Hc & Hr).
    assert (K : forall h, all_chars (fun d => negb (is_slash d)) h = true ->
               from_slash (h ++ path_of segs) = path_of segs).
    { induction h as [|d h IH]; intros Hh; cbn.
      - destruct segs; [congruence|]. reflexivity.
      - cbn in Hh. apply andb_true_iff in Hh. destruct Hh as [Hd Hh].
        apply negb_true_iff in Hd. rewrite Hd. auto. }
    apply K. cbn. unfold is_slash at 1. rewrite (digit_lower_not_slash _ Hc). cbn.
    eapply all_chars_imp; [|exact Hr]. intros d Hd. unfold is_slash.
    destruct (Ascii.eqb_spec d "/"%char) as [->|]; [discriminate Hd|reflexivity]. }
  unfold simple_parser. destruct Hs as [-> | ->].
  - change ("http" ++ "://" ++ host ++ path_of segs) with ("http://" ++ host ++ path_of segs).
    cbn -[from_slash path_of append]. rewrite <- G at 2. reflexivity.
  - change ("https" ++ "://" ++ host ++ path_of segs) with ("https://" ++ host ++ path_of segs).
    cbn -[from_slash path_of append]. rewrite <- G at 2. reflexivity.
Qed.

(* Where the full property fails, for every parser that reads plain URLs: the http
   scheme is lost, and a name given with its scheme comes back without it. *)
Theorem C20_http_scheme_refuted :
  forall url_parse, reads_plain_urls url_parse ->
    exists u name version u',
      schema_url_new url_parse "http://example.com/acme/1.0.0" = Ok u /\
      su_get_name u = Some name /\ su_get_version u = Some version /\
      try_from_name_version url_parse name version = Ok u' /\
      su_eqb u u' = false.
Proof.
  intros url_parse HP.
  assert (Hh : plain_host "example.com").
  { exists "e"%char, "xample.com". repeat split. }
  assert (Hd : Forall plain_segment ["acme"]).
  { constructor; [|constructor]. repeat split; discriminate. }
  assert (Hv : plain_segment "1.0.0") by (repeat split; discriminate).
  destruct (plain_url_read url_parse "http" _ _ _ HP (or_introl eq_refl) Hh Hd Hv)
    as (u & Hu & Hn & Hve & Hurl).
  destruct (C20_build_then_read_partial url_parse _ _ _ HP Hh Hd Hv) as (u' & Hu' & _ & _ & Hurl').
  exists u, "example.com/acme", "1.0.0", u'.
  split; [exact Hu|]. split; [exact Hn|]. split; [exact Hve|]. split; [exact Hu'|].
  unfold su_eqb. rewrite Hurl, Hurl'. reflexivity.
Qed.

Theorem C20_name_with_scheme_refuted :
  forall url_parse, reads_plain_urls url_parse ->
    exists u, try_from_name_version url_parse "https://example.com/acme" "1.0.0" = Ok u /\
      su_get_name u = Some "example.com/acme".
Proof.
  intros url_parse HP.
  assert (Hh : plain_host "example.com").
  { exists "e"%char, "xample.com". repeat split. }
  assert (Hd : Forall plain_segment ["acme"]).
  { constructor; [|constructor]. repeat split; discriminate. }
  assert (Hv : plain_segment "1.0.0") by (repeat split; discriminate).
  destruct (plain_url_read url_parse "https" _ _ _ HP (or_intror eq_refl) Hh Hd Hv)
    as (u & Hu & Hn & _ & _).
  exists u. split; [exact Hu|exact Hn].
Qed.

(* A version with a slash in it is accepted and split elsewhere. *)
Theorem C20_version_with_slash_refuted :
  forall url_parse, reads_plain_urls url_parse ->
    exists u, try_from_name_version url_parse "example.com/acme" "release/1.0.0" = Ok u /\
      su_get_name u = Some "example.com/acme/release" /\ su_get_version u = Some "1.0.0".
Proof.
  intros url_parse HP.
  assert (Hh : plain_host "example.com").
  { exists "e"%char, "xample.com". repeat split. }
  assert (Hd : Forall plain_segment ["acme"; "release"]).
  { constructor; [|constructor; [|constructor]]; repeat split; discriminate. }
  assert (Hv : plain_segment "1.0.0") by (repeat split; discriminate).
  destruct (plain_url_read url_parse "https" _ _ _ HP (or_intror eq_refl) Hh Hd Hv)
    as (u & Hu & Hn & Hve & _).
  exists u. split; [exact Hu|]. split; [exact Hn|exact Hve].
Qed.

Example C20_case :
  exists u, schema_url_new simple_parser "https://opentelemetry.io/schemas/1.27.0//" = Ok u /\
    su_get_name u = Some "opentelemetry.io/schemas" /\ su_get_version u = Some "1.27.0".
Proof. eexists. split; [reflexivity|]. split; reflexivity. Qed.

Print Assumptions C20_decomposition.
Print Assumptions C20_identity.
Print Assumptions C20_build_then_read_partial.
Print Assumptions C20_read_then_build_partial.
Print Assumptions C20_parser_exists.
Print Assumptions C20_http_scheme_refuted.
Print Assumptions C20_name_with_scheme_refuted.
Print Assumptions C20_version_with_slash_refuted.
