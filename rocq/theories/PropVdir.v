(* C18 (credentials), C19 (registry paths), C50 and C51 (archives). *)
From Coq Require Import String Ascii Bool Arith Lia Permutation List.
Import ListNotations.
From Verif Require Import Base BaseProofs SemTypes VdirModel VdirSpec VdirProofs.
Local Open Scope string_scope.
Local Open Scope list_scope.

(* ---------------------------------------------------------------- C18 *)

(* The rule used for a URL is the one a user expects, whatever the order and
   number of rules; none is used exactly when none applies. *)
Theorem C18_longest_prefix_wins :
  forall (rules : list auth_rule) (url : string),
    (forall r, auth_match (auth_new rules) url = Some r <-> chosen_rule rules url r) /\
    (auth_match (auth_new rules) url = None <-> forall r, In r rules -> ~ applies r url).
Proof.
  intros rules url. split.
  - intros r. split; [apply auth_match_some | apply chosen_match].
  - split.
    + apply auth_match_none.
    + intros H. destruct (auth_match (auth_new rules) url) as [r|] eqn:E; [|reflexivity].
      exfalso. apply auth_match_some in E. destruct E as (Ha & _ & b & a & Er & _).
      apply (H r); [rewrite Er; apply in_elt|assumption].
Qed.

Theorem C18_order_irrelevant :
  forall (rules rules' : list auth_rule) (url : string),
    NoDup (map ar_prefix rules) -> Permutation rules rules' ->
    auth_match (auth_new rules) url = auth_match (auth_new rules') url.
Proof.
  intros rules rules' url Hnd Hp.
  destruct (auth_match (auth_new rules) url) as [r|] eqn:E.
  - symmetry. apply chosen_match. eapply chosen_perm; eauto. apply auth_match_some, E.
  - destruct (auth_match (auth_new rules') url) as [r'|] eqn:E'; [|reflexivity].
    exfalso. apply auth_match_some in E'. destruct E' as (Ha & _ & b & a & Er & _).
    apply (auth_match_none _ _ E r'); [|assumption].
    eapply Permutation_in; [symmetry; exact Hp|]. rewrite Er. apply in_elt.
Qed.

(* In every history of token requests, whatever the environment and the helper
   commands return over time, each token handed out belongs to the rule chosen
   for that URL: the literal, the current value of its variable, or what its own
   command printed now or less than thirty seconds before. *)
Theorem C18_tokens_of_every_history :
  forall (rules : list auth_rule) (h : history) (toks : list (option string)) (cache : cmd_cache),
    times_ordered 0 h ->
    run_history (auth_new rules) [] h = (toks, cache) ->
    length toks = length h /\
    forall pre w url post, h = pre ++ (w, url) :: post ->
      forall t, nth_error toks (length pre) = Some (Some t) ->
      exists r, chosen_rule rules url r /\ token_of_rule pre w r t.
Proof.
  intros rules h toks cache Ht H.
  apply (history_ok rules h [] [] toks cache 0); auto.
  - intros argv tok t L. discriminate L.
  - intros w' u [].
Qed.

(* A download sends a token only when a rule applies to the URL the user gave;
   the requests go to that URL, or for a GitHub release to the API and to the
   address the API lists for the asset. *)
Theorem C18_download_tokens :
  forall (rules : list auth_rule) (w : world) (cache : cmd_cache)
         (api : string -> option (list (option string * option string)))
         (url : string) (rq : request),
    In rq (fst (download_requests w (auth_new rules) cache api url)) ->
    ((forall r, In r rules -> ~ applies r url) -> rq_token rq = None) /\
    (rq_url rq = url \/
     (starts_with "https://github.com/" url = true /\
      (starts_with "https://api.github.com/repos/" (rq_url rq) = true \/
       exists api_url assets name,
         starts_with "https://api.github.com/repos/" api_url = true /\
         api api_url = Some assets /\ In (Some name, Some (rq_url rq)) assets /\
         ends_with ("/" ++ name)%string url = true))).
Proof.
  intros rules w cache api url rq H.
  assert (Hno : (forall r, In r rules -> ~ applies r url) ->
            forall c, auth_resolve w (auth_new rules) c url = (None, c)).
  { intros Hn c. unfold auth_resolve.
    destruct (auth_match (auth_new rules) url) as [r|] eqn:E; [|reflexivity].
    exfalso. apply auth_match_some in E. destruct E as (Ha & _ & b & a & Er & _).
    apply (Hn r); [rewrite Er; apply in_elt|assumption]. }
  unfold download_requests in H.
  destruct (parse_github_release_url url) as [[[[owner repo] tag] file]|] eqn:Ep.
  - assert (Hg : exists mid, url = ("https://github.com/" ++ mid ++ "/" ++ file)%string).
    { unfold parse_github_release_url in Ep.
      destruct (strip_prefix "https://github.com/" url) as [rest|] eqn:Es; [|discriminate].
      apply strip_prefix_spec in Es.
      pose proof (splitn_slash_join 5 rest) as Hj.
      destruct (splitn_slash 6 rest) as [|a1 [|a2 [|a3 [|a4 [|a5 [|a6 [|a7 l]]]]]]] eqn:E6;
        try discriminate.
      destruct (String.eqb a3 "releases" && String.eqb a4 "download"); [|discriminate].
      injection Ep as <- <- <- <-.
      exists (a1 ++ "/" ++ a2 ++ "/" ++ a3 ++ "/" ++ a4 ++ "/" ++ a5)%string.
      rewrite Es, <- Hj. cbn [slashed]. rewrite !str_app_assoc. reflexivity. }
    destruct Hg as (mid & Hurl).
    assert (Hgh : starts_with "https://github.com/" url = true)
      by (apply starts_with_spec; exists (mid ++ "/" ++ file)%string; exact Hurl).
    set (api_url := ("https://api.github.com/repos/" ++ owner ++ "/" ++ repo
                    ++ "/releases/tags/" ++ tag)%string) in *.
    assert (Hapi : starts_with "https://api.github.com/repos/" api_url = true)
      by (apply starts_with_spec; exists (owner ++ "/" ++ repo ++ "/releases/tags/" ++ tag)%string; reflexivity).
    destruct (auth_resolve w (auth_new rules) cache url) as [tok cache1] eqn:E1.
    assert (Htok : (forall r, In r rules -> ~ applies r url) -> tok = None).
    { intros Hn. rewrite (Hno Hn cache) in E1. congruence. }
    destruct (api api_url) as [assets|] eqn:Ea.
    + destruct (find_asset_url assets file) as [asset_url|] eqn:Ef.
      * destruct (auth_resolve w (auth_new rules) cache1 url) as [tok2 cache2] eqn:E2.
        assert (Htok2 : (forall r, In r rules -> ~ applies r url) -> tok2 = None).
        { intros Hn. rewrite (Hno Hn cache1) in E2. congruence. }
        cbn in H. destruct H as [<-|[<-|[]]]; cbn [rq_token rq_url].
        -- split; [assumption|]. right. split; [assumption|]. left. assumption.
        -- split; [assumption|]. right. split; [assumption|]. right.
           exists api_url, assets, file. split; [assumption|]. split; [assumption|].
           unfold find_asset_url in Ef.
           destruct (find _ assets) as [[n u]|] eqn:Efi; [|discriminate]. subst u.
           apply find_some in Efi. destruct Efi as [Hin Hn]. cbn in Hn.
           destruct n as [n|]; [|discriminate]. apply String.eqb_eq in Hn. subst n.
           split; [assumption|]. apply ends_with_spec.
           exists ("https://github.com/" ++ mid)%string. rewrite Hurl, str_app_assoc. reflexivity.
      * cbn in H. destruct H as [<-|[]]. cbn. split; [assumption|]. right.
        split; [assumption|]. left. assumption.
    + cbn in H. destruct H as [<-|[]]. cbn. split; [assumption|]. right.
      split; [assumption|]. left. assumption.
  - destruct (auth_resolve w (auth_new rules) cache url) as [tok cache1] eqn:E1.
    cbn in H. destruct H as [<-|[]]. cbn. split; [|left; reflexivity].
    intros Hn. rewrite (Hno Hn cache) in E1. congruence.
Qed.

(* The token sent with either request is one of the rule chosen for the URL the
   user gave. *)
Theorem C18_download_token_source :
  forall (rules : list auth_rule) (w : world)
         (api : string -> option (list (option string * option string)))
         (url : string) (rq : request) (t : string),
    In rq (fst (download_requests w (auth_new rules) [] api url)) ->
    rq_token rq = Some t ->
    exists (r : auth_rule) (pre : history), chosen_rule rules url r /\ (pre = [] \/ pre = [(w, url)]) /\
      token_of_rule pre w r t.
Proof.
  intros rules w api url rq t H Ht.
  destruct (run_history (auth_new rules) [] [(w, url); (w, url)]) as [toks cache] eqn:E.
  assert (Ho : times_ordered 0 [(w, url); (w, url)]) by (cbn; lia).
  destruct (C18_tokens_of_every_history _ _ _ _ Ho E) as [_ K].
  pose proof (K [] w url [(w, url)] eq_refl) as K1.
  pose proof (K [(w, url)] w url [] eq_refl) as K2. clear K.
  cbn [run_history] in E.
  unfold download_requests in H.
  destruct (auth_resolve w (auth_new rules) [] url) as [tok c1] eqn:E1.
  destruct (auth_resolve w (auth_new rules) c1 url) as [tok2 c2] eqn:E2.
  injection E as <- <-.
  assert (G : rq_token rq = tok \/ rq_token rq = tok2).
  { destruct (parse_github_release_url url) as [[[[owner repo] tag] file]|].
    - destruct (api _) as [assets|]; [destruct (find_asset_url assets file)|].
      + destruct H as [<-|[<-|[]]]; auto.
      + destruct H as [<-|[]]; auto.
      + destruct H as [<-|[]]; auto.
    - destruct H as [<-|[]]; auto. }
  rewrite Ht in G. destruct G as [<-|<-].
  - destruct (K1 t eq_refl) as (r & Hr & Hs). exists r, []. auto.
  - destruct (K2 t eq_refl) as (r & Hr & Hs). exists r, [(w, url)]. auto.
Qed.

(* The prefix test does not respect host boundaries: a rule written for one host
   sends its token to another. *)
Theorem C18_host_boundary_refuted :
  exists (r : auth_rule) (url : string),
    host_of (ar_prefix r) = Some "github.com" /\
    host_of url = Some "github.com.evil.example" /\
    forall w, auth_resolve w (auth_new [r]) [] url = (Some "secret", []).
Proof.
  exists (mk_rule "https://github.com" None (Token "secret")),
         "https://github.com.evil.example/x.zip".
  split; [reflexivity|]. split; [reflexivity|]. intros w. reflexivity.
Qed.

(* A token can be attached to a request whose own URL no rule covers. *)
Theorem C18_request_url_refuted :
  exists (r : auth_rule) (api : string -> option (list (option string * option string)))
         (url : string) (rq : request),
    (forall w, In rq (fst (download_requests w (auth_new [r]) [] api url))) /\
    rq_token rq = Some "secret" /\ ~ applies r (rq_url rq) /\
    host_of (rq_url rq) <> host_of url.
Proof.
  exists (mk_rule "https://github.com/acme/" None (Token "secret")),
         (fun _ => Some [(Some "m.yaml", Some "https://elsewhere.example/1")]),
         "https://github.com/acme/r/releases/download/v1/m.yaml",
         (mk_request "https://elsewhere.example/1" (Some "secret")).
  split; [intros w; right; left; reflexivity|].
  split; [reflexivity|]. split; [|discriminate].
  intros (rest & H). discriminate H.
Qed.

(* ---------------------------------------------------------------- C19 *)

(* Parsing accepts exactly the non-empty one-line strings. *)
Theorem C19_accepted :
  forall s, parse_vdir s <> None <-> s <> "" /\ ~ has_char newline s.
Proof.
  intros s. unfold parse_vdir. pose proof (captures_none s) as H.
  destruct (captures s) as [[src [ref sub]]|].
  - split; [|discriminate]. intros _. split; intros A; assert (K : @None (string * (option string * option string)) = None) by reflexivity.
    + assert (E : Some (src, (ref, sub)) = None) by (apply H; auto). discriminate E.
    + assert (E : Some (src, (ref, sub)) = None) by (apply H; auto). discriminate E.
  - split; [congruence|]. intros [A B]. exfalso.
    destruct (proj1 H eq_refl); contradiction.
Qed.

(* The parts are read back as written whenever they are unambiguous, for any
   source, refspec and sub-folder. *)
Theorem C19_parts_read_as_written :
  forall source refspec sub_folder,
    plain_source source -> plain_opt plain_refspec refspec -> plain_opt plain_sub_folder sub_folder ->
    exists v, parse_vdir (written source refspec sub_folder) = Some v /\
      (starts_with "http://" source || starts_with "https://" source = true ->
       ends_with ".zip" source || ends_with ".tar.gz" source = false ->
       used v = (source, refspec, sub_folder)) /\
      (ends_with ".zip" source || ends_with ".tar.gz" source = true ->
       used v = (source, None, sub_folder)) /\
      (starts_with "http://" source || starts_with "https://" source = false ->
       ends_with ".zip" source || ends_with ".tar.gz" source = false ->
       used v = (source, None, None)).
Proof.
  intros source refspec sub_folder H1 H2 H3.
  exists (classify source refspec sub_folder).
  unfold parse_vdir. rewrite (captures_written _ _ _ H1 H2 H3).
  split; [reflexivity|]. unfold classify, is_http, is_archive.
  destruct (starts_with "http://" source || starts_with "https://" source);
    destruct (ends_with ".zip" source || ends_with ".tar.gz" source);
    split; intros; try discriminate; try (split; intros; try discriminate; reflexivity).
  - destruct (ends_with ".git" source || is_some refspec || is_some sub_folder) eqn:E; [reflexivity|].
    apply orb_false_iff in E. destruct E as [E Es]. apply orb_false_iff in E. destruct E as [_ Er].
    destruct refspec; [discriminate|]. destruct sub_folder; [discriminate|]. reflexivity.
Qed.

(* Whatever was typed, the parts found are parts of it, and nothing else is used. *)
Theorem C19_nothing_invented :
  forall s v, parse_vdir s = Some v ->
    exists source refspec sub_folder,
      s = written source refspec sub_folder /\
      (used v = (source, refspec, sub_folder) \/
       used v = (source, None, sub_folder) \/
       used v = (source, None, None)).
Proof.
  intros s v H. unfold parse_vdir in H.
  destruct (captures s) as [[src [ref sub]]|] eqn:E; [|discriminate]. injection H as <-.
  destruct (captures_sound _ _ _ _ E) as (Hs & _ & _).
  exists src, ref, sub. split; [assumption|]. unfold classify.
  destruct (is_http src), (is_archive src); cbn [used]; auto.
  destruct (_ || _); cbn [used]; auto.
Qed.

(* Printing and parsing again gives the same path, except for local folders whose
   name ends with a bracket. *)
Theorem C19_round_trip_partial :
  forall s v, parse_vdir s = Some v ->
    (forall p, v = LocalFolder p -> ends_with "]" p = false) ->
    parse_vdir (show_vdir v) = Some v.
Proof.
  intros s v H Hb. unfold parse_vdir in H.
  destruct (captures s) as [[src [ref sub]]|] eqn:E; [|discriminate]. injection H as <-.
  eapply classify_reparse; [exact E|]. exact Hb.
Qed.

(* Asking a virtual directory for its path never panics. *)
Theorem C19_reparse_never_panics :
  forall s v, parse_vdir s = Some v -> reparse v <> None.
Proof.
  intros s v H. apply C19_accepted. eapply show_not_empty, H.
Qed.

(* The exception is real: the path changes on the second reading. *)
Theorem C19_round_trip_refuted :
  exists s v, parse_vdir s = Some v /\ parse_vdir (show_vdir v) <> Some v.
Proof.
  exists "a[b]@c", (LocalFolder "a[b]"). split; [reflexivity|discriminate].
Qed.

(* Parts that are written but not used, and a user name read as the location. *)
Theorem C19_parts_ignored_refuted :
  (exists v, parse_vdir (written "model" None (Some "registry")) = Some v /\
             used v = ("model", None, None)) /\
  (exists v, parse_vdir (written "https://h/a.zip" (Some "v1") None) = Some v /\
             used v = ("https://h/a.zip", None, None)) /\
  (exists v, parse_vdir "https://user@host/repo.git" = Some v /\
             used v = ("https://user", Some "host/repo.git", None)) /\
  (exists v, parse_vdir "git@github.com:org/repo.git" = Some v /\
             used v = ("git", None, None)).
Proof.
  split; [|split; [|split]]; eexists; (split; [reflexivity|reflexivity]).
Qed.

(* Rewriting the sub-folder keeps the location and the refspec. *)
Theorem C19_map_sub_folder :
  forall v f,
    match v with
    | LocalFolder p => used (map_sub_folder v f) = (f p, None, None)
    | RemoteFile u => used (map_sub_folder v f) = (f u, None, None)
    | _ => fst (used (map_sub_folder v f)) = fst (used v) /\
           forall sub, snd (used (map_sub_folder v f)) = Some sub <->
                       sub <> "" /\ sub = f (match snd (used v) with Some x => x | None => "" end)
    end.
Proof.
  assert (K : forall o f sub, map_option o f = Some sub <->
                sub <> "" /\ sub = f (match o with Some x => x | None => "" end)).
  { intros o f sub. unfold map_option. cbv zeta.
    change (opt_get o "") with (match o with Some x => x | None => "" end).
    destruct (String.eqb_spec (f (match o with Some x => x | None => "" end)) "") as [E|E].
    - split; [discriminate|]. intros [A ->]. congruence.
    - split; [intros H; injection H as <-; auto|]. intros [_ ->]. reflexivity. }
  intros [p|p sub|u sub|u ref sub|u] f; cbn; try reflexivity; (split; [reflexivity|]); apply K.
Qed.

(* ---------------------------------------------------------------- C50 *)

(* Every archive entry without ".." after its first component is written inside
   the target directory, whatever the sub-folder. *)
Theorem C50_unpack_inside_partial :
  forall entries sub_folder e cs,
    In (e, cs) (unpack_tar entries sub_folder) ->
    ~ In ParentDir (components e) ->
    stays_inside cs.
Proof.
  intros entries sub e cs H Hp. unfold unpack_tar in H.
  apply in_flat_map in H. destruct H as (x & _ & Hx).
  destruct (path_to_unpack (components x) sub) as [ys|] eqn:E; [|destruct Hx].
  destruct Hx as [Hx|[]]. injection Hx as -> ->.
  assert (Hin : forall c, In c cs -> In c (tl (components e))).
  { unfold path_to_unpack in E. destruct sub as [s|].
    - destruct (negb (blank s)).
      + destruct (tl (components e)) as [|c cs']; [injection E as <-; tauto|].
        destruct (negb (String.eqb (os_str c) s)); [discriminate|]. injection E as <-.
        intros d Hd. right. exact Hd.
      + injection E as <-. tauto.
    - injection E as <-. tauto. }
  assert (Htl : forall c, In c (tl (components e)) -> In c (components e))
    by (intros c Hc; destruct (components e); [destruct Hc|right; exact Hc]).
  destruct (resolve_in_normal cs []) as (st & Hst & _).
  - intros c Hc. destruct (components_tail_kind e c (Hin c Hc)) as [->|Hn]; [|assumption].
    exfalso. apply Hp, Htl, Hin, Hc.
  - exists (st ++ []). exact Hst.
Qed.

(* With ".." an entry of a .tar.gz archive is written outside of it. *)
Theorem C50_unpack_inside_refuted :
  exists e cs, In (e, cs) (unpack_tar [e] None) /\ ~ stays_inside cs.
Proof.
  exists "root/../../.bashrc", [ParentDir; ParentDir; Normal ".bashrc"].
  split; [left; reflexivity|]. intros (st & H). discriminate H.
Qed.

(* ---------------------------------------------------------------- C51 *)

(* With a sub-folder that is one plain name, exactly the entries below that
   folder of the archive's root are kept, at their path relative to it; without
   one, exactly all entries, relative to the root. *)
Theorem C51_sub_folder_exact_partial :
  forall (root : component) (path : list component) (sub : string),
    blank sub = false -> sub <> ".." -> path <> [] ->
    (forall c, In c path -> c = ParentDir \/ exists n, c = Normal n) ->
    (path_to_unpack (root :: path) None = Some path) /\
    (forall cs, path_to_unpack (root :: path) (Some sub) = Some cs <-> path = Normal sub :: cs).
Proof.
  intros root path sub Hb Hdd Hne Hk. split; [reflexivity|].
  intros cs. unfold path_to_unpack. rewrite Hb. cbn [negb tl].
  destruct path as [|c path]; [congruence|].
  destruct (Hk c (or_introl eq_refl)) as [->|(n & ->)]; cbn [os_str].
  - destruct (String.eqb_spec ".." sub) as [E|E]; [congruence|]. cbn.
    split; [discriminate|]. intros H. discriminate H.
  - destruct (String.eqb_spec n sub) as [->|E]; cbn.
    + split; [intros H; injection H as ->; reflexivity | intros H; injection H as ->; reflexivity].
    + split; [discriminate|]. intros H. injection H as H _. contradiction.
Qed.

(* A sub-folder with a slash in it never matches anything: every entry below it is
   silently skipped. *)
Theorem C51_nested_sub_folder_refuted :
  forall (a b file : string),
    a <> "" -> b <> "" ->
    path_to_unpack [Normal "root"; Normal a; Normal b; Normal file] (Some (a ++ "/" ++ b)%string)
    = None.
Proof.
  intros a b file Ha Hb. unfold path_to_unpack. cbn [tl os_str].
  destruct (blank (a ++ "/" ++ b)%string) eqn:Eb.
  - exfalso. assert (G : forall s, blank (s ++ "/" ++ b)%string = true -> False).
    { induction s as [|c s IH]; cbn; [discriminate|]. intros H.
      apply andb_true_iff in H. apply IH, H. }
    exact (G a Eb).
  - cbn [negb]. destruct (String.eqb_spec a (a ++ "/" ++ b)%string) as [E|E]; [|reflexivity].
    exfalso. assert (L : String.length a = String.length (a ++ "/" ++ b)%string) by congruence.
    rewrite str_length_app in L. cbn in L. lia.
Qed.

(* ---------------------------------------------------------------- cases *)
Example C18_case :
  let rules := [mk_rule "https://github.com/" None (Token "broad");
                mk_rule "https://github.com/acme/" None (TokenCommand ["gh"])] in
  let w t := mk_world t (fun _ => None) (fun _ => Some (if Nat.ltb t 5000 then "old" else "new")) in
  fst (run_history (auth_new rules) []
        [(w 1000, "https://github.com/acme/x"); (w 30999, "https://github.com/acme/y");
         (w 31000, "https://github.com/acme/y"); (w 31001, "https://github.com/z");
         (w 31002, "http://x")])
  = [Some "old"; Some "old"; Some "new"; Some "broad"; None].
Proof. vm_compute. reflexivity. Qed.

Example C19_case :
  parse_vdir "https://github.com/o/r.git@v1.2[model]"
    = Some (GitRepo "https://github.com/o/r.git" (Some "v1.2") (Some "model")) /\
  plain_source "https://github.com/o/r.git".
Proof.
  split; [reflexivity|]. repeat split; try discriminate; cbn; intuition discriminate.
Qed.

Example C51_case :
  components "repo-1.0/model/http/spans.yaml"
    = [Normal "repo-1.0"; Normal "model"; Normal "http"; Normal "spans.yaml"] /\
  unpack_tar ["repo-1.0/"; "repo-1.0/README"; "repo-1.0/model/a.yaml"] (Some "model")
    = [("repo-1.0/", []); ("repo-1.0/model/a.yaml", [Normal "a.yaml"])].
Proof. split; reflexivity. Qed.

Print Assumptions C18_longest_prefix_wins.
Print Assumptions C18_order_irrelevant.
Print Assumptions C18_tokens_of_every_history.
Print Assumptions C18_download_tokens.
Print Assumptions C18_download_token_source.
Print Assumptions C18_host_boundary_refuted.
Print Assumptions C18_request_url_refuted.
Print Assumptions C19_accepted.
Print Assumptions C19_parts_read_as_written.
Print Assumptions C19_nothing_invented.
Print Assumptions C19_round_trip_partial.
Print Assumptions C19_reparse_never_panics.
Print Assumptions C19_round_trip_refuted.
Print Assumptions C19_parts_ignored_refuted.
Print Assumptions C19_map_sub_folder.
Print Assumptions C50_unpack_inside_partial.
Print Assumptions C50_unpack_inside_refuted.
Print Assumptions C51_sub_folder_exact_partial.
Print Assumptions C51_nested_sub_folder_refuted.
