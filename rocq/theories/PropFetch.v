(* C121: the token a helper command gives, the requests and files of a session of
   downloads, and the name of a downloaded file. *)
From Coq Require Import String Ascii Bool Arith Lia List.
Import ListNotations.
From Verif Require Import Base BaseProofs SemTypes Str StrProofs CodeModel CodeSpec CodeProofs
  VdirModel VdirSpec VdirProofs PropVdir UrlModel FetchModel FetchSpec.
Local Open Scope string_scope.
Local Open Scope list_scope.

(* ------------------------------------------------------------------ *)
(* The helper command *)

Lemma trim_start_app_white u x : all_chars is_white u = true -> trim_start is_white (u ++ x)%string = trim_start is_white x.
Proof. induction u as [|c u IH]; cbn; [reflexivity|]. intros H. apply andb_true_iff in H as [-> H]. auto. Qed.

Lemma trimmed_eq s t : trimmed s t -> trim_ws s = t.
Proof.
  intros (u & v & -> & Hu & Hv & Hs & He). unfold trim_ws.
  apply blank_iff in Hu, Hv. rewrite trim_start_app_white by exact Hu.
  destruct t as [|c t].
  - change ("" ++ v)%string with v. replace v with (v ++ "")%string by apply str_app_nil_r.
    rewrite trim_start_app_white by exact Hv. reflexivity.
  - assert (Hc : is_white c = false).
    { destruct (is_white c) eqn:E; [|reflexivity]. exfalso. apply Hs. exists c, t. split; [reflexivity|]. apply white_iff, E. }
    change (String c t ++ v)%string with (String c (t ++ v)%string). cbn [trim_start]. rewrite Hc.
    change (String c (t ++ v)%string) with (String c t ++ v)%string.
    rewrite StrProofs.trim_end_app by exact Hv.
    destruct (str_last (String c t)) as [E|(a & d & E)]; [discriminate|]. rewrite E in *.
    apply trim_end_id. destruct (is_white d) eqn:Ed; [|reflexivity].
    exfalso. apply He. exists a, d. split; [reflexivity|]. apply white_iff, Ed.
Qed.

(* A token is given exactly when the program starts, ends with success and the first
   line it prints is not blank; the token is that line without the space around it. *)
Theorem C121_token :
  forall (start : string -> list string -> option run_output) (argv : list string) (t : string),
    run_token_command start argv = Some t <->
    exists program rest o l ls,
      argv = program :: rest /\ start program rest = Some o /\ ro_success o = true /\
      reads_as (ro_stdout o) (l :: ls) /\ trimmed l t /\ t <> "".
Proof.
  intros start argv t. split.
  - unfold run_token_command. destruct argv as [|program rest]; [discriminate|].
    destruct (start program rest) as [o|] eqn:Es; [|discriminate].
    destruct (ro_success o) eqn:Eo; [|discriminate]. cbn [negb].
    pose proof (lines_read (ro_stdout o)) as Hr.
    destruct (lines (ro_stdout o)) as [|l ls]; [discriminate|].
    destruct (String.eqb_spec (trim_ws l) "") as [E|E]; [discriminate|].
    intros H. assert (Ht : trim_ws l = t) by congruence. subst t.
    exists program, rest, o, l, ls. repeat split; try assumption. apply trim_ws_trimmed.
  - intros (program & rest & o & l & ls & -> & Es & Eo & Hr & Ht & Hn).
    unfold run_token_command. rewrite Es, Eo. cbn [negb].
    rewrite <- (reads_as_lines _ _ Hr). rewrite (trimmed_eq _ _ Ht).
    destruct (String.eqb_spec t "") as [E|E]; [congruence|reflexivity].
Qed.

(* so a token never spans lines: nothing the helper prints after its first line reaches
   the header of a request *)
Theorem C121_token_line :
  forall (start : string -> list string -> option run_output) (argv : list string) (t : string),
    run_token_command start argv = Some t -> ~ has_newline t.
Proof.
  intros start argv t H. apply C121_token in H.
  destruct H as (program & rest & o & l & ls & _ & _ & _ & Hr & (u & v & -> & _) & _).
  apply reads_no_newline in Hr. inversion Hr as [|x y Hx _]; subst.
  intros (a & b & ->). apply Hx. exists (u ++ a)%string, (b ++ v)%string.
  rewrite !str_app_assoc. reflexivity.
Qed.

Example C121_token_case :
  run_token_command (fun _ _ => Some (mk_output true ("  s3cr3t " ++ String cr (String lf "expires soon"))%string)) ["gh"; "auth"]
  = Some "s3cr3t".
Proof. reflexivity. Qed.

(* A helper whose output starts with a blank line gives no token at all. *)
Theorem C121_blank_line_refuted :
  ~ (forall start program rest o l ls,
       start program rest = Some o -> ro_success o = true -> reads_as (ro_stdout o) ls ->
       In l ls -> ~ CodeSpec.blank l -> run_token_command start (program :: rest) <> None).
Proof.
  intros H.
  apply (H (fun _ _ => Some (mk_output true (String lf "tok"))) "p" [] _ "tok" [""; "tok"] eq_refl eq_refl).
  - cbn. change (String lf "tok") with ("" ++ String newline "tok")%string. apply reads_lf.
    + intros (a & b & E). destruct a; discriminate.
    + intros a E. destruct a; discriminate.
    + apply reads_last; [discriminate|]. intros (a & b & E).
      destruct a as [|? [|? [|? [|? ?]]]]; discriminate.
  - right. left. reflexivity.
  - intros B. apply blank_iff in B. discriminate.
  - reflexivity.
Qed.

(* ------------------------------------------------------------------ *)
(* Reading the address of a file of a release *)

Lemma has_char_app c a b : has_char c (a ++ b)%string <-> has_char c a \/ has_char c b.
Proof. induction a as [|d a IH]; cbn; [tauto|]. rewrite IH. tauto. Qed.

Definition go (n : nat) : string -> string -> list string :=
  fix go (acc r : string) {struct r} : list string :=
            match r with
            | EmptyString => [acc]
            | String c r' =>
              if Ascii.eqb c "/"%char then acc :: splitn_slash (S n) r'
              else go (acc ++ String c EmptyString)%string r'
            end.

Lemma go_cons n acc c r : go n acc (String c r) =
  if Ascii.eqb c "/"%char then acc :: splitn_slash (S n) r else go n (acc ++ String c EmptyString)%string r.
Proof. reflexivity. Qed.

Lemma splitn_go n : forall x acc r, ~ has_char "/"%char x ->
  go n acc (x ++ "/" ++ r)%string = (acc ++ x)%string :: splitn_slash (S n) r.
Proof.
  induction x as [|c x IH]; intros acc r H.
  - rewrite str_app_nil_r. reflexivity.
  - cbn in H. change (String c x ++ "/" ++ r)%string with (String c (x ++ "/" ++ r)%string).
    rewrite go_cons. destruct (Ascii.eqb_spec c "/"%char) as [E|E]; [tauto|].
    rewrite IH by tauto. rewrite str_app_assoc. reflexivity.
Qed.

Lemma splitn_cons n x r : ~ has_char "/"%char x ->
  splitn_slash (S (S n)) (x ++ "/" ++ r)%string = x :: splitn_slash (S n) r.
Proof. intros H. exact (splitn_go n x "" r H). Qed.

Lemma splitn_go_free n : forall r acc l p, ~ has_char "/"%char acc ->
  go n acc r = p :: l -> l <> [] -> ~ has_char "/"%char p /\ exists r', splitn_slash (S n) r' = l.
Proof.
  induction r as [|c r IH]; intros acc l p H E Hl.
  - injection E as <- <-. congruence.
  - rewrite go_cons in E. destruct (Ascii.eqb_spec c "/"%char) as [Ec|Ec].
    + split; [congruence|]. exists r. congruence.
    + apply (IH _ _ _ ) in E; [exact E| |exact Hl].
      rewrite has_char_app. cbn. intros [K|[K|[]]]; [tauto|congruence].
Qed.

Lemma splitn_free n s p l : splitn_slash (S (S n)) s = p :: l -> l <> [] ->
  ~ has_char "/"%char p /\ exists r', splitn_slash (S n) r' = l.
Proof. intros E Hl. exact (splitn_go_free n s "" l p (fun x => x) E Hl). Qed.

Lemma parse_release url o r t f :
  parse_github_release_url url = Some (o, r, t, f) <-> github_release url o r t f.
Proof.
  unfold parse_github_release_url, github_release. split.
  - destruct (strip_prefix "https://github.com/" url) as [rest|] eqn:Es; [|discriminate].
    apply strip_prefix_spec in Es. pose proof (splitn_slash_join 5 rest) as Hj.
    destruct (splitn_slash 6 rest) as [|a1 l1] eqn:E1; [discriminate|].
    destruct l1 as [|a2 l2]; [discriminate|].
    destruct l2 as [|a3 l3]; [discriminate|]. destruct l3 as [|a4 l4]; [discriminate|].
    destruct l4 as [|a5 l5]; [discriminate|]. destruct l5 as [|a6 l6]; [discriminate|].
    destruct l6; [|discriminate].
    destruct (String.eqb_spec a3 "releases") as [->|]; [|discriminate].
    destruct (String.eqb_spec a4 "download") as [->|]; [|discriminate]. cbn [andb].
    intros H. injection H as <- <- <- <-.
    destruct (splitn_free 4 rest _ _ E1) as [F1 [r1 E2]]; [discriminate|].
    destruct (splitn_free 3 r1 _ _ E2) as [F2 [r2 E3]]; [discriminate|].
    destruct (splitn_free 2 r2 _ _ E3) as [_ [r3 E4]]; [discriminate|].
    destruct (splitn_free 1 r3 _ _ E4) as [_ [r4 E5]]; [discriminate|].
    destruct (splitn_free 0 r4 _ _ E5) as [F5 _]; [discriminate|].
    split; [|auto]. rewrite Es, <- Hj. cbn [slashed]. rewrite ?str_app_assoc. reflexivity.
  - intros (-> & H1 & H2 & H3).
    rewrite (proj2 (strip_prefix_spec "https://github.com/" _ _) eq_refl).
    change ("/releases/download/" ++ t ++ "/" ++ f)%string
      with ("/" ++ "releases" ++ "/" ++ "download" ++ "/" ++ t ++ "/" ++ f)%string.
    rewrite (splitn_cons 4) by exact H1. rewrite (splitn_cons 3) by exact H2.
    rewrite (splitn_cons 2) by (cbn; intuition discriminate).
    rewrite (splitn_cons 1) by (cbn; intuition discriminate).
    rewrite (splitn_cons 0) by exact H3. reflexivity.
Qed.

Lemma first_slash a b c d : ~ has_char "/"%char a -> ~ has_char "/"%char c ->
  (a ++ "/" ++ b = c ++ "/" ++ d)%string -> a = c /\ b = d.
Proof.
  revert c. induction a as [|x a IH]; intros [|y c] Ha Hc E; cbn in *.
  - split; congruence.
  - injection E as E1 _. exfalso. apply Hc. auto.
  - injection E as E1 _. exfalso. apply Ha. auto.
  - injection E as -> E. destruct (IH c) as [-> ->]; auto.
Qed.

Lemma cache_key_inj o r t o' r' t' :
  ~ has_char "/"%char o -> ~ has_char "/"%char r -> ~ has_char "/"%char o' -> ~ has_char "/"%char r' ->
  cache_key o r t = cache_key o' r' t' -> o = o' /\ r = r' /\ t = t'.
Proof.
  unfold cache_key. intros H1 H2 H3 H4 E.
  apply first_slash in E; [|assumption..]. destruct E as [-> E].
  apply first_slash in E; [|assumption..]. destruct E as [-> ->]. auto.
Qed.

(* ------------------------------------------------------------------ *)
(* Sessions *)

Lemma asset_listed rel f u : asset_of rel f = Some u <-> listed rel f u.
Proof.
  unfold asset_of, listed. destruct rel as [l|]; [|split; [discriminate|intros (b & a & E & _); discriminate]].
  unfold find_asset_url. induction l as [|[n v] l IH]; cbn.
  - split; [discriminate|]. intros (b & a & E & _). destruct b; discriminate.
  - destruct n as [n|]; [destruct (String.eqb_spec n f) as [->|Hn]|].
    + split.
      * intros ->. exists [], l. split; [reflexivity|]. intros x [].
      * intros (b & a & E & Hb). destruct b as [|y b]; [injection E as -> _; reflexivity|].
        injection E as <- _. exfalso. apply (Hb (Some f, v)); [left|]; reflexivity.
    + rewrite IH. split; intros (b & a & E & Hb).
      * exists ((Some n, v) :: b), a. split; [injection E as ->; reflexivity|].
        intros x [<-|Hx]; [cbn; congruence|auto].
      * destruct b as [|y b]; [injection E as -> _; congruence|]. injection E as _ E.
        exists b, a. rewrite E. split; [reflexivity|]. intros x Hx. apply Hb. right. exact Hx.
    + rewrite IH. split; intros (b & a & E & Hb).
      * exists ((None, v) :: b), a. split; [injection E as ->; reflexivity|].
        intros x [<-|Hx]; [cbn; congruence|auto].
      * destruct b as [|y b]; [discriminate|]. injection E as _ E.
        exists b, a. rewrite E. split; [reflexivity|]. intros x Hx. apply Hb. right. exact Hx.
Qed.

(* what the cache of releases knows *)
Definition knows (past : list step) (s : state) : Prop :=
  forall o r t, ~ has_char "/"%char o -> ~ has_char "/"%char r -> ~ has_char "/"%char t ->
    match lookup String.eqb (cache_key o r t) (s_releases s) with
    | Some rel => first_answer past o r t rel
    | None => unanswered past o r t
    end.

Lemma first_answer_more past x o r t rel : first_answer past o r t rel -> first_answer (past ++ [x]) o r t rel.
Proof.
  intros (b & st & a & f & -> & H). exists b, st, (a ++ [x]), f. split; [|exact H].
  rewrite <- app_assoc. reflexivity.
Qed.

Lemma unanswered_more past x o r t : unanswered past o r t ->
  (forall f, github_release (st_url x) o r t f -> st_api x (release_address o r t) = None) ->
  unanswered (past ++ [x]) o r t.
Proof.
  intros H Hx st f Hin Hg. apply in_app_iff in Hin as [Hin|[<-|[]]]; [eapply H|eapply Hx]; eauto.
Qed.

Lemma first_answer_unique past o r t rel rel' :
  first_answer past o r t rel -> first_answer past o r t rel' -> rel = rel'.
Proof.
  intros (b & st & a & f & E & Hg & Ha & Hu) (b' & st' & a' & f' & E' & Hg' & Ha' & Hu').
  assert (K : b = b' /\ st = st').
  { rewrite E in E'. clear E. revert b' E' Hu'.
    induction b as [|x b IH]; intros [|x' b'] E' Hu'.
    - cbn in E'. injection E' as -> _. auto.
    - cbn in E'. injection E' as <- _. rewrite (Hu' st f) in Ha; [discriminate|left; reflexivity|exact Hg].
    - cbn in E'. injection E' as -> _. rewrite (Hu st' f') in Ha'; [discriminate|left; reflexivity|exact Hg'].
    - cbn in E'. injection E' as -> E'. destruct (IH (fun s g Hs => Hu s g (or_intror Hs)) b' E' (fun s g Hs => Hu' s g (or_intror Hs))) as [-> ->]. auto. }
  destruct K as [_ ->]. congruence.
Qed.

Lemma first_answer_answered past o r t rel : first_answer past o r t rel -> ~ unanswered past o r t.
Proof.
  intros (b & st & a & f & -> & Hg & Ha & _) Hu. rewrite (Hu st f) in Ha; [discriminate|apply in_elt|exact Hg].
Qed.

Lemma release_unique url o r t f o' r' t' f' :
  github_release url o r t f -> github_release url o' r' t' f' -> o = o' /\ r = r' /\ t = t' /\ f = f'.
Proof. intros H H'. apply parse_release in H, H'. rewrite H in H'. injection H' as -> -> -> ->. auto. Qed.

Lemma norm_ok rules past s st rqs got s' :
  knows past s -> normalize_github_url rules s st = (rqs, got, s') ->
  knows (past ++ [st]) s' /\
  ((forall o r t f, ~ github_release (st_url st) o r t f) -> rqs = [] /\ got = Some (st_url st)) /\
  (forall o r t f, github_release (st_url st) o r t f ->
     (forall rel, first_answer past o r t rel -> rqs = [] /\ got = asset_of rel f) /\
     (unanswered past o r t ->
        map rq_url rqs = [release_address o r t] /\
        got = match st_api st (release_address o r t) with Some rel => asset_of rel f | None => None end)).
Proof.
  intros Hk H. unfold normalize_github_url in H.
  destruct (parse_github_release_url (st_url st)) as [[[[o r] t] f]|] eqn:Ep.
  - apply parse_release in Ep. destruct Ep as (Eu & H1 & H2 & H3).
    assert (Hg : github_release (st_url st) o r t f) by (split; auto).
    pose proof (Hk o r t H1 H2 H3) as Hc.
    assert (Hother : forall o' r' t', ~ (o = o' /\ r = r' /\ t = t') -> forall f', ~ github_release (st_url st) o' r' t' f').
    { intros o' r' t' Hn f' Hg'. destruct (release_unique _ _ _ _ _ _ _ _ _ Hg Hg') as (-> & -> & -> & _). tauto. }
    destruct (lookup String.eqb (cache_key o r t) (s_releases s)) as [rel|] eqn:El.
    + injection H as <- <- <-. split; [|split].
      * intros o' r' t' K1 K2 K3. pose proof (Hk o' r' t' K1 K2 K3) as Hc'.
        destruct (lookup String.eqb (cache_key o' r' t') (s_releases s)) as [rel'|] eqn:El'.
        -- apply first_answer_more, Hc'.
        -- apply unanswered_more; [exact Hc'|]. intros f' Hg'.
           destruct (release_unique _ _ _ _ _ _ _ _ _ Hg Hg') as (-> & -> & -> & _). congruence.
      * intros Hn. exfalso. exact (Hn _ _ _ _ Hg).
      * intros o' r' t' f' Hg'. destruct (release_unique _ _ _ _ _ _ _ _ _ Hg Hg') as (<- & <- & <- & <-).
        split.
        -- intros rel' Hf. rewrite (first_answer_unique _ _ _ _ _ _ Hf Hc). auto.
        -- intros Hu. exfalso. exact (first_answer_answered _ _ _ _ _ Hc Hu).
    + destruct (auth_resolve (st_world st) rules (s_commands s) (st_url st)) as [tok cmds] eqn:Ea.
      change (api_url o r t) with (release_address o r t) in H.
      destruct (st_api st (release_address o r t)) as [rel|] eqn:Ei; injection H as <- <- <-.
      * split; [|split].
        -- intros o' r' t' K1 K2 K3. pose proof (Hk o' r' t' K1 K2 K3) as Hc'. cbn [s_releases].
           destruct (string_dec (cache_key o' r' t') (cache_key o r t)) as [E|E].
           ++ apply cache_key_inj in E; [|assumption..]. destruct E as (-> & -> & ->).
              rewrite (lookup_insert_eq String.eqb String.eqb_eq).
              exists past, st, [], f. repeat split; auto.
           ++ rewrite (lookup_insert_ne String.eqb String.eqb_eq) by exact E.
              destruct (lookup String.eqb (cache_key o' r' t') (s_releases s)) as [rel'|].
              ** apply first_answer_more, Hc'.
              ** apply unanswered_more; [exact Hc'|]. intros f' Hg'. exfalso.
                 refine (Hother o' r' t' _ f' Hg'). intros (-> & -> & ->). congruence.
        -- intros Hn. exfalso. exact (Hn _ _ _ _ Hg).
        -- intros o' r' t' f' Hg'. destruct (release_unique _ _ _ _ _ _ _ _ _ Hg Hg') as (<- & <- & <- & <-).
           split.
           ++ intros rel' Hf. exfalso. exact (first_answer_answered _ _ _ _ _ Hf Hc).
           ++ intros _. rewrite Ei. auto.
      * split; [|split].
        -- intros o' r' t' K1 K2 K3. pose proof (Hk o' r' t' K1 K2 K3) as Hc'. cbn [s_releases].
           destruct (lookup String.eqb (cache_key o' r' t') (s_releases s)) as [rel'|].
           ** apply first_answer_more, Hc'.
           ** apply unanswered_more; [exact Hc'|]. intros f' Hg'.
              destruct (release_unique _ _ _ _ _ _ _ _ _ Hg Hg') as (<- & <- & <- & _). exact Ei.
        -- intros Hn. exfalso. exact (Hn _ _ _ _ Hg).
        -- intros o' r' t' f' Hg'. destruct (release_unique _ _ _ _ _ _ _ _ _ Hg Hg') as (<- & <- & <- & <-).
           split.
           ++ intros rel' Hf. exfalso. exact (first_answer_answered _ _ _ _ _ Hf Hc).
           ++ intros _. rewrite Ei. auto.
  - injection H as <- <- <-.
    assert (Hn : forall o r t f, ~ github_release (st_url st) o r t f).
    { intros o r t f Hg. apply parse_release in Hg. congruence. }
    split; [|split].
    + intros o' r' t' K1 K2 K3. pose proof (Hk o' r' t' K1 K2 K3) as Hc'.
      destruct (lookup String.eqb (cache_key o' r' t') (s_releases s)) as [rel'|].
      * apply first_answer_more, Hc'.
      * apply unanswered_more; [exact Hc'|]. intros f' Hg'. exfalso. exact (Hn _ _ _ _ Hg').
    + auto.
    + intros o r t f Hg. exfalso. exact (Hn _ _ _ _ Hg).
Qed.

(* what one download does after the downloads [past] *)
Definition does (past : list step) (st : step) (rqs : list request) (got : option string) : Prop :=
  ((forall o r t f, ~ github_release (st_url st) o r t f) ->
     addresses rqs = [st_url st] /\ got = Some (st_url st)) /\
  (forall owner repo tag file, github_release (st_url st) owner repo tag file ->
     (forall rel, first_answer past owner repo tag rel ->
        addresses rqs = the_file got /\ forall u, got = Some u <-> listed rel file u) /\
     (unanswered past owner repo tag ->
        (forall rel, st_api st (release_address owner repo tag) = Some rel ->
           addresses rqs = release_address owner repo tag :: the_file got /\
           forall u, got = Some u <-> listed rel file u) /\
        (st_api st (release_address owner repo tag) = None ->
           addresses rqs = [release_address owner repo tag] /\ got = None))).

Lemma download_ok rules past s st rqs got s' :
  knows past s -> download rules s st = (rqs, got, s') ->
  knows (past ++ [st]) s' /\ does past st rqs got.
Proof.
  intros Hk H. unfold download in H.
  destruct (normalize_github_url rules s st) as [[rqs0 got0] s0] eqn:En.
  destruct (norm_ok _ _ _ _ _ _ _ Hk En) as (Hk' & Hplain & Hrel).
  assert (G : knows (past ++ [st]) s' /\ got = got0 /\ addresses rqs = addresses rqs0 ++ the_file got0).
  { destruct got0 as [u|].
    - destruct (auth_resolve (st_world st) rules (s_commands s0) (st_url st)) as [tok cmds].
      injection H as <- <- <-. repeat split; [exact Hk'|]. unfold addresses. rewrite map_app. reflexivity.
    - injection H as <- <- <-. repeat split; [exact Hk'|]. cbn. rewrite app_nil_r. reflexivity. }
  destruct G as (Hk2 & -> & Er). split; [exact Hk2|]. split.
  - intros Hn. destruct (Hplain Hn) as [-> ->]. rewrite Er. auto.
  - intros o r t f Hg. destruct (Hrel _ _ _ _ Hg) as [Hf Hu]. split.
    + intros rel Hr. destruct (Hf rel Hr) as [-> E]. rewrite Er. split; [reflexivity|].
      intros u. rewrite E. apply asset_listed.
    + intros Hun. destruct (Hu Hun) as [Ea Eg]. unfold addresses in *. rewrite Er, Ea. split.
      * intros rel Ei. rewrite Ei in Eg. split; [reflexivity|]. intros u. rewrite Eg. apply asset_listed.
      * intros Ei. rewrite Ei in Eg. rewrite Eg. auto.
Qed.

Lemma session_ok rules : forall steps past s, knows past s ->
  map step_of (session rules s steps) = steps /\
  forall pre st rqs got post, session rules s steps = pre ++ (st, rqs, got) :: post ->
    does (past ++ map step_of pre) st rqs got.
Proof.
  induction steps as [|x steps IH]; intros past s Hk; cbn.
  - split; [reflexivity|]. intros pre st rqs got post E. destruct pre; discriminate.
  - destruct (download rules s x) as [[rqs0 got0] s0] eqn:Ed.
    destruct (download_ok _ _ _ _ _ _ _ Hk Ed) as [Hk' Hd].
    destruct (IH _ _ Hk') as [Hm Hi]. split; [cbn; f_equal; exact Hm|].
    intros pre st rqs got post E. destruct pre as [|e pre]; cbn in E.
    + injection E as <- <- <- _. cbn. rewrite app_nil_r. exact Hd.
    + injection E as <- E. specialize (Hi _ _ _ _ _ E). rewrite <- app_assoc in Hi. exact Hi.
Qed.

Lemma new_knows : knows [] new_process.
Proof. intros o r t _ _ _. cbn. intros st f []. Qed.

(* In every session, whatever the services answer over time: a URL that is not the
   address of a file of a GitHub release is fetched as it is and nothing else is asked;
   for a file of a release, the release is asked for until it is first described and never
   again, and the file is fetched from where that description lists a file of its name.
   Without such a listing nothing is fetched. *)
Theorem C121_session :
  forall (rules : list auth_rule) (steps : list step),
    map step_of (session (auth_new rules) new_process steps) = steps /\
    forall pre st rqs got post,
      session (auth_new rules) new_process steps = pre ++ (st, rqs, got) :: post ->
      ((forall owner repo tag file, ~ github_release (st_url st) owner repo tag file) ->
         addresses rqs = [st_url st] /\ got = Some (st_url st)) /\
      (forall owner repo tag file, github_release (st_url st) owner repo tag file ->
         (forall rel, first_answer (map step_of pre) owner repo tag rel ->
            addresses rqs = the_file got /\ forall u, got = Some u <-> listed rel file u) /\
         (unanswered (map step_of pre) owner repo tag ->
            (forall rel, st_api st (release_address owner repo tag) = Some rel ->
               addresses rqs = release_address owner repo tag :: the_file got /\
               forall u, got = Some u <-> listed rel file u) /\
            (st_api st (release_address owner repo tag) = None ->
               addresses rqs = [release_address owner repo tag] /\ got = None))).
Proof.
  intros rules steps. destruct (session_ok (auth_new rules) steps [] new_process new_knows) as [Hm Hi].
  split; [exact Hm|]. exact Hi.
Qed.

(* The files of different releases are never mixed: what is fetched for a release was
   listed in an answer about that very release. *)
Theorem C121_not_mixed :
  forall (rules : list auth_rule) (steps : list step) pre st rqs u post owner repo tag file,
    session (auth_new rules) new_process steps = pre ++ (st, rqs, Some u) :: post ->
    github_release (st_url st) owner repo tag file ->
    exists st' file' rel, In st' (map step_of pre ++ [st]) /\
      github_release (st_url st') owner repo tag file' /\
      st_api st' (release_address owner repo tag) = Some rel /\ listed rel file u.
Proof.
  intros rules steps pre st rqs u post o r t f E Hg.
  destruct (C121_session rules steps) as [_ Hs]. destruct (Hs _ _ _ _ _ E) as [_ Hr].
  destruct (Hr _ _ _ _ Hg) as [Hf Hu].
  assert (D : unanswered (map step_of pre) o r t \/ exists rel, first_answer (map step_of pre) o r t rel).
  { clear -Hg. destruct Hg as (_ & H1 & H2 & H3). induction (map step_of pre) as [|x l IH] using rev_ind.
    - left. intros st0 f0 [].
    - destruct IH as [IH|[rel IH]]; [|right; exists rel; apply first_answer_more, IH].
      destruct (parse_github_release_url (st_url x)) as [[[[o' r'] t'] f']|] eqn:Ep.
      + apply parse_release in Ep.
        destruct (st_api x (release_address o r t)) as [rel|] eqn:Ea.
        * destruct (string_dec o o') as [->|Ho]; [destruct (string_dec r r') as [->|Hr]; [destruct (string_dec t t') as [->|Ht]|]|].
          -- right. exists rel, l, x, [], f'. auto.
          -- left. apply unanswered_more; [exact IH|]. intros f0 Hg. destruct (release_unique _ _ _ _ _ _ _ _ _ Hg Ep) as (_ & _ & ? & _). congruence.
          -- left. apply unanswered_more; [exact IH|]. intros f0 Hg. destruct (release_unique _ _ _ _ _ _ _ _ _ Hg Ep) as (_ & ? & _). congruence.
          -- left. apply unanswered_more; [exact IH|]. intros f0 Hg. destruct (release_unique _ _ _ _ _ _ _ _ _ Hg Ep) as (? & _). congruence.
        * left. apply unanswered_more; [exact IH|]. intros f0 _. exact Ea.
      + left. apply unanswered_more; [exact IH|]. intros f0 Hg. apply parse_release in Hg. congruence. }
  destruct D as [D|[rel D]].
  - destruct (Hu D) as [Hu1 Hu2]. destruct (st_api st (release_address o r t)) as [rel|] eqn:Ea.
    + destruct (Hu1 rel eq_refl) as [_ Hl]. exists st, f, rel.
      split; [apply in_elt|]. split; [exact Hg|]. split; [exact Ea|]. apply Hl. reflexivity.
    + destruct (Hu2 eq_refl) as [_ K]. discriminate.
  - destruct (Hf rel D) as [_ Hl]. destruct D as (b & st' & a & f' & Eb & Hg' & Ha & _).
    exists st', f', rel. split; [rewrite Eb, <- app_assoc; apply in_elt|].
    split; [exact Hg'|]. split; [exact Ha|]. apply Hl. reflexivity.
Qed.

(* ------------------------------------------------------------------ *)
(* Tokens *)

Definition tokens_of (l : list (step * request)) : list (option string) := map (fun p => rq_token (snd p)) l.
Definition moments_of (l : list (step * request)) : history := map (fun p => moment (fst p)) l.

Lemma run_history_app rules : forall h1 cache h2 t1 c1 t2 c2,
  run_history rules cache h1 = (t1, c1) -> run_history rules c1 h2 = (t2, c2) ->
  run_history rules cache (h1 ++ h2) = (t1 ++ t2, c2).
Proof.
  induction h1 as [|[w u] h1 IH]; intros cache h2 t1 c1 t2 c2 H1 H2; cbn in *.
  - injection H1 as <- <-. exact H2.
  - destruct (auth_resolve w rules cache u) as [tok c0].
    destruct (run_history rules c0 h1) as [t0 c0'] eqn:E. injection H1 as <- <-.
    rewrite (IH _ _ _ _ _ _ E H2). reflexivity.
Qed.

Lemma norm_tokens rules s st rqs got s' : normalize_github_url rules s st = (rqs, got, s') ->
  run_history rules (s_commands s) (map (fun _ => moment st) rqs) = (map rq_token rqs, s_commands s').
Proof.
  unfold normalize_github_url. destruct (parse_github_release_url (st_url st)) as [[[[o r] t] f]|].
  - destruct (lookup String.eqb (cache_key o r t) (s_releases s)) as [rel|].
    + intros H. injection H as <- <- <-. reflexivity.
    + destruct (auth_resolve (st_world st) rules (s_commands s) (st_url st)) as [tok cmds] eqn:E.
      destruct (st_api st (api_url o r t)) as [rel|]; intros H; injection H as <- <- <-; cbn; rewrite E; reflexivity.
  - intros H. injection H as <- <- <-. reflexivity.
Qed.

Lemma download_tokens rules s st rqs got s' : download rules s st = (rqs, got, s') ->
  run_history rules (s_commands s) (map (fun _ => moment st) rqs) = (map rq_token rqs, s_commands s').
Proof.
  unfold download. destruct (normalize_github_url rules s st) as [[rqs0 got0] s0] eqn:En.
  apply norm_tokens in En. destruct got0 as [u|].
  - destruct (auth_resolve (st_world st) rules (s_commands s0) (st_url st)) as [tok cmds] eqn:E.
    intros H. injection H as <- <- <-. rewrite !map_app. cbn [s_commands].
    eapply run_history_app; [exact En|]. cbn. rewrite E. reflexivity.
  - intros H. injection H as <- <- <-. exact En.
Qed.

Lemma session_tokens rules : forall steps s, exists c,
  run_history rules (s_commands s) (moments_of (all_requests (session rules s steps)))
  = (tokens_of (all_requests (session rules s steps)), c).
Proof.
  induction steps as [|x steps IH]; intros s; cbn.
  - exists (s_commands s). reflexivity.
  - destruct (download rules s x) as [[rqs got] s0] eqn:Ed.
    destruct (IH s0) as [c Hc]. exists c. cbn. unfold moments_of, tokens_of in *. rewrite !map_app.
    eapply run_history_app; [|exact Hc]. rewrite !map_map. cbn.
    exact (download_tokens _ _ _ _ _ _ Ed).
Qed.

Lemma session_times rules : forall steps s t, times_ordered t (map moment steps) ->
  times_ordered t (moments_of (all_requests (session rules s steps))).
Proof.
  assert (Hle : forall h t t', t' <= t -> times_ordered t h -> times_ordered t' h).
  { intros [|[w u] h] t t' Hl H; cbn in *; [auto|]. split; [lia|tauto]. }
  induction steps as [|x steps IH]; intros s t H; cbn; [auto|].
  destruct (download rules s x) as [[rqs got] s0]. cbn in H. destruct H as [H1 H2].
  specialize (IH s0 _ H2). cbn. unfold moments_of in *. rewrite map_app, map_map.
  assert (K : forall t', t' <= w_now (st_world x) ->
     times_ordered t' (map (fun _ : request => moment x) rqs ++
        map (fun p => moment (fst p)) (all_requests (session rules s0 steps)))).
  { induction rqs as [|q rqs IHq]; intros t' Ht'; cbn.
    - eapply Hle; [exact Ht'|exact IH].
    - split; [exact Ht'|]. apply IHq. lia. }
  apply K, H1.
Qed.

(* Every token sent in a session, to the API or for the file, belongs to the rule the user
   expects for the URL that download was given: it is the literal of that rule, the present
   value of its variable, or what its helper command printed now or less than thirty seconds
   before.  A download no rule applies to sends none. *)
Theorem C121_tokens :
  forall (rules : list auth_rule) (steps : list step) pre st rq post,
    times_ordered 0 (map moment steps) ->
    all_requests (session (auth_new rules) new_process steps) = pre ++ (st, rq) :: post ->
    (forall t, rq_token rq = Some t ->
       exists r, chosen_rule rules (st_url st) r /\
         token_of_rule (map (fun p => moment (fst p)) pre) (st_world st) r t) /\
    ((forall r, In r rules -> ~ applies r (st_url st)) -> rq_token rq = None).
Proof.
  intros rules steps pre st rq post Ht E.
  destruct (session_tokens (auth_new rules) steps new_process) as [c Hc].
  pose proof (session_times (auth_new rules) steps new_process 0 Ht) as Ho.
  rewrite E in *.
  destruct (C18_tokens_of_every_history rules _ _ _ Ho Hc) as [_ K].
  assert (G : forall t, rq_token rq = Some t ->
       exists r, chosen_rule rules (st_url st) r /\
         token_of_rule (map (fun p => moment (fst p)) pre) (st_world st) r t).
  { intros t Hr. apply (K (moments_of pre) (st_world st) (st_url st) (moments_of post)).
    - unfold moments_of. rewrite map_app. reflexivity.
    - unfold moments_of, tokens_of. rewrite map_length, map_app, nth_error_app2; rewrite map_length; [|lia].
      rewrite Nat.sub_diag. cbn. rewrite Hr. reflexivity. }
  split; [exact G|]. intros Hn. destruct (rq_token rq) as [t|]; [|reflexivity].
  destruct (G t eq_refl) as (r & (Ha & _ & b & a & Er & _) & _). exfalso.
  apply (Hn r); [rewrite Er; apply in_elt|exact Ha].
Qed.

(* ------------------------------------------------------------------ *)
(* Cases *)

Definition w0 : world := mk_world 0 (fun _ => None) (fun _ => None).
Definition base : string := "https://github.com/o/r/releases/download/".
Definition answer1 : release := Some [(Some "m.yaml", Some "u/1"); (Some "s.yaml", Some "u/2")].
Definition answer2 : release := Some [(Some "m.yaml", Some "u/9")].

Example C121_case :
  map (fun e : entry => (addresses (snd (fst e)), snd e))
    (session (auth_new []) new_process
       [mk_step w0 (fun _ => None) (base ++ "v1/m.yaml")%string;
        mk_step w0 (fun _ => Some answer1) (base ++ "v1/m.yaml")%string;
        mk_step w0 (fun _ => None) (base ++ "v1/s.yaml")%string;
        mk_step w0 (fun _ => Some answer2) (base ++ "v2/m.yaml")%string;
        mk_step w0 (fun _ => None) "https://x/y"])
  = [([release_address "o" "r" "v1"], None);
     ([release_address "o" "r" "v1"; "u/1"], Some "u/1");
     (["u/2"], Some "u/2");
     ([release_address "o" "r" "v2"; "u/9"], Some "u/9");
     (["https://x/y"], Some "https://x/y")].
Proof. reflexivity. Qed.

Example C121_tokens_case :
  map (fun p : step * request => (rq_url (snd p), rq_token (snd p)))
    (all_requests (session
       (auth_new [mk_rule "https://github.com/o" None (TokenCommand ["gh"]); mk_rule "https://x" None (Token "k")])
       new_process
       [mk_step (mk_world 5 (fun _ => None) (run_token_command (fun _ _ => Some (mk_output true "t1")))) (fun _ => Some answer1) (base ++ "v1/m.yaml")%string;
        mk_step (mk_world 9 (fun _ => None) (run_token_command (fun _ _ => Some (mk_output false "t2")))) (fun _ => None) (base ++ "v1/s.yaml")%string;
        mk_step (mk_world 9 (fun _ => None) (fun _ => None)) (fun _ => None) "https://z/y"]))
  = [(release_address "o" "r" "v1", Some "t1"); ("u/1", Some "t1"); ("u/2", Some "t1"); ("https://z/y", None)].
Proof. reflexivity. Qed.

(* A process does not see that a file of a release has been replaced. *)
Theorem C121_fresh_refuted :
  ~ (forall rules steps pre st rqs u post owner repo tag file rel,
       session (auth_new rules) new_process steps = pre ++ (st, rqs, Some u) :: post ->
       github_release (st_url st) owner repo tag file ->
       st_api st (release_address owner repo tag) = Some rel -> listed rel file u).
Proof.
  intros H.
  assert (Hg : github_release (base ++ "v1/m.yaml")%string "o" "r" "v1" "m.yaml")
    by (split; [reflexivity|cbn; intuition discriminate]).
  pose (a := mk_step w0 (fun _ => Some answer1) (base ++ "v1/m.yaml")%string).
  pose (b := mk_step w0 (fun _ => Some answer2) (base ++ "v1/m.yaml")%string).
  pose proof (H [] [a; b] _ b [mk_request "u/1" None] "u/1" [] "o" "r" "v1" "m.yaml" answer2
     (eq_refl : session (auth_new []) new_process [a; b] =
        [(a, [mk_request (release_address "o" "r" "v1") None; mk_request "u/1" None], Some "u/1")] ++ _) Hg eq_refl) as K.
  apply asset_listed in K. discriminate.
Qed.

(* The files of a release whose tag contains a slash cannot be fetched: the tag ends at
   its first slash. *)
Theorem C121_slash_refuted :
  ~ (forall rules st owner repo tag file rel u,
       st_url st = ("https://github.com/" ++ owner ++ "/" ++ repo ++ "/releases/download/" ++ tag ++ "/" ++ file)%string ->
       st_api st (release_address owner repo tag) = Some rel -> listed rel file u ->
       exists rqs, session (auth_new rules) new_process [st] = [(st, rqs, Some u)]).
Proof.
  intros H.
  pose (api := fun a => if String.eqb a (release_address "o" "r" "rel/1.0") then Some answer1 else None).
  destruct (H [] (mk_step w0 api (base ++ "rel/1.0/m.yaml")%string) "o" "r" "rel/1.0" "m.yaml" answer1 "u/1" eq_refl eq_refl) as [rqs E].
  - exists [], [(Some "s.yaml", Some "u/2")]. split; [reflexivity|]. intros x [].
  - vm_compute in E. discriminate.
Qed.

(* Neither can a file whose address carries a query, although its name has none. *)
Theorem C121_query_refuted :
  ~ (forall rules st owner repo tag file query rel u,
       github_release (st_url st) owner repo tag (file ++ "?" ++ query)%string ->
       st_api st (release_address owner repo tag) = Some rel -> listed rel file u ->
       exists rqs, session (auth_new rules) new_process [st] = [(st, rqs, Some u)]).
Proof.
  intros H.
  destruct (H [] (mk_step w0 (fun _ => Some answer1) (base ++ "v1/m.yaml?download=1")%string)
     "o" "r" "v1" "m.yaml" "download=1" answer1 "u/1") as [rqs E].
  - split; [reflexivity|cbn; intuition discriminate].
  - reflexivity.
  - exists [], [(Some "s.yaml", Some "u/2")]. split; [reflexivity|]. intros x [].
  - vm_compute in E. discriminate.
Qed.

(* ------------------------------------------------------------------ *)
(* The downloaded file *)

Lemma has_char_any c s : any_char (fun d => Ascii.eqb d c) s = false -> ~ has_char c s.
Proof.
  induction s as [|d s IH]; cbn; [auto|]. intros H. apply orb_false_iff in H as [H1 H2].
  intros [->|K]; [rewrite Ascii.eqb_refl in H1; discriminate|exact (IH H2 K)].
Qed.

Lemma split_char_free x : ~ has_char "/"%char x -> split_char "/"%char x = [x].
Proof.
  induction x as [|c x IH]; cbn; [reflexivity|]. intros H.
  destruct (Ascii.eqb_spec c "/"%char) as [E|E]; [tauto|]. rewrite IH by tauto. reflexivity.
Qed.

Lemma split_char_last b x : ~ has_char "/"%char x ->
  split_char "/"%char (b ++ String "/"%char x)%string = split_char "/"%char b ++ [x].
Proof.
  intros H. induction b as [|c b IH]; cbn.
  - rewrite split_char_free by exact H. reflexivity.
  - destruct (Ascii.eqb c "/"%char); [rewrite IH; reflexivity|]. rewrite IH.
    pose proof (split_char_ne "/"%char b) as K. destruct (split_char "/"%char b); [congruence|reflexivity].
Qed.

Lemma plain_component n : n <> "" -> ~ has_char "/"%char n -> n <> "." -> n <> ".." -> components n = [Normal n].
Proof.
  intros H1 H2 H3 H4. unfold components.
  assert (E : split_slash n = [n]).
  { clear H1 H3 H4. induction n as [|c n IH]; cbn; [reflexivity|]. cbn in H2.
    destruct (Ascii.eqb_spec c "/"%char) as [E|E]; [tauto|]. rewrite IH by tauto. reflexivity. }
  rewrite E. cbn [flat_map]. rewrite app_nil_r.
  destruct (starts_with "/" n) eqn:Es.
  - exfalso. apply starts_with_spec in Es. destruct Es as [r ->]. apply H2. left. reflexivity.
  - destruct (String.eqb_spec n ".") as [K|_]; [congruence|]. unfold seg_component.
    destruct (String.eqb_spec n "") as [K|_]; [congruence|].
    destruct (String.eqb_spec n ".") as [K|_]; [congruence|].
    destruct (String.eqb_spec n "..") as [K|_]; [congruence|]. reflexivity.
Qed.

(* A downloaded file gets the last part of the path of its URL as name, or a fixed name
   when there is none: never empty, never with a slash, so it is put right inside the
   temporary directory unless that part is one of the two dots-only names (which parsing a
   URL removes).  Its content is the one the download found. *)
Theorem C121_file :
  forall (url_parse : string -> option parsed_url) (rules : list auth_rule) (s : state) (st : step)
         rqs name from s',
    remote_file url_parse rules s st = (rqs, Some (name, from), s') ->
    name <> "" /\ ~ has_char "/"%char name /\
    (name <> "." -> name <> ".." -> components name = [Normal name]) /\
    (exists p, url_parse (st_url st) = Some p /\
       (forall before part, pu_opaque p = false -> pu_path p = (before ++ "/" ++ part)%string ->
          ~ has_char "/"%char part -> part <> "" -> name = part) /\
       (forall before, pu_opaque p = false -> pu_path p = (before ++ "/")%string -> name = "downloaded_file") /\
       (pu_opaque p = true -> name = "downloaded_file")) /\
    download rules s st = (rqs, Some from, s').
Proof.
  intros url_parse rules s st rqs name from s' H. unfold remote_file in H.
  destruct (file_name url_parse (st_url st)) as [n|] eqn:En; [|discriminate].
  destruct (download rules s st) as [[rqs0 got0] s0] eqn:Ed.
  destruct got0 as [u|]; [|discriminate]. injection H as <- <- <- <-.
  unfold file_name in En. destruct (url_parse (st_url st)) as [p|] eqn:Ep; [|discriminate].
  injection En as En.
  assert (Hd : "downloaded_file" <> "" /\ ~ has_char "/"%char "downloaded_file")
    by (split; [discriminate|cbn; intuition discriminate]).
  assert (G : n <> "" /\ ~ has_char "/"%char n).
  { subst n. destruct (path_segments p) as [segs|] eqn:Es; [|exact Hd].
    destruct (rev segs) as [|x l] eqn:Er; [exact Hd|].
    destruct (String.eqb_spec x "") as [E|E]; [exact Hd|]. split; [exact E|].
    unfold path_segments in Es. destruct (pu_opaque p); [discriminate|].
    destruct (pu_path p) as [|c path]; injection Es as <-; [discriminate|].
    apply has_char_any. apply (split_char_pieces "/"%char path).
    apply in_rev. rewrite Er. left. reflexivity. }
  destruct G as [G1 G2]. split; [exact G1|]. split; [exact G2|]. split; [|split; [|reflexivity]].
  - intros K1 K2. apply plain_component; assumption.
  - exists p. split; [reflexivity|]. split.
    + intros before part Ho Hp Hs Hne. subst n. unfold path_segments. rewrite Ho, Hp.
      destruct before as [|c before].
      * cbn. rewrite split_char_free by exact Hs. cbn. destruct (String.eqb_spec part ""); [congruence|reflexivity].
      * cbn. rewrite split_char_last by exact Hs. rewrite rev_app_distr. cbn.
        destruct (String.eqb_spec part ""); [congruence|reflexivity].
    + split.
      * intros before Ho Hp. subst n. unfold path_segments. rewrite Ho, Hp.
        destruct before as [|c before]; [reflexivity|]. cbn.
        rewrite split_char_last by (intros []). rewrite rev_app_distr. reflexivity.
      * intros Ho. subst n. unfold path_segments. rewrite Ho. reflexivity.
Qed.

Example C121_file_case :
  let parse := fun u => if String.eqb u "https://x/a/m.yaml?q" then Some (mk_parsed "https" "/a/m.yaml" false) else None in
  remote_file parse [] new_process (mk_step w0 (fun _ => None) "https://x/a/m.yaml?q")
  = ([mk_request "https://x/a/m.yaml?q" None], Some ("m.yaml", "https://x/a/m.yaml?q"), new_process).
Proof. reflexivity. Qed.

Print Assumptions C121_token.
Print Assumptions C121_token_line.
Print Assumptions C121_blank_line_refuted.
Print Assumptions C121_session.
Print Assumptions C121_not_mixed.
Print Assumptions C121_tokens.
Print Assumptions C121_fresh_refuted.
Print Assumptions C121_slash_refuted.
Print Assumptions C121_query_refuted.
Print Assumptions C121_file.
