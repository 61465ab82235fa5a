(* C87: data documents are offered to policies under their place. *)
From Coq Require Import String Ascii Bool Arith Lia List.
Import ListNotations.
From Verif Require Import Base Json BaseProofs BaseProofs2 ResultModel PolicyModel PolicySpec.
From Verif Require LiveModel LoadModel VdirModel StrProofs Str FileProofs.
Local Open Scope string_scope.

(* ---------- patterns ---------- *)
Lemma wild_iff s : wild s = true <-> wildcard s.
Proof.
  unfold wild, wildcard. rewrite !orb_true_iff, !contains_spec. split.
  - intros [[(a & b & E)|(a & b & E)]|(a & b & E)];
      [exists a, "*", b|exists a, "?", b|exists a, "[", b]; split; auto.
  - intros (a & c & b & E & [->|[->| ->]]); [left; left|left; right|right]; exists a, b; exact E.
Qed.
Lemma split_after cs : split_components cs true = ([], map shown_as cs).
Proof.
  induction cs as [|c cs IH]; [reflexivity|]. cbn [split_components orb]. rewrite IH. destruct c; reflexivity.
Qed.
Lemma split_before cs base rest : split_components cs false = (base, rest) ->
  exists tail, cs = app base tail /\ (forall c, In c base -> ~ wildcard (shown_as c))
    /\ rest = map shown_as tail
    /\ (tail = [] \/ exists c t, tail = c :: t /\ wildcard (shown_as c)).
Proof.
  revert base rest. induction cs as [|c cs IH]; intros base rest H; cbn [split_components] in H.
  - injection H as <- <-. exists []. split; [reflexivity|]. split; [intros c []|]. auto.
  - cbn [orb] in H. assert (O : VdirModel.os_str c = shown_as c) by (destruct c; reflexivity).
    rewrite O in H. destruct (wild (shown_as c)) eqn:W.
    + rewrite split_after in H. injection H as <- <-. exists (c :: cs). split; [reflexivity|].
      split; [intros x []|]. split; [reflexivity|]. right. exists c, cs. split; [reflexivity|]. apply wild_iff. exact W.
    + destruct (split_components cs false) as [b r]. injection H as <- <-.
      destruct (IH b r eq_refl) as (tail & -> & Hb & Hr & Ht). exists tail. split; [reflexivity|].
      split; [|auto]. intros x [<-|I]; [|auto]. rewrite <- wild_iff. congruence.
Qed.
Lemma join_concat l : join "/" l = String.concat "/" l.
Proof.
  induction l as [|x [|y l] IH]; [reflexivity..|].
  change (x ++ "/" ++ join "/" (y :: l) = x ++ "/" ++ String.concat "/" (y :: l)). rewrite IH. reflexivity.
Qed.

(* The place to look is the part of the pattern before its first component with a wildcard;
   the rest is matched below that place. *)
Theorem C87_split : forall pattern base rest, split_glob pattern = (base, rest) ->
  exists tail, VdirModel.components pattern = app base tail
    /\ (forall c, In c base -> ~ wildcard (shown_as c))
    /\ ((tail = [] /\ rest = "")
        \/ exists c t, tail = c :: t /\ wildcard (shown_as c)
             /\ rest = String.concat "/" (map shown_as tail)).
Proof.
  intros pattern base rest. unfold split_glob.
  destruct (split_components (VdirModel.components pattern) false) as [b r] eqn:E. intros H. injection H as <- <-.
  apply split_before in E as (tail & Ec & Hb & -> & Ht). exists tail. split; [exact Ec|]. split; [exact Hb|].
  destruct Ht as [->|(c & t & -> & W)]; [left; auto|right]. exists c, t. split; [reflexivity|]. split; [exact W|].
  cbn [map]. apply join_concat.
Qed.

(* ---------- one file ---------- *)
Lemma nested_wrap ks v : nested ks v (wrap ks v).
Proof. induction ks as [|k ks IH]; cbn; constructor. exact IH. Qed.
Lemma nested_fun ks v d : nested ks v d -> d = wrap ks v.
Proof. induction 1 as [|k ks v d _ IH]; cbn; [reflexivity|]. rewrite IH. reflexivity. Qed.

Lemma nodot_json : FileProofs.nodot "json".
Proof. apply FileProofs.last_dot_none. reflexivity. Qed.
Lemma stem_of s e : s <> "" -> e <> "" -> FileProofs.nodot e -> file_stem (s ++ String "."%char e) = s.
Proof.
  intros Ns Ne Nd. unfold file_stem.
  assert (X : LoadModel.extension (s ++ String "."%char e) = e)
    by (apply FileProofs.extension_is; [exact Ne|exact Nd|]; exists s; auto).
  rewrite X. destruct e as [|c e]; [congruence|].
  assert (L : String.length (s ++ String "."%char (String c e)) - S (String.length (String c e)) = String.length s).
  { rewrite str_length_app. cbn. lia. }
  rewrite L. apply StrProofs.str_take_app.
Qed.
Lemma ext_of n e : e <> "" -> FileProofs.nodot e ->
  (String.eqb (LoadModel.extension n) e = true <-> exists s, s <> "" /\ n = s ++ String "."%char e).
Proof. intros Ne Nd. rewrite String.eqb_eq. apply FileProofs.extension_is; assumption. Qed.

Lemma name_of n :
  (exists s fm, data_name n s fm /\ file_stem n = s
     /\ forall f, df_name f = n ->
        (if String.eqb (LoadModel.extension n) "json" then Some (df_json f)
         else if String.eqb (LoadModel.extension n) "yaml" || String.eqb (LoadModel.extension n) "yml"
              then Some (df_yaml f) else None) = Some (content f fm))
  \/ ((forall s fm, ~ data_name n s fm)
      /\ String.eqb (LoadModel.extension n) "json" = false /\ String.eqb (LoadModel.extension n) "yaml" = false
      /\ String.eqb (LoadModel.extension n) "yml" = false).
Proof.
  assert (J := ext_of n "json" ltac:(discriminate) nodot_json).
  assert (Y := ext_of n "yaml" ltac:(discriminate) FileProofs.nodot_yaml).
  assert (M := ext_of n "yml" ltac:(discriminate) FileProofs.nodot_yml).
  destruct (String.eqb (LoadModel.extension n) "json") eqn:EJ.
  { destruct (proj1 J eq_refl) as (s & Ns & E). left. exists s, AsJson. split; [rewrite E; constructor; exact Ns|].
    split; [rewrite E; apply stem_of; [exact Ns|discriminate|apply nodot_json]|]. intros f _. reflexivity. }
  destruct (String.eqb (LoadModel.extension n) "yaml") eqn:EY.
  { destruct (proj1 Y eq_refl) as (s & Ns & E). left. exists s, AsYaml. split; [rewrite E; apply name_yaml; exact Ns|].
    split; [rewrite E; apply stem_of; [exact Ns|discriminate|apply FileProofs.nodot_yaml]|]. intros f _. reflexivity. }
  destruct (String.eqb (LoadModel.extension n) "yml") eqn:EM.
  { destruct (proj1 M eq_refl) as (s & Ns & E). left. exists s, AsYaml. split; [rewrite E; apply name_yml; exact Ns|].
    split; [rewrite E; apply stem_of; [exact Ns|discriminate|apply FileProofs.nodot_yml]|]. intros f _. reflexivity. }
  right. split; [|auto]. intros s fm H. destruct H as [s Ns|s Ns|s Ns];
    [assert (K := proj2 J (ex_intro _ s (conj Ns eq_refl)))|assert (K := proj2 Y (ex_intro _ s (conj Ns eq_refl)))
    |assert (K := proj2 M (ex_intro _ s (conj Ns eq_refl)))]; discriminate K.
Qed.
Lemma offers_file R (e : engine R) dirs f :
  exists s' x, offers R dirs f (en_state e) s' x
    /\ add_data_file e dirs f = (mk_engine s' (en_count e) (en_packages e), x).
Proof.
  unfold add_data_file. assert (Ee : e = mk_engine (en_state e) (en_count e) (en_packages e)) by (destruct e; reflexivity).
  destruct (df_readable f) eqn:Er; cbn [negb].
  2:{ exists (en_state e), (Some (AccessDenied (df_name f))). split; [constructor; exact Er|congruence]. }
  destruct (name_of (df_name f)) as [(s & fm & Hn & Hs & Hc)|(N & E1 & E2 & E3)].
  - rewrite (Hc f eq_refl), Hs. destruct (content f fm) as [v|] eqn:Ec.
    + set (d := wrap (app dirs [s]) v).
      assert (D : document dirs f d) by (exists s, fm, v; split; [exact Hn|]; split; [exact Ec|apply nested_wrap]).
      unfold add_data. destruct (ri_data R (en_state e) d) as [s1 ok] eqn:Ed. destruct ok.
      * exists s1, None. split; [|reflexivity]. replace s1 with (fst (ri_data R (en_state e) d)) by (rewrite Ed; reflexivity).
        apply offers_document; [exact Er|exact D|rewrite Ed; reflexivity].
      * exists s1, (Some (InvalidData "")). split; [|reflexivity].
        replace s1 with (fst (ri_data R (en_state e) d)) by (rewrite Ed; reflexivity).
        apply offers_conflict; [exact Er|exact D|rewrite Ed; reflexivity].
    + exists (en_state e), (Some (InvalidData (df_name f))). split; [eapply offers_invalid; eauto|congruence].
  - rewrite E1, E2, E3. exists (en_state e), None. split; [apply offers_skipped; [exact Er|exact N]|].
    cbn [orb]. congruence.
Qed.

(* ---------- all files ---------- *)
Lemma offers_files R base m l : forall e : engine R,
  exists s' es, offers_all R base m l (en_state e) s' es
    /\ add_data_files e base m l = (mk_engine s' (en_count e) (en_packages e), es).
Proof.
  induction l as [|x l IH]; intros e; cbn [add_data_files].
  - exists (en_state e), []. split; [constructor|]. destruct e; reflexivity.
  - destruct x as [f|].
    + destruct (m (df_dir f) (df_name f)) eqn:Em.
      * destruct (offers_file R e (df_dir f) f) as (s1 & x & Ho & ->).
        destruct (IH (mk_engine s1 (en_count e) (en_packages e))) as (s' & es & Ha & E).
        destruct x as [x|]; rewrite E.
        -- exists s', (x :: es). split; [|reflexivity]. exact (all_matched R base m f l _ _ _ (Some x) es Em Ho Ha).
        -- exists s', es. split; [|reflexivity]. exact (all_matched R base m f l _ _ _ None es Em Ho Ha).
      * destruct (IH e) as (s' & es & Ha & E). rewrite E. exists s', es. split; [|reflexivity].
        apply all_unmatched; assumption.
    + destruct (IH e) as (s' & es & Ha & ->). exists s', (AccessDenied base :: es). split; [|reflexivity].
      apply all_unlisted. exact Ha.
Qed.
Lemma dot_tail a b : FileProofs.nodot a -> FileProofs.nodot b -> forall s t,
  s ++ String "."%char a = t ++ String "."%char b -> s = t /\ a = b.
Proof.
  intros Na Nb s t E.
  assert (K : LoadModel.last_dot (s ++ String "."%char a) = Some a) by (apply FileProofs.last_dot_some; eauto).
  assert (K' : LoadModel.last_dot (t ++ String "."%char b) = Some b) by (apply FileProofs.last_dot_some; eauto).
  rewrite E, K' in K. injection K as <-. split; [|reflexivity].
  assert (L : String.length s = String.length t).
  { apply (f_equal String.length) in E. rewrite !str_length_app in E. cbn in E. lia. }
  rewrite <- (StrProofs.str_take_app s (String "."%char b)), E, L. apply StrProofs.str_take_app.
Qed.
Lemma data_name_fun n s fm s' fm' : data_name n s fm -> data_name n s' fm' -> s = s' /\ fm = fm'.
Proof.
  intros H H'. inversion H as [a Na|a Na|a Na]; inversion H' as [b Nb|b Nb|b Nb]; subst;
  match goal with E : ?x ++ String "."%char ?p = ?y ++ String "."%char ?q |- _ =>
    apply dot_tail in E as [-> E]; [try discriminate E; auto|..] end;
  first [apply nodot_json|apply FileProofs.nodot_yaml|apply FileProofs.nodot_yml].
Qed.
Lemma document_fun dirs f d d' : document dirs f d -> document dirs f d' -> d = d'.
Proof.
  intros (s & fm & v & Hn & Hc & Hd) (s' & fm' & v' & Hn' & Hc' & Hd').
  destruct (data_name_fun _ _ _ _ _ Hn Hn') as [<- <-]. rewrite Hc in Hc'. injection Hc' as <-.
  apply nested_fun in Hd, Hd'. congruence.
Qed.
Lemma offers_fun R dirs f s s1 x s2 y : offers R dirs f s s1 x -> offers R dirs f s s2 y -> s1 = s2 /\ x = y.
Proof.
  intros H H'.
  destruct H as [s Er|s Er N|s st fm Er Hn Hc|s d Er Hd Ho|s d Er Hd Ho];
    inversion H' as [s0 Er'|s0 Er' N'|s0 st' fm' Er' Hn' Hc'|s0 d' Er' Hd' Ho'|s0 d' Er' Hd' Ho']; subst;
    try congruence; try (split; reflexivity);
    try solve [exfalso; match goal with N : not_data f, D : document _ _ _ |- _ =>
                 destruct D as (? & ? & ? & D & _); exact (N _ _ D) end];
    try solve [exfalso; match goal with N : not_data f, D : data_name _ _ _ |- _ => exact (N _ _ D) end];
    try solve [exfalso; match goal with D : document _ _ _, M : data_name _ _ _ |- _ =>
                 destruct D as (? & ? & ? & D & ? & _); destruct (data_name_fun _ _ _ _ _ D M) as [<- <-]; congruence end];
    match goal with D : document dirs f ?a, D' : document dirs f ?b |- _ =>
      pose proof (document_fun _ _ _ _ D D'); subst; split; congruence end.
Qed.
Lemma offers_all_fun R base m l s s1 es1 s2 es2 :
  offers_all R base m l s s1 es1 -> offers_all R base m l s s2 es2 -> s1 = s2 /\ es1 = es2.
Proof.
  intros H. revert s2 es2. induction H as [s|l s s' es H IH|f l s s' es Em H IH|f l s sm s' x es Em Ho H IH];
    intros s2 es2 H2.
  - inversion H2; subst. auto.
  - inversion H2 as [|l0 s0 s0' es0 H0| |]; subst. destruct (IH _ _ H0) as [-> ->]. auto.
  - inversion H2 as [| |f0 l0 s0 s0' es0 Em0 H0|]; subst; [apply IH; assumption|congruence].
  - inversion H2 as [| |f0 l0 s0 s0' es0 Em0 H0|f0 l0 s0 sm0 s0' x0 es0 Em0 Ho0 H0]; subst; [congruence|].
    destruct (offers_fun _ _ _ _ _ _ _ _ Ho Ho0) as [<- <-]. destruct (IH _ _ H0) as [-> ->]. auto.
Qed.

(* Every file found below the place that matches is offered, in turn, nested under the
   directories to it and its name without the extension; only files named .json, .yaml and .yml
   count; an error of one file does not keep the others from being offered. *)
Theorem C87_documents : forall R (e e' : engine R) base m l es,
  add_data_files e base m l = (e', es) <->
  offers_all R base m l (en_state e) (en_state e') es
  /\ en_count e' = en_count e /\ en_packages e' = en_packages e.
Proof.
  intros R e e' base m l es. destruct (offers_files R base m l e) as (s' & es' & Ha & E). rewrite E. split.
  - intros H. injection H as <- <-. cbn. auto.
  - intros (Ha' & Ec & Ep). destruct (offers_all_fun _ _ _ _ _ _ _ _ _ Ha Ha') as [-> ->].
    destruct e'; cbn in *. subst. reflexivity.
Qed.

(* The errors are gathered into one. *)
Lemma offers_plain R dirs f s s' x : offers R dirs f s s' (Some x) -> plain x.
Proof. intros H. inversion H; subst; intros l E; discriminate E. Qed.
Lemma offers_all_plain R base m l s s' es : offers_all R base m l s s' es -> Forall plain es.
Proof.
  induction 1 as [s|l s s' es H IH|f l s s' es Em H IH|f l s sm s' x es Em Ho H IH]; auto.
  - constructor; [intros l0 E; discriminate E|exact IH].
  - destruct x as [x|]; [|exact IH]. constructor; [eapply offers_plain; eauto|exact IH].
Qed.
Lemma handle_collected es : Forall plain es -> collected es (handle_errors es).
Proof.
  intros H. unfold collected. destruct es as [|x [|y es]]; cbn [handle_errors].
  - auto.
  - right. left. exists x. auto.
  - right. right. split; [cbn; lia|]. unfold compound. do 2 f_equal.
    induction H as [|z zs Hz Hs IH]; [reflexivity|]. cbn [flat_map]. rewrite IH.
    destruct z; try reflexivity. destruct (Hz errors eq_refl).
Qed.

(* A pattern: nothing at the place is an error and nothing is offered; a file is offered under its
   own name; a directory is searched, for everything if the pattern has no wildcard. *)
Theorem C87_pattern : forall R (e : engine R) stat_of glob pattern base rest,
  split_glob pattern = (base, rest) ->
  let place := match base with [] => [VdirModel.CurDir] | _ => base end in
  let shown := String.concat "/" (map shown_as place) in
  (stat_of place = None -> add_data_from e stat_of glob pattern = (e, RErr (AccessDenied shown)))
  /\ (forall f, stat_of place = Some (BaseFile f) -> rest = "" ->
      exists s' x, offers R [] f (en_state e) s' x
        /\ add_data_from e stat_of glob pattern
           = (mk_engine s' (en_count e) (en_packages e), match x with Some x => RErr x | None => ROk tt end))
  /\ (forall l, stat_of place = Some (BaseDir l) ->
      let pat := if String.eqb rest "" then "**/*" else rest in
      (glob pat = None -> add_data_from e stat_of glob pattern = (e, RErr (InvalidGlobPattern pat)))
      /\ (forall m, glob pat = Some m ->
          exists s' es r, offers_all R shown m l (en_state e) s' es /\ collected es r
            /\ add_data_from e stat_of glob pattern = (mk_engine s' (en_count e) (en_packages e), r))).
Proof.
  intros R e stat_of glob pattern base rest Hs. cbv zeta. unfold add_data_from. rewrite Hs.
  set (place := match base with [] => [VdirModel.CurDir] | _ => base end).
  assert (Es : join "/" (map VdirModel.os_str place) = String.concat "/" (map shown_as place)).
  { rewrite join_concat. reflexivity. }
  rewrite Es. split; [|split].
  - intros ->. reflexivity.
  - intros f Hf Hr. rewrite Hf, Hr. destruct (offers_file R e [] f) as (s' & x & Ho & E). rewrite E.
    exists s', x. split; [exact Ho|]. destruct x; reflexivity.
  - intros l Hl. rewrite Hl.
    assert (K : forall pat,
      (glob pat = None -> match glob pat with
         | None => (e, RErr (InvalidGlobPattern pat))
         | Some m => let '(e', es) := add_data_files e (String.concat "/" (map shown_as place)) m l in
                     (e', match handle_errors es with ROk _ => ROk tt | RErr x => RErr x end)
         end = (e, RErr (InvalidGlobPattern pat)))
      /\ (forall m, glob pat = Some m ->
          exists s' es r, offers_all R (String.concat "/" (map shown_as place)) m l (en_state e) s' es /\ collected es r
            /\ match glob pat with
         | None => (e, RErr (InvalidGlobPattern pat))
         | Some m => let '(e', es) := add_data_files e (String.concat "/" (map shown_as place)) m l in
                     (e', match handle_errors es with ROk _ => ROk tt | RErr x => RErr x end)
         end = (mk_engine s' (en_count e) (en_packages e), r))).
    { intros pat. split; [intros ->; reflexivity|]. intros m ->.
      destruct (offers_files R (String.concat "/" (map shown_as place)) m l e) as (s' & es & Ha & E).
      rewrite E. exists s', es, (handle_errors es). split; [exact Ha|].
      split; [apply handle_collected; eapply offers_all_plain; eauto|].
      destruct (handle_errors es) as [[]|]; reflexivity. }
    destruct rest as [|c rest]; [apply (K "**/*")|]. apply (K (String c rest)).
Qed.

(* Files that differ only in their extension have the same place: what policies see for that
   name is left to the interpreter. *)
Theorem C87_place_refuted :
  ~ (forall dirs f g d, df_name f <> df_name g -> document dirs f d -> ~ document dirs g d).
Proof.
  intro H.
  apply (H [] (mk_data_file [] "a.json" true (Some JNull) None) (mk_data_file [] "a.yaml" true None (Some JNull))
           (JObj [("a", JNull)])).
  - discriminate.
  - exists "a", AsJson, JNull. split; [exact (name_json "a" ltac:(discriminate))|]. split; [reflexivity|]. repeat constructor.
  - exists "a", AsYaml, JNull. split; [exact (name_yaml "a" ltac:(discriminate))|]. split; [reflexivity|]. repeat constructor.
Qed.

(* ---------- cases ---------- *)
Example split_case :
  split_glob "data/v[12]/x/*.json" = ([VdirModel.Normal "data"], "v[12]/x/*.json")
  /\ split_glob "data/x.json" = ([VdirModel.Normal "data"; VdirModel.Normal "x.json"], "")
  /\ split_glob "*.json" = ([], "*.json").
Proof. split; [reflexivity|]. split; reflexivity. Qed.
Example documents_case :
  let f n j := mk_data_file ["sub"] n true j None in
  let e : engine echo := mk_engine (None : ri_state echo) 0 [] in
  add_data_from e (fun _ => Some (BaseDir [FoundFile (f "a.json" (Some JNull)); FoundFile (f "b.json" None);
                                            FoundError; FoundFile (f "c.txt" None)]))
    (fun p => if String.eqb p "**/*" then Some (fun _ _ => true) else None) "data"
  = (e, RErr (CompoundError [InvalidData "b.json"; AccessDenied "data"])).
Proof. reflexivity. Qed.
Example document_case :
  document ["sub"] (mk_data_file ["sub"] "a.json" true (Some (JStr "x")) None)
    (JObj [("sub", JObj [("a", JStr "x")])]).
Proof.
  exists "a", AsJson, (JStr "x"). split; [exact (name_json "a" ltac:(discriminate))|]. split; [reflexivity|].
  repeat constructor.
Qed.

Print Assumptions C87_split.
Print Assumptions C87_documents.
Print Assumptions C87_pattern.
Print Assumptions C87_place_refuted.
