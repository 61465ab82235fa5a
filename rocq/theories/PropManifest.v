(* C89: what a registry manifest means. *)
From Coq Require Import String Ascii Bool Arith Lia List.
Import ListNotations.
From Verif Require Import Base BaseProofs SemTypes Json Str UrlModel ResultModel ManifestModel ManifestSpec.
From Verif Require VdirModel LoadModel UrlSpec.
Local Open Scope string_scope.

(* ---------------------------------------------------------------- helpers *)

Lemma read_url_spec up s u : read_url up s = Some u <-> url_text up s u.
Proof.
  unfold read_url, url_text. destruct (schema_url_new up s); split; intros H; congruence.
Qed.

Lemma dep_value_spec up m d x : slookup "schema_url" m = Some x ->
  (dependency_of_value up m = Some d <-> declares up (JObj m) d).
Proof.
  intros G. unfold dependency_of_value. split.
  - destruct (slookup "schema_url" m) as [[| | |s| |]|] eqn:Hs; try discriminate.
    destruct (read_url up s) as [u|] eqn:Hu; [|discriminate]. apply read_url_spec in Hu.
    destruct (slookup "registry_path" m) as [[| | |p| |]|] eqn:Hp; try discriminate.
    + intros K. injection K as <-. eapply by_url; eauto. right. exact Hp.
    + destruct (VdirModel.parse_vdir p) as [v|] eqn:Hv; [|discriminate].
      intros K. injection K as <-. eapply by_url_at; eauto.
    + intros K. injection K as <-. eapply by_url; eauto. left. exact Hp.
  - intros H. inversion H as [m' s u A B C EQ1 EQ2 | m' s u p v A B C D EQ1 EQ2]; subst.
    + rewrite A. apply read_url_spec in B. rewrite B.
      destruct C as [C|C]; rewrite C; reflexivity.
    + rewrite A. apply read_url_spec in B. rewrite B, C, D. reflexivity.
Qed.

Lemma named_spec m n p : named_of_value m = Some (n, p) <->
  slookup "name" m = Some (JStr n) /\
  (exists t, slookup "registry_path" m = Some (JStr t) /\ VdirModel.parse_vdir t = Some p) /\
  (forall k x, In (k, x) m -> k = "name" \/ k = "registry_path").
Proof.
  unfold named_of_value.
  destruct (forallb _ m) eqn:F.
  - rewrite forallb_forall in F.
    assert (K : forall k x, In (k, x) m -> k = "name" \/ k = "registry_path").
    { intros k x I. specialize (F _ I). cbn [fst] in F. apply orb_true_iff in F.
      rewrite !String.eqb_eq in F. exact F. }
    split.
    + destruct (slookup "name" m) as [[| | |n'| |]|]; try discriminate.
      destruct (slookup "registry_path" m) as [[| | |t| |]|]; try discriminate.
      destruct (VdirModel.parse_vdir t) as [v|] eqn:V; [|discriminate].
      cbn. intros H. injection H as <- <-. eauto 6.
    + intros (-> & (t & -> & V) & _). rewrite V. reflexivity.
  - split; [discriminate|]. intros (_ & _ & K). exfalso.
    assert (T : forallb (fun kv : string * json => String.eqb (fst kv) "name" || String.eqb (fst kv) "registry_path") m = true).
    { apply forallb_forall. intros [k x] I. cbn [fst]. apply orb_true_iff. rewrite !String.eqb_eq. eauto. }
    congruence.
Qed.

Lemma declares_name_inv up m d : declares_name up (JObj m) d ->
  exists n p v u, d = mk_dependency u (Some v) /\
    slookup "schema_url" m = None /\ slookup "name" m = Some (JStr n) /\
    slookup "registry_path" m = Some (JStr p) /\ VdirModel.parse_vdir p = Some v /\
    (forall k x, In (k, x) m -> k = "name" \/ k = "registry_path") /\
    try_from_name_version up n unknown_version = Ok u.
Proof. intros H. inversion H; subst. eauto 12. Qed.

Lemma entry_ok up strict v d :
  parse_dependency up strict v = ROk d <->
  declares up v d \/ (strict = false /\ declares_name up v d).
Proof.
  unfold parse_dependency. destruct v as [| | | | |m];
    try (cbn; rewrite orb_true_r; split; [discriminate|];
         intros [H|[_ H]]; inversion H).
  cbn [value_get]. destruct (slookup "schema_url" m) as [x|] eqn:G.
  - destruct (dependency_of_value up m) as [d'|] eqn:D.
    + split.
      * intros H. injection H as ->. left. eapply dep_value_spec; eauto.
      * intros [H|[_ H]].
        -- eapply dep_value_spec in H; [|exact G]. congruence.
        -- inversion H. congruence.
    + split; [discriminate|]. intros [H|[_ H]].
      * eapply dep_value_spec in H; [|exact G]. congruence.
      * inversion H. congruence.
  - cbv zeta.
    assert (N : forall d, ~ declares up (JObj m) d).
    { intros d0 H. inversion H; congruence. }
    destruct (slookup "name" m) as [[| | |n| |]|] eqn:Hn; cbn [is_some negb];
      try (rewrite orb_true_r; split; [discriminate|];
           intros [H|[_ H]]; [destruct (N _ H)|inversion H; congruence]).
    rewrite orb_false_r. destruct strict.
    + split; [discriminate|]. intros [H|[K _]]; [destruct (N _ H)|discriminate].
    + destruct (named_of_value m) as [[n' p]|] eqn:D.
      * pose proof D as D0. apply named_spec in D. destruct D as (A & (t & B & C) & F).
        assert (n' = n) by congruence. subst n'.
        destruct (try_from_name_version up n unknown_version) as [u|e] eqn:U.
        -- split.
           ++ intros H. injection H as <-. right. split; [reflexivity|]. eapply by_name; eauto.
           ++ intros [H|[_ H]]; [destruct (N _ H)|].
              destruct (declares_name_inv _ _ _ H) as (n0 & p0 & v & u0 & -> & A1 & A2 & A3 & A4 & A5 & A6).
              assert (n0 = n) by congruence. subst n0.
              assert (p0 = t) by congruence. subst p0.
              assert (v = p) by congruence. subst v.
              assert (u0 = u) by congruence. subst u0. reflexivity.
        -- split; [discriminate|]. intros [H|[_ H]]; [destruct (N _ H)|].
           destruct (declares_name_inv _ _ _ H) as (n0 & p0 & v & u0 & -> & A1 & A2 & A3 & A4 & A5 & A6).
           assert (n0 = n) by congruence. subst n0.
           congruence.
      * split; [discriminate|]. intros [H|[_ H]]; [destruct (N _ H)|].
        destruct (declares_name_inv _ _ _ H) as (n0 & p0 & v & u0 & -> & A1 & A2 & A3 & A4 & A5 & A6).
        assert (K : named_of_value m = Some (n0, v)).
        { apply named_spec. split; [exact A2|]. split; [exists p0; auto|exact A5]. }
        congruence.
Qed.

Lemma entry_bad up strict v e :
  parse_dependency up strict v = RErr e <-> bad_entry up (negb strict) v e.
Proof.
  split.
  - unfold parse_dependency. destruct v as [| | | | |m];
      try (cbn; rewrite orb_true_r; intros H; injection H as <-;
           apply bad_no_name; [intros ? H; discriminate H|intros ? ? H; discriminate H]).
    cbn [value_get]. destruct (slookup "schema_url" m) as [x|] eqn:G.
    + destruct (dependency_of_value up m) as [d'|] eqn:D; [discriminate|].
      intros H. injection H as <-. eapply bad_url; [reflexivity|exact G|].
      intros d H. eapply dep_value_spec in H; [|exact G]. congruence.
    + cbv zeta.
      destruct (slookup "name" m) as [[| | |n| |]|] eqn:Hn; cbn [is_some negb];
        try (rewrite orb_true_r; intros H; injection H as <-;
             apply bad_no_name; [intros m' K; injection K as <-; exact G
                                |intros m' n K; injection K as <-; congruence]).
      rewrite orb_false_r. destruct strict.
      * intros H. injection H as <-. eapply bad_name_only; eauto.
      * destruct (named_of_value m) as [[n' p]|] eqn:D.
        -- apply named_spec in D. destruct D as (A & (t & B & C) & F).
           assert (n' = n) by congruence. subst n'.
           destruct (try_from_name_version up n unknown_version) as [u|e'] eqn:U; [discriminate|].
           intros H. injection H as <-. eapply bad_name; eauto.
           intros u K. unfold url_of in K. change "unknown" with unknown_version in K. congruence.
        -- intros H. injection H as <-. eapply bad_fields; eauto.
           intros (p & w & A & B & C).
           assert (K : named_of_value m = Some (n, w)).
           { apply named_spec. split; [exact Hn|]. split; [exists p; auto|exact C]. }
           congruence.
  - intros H. destruct (parse_dependency up strict v) as [d|e'] eqn:P.
    + exfalso. apply entry_ok in P.
      inversion H as [A B|m n A B C D|m x A B C|m n A B C D F|m n A B C D F G]; subst.
      * destruct P as [P|[_ P]]; inversion P; subst;
          first [specialize (A _ eq_refl); congruence
                |eapply B; [reflexivity|eassumption]].
      * destruct P as [P|[K _]]; [inversion P; congruence|subst strict; discriminate D].
      * destruct P as [P|[_ P]]; [eapply C; exact P|inversion P; congruence].
      * destruct P as [P|[_ P]]; [inversion P; congruence|].
        destruct (declares_name_inv _ _ _ P) as (n0 & p0 & v & u0 & -> & A1 & A2 & A3 & A4 & A5 & A6). apply F.
        exists p0, v. auto.
      * destruct P as [P|[_ P]]; [inversion P; congruence|].
        destruct (declares_name_inv _ _ _ P) as (n0 & p0 & v & u0 & -> & A1 & A2 & A3 & A4 & A5 & A6).
        assert (n0 = n) by congruence. subst n0. eapply F; eauto.
    + f_equal.
      assert (U : forall x y, bad_entry up (negb strict) v x -> parse_dependency up strict v = RErr y -> y = x).
      { clear. intros x y H P. unfold parse_dependency in P.
        inversion H as [A B|m n A B C D|m z A B C|m n A B C D F|m n A B C D F G]; subst.
        - destruct v as [| | | | |m]; try (cbn in P; rewrite orb_true_r in P; congruence).
          cbn [value_get] in P. rewrite (A _ eq_refl) in P. cbv zeta in P.
          destruct (slookup "name" m) as [[| | |n| |]|] eqn:Hn; cbn [is_some negb] in P;
            try (rewrite orb_true_r in P; congruence).
          destruct (B m n eq_refl Hn).
        - cbn [value_get] in P. rewrite B, C in P. cbn in P. rewrite orb_false_r in P.
          destruct strict; [congruence|discriminate].
        - cbn [value_get] in P. rewrite B in P.
          destruct (dependency_of_value up m) as [d|]; congruence.
        - cbn [value_get] in P. rewrite B, C in P. cbn [is_some negb] in P. rewrite orb_false_r in P.
          destruct strict; [discriminate|].
          destruct (named_of_value m) as [[n' p]|] eqn:E; [|congruence].
          apply named_spec in E. destruct E as (E1 & (t & E2 & E3) & E4).
          destruct F. exists t, p. auto.
        - cbn [value_get] in P. rewrite B, C in P. cbn [is_some negb] in P. rewrite orb_false_r in P.
          destruct strict; [discriminate|].
          destruct (named_of_value m) as [[n' p]|] eqn:E.
          + apply named_spec in E. destruct E as (E1 & _). assert (n' = n) by congruence. subst n'.
            destruct (try_from_name_version up n unknown_version) as [u|] eqn:U; [|congruence].
            destruct (F u). exact U.
          + destruct G as (t & w & G1 & G2 & G3).
            assert (K : named_of_value m = Some (n, w)).
            { apply named_spec. split; [exact C|]. split; [exists t; auto|exact G3]. }
            congruence. }
      eapply U; eauto.
Qed.

Lemma collect_ok {A B E} (f : A -> result B E) l bs :
  collect_all f l = ROk bs <-> Forall2 (fun a b => f a = ROk b) l bs.
Proof.
  revert bs. induction l as [|a l IH]; intros bs; cbn [collect_all].
  - split; intros H; [injection H as <-; constructor|inversion H; reflexivity].
  - destruct (f a) as [b|e] eqn:F.
    + destruct (collect_all f l) as [cs|e] eqn:C.
      * split; intros H.
        -- injection H as <-. constructor; [exact F|]. apply IH. reflexivity.
        -- inversion H as [|x y l1 l2 H1 H2]; subst. apply IH in H2. congruence.
      * split; intros H; [discriminate|].
        inversion H as [|x y l1 l2 H1 H2]; subst. apply IH in H2. congruence.
    + split; intros H; [discriminate|]. inversion H; congruence.
Qed.

Lemma collect_err {A B E} (f : A -> result B E) l e :
  collect_all f l = RErr e <->
  exists good a rest, l = app good (a :: rest) /\
    (forall x, In x good -> exists b, f x = ROk b) /\ f a = RErr e.
Proof.
  induction l as [|a l IH]; cbn [collect_all].
  - split; [discriminate|]. intros (g & a & r & H & _). destruct g; discriminate H.
  - destruct (f a) as [b|e'] eqn:F.
    + destruct (collect_all f l) as [cs|e'] eqn:C.
      * split; [discriminate|]. intros (g & x & r & H & G & X).
        destruct g as [|y g]; cbn in H; injection H as <- ->; [congruence|].
        assert (K : ROk cs = @RErr (list B) E e).
        { apply IH. exists g, x, r. split; [reflexivity|]. split; [|exact X]. intros z Z. apply G. right. exact Z. }
        discriminate K.
      * split.
        -- intros H. injection H as ->. destruct (proj1 IH eq_refl) as (g & x & r & -> & G & X).
           exists (a :: g), x, r. split; [reflexivity|]. split; [|exact X].
           intros z [<-|Z]; [eauto|auto].
        -- intros (g & x & r & H & G & X).
           destruct g as [|y g]; cbn in H; injection H as <- ->; [congruence|].
           apply IH. exists g, x, r. split; [reflexivity|]. split; [|exact X]. intros z Z. apply G. right. exact Z.
    + split.
      * intros H. injection H as ->. exists [], a, l. split; [reflexivity|]. split; [intros x []|exact F].
      * intros (g & x & r & H & G & X).
        destruct g as [|y g]; cbn in H; injection H as <- ->; [congruence|].
        destruct (G a (or_introl eq_refl)) as (b & K). congruence.
Qed.

Lemma Forall2_impl {A B} (P Q : A -> B -> Prop) l l' :
  (forall a b, P a b -> Q a b) -> Forall2 P l l' -> Forall2 Q l l'.
Proof. intros H F. induction F; constructor; auto. Qed.

Lemma entries_ok up strict l ds :
  collect_all (parse_dependency up strict) l = ROk ds <->
  Forall2 (fun v d => declares up v d \/ (strict = false /\ declares_name up v d)) l ds.
Proof.
  rewrite collect_ok. split; intros H; (eapply Forall2_impl; [|exact H]); intros a b; apply entry_ok.
Qed.

Lemma entries_bad up strict l e :
  collect_all (parse_dependency up strict) l = RErr e <-> first_bad up (negb strict) l e.
Proof.
  rewrite collect_err. unfold first_bad.
  assert (K : forall w, (exists b, parse_dependency up strict w = ROk b) <->
              (exists d, declares up w d \/ (negb strict = true /\ declares_name up w d))).
  { intros w. split; intros (d & H); exists d.
    - apply entry_ok in H. destruct H as [H|[-> H]]; auto.
    - apply entry_ok. destruct H as [H|[N H]]; [auto|]. destruct strict; [discriminate|auto]. }
  split; intros (g & a & r & -> & G & X); exists g, a, r; (split; [reflexivity|]).
  - split; [intros w I; apply K; auto|apply entry_bad; exact X].
  - split; [intros w I; apply K; auto|apply entry_bad; exact X].
Qed.

Lemma is_pub r : (match rw_format r with Some f => String.eqb f publication_format | None => false end) = true
  <-> rw_format r = Some "manifest/2.0".
Proof.
  destruct (rw_format r) as [f|]; [|split; discriminate].
  rewrite String.eqb_eq. unfold publication_format. split; congruence.
Qed.

(* ---------------------------------------------------------------- C89 *)

(* A manifest is read exactly as what it says. *)
Theorem C89_read :
  forall url_parse r m ws, into_manifest url_parse r = ROk (m, ws) <-> says url_parse r m ws.
Proof.
  intros up r m ws. unfold into_manifest.
  destruct (match rw_format r with Some f => String.eqb f publication_format | None => false end) eqn:P.
  - apply is_pub in P. split.
    + destruct (rw_url r) as [u|] eqn:U; [|discriminate].
      destruct (collect_all _ _) as [ds|] eqn:C; [|discriminate]. apply entries_ok in C.
      assert (C' : Forall2 (declares up) (rw_dependencies r) ds).
      { eapply Forall2_impl; [|exact C]. intros a b [H|[H _]]; [exact H|discriminate]. }
      destruct (rw_uri r) as [v|] eqn:V; [|destruct (rw_old_uri r) as [v|] eqn:O; [|discriminate]];
        intros H; injection H as <- <-; apply says_publication; auto.
      * apply loc_new. exact V.
      * apply loc_old; assumption.
    + intros H. inversion H as [u ds uri ws' A B C D EQ1 EQ2|u ds ws' A B C EQ1 EQ2]; subst;
        [|congruence].
      rewrite B.
      assert (K : collect_all (parse_dependency up true) (rw_dependencies r) = ROk ds).
      { apply entries_ok. eapply Forall2_impl; [|exact C]. auto. }
      rewrite K. inversion D as [v V|v V O]; subst; rewrite V; [|rewrite O]; reflexivity.
  - assert (NP : rw_format r <> Some "manifest/2.0") by (intros K; apply is_pub in K; congruence).
    clear P. destruct (rw_format r) as [f|] eqn:F.
    + split; [discriminate|]. intros H. inversion H; congruence.
    + cbv zeta. rewrite negb_involutive. split.
      * destruct (rw_url r) as [u|] eqn:U; cbn [is_some].
        -- destruct (collect_all _ _) as [ds|] eqn:C; [|discriminate]. apply entries_ok in C.
           intros H. injection H as <- <-. apply says_definition; [exact F|apply id_url; exact U|].
           eapply Forall2_impl; [|exact C]. intros a b [K|[K _]]; [auto|discriminate].
        -- destruct (rw_base r) as [b|] eqn:B; [|discriminate].
           destruct (rw_version r) as [v|] eqn:V; [|discriminate].
           destruct (try_from_name_version up b v) as [u|] eqn:N; [|discriminate].
           destruct (collect_all _ _) as [ds|] eqn:C; [|discriminate]. apply entries_ok in C.
           intros H. injection H as <- <-. apply says_definition; [exact F|eapply id_base; eauto|].
           eapply Forall2_impl; [|exact C]. intros a c [K|[_ K]]; auto.
      * intros H. inversion H as [u ds uri ws' A B C D EQ1 EQ2|u ds ws' A B C EQ1 EQ2]; subst;
          [congruence|].
        inversion B as [u' U EQ3 EQ4|b v u' U Bb V N EQ3 EQ4]; subst; rewrite U; cbn [is_some].
        -- assert (K : collect_all (parse_dependency up true) (rw_dependencies r) = ROk ds).
           { apply entries_ok. eapply Forall2_impl; [|exact C].
             intros a b [K|[K _]]; [auto|congruence]. }
           rewrite K. reflexivity.
        -- rewrite Bb, V. unfold url_of in N. rewrite N.
           assert (K : collect_all (parse_dependency up false) (rw_dependencies r) = ROk ds).
           { apply entries_ok. eapply Forall2_impl; [|exact C].
             intros a c [K|[_ K]]; auto. }
           rewrite K. reflexivity.
Qed.
Print Assumptions C89_read.

(* A manifest is refused exactly for one of the listed reasons, and that is the
   reason given. *)
Theorem C89_refused :
  forall url_parse r e, into_manifest url_parse r = RErr e <-> refused url_parse r e.
Proof.
  intros up r e. unfold into_manifest.
  destruct (match rw_format r with Some f => String.eqb f publication_format | None => false end) eqn:P.
  - apply is_pub in P. split.
    + destruct (rw_url r) as [u|] eqn:U; [|intros H; injection H as <-; apply ref_pub_url; assumption].
      destruct (collect_all _ _) as [ds|e'] eqn:C.
      * destruct (rw_uri r) as [v|] eqn:V; [discriminate|].
        destruct (rw_old_uri r) as [v|] eqn:O; [discriminate|].
        intros H. injection H as <-. eapply ref_pub_uri; eauto.
        apply entries_ok in C. intros v I.
        clear -C I. induction C as [|a b l l' X _ IH]; [destruct I|].
        destruct I as [<-|I]; [|auto]. destruct X as [X|[X _]]; [eauto|discriminate].
      * intros H. injection H as <-. apply entries_bad in C. eapply ref_pub_dep; eauto.
    + intros H. inversion H as [A B|u e' A B C|u A B C D F|f A B|A B C|b v A B C D F|u ws e' A B C];
        subst; try congruence.
      * rewrite B. reflexivity.
      * rewrite B. apply (proj2 (entries_bad up true _ _)) in C. rewrite C. reflexivity.
      * rewrite B. destruct (collect_all (parse_dependency up true) (rw_dependencies r)) as [ds|e'] eqn:K.
        -- rewrite D, F. reflexivity.
        -- exfalso. apply collect_err in K. destruct K as (g & a & l & K1 & _ & K2).
           destruct (C a) as (d & Hd); [rewrite K1; apply in_or_app; right; left; reflexivity|].
           assert (parse_dependency up true a = ROk d) by (apply entry_ok; auto). congruence.
  - assert (NP : rw_format r <> Some "manifest/2.0") by (intros K; apply is_pub in K; congruence).
    clear P. destruct (rw_format r) as [f|] eqn:F.
    + split.
      * intros H. injection H as <-. apply ref_format; congruence.
      * intros H. inversion H; subst; congruence.
    + cbv zeta. rewrite negb_involutive. split.
      * destruct (rw_url r) as [u|] eqn:U; cbn [is_some].
        -- destruct (collect_all _ _) as [ds|e'] eqn:C; [discriminate|]. apply entries_bad in C.
           intros H. injection H as <-. eapply ref_dep; [exact F|apply id_url; exact U|].
           rewrite U. exact C.
        -- destruct (rw_base r) as [b|] eqn:B;
             [|intros H; injection H as <-; apply ref_identity; auto].
           destruct (rw_version r) as [v|] eqn:V;
             [|intros H; injection H as <-; apply ref_identity; auto].
           destruct (try_from_name_version up b v) as [u|] eqn:N.
           ++ destruct (collect_all _ _) as [ds|e'] eqn:C; [discriminate|]. apply entries_bad in C.
              intros H. injection H as <-. eapply ref_dep; [exact F|eapply id_base; eauto|].
              rewrite U. exact C.
           ++ intros H. injection H as <-. eapply ref_bad_identity; eauto.
              intros u K. unfold url_of in K. congruence.
      * intros H. inversion H as [A B|u e' A B C|u A B C D G|f A B|A B C|b v A B C D G|u ws e' A B C];
          subst; try congruence.
        -- rewrite B. destruct C as [C|C]; rewrite C; [reflexivity|]. destruct (rw_base r); reflexivity.
        -- rewrite B, C, D. destruct (try_from_name_version up b v) as [u|] eqn:N; [|reflexivity].
           destruct (G u). exact N.
        -- inversion B as [u' U EQ3 EQ4|b v u' U Bb V N EQ3 EQ4]; subst; rewrite U in C |- *;
             cbn [is_some negb] in C |- *.
           ++ apply (proj2 (entries_bad up true _ _)) in C. rewrite C. reflexivity.
           ++ rewrite Bb, V. unfold url_of in N. rewrite N.
              apply (proj2 (entries_bad up false _ _)) in C. rewrite C. reflexivity.
Qed.
Print Assumptions C89_refused.

Lemma opt_text_spec m k o : opt_text m k = Some o <-> holds_text m k o.
Proof.
  unfold opt_text, holds_text, no_text.
  destruct (slookup k m) as [[| b | n |s|l|x]|]; split; intros H;
    try discriminate;
    try (injection H as <-; auto);
    try (left; split; [reflexivity|]; auto; fail);
    try (right; eexists; split; reflexivity);
    try (destruct H as [[-> _]|(t & -> & K)]; congruence);
    try (destruct H as [[-> [K|K]]|(t & -> & K)]; congruence).
Qed.

Lemma read_stability_spec s st : read_stability s = Some st <-> stability_name s st.
Proof.
  unfold read_stability. split.
  - repeat match goal with
           | |- context [String.eqb ?a ?b] => destruct (String.eqb_spec a b) as [->|_]
           end; intros H; try discriminate; injection H as <-; constructor.
  - intros H. destruct H; reflexivity.
Qed.

(* The fields of a manifest are the texts at their keys; a schema URL that is no
   schema URL or an unknown stability makes the file unreadable. *)
Theorem C89_fields :
  forall url_parse v r,
    read_raw url_parse v = Some r <->
    exists m, v = JObj m /\
      holds_text m "file_format" (rw_format r) /\
      holds_text m "description" (rw_description r) /\
      holds_text m "semconv_version" (rw_version r) /\
      holds_text m "schema_base_url" (rw_base r) /\
      holds_text m "resolved_registry_uri" (rw_uri r) /\
      holds_text m "resolved_schema_uri" (rw_old_uri r) /\
      ((rw_url r = None /\ no_text m "schema_url") \/
       (exists s u, rw_url r = Some u /\ slookup "schema_url" m = Some (JStr s) /\ url_text url_parse s u)) /\
      ((rw_dependencies r = [] /\ slookup "dependencies" m = None) \/
       slookup "dependencies" m = Some (JArr (rw_dependencies r))) /\
      ((rw_stability r = SDevelopment /\ slookup "stability" m = None) \/
       (exists s, slookup "stability" m = Some (JStr s) /\ stability_name s (rw_stability r))).
Proof.
  intros up v r. split.
  - intros H. destruct v as [| | | | |m]; try discriminate. exists m. split; [reflexivity|].
    unfold read_raw in H.
    destruct (opt_text m "file_format") as [x1|] eqn:T1; [|discriminate].
    destruct (opt_text m "schema_url") as [x2|] eqn:T2; [|discriminate].
    destruct (opt_text m "description") as [x3|] eqn:T3; [|discriminate].
    destruct (opt_text m "semconv_version") as [x4|] eqn:T4; [|discriminate].
    destruct (opt_text m "schema_base_url") as [x5|] eqn:T5; [|discriminate].
    destruct (opt_text m "resolved_registry_uri") as [x6|] eqn:T6; [|discriminate].
    destruct (opt_text m "resolved_schema_uri") as [x7|] eqn:T7; [|discriminate].
    destruct (match x2 with None => Some None | Some s => option_map Some (read_url up s) end)
      as [u|] eqn:U; [|discriminate].
    destruct (slookup "dependencies" m) as [[| | | |l|]|] eqn:D; try discriminate;
    (destruct (slookup "stability" m) as [[| | |s| |]|] eqn:S'; try discriminate;
     [destruct (read_stability s) as [st|] eqn:Q; [|discriminate]; apply read_stability_spec in Q|]);
    injection H as <-; cbn [rw_format rw_url rw_description rw_version rw_base rw_dependencies
                            rw_stability rw_uri rw_old_uri];
    (split; [apply opt_text_spec; assumption|]);
    (split; [apply opt_text_spec; assumption|]);
    (split; [apply opt_text_spec; assumption|]);
    (split; [apply opt_text_spec; assumption|]);
    (split; [apply opt_text_spec; assumption|]);
    (split; [apply opt_text_spec; assumption|]);
    (split; [apply opt_text_spec in T2; destruct T2 as [[-> K]|(t & -> & K)];
             [injection U as <-; left; auto
             |right; destruct (read_url up t) as [w|] eqn:W; [|discriminate U]; injection U as <-;
              apply read_url_spec in W; eauto 6]|]);
    (split; [auto|]); eauto.
  - intros (m & -> & T1 & T3 & T4 & T5 & T6 & T7 & U & D & St). unfold read_raw.
    apply opt_text_spec in T1, T3, T4, T5, T6, T7. rewrite T1, T3, T4, T5, T6, T7.
    assert (T2 : exists o, opt_text m "schema_url" = Some o /\
      match o with None => Some None | Some s => option_map Some (read_url up s) end = Some (rw_url r)).
    { destruct U as [[U N]|(s & u & U & N & W)]; rewrite U.
      - exists None. split; [apply opt_text_spec; left; auto|reflexivity].
      - exists (Some s). split; [apply opt_text_spec; right; eauto|].
        apply read_url_spec in W. rewrite W. reflexivity. }
    destruct T2 as (o & -> & ->).
    assert (D' : match slookup "dependencies" m with None => Some [] | Some (JArr l) => Some l | Some _ => None end
                 = Some (rw_dependencies r)).
    { destruct D as [[-> D]|D]; rewrite D; reflexivity. }
    rewrite D'.
    assert (S' : match slookup "stability" m with None => Some SDevelopment
                 | Some (JStr s) => read_stability s | Some _ => None end = Some (rw_stability r)).
    { destruct St as [[-> Q]|(s & Q & W)]; rewrite Q; [reflexivity|]. apply read_stability_spec. exact W. }
    rewrite S'. destruct r; reflexivity.
Qed.
Print Assumptions C89_fields.

(* Reading a file: what its manifest says; a warning for the old file name, then one
   for each deprecated syntax, and no others. *)
Theorem C89_file :
  forall url_parse name content m ws,
    try_from_file url_parse name content = ROk (m, ws) <->
    exists v r ds, content = Some (Some v) /\ read_raw url_parse v = Some r /\
      says url_parse r m ds /\
      ((name = "registry_manifest.yaml" /\ ws = WLegacyName :: map WDeprecatedSyntax ds) \/
       (name <> "registry_manifest.yaml" /\ ws = map WDeprecatedSyntax ds)).
Proof.
  intros up name content m ws. unfold try_from_file. split.
  - destruct content as [[v|]|]; try discriminate.
    destruct (read_raw up v) as [r|] eqn:R; [|discriminate].
    destruct (into_manifest up r) as [[m' ds]|e] eqn:I; [|discriminate].
    intros H. injection H as -> <-. exists v, r, ds. apply C89_read in I.
    split; [auto|]. split; [auto|]. split; [auto|].
    destruct (String.eqb_spec name "registry_manifest.yaml"); auto.
  - intros (v & r & ds & -> & R & I & W). rewrite R. apply C89_read in I. rewrite I.
    destruct W as [[-> ->]|[N ->]]; [reflexivity|].
    destruct (String.eqb_spec name "registry_manifest.yaml"); [congruence|reflexivity].
Qed.
Print Assumptions C89_file.

(* A file that cannot be used is refused with the reason. *)
Theorem C89_file_refused :
  forall url_parse name content e,
    try_from_file url_parse name content = RErr e <->
    (content = None /\ e = MNotFound) \/
    ((content = Some None \/ exists v, content = Some (Some v) /\ read_raw url_parse v = None) /\ e = MUnreadable) \/
    (exists v r, content = Some (Some v) /\ read_raw url_parse v = Some r /\ refused url_parse r e).
Proof.
  intros up name content e. unfold try_from_file. destruct content as [[v|]|].
  - destruct (read_raw up v) as [r|] eqn:R.
    + destruct (into_manifest up r) as [[m ds]|e'] eqn:I.
      * split; [discriminate|]. intros [[K _]|[[[K|(v' & K & K2)] _]|(v' & r' & K & K2 & K3)]]; try congruence.
        assert (v' = v) by congruence. subst v'. assert (r' = r) by congruence. subst r'.
        apply C89_refused in K3. congruence.
      * split.
        -- intros H. injection H as <-. apply C89_refused in I. right. right. eauto.
        -- intros [[K _]|[[[K|(v' & K & K2)] _]|(v' & r' & K & K2 & K3)]]; try congruence.
           assert (v' = v) by congruence. subst v'. assert (r' = r) by congruence. subst r'.
           apply C89_refused in K3. congruence.
    + split.
      * intros H. injection H as <-. right. left. split; [right; eauto|reflexivity].
      * intros [[K _]|[[_ ->]|(v' & r' & K & K2 & K3)]]; congruence.
  - split.
    + intros H. injection H as <-. right. left. auto.
    + intros [[K _]|[[_ ->]|(v' & r' & K & K2 & K3)]]; congruence.
  - split.
    + intros H. injection H as <-. auto.
    + intros [[_ ->]|[[[K|(v' & K & _)] _]|(v' & r' & K & _)]]; congruence.
Qed.
Print Assumptions C89_file_refused.

(* No manifest has two meanings: what it says is unique, and it is not both read and
   refused. *)
Theorem C89_one_meaning :
  forall url_parse r,
    (exists m ws, says url_parse r m ws /\ (forall m' ws', says url_parse r m' ws' -> m' = m /\ ws' = ws) /\
                  (forall e, ~ refused url_parse r e)) \/
    (exists e, refused url_parse r e /\ (forall e', refused url_parse r e' -> e' = e) /\
               (forall m ws, ~ says url_parse r m ws)).
Proof.
  intros up r. destruct (into_manifest up r) as [[m ws]|e] eqn:I.
  - left. exists m, ws. split; [apply C89_read; exact I|]. split.
    + intros m' ws' K. apply C89_read in K. split; congruence.
    + intros e K. apply C89_refused in K. congruence.
  - right. exists e. split; [apply C89_refused; exact I|]. split.
    + intros e' K. apply C89_refused in K. congruence.
    + intros m ws K. apply C89_read in K. congruence.
Qed.
Print Assumptions C89_one_meaning.

(* Entries by name are for manifests without schema_url only: with one, an entry that
   gives no schema_url makes the manifest unusable. *)
Theorem C89_name_only_refused :
  forall url_parse r u v m ws,
    rw_url r = Some u -> In v (rw_dependencies r) -> gives_no_url v ->
    ~ says url_parse r m ws.
Proof.
  intros up r u v m ws U I N H.
  assert (K : exists ds, Forall2 (declares up) (rw_dependencies r) ds).
  { inversion H as [u' ds uri ws' A B C D EQ1 EQ2|u' ds ws' A B C EQ1 EQ2]; subst; exists ds; [exact C|].
    eapply Forall2_impl; [|exact C]. intros a b [K|[K _]]; [exact K|congruence]. }
  destruct K as (ds & K). clear H.
  induction K as [|a b l l' X _ IH]; [destruct I|]. destruct I as [->|I]; [|auto].
  inversion X; subst; specialize (N _ eq_refl); congruence.
Qed.
Print Assumptions C89_name_only_refused.

(* The dependencies of a manifest are its entries, in order and one each. *)
Theorem C89_every_entry :
  forall url_parse r m ws, says url_parse r m ws ->
    let deps := match m with MDefinition d => df_dependencies d | MPublication p => pb_dependencies p end in
    length deps = length (rw_dependencies r) /\
    forall i v, nth_error (rw_dependencies r) i = Some v ->
      exists d, nth_error deps i = Some d /\ (declares url_parse v d \/ declares_name url_parse v d).
Proof.
  intros up r m ws H.
  assert (K : Forall2 (fun v d => declares up v d \/ declares_name up v d) (rw_dependencies r)
    (match m with MDefinition d => df_dependencies d | MPublication p => pb_dependencies p end)).
  { inversion H as [u' ds uri ws' A B C D EQ1 EQ2|u' ds ws' A B C EQ1 EQ2]; subst; cbn;
      (eapply Forall2_impl; [|exact C]); [auto|]. intros a b [K|[_ K]]; auto. }
  cbv zeta. revert K. generalize (match m with MDefinition d => df_dependencies d | MPublication p => pb_dependencies p end).
  intros deps K. clear H. induction K as [|a b l l' X F IH].
  - split; [reflexivity|]. intros [|i] v E; discriminate E.
  - destruct IH as [IH1 IH2]. split; [cbn; congruence|].
    intros [|i] v E; cbn in E |- *; [injection E as <-; eauto|auto].
Qed.
Print Assumptions C89_every_entry.

(* Which file is the manifest: the registry path if it is a file, otherwise
   manifest.yaml, and the old name only where there is no manifest.yaml. *)
Theorem C89_which_file :
  forall is_file exists_ join path f,
    find_manifest is_file exists_ join path = Some f ->
    (is_file path = true -> f = path) /\
    (is_file path = false ->
       exists_ f = true /\
       (f = join path "manifest.yaml" \/
        (f = join path "registry_manifest.yaml" /\ exists_ (join path "manifest.yaml") = false))).
Proof.
  intros is_file exists_ join path f H. unfold find_manifest in H.
  destruct (is_file path) eqn:F.
  - injection H as <-. split; [auto|discriminate].
  - split; [discriminate|]. intros _.
    destruct (exists_ (join path "manifest.yaml")) eqn:M; [injection H as <-; auto|].
    destruct (exists_ (join path "registry_manifest.yaml")) eqn:L; [|discriminate].
    injection H as <-. auto.
Qed.
Print Assumptions C89_which_file.

(* Without a manifest there is none of these files. *)
Theorem C89_no_file :
  forall is_file exists_ join path,
    find_manifest is_file exists_ join path = None <->
    is_file path = false /\ exists_ (join path "manifest.yaml") = false /\
    exists_ (join path "registry_manifest.yaml") = false.
Proof.
  intros is_file exists_ join path. unfold find_manifest.
  destruct (is_file path); [split; [discriminate|intros [K _]; discriminate]|].
  destruct (exists_ (join path "manifest.yaml")); [split; [discriminate|intros (_ & K & _); discriminate]|].
  destruct (exists_ (join path "registry_manifest.yaml")); [split; [discriminate|intros (_ & _ & K); discriminate]|].
  split; auto.
Qed.
Print Assumptions C89_no_file.

(* non-vacuity *)
Example C89_case :
  exists m, into_manifest UrlSpec.simple_parser sample_v1 = ROk (MDefinition m, [DepBaseUrl]) /\
    df_url m = acme /\
    map (fun d => (su_url (dep_url d), dep_path d)) (df_dependencies m) =
    [("https://opentelemetry.io/schemas/unknown", Some (VdirModel.LocalFolder "../otel"));
     ("https://opentelemetry.io/schemas/1.37.0", None)].
Proof. eexists. split; [reflexivity|]. split; reflexivity. Qed.
Example C89_refused_case :
  into_manifest UrlSpec.simple_parser
    (mk_raw None (Some acme) None None None (rw_dependencies sample_v1) SStable None None)
  = RErr (MDependency (DepNoUrl (Some "opentelemetry.io/schemas"))).
Proof. reflexivity. Qed.
Example C89_file_case :
  exists p, try_from_file UrlSpec.simple_parser "registry_manifest.yaml"
    (Some (Some (JObj [("file_format", JStr "manifest/2.0");
                       ("schema_url", JStr "https://acme.com/schemas/1.0.0/");
                       ("stability", JStr "experimental");
                       ("resolved_schema_uri", JStr "resolved.yaml")])))
    = ROk (MPublication p, [WLegacyName; WDeprecatedSyntax DepSchemaUri]) /\
    p = mk_publication acme None [] SDevelopment "resolved.yaml".
Proof. eexists. split; reflexivity. Qed.

(* An unversioned dependency may be stated by URL too: the URL is then the key, and
   a name beside it is ignored. *)
Theorem C89_name_ignored_refuted :
  ~ (forall url_parse m d n, declares url_parse (JObj m) d -> slookup "name" m = Some (JStr n) ->
       exists v, url_of url_parse n v (dep_url d)).
Proof.
  intros H.
  specialize (H UrlSpec.simple_parser
    [("name", JStr "other"); ("schema_url", JStr "https://acme.com/schemas/1.0.0")]
    (mk_dependency acme None) "other").
  destruct H as (v & H).
  - eapply by_url; [reflexivity|reflexivity|left; reflexivity].
  - reflexivity.
  - unfold url_of, try_from_name_version in H.
    assert (K : forall u, schema_url_new UrlSpec.simple_parser ("https://" ++ trim_end is_slash "other" ++ "/" ++ v) = Ok u ->
                su_url u = trim_end is_slash ("https://other/" ++ v)).
    { intros u G. unfold schema_url_new in G. cbv zeta in G.
      repeat match type of G with
             | context [match ?x with _ => _ end] => destruct x; try discriminate
             end.
      injection G as <-. reflexivity. }
    destruct (blank_str "other" || blank_str v); [discriminate|].
    cbn [dep_url] in H.
    change (starts_with "http://" "other" || starts_with "https://" "other") with false in H. cbv iota in H.
    apply K in H. change (su_url acme) with "https://acme.com/schemas/1.0.0" in H.
    assert (T : forall s, exists t, s = (trim_end is_slash s ++ t)%string).
    { induction s as [|c s IH]; [exists ""; reflexivity|]. destruct IH as (t & IH). cbn [trim_end].
      destruct (trim_end is_slash s) as [|a s'] eqn:TT.
      - destruct (is_slash c); [exists (String c s); reflexivity|]. exists s. reflexivity.
      - exists t. cbn. f_equal. exact IH. }
    destruct (T ("https://other/" ++ v)) as (t & K2). rewrite <- H in K2. discriminate K2.
Qed.
Print Assumptions C89_name_ignored_refuted.
