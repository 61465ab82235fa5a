From Coq Require Import String Ascii Bool Arith Lia Permutation Sorted NArith List.
From Verif Require Import Base BaseProofs BaseProofs2 Semver SemverProofs SemTypes ResultModel ResolveModel ExtProofs
  Str StrProofs LoadModel LoadSpec.
Import ListNotations.
Local Open Scope string_scope.

Section Versions.
  Variable w : world.

  Lemma latest_major_got u1 u2 c : latest_major (w_name w) (w_semver w) u1 u2 = Got c ->
    w_name w u1 = w_name w u2 /\ exists v1 v2, w_semver w u1 = Some v1 /\ w_semver w u2 = Some v2 /\
      v_major v1 = v_major v2 /\ ((c = u1 /\ ver_cmp v1 v2 = Gt) \/ (c = u2 /\ ver_cmp v1 v2 <> Gt)).
  Proof.
    unfold latest_major. destruct (String.eqb_spec (w_name w u1) (w_name w u2)) as [N|N]; cbn [negb]; [|discriminate].
    destruct (w_semver w u1) as [v1|] eqn:E1; [|discriminate].
    destruct (w_semver w u2) as [v2|] eqn:E2; [|discriminate].
    destruct (N.eqb_spec (v_major v1) (v_major v2)) as [M|M]; [|discriminate].
    intros H. injection H as <-. split; [exact N|]. exists v1, v2. repeat split; trivial.
    unfold version_gtb. destruct (ver_cmp v1 v2); [right|right|left]; split; trivial; discriminate.
  Qed.
  Lemma latest_major_bad u1 u2 e : w_name w u1 = w_name w u2 -> latest_major (w_name w) (w_semver w) u1 u2 = Bad e ->
    conflict_between w e u1 u2.
  Proof.
    intros N. unfold latest_major. rewrite N, String.eqb_refl. cbn [negb].
    destruct (w_semver w u1) as [v1|] eqn:E1; [destruct (w_semver w u2) as [v2|] eqn:E2; [|]|].
    - destruct (N.eqb_spec (v_major v1) (v_major v2)) as [M|M]; [discriminate|].
      intros H. injection H as <-. split; [exact N|]. right. right. rewrite N. split; [reflexivity|]. eauto 6.
    - intros H. injection H as <-. split; [exact N|]. right. left. split; trivial.
    - intros H. injection H as <-. split; [exact N|]. left. split; trivial.
  Qed.

  Lemma not_above_trans a b c : not_above w a b -> not_above w b c -> not_above w a c.
  Proof.
    intros [N1 (v1 & v2 & E1 & E2 & M1 & L1)] [N2 (v2' & v3 & E2' & E3 & M2 & L2)].
    rewrite E2 in E2'. injection E2' as <-.
    split; [congruence|]. exists v1, v3. repeat split; trivial; [congruence|].
    apply ver_leb_spec. eapply ver_leb_trans; apply ver_leb_spec; eassumption.
  Qed.

  (* the versions registered so far *)
  Definition okc (V : string -> Prop) (chosen : list (string * string)) : Prop :=
    (forall n m, slookup n chosen = Some m -> w_name w m = n /\ V m) /\
    (forall u, V u -> exists m, slookup (w_name w u) chosen = Some m /\ (u = m \/ not_above w u m)).

  Lemma okc_start : okc (fun _ => False) [].
  Proof. split; [discriminate|contradiction]. Qed.
  Lemma okc_ext V V' chosen : (forall u, V u <-> V' u) -> okc V chosen -> okc V' chosen.
  Proof.
    intros E [H1 H2]. split.
    - intros n m H. destruct (H1 n m H) as [A B]. split; [exact A|apply E, B].
    - intros u H. apply H2, E, H.
  Qed.

  Lemma okc_insert V chosen n c u :
    okc V chosen -> n = w_name w u -> w_name w c = n -> (V c \/ c = u) ->
    (u = c \/ not_above w u c) ->
    (forall m, slookup n chosen = Some m -> m = c \/ not_above w m c) ->
    okc (fun x => V x \/ x = u) (sinsert n c chosen).
  Proof.
    intros [H1 H2] -> Nc Vc Lu Lm. split.
    - intros n m. rewrite slookup_sinsert. destruct (String.eqb_spec n (w_name w u)) as [->|Ne].
      + intros H. injection H as <-. split; [exact Nc|exact Vc].
      + intros H. destruct (H1 n m H) as [A B]. split; [exact A|left; exact B].
    - intros x [Vx| ->].
      + rewrite slookup_sinsert. destruct (String.eqb_spec (w_name w x) (w_name w u)) as [Nx|Ne].
        * exists c. split; [reflexivity|]. destruct (H2 x Vx) as (m & Hm & Hx). rewrite Nx in Hm.
          destruct (Lm m Hm) as [->|L]; [exact Hx|]. destruct Hx as [->|Hx]; [right; exact L|].
          right. exact (not_above_trans _ _ _ Hx L).
        * destruct (H2 x Vx) as (m & Hm & Hx). eauto.
      + exists c. rewrite slookup_sinsert, String.eqb_refl. split; [reflexivity|exact Lu].
  Qed.

  Lemma not_above_of v1 v2 u1 u2 : w_name w u1 = w_name w u2 -> w_semver w u1 = Some v1 -> w_semver w u2 = Some v2 ->
    v_major v1 = v_major v2 -> ver_cmp v1 v2 <> Gt -> not_above w u1 u2.
  Proof. intros. split; [assumption|]. exists v1, v2. repeat split; assumption. Qed.

  Lemma chosen_step V chosen u c prev :
    okc V chosen -> slookup (w_name w u) chosen = Some prev ->
    latest_major (w_name w) (w_semver w) prev u = Got c ->
    okc (fun x => V x \/ x = u) (sinsert (w_name w u) c chosen).
  Proof.
    intros Hok Hp H. destruct (latest_major_got _ _ _ H) as (N & v1 & v2 & E1 & E2 & M & Hc).
    pose proof (proj2 (proj1 Hok _ _ Hp)) as Vp.
    destruct Hc as [[-> L]|[-> L]].
    - apply (okc_insert V chosen _ prev u Hok eq_refl N); [left; exact Vp| |].
      + right. apply (not_above_of v2 v1); auto. rewrite (ver_cmp_opp v1 v2), L. discriminate.
      + intros m Hm. rewrite Hp in Hm. injection Hm as <-. left. reflexivity.
    - apply (okc_insert V chosen _ u u Hok eq_refl eq_refl); [right; reflexivity|left; reflexivity|].
      intros m Hm. rewrite Hp in Hm. injection Hm as <-. right. apply (not_above_of v1 v2); auto.
  Qed.

  Lemma chosen_new V chosen u : okc V chosen -> slookup (w_name w u) chosen = None ->
    okc (fun x => V x \/ x = u) (sinsert (w_name w u) u chosen).
  Proof.
    intros Hok Hp. apply (okc_insert V chosen _ u u Hok eq_refl eq_refl); [right; reflexivity|left; reflexivity|].
    intros m Hm. rewrite Hp in Hm. discriminate.
  Qed.

  Lemma register_ok V chosen u chosen' : okc V chosen -> register w chosen u = inl chosen' ->
    okc (fun x => V x \/ x = u) chosen'.
  Proof.
    intros Hok. unfold register. destruct (slookup (w_name w u) chosen) as [prev|] eqn:Hp.
    - destruct (String.eqb_spec prev u) as [->|Ne].
      + intros H. injection H as <-. apply (okc_ext V); [|exact Hok].
        intros x. split; [auto|]. intros [H| ->]; [exact H|]. exact (proj2 (proj1 Hok _ _ Hp)).
      + destruct (latest_major (w_name w) (w_semver w) prev u) as [c|e] eqn:E; [|discriminate].
        intros H. injection H as <-. exact (chosen_step V chosen u c prev Hok Hp E).
    - intros H. injection H as <-. exact (chosen_new V chosen u Hok Hp).
  Qed.
  Lemma register_bad V chosen u e : okc V chosen -> register w chosen u = inr e ->
    exists c prev, e = LConflict c /\ V prev /\ prev <> u /\ conflict_between w c prev u.
  Proof.
    intros Hok. unfold register. destruct (slookup (w_name w u) chosen) as [prev|] eqn:Hp; [|discriminate].
    destruct (String.eqb_spec prev u) as [->|Ne]; [discriminate|].
    destruct (proj1 Hok _ _ Hp) as [N Vp].
    destruct (latest_major (w_name w) (w_semver w) prev u) as [c|x] eqn:E; [discriminate|].
    intros H. injection H as <-. exists x, prev. split; [reflexivity|]. split; [exact Vp|]. split; [exact Ne|].
    exact (latest_major_bad _ _ _ N E).
  Qed.
  Lemma register_all_ok us : forall V chosen chosen', okc V chosen -> register_all w chosen us = inl chosen' ->
    okc (fun x => V x \/ In x us) chosen'.
  Proof.
    induction us as [|u us IH]; intros V chosen chosen' Hok; cbn [register_all].
    - intros H. injection H as <-. apply (okc_ext V); [|exact Hok]. intros x. cbn. tauto.
    - destruct (register w chosen u) as [c1|e] eqn:E; [|discriminate].
      intros H. apply (okc_ext (fun x => (V x \/ x = u) \/ In x us)).
      + intros x. cbn. intuition.
      + exact (IH _ _ _ (register_ok _ _ _ _ Hok E) H).
  Qed.
  Lemma register_all_bad us : forall V chosen e, okc V chosen -> register_all w chosen us = inr e ->
    exists c prev u, e = LConflict c /\ (V prev \/ In prev us) /\ In u us /\ prev <> u /\ conflict_between w c prev u.
  Proof.
    induction us as [|u us IH]; intros V chosen e Hok; cbn [register_all]; [discriminate|].
    destruct (register w chosen u) as [c1|x] eqn:E.
    - intros H. destruct (IH _ _ _ (register_ok _ _ _ _ Hok E) H) as (c & p & u' & A & B & C & D & F).
      exists c, p, u'. cbn [In]. split; [exact A|]. split; [intuition|]. split; [right; exact C|]. split; [exact D|exact F].
    - intros H. injection H as <-. destruct (register_bad _ _ _ _ Hok E) as (c & p & A & B & C & D).
      exists c, p, u. cbn [In]. split; [exact A|]. split; [left; exact B|]. split; [left; reflexivity|]. split; [exact C|exact D].
  Qed.

  (* ---------- the graph ---------- *)
  Lemma route_first r l r' : route w r l r' -> (l = [] /\ r' = r) \/
    exists r1 l1, declares w r r1 /\ l = r :: l1 /\ route w r1 l1 r'.
  Proof.
    induction 1 as [|l r1 r2 H IH D].
    - left. split; reflexivity.
    - right. destruct IH as [[-> ->]|(x & l1 & Dx & -> & Hx)].
      + exists r2, []. split; [exact D|]. split; [reflexivity|constructor].
      + exists x, (app l1 [r1]). split; [exact Dx|]. split; [reflexivity|]. apply rt_next; trivial.
  Qed.
  Lemma mentioned_route main l r u : route w main l r -> mentioned w r u -> mentioned w main u.
  Proof.
    induction 1 as [|l r1 r2 H IH D]; [trivial|]. intros M. apply IH. exact (me_dependency w r1 r2 u D M).
  Qed.

  Lemma check_compat_bad prev d e : check_version_compatibility w prev d = Some e ->
    w_name w (dc_url prev) = w_name w (dc_url d) ->
    (e = LUnversioned (w_name w (dc_url d)) /\ (w_version w (dc_url prev) = "unknown" \/ w_version w (dc_url d) = "unknown")) \/
    (exists c, e = LConflict c /\ conflict_between w c (dc_url prev) (dc_url d)).
  Proof.
    unfold check_version_compatibility, is_versioned. intros H N.
    destruct (String.eqb_spec (w_version w (dc_url prev)) "unknown") as [E1|E1]; cbn [negb orb] in H.
    - injection H as <-. left. split; [reflexivity|left; exact E1].
    - destruct (String.eqb_spec (w_version w (dc_url d)) "unknown") as [E2|E2]; cbn [negb orb] in H.
      + injection H as <-. left. split; [reflexivity|right; exact E2].
      + right. destruct (latest_major (w_name w) (w_semver w) (dc_url prev) (dc_url d)) as [c|c] eqn:E; [discriminate|].
        injection H as <-. exists c. split; [reflexivity|]. exact (latest_major_bad _ _ _ N E).
  Qed.

  (* ---------- success ---------- *)
  Section Deps.
    Variable rec : repo -> list (string * string) -> load_result.
    Variable good : repo -> loaded -> Prop.
    Hypothesis rec_good : forall V r chosen t nfes chosen', okc V chosen -> rec r chosen = Loaded t nfes chosen' ->
      good r t /\ okc (fun u => V u \/ mentioned w r u) chosen'.

    Lemma load_deps_good ds : forall V seen chosen ts nfes chosen', okc V chosen ->
      load_deps w rec ds seen chosen = DLoaded ts nfes chosen' ->
      Forall2 (fun d t => exists r warns, w_fetch w d = inl (r, warns) /\ good r t) ds ts /\
      okc (fun u => V u \/ exists d r warns, In d ds /\ w_fetch w d = inl (r, warns) /\ mentioned w r u) chosen'.
    Proof.
      induction ds as [|d ds IH]; intros V seen chosen ts nfes chosen' Hok; cbn [load_deps].
      - intros H. injection H as <- <- <-. split; [constructor|]. apply (okc_ext V); [|exact Hok].
        intros u. split; [auto|]. intros [H|(d & r & x & [] & _)]. exact H.
      - destruct (match slookup (w_name w (dc_url d)) seen with
                  | Some prev => check_version_compatibility w prev d | None => None end); [discriminate|].
        destruct (w_fetch w d) as [[r warns]|e] eqn:F; [|discriminate].
        destruct (rec r chosen) as [t n1 c1|e] eqn:E; [|discriminate].
        destruct (rec_good _ _ _ _ _ _ Hok E) as [G1 K1].
        destruct (load_deps w rec ds _ c1) as [ts1 n2 c2|e] eqn:E2; [|discriminate].
        intros H. injection H as <- <- <-. destruct (IH _ _ _ _ _ _ K1 E2) as [G2 K2]. split.
        + constructor; [eauto|exact G2].
        + eapply okc_ext; [|exact K2]. intros u. cbn [In]. split.
          * intros [[H|H]|(d' & r' & x & I & Fd & Mu)]; [auto| |].
            -- right. exists d, r, warns. auto.
            -- right. exists d', r', x. auto.
          * intros [H|(d' & r' & x & [->|I] & Fd & Mu)]; [auto| |].
            -- rewrite F in Fd. injection Fd as <- <-. auto.
            -- right. exists d', r', x. auto.
    Qed.
  End Deps.

  Lemma mentioned_inv r u : mentioned w r u ->
    u = rp_url r \/ (exists us, publishes w r us /\ In u us) \/ (exists r', declares w r r' /\ mentioned w r' u).
  Proof. destruct 1; eauto. Qed.

  Definition shape (depth : nat) (chain : list string) (r : repo) : Prop :=
    forall l r', route w r l r' ->
      length l < depth /\ NoDup (app (names w l) [w_name w (rp_url r')]) /\
      (forall n, In n (app (names w l) [w_name w (rp_url r')]) -> ~ In n chain).

  Lemma str_mem_false n l : str_mem n l = false <-> ~ In n l.
  Proof.
    unfold str_mem. split.
    - intros H I. assert (existsb (String.eqb n) l = true) as E
        by (apply existsb_exists; exists n; split; [exact I|apply String.eqb_refl]). congruence.
    - intros H. destruct (existsb (String.eqb n) l) eqn:E; [|reflexivity].
      apply existsb_exists in E as (x & I & Ex). apply String.eqb_eq in Ex. subst. contradiction.
  Qed.
  Lemma str_mem_true n l : str_mem n l = true -> In n l.
  Proof.
    unfold str_mem. intros E. apply existsb_exists in E as (x & I & Ex). apply String.eqb_eq in Ex. subst. exact I.
  Qed.

  Lemma loaded_all_of ds ts :
    Forall2 (fun d t => exists r warns, w_fetch w d = inl (r, warns) /\ loaded_as w r t) ds ts -> loaded_all w ds ts.
  Proof.
    induction 1 as [|d t ds ts (r & x & F & G) _ IH]; [constructor|]. econstructor; eauto.
  Qed.

  Lemma shape_leaf depth chain r : ~ In (w_name w (rp_url r)) chain -> (forall r', ~ declares w r r') ->
    shape (S depth) chain r.
  Proof.
    intros Hn Hd l r' H. destruct (route_first _ _ _ H) as [[-> ->]|(x & l1 & D & _)]; [|destruct (Hd x D)].
    cbn. split; [lia|]. split; [constructor; [intros []|constructor]|]. intros n [<-|[]]. exact Hn.
  Qed.
  Lemma shape_node depth chain r : ~ In (w_name w (rp_url r)) chain ->
    (forall r', declares w r r' -> shape depth (app chain [w_name w (rp_url r)]) r') ->
    shape (S depth) chain r.
  Proof.
    intros Hn Hd l r' H. destruct (route_first _ _ _ H) as [[-> ->]|(x & l1 & D & -> & H1)].
    - cbn. split; [lia|]. split; [constructor; [intros []|constructor]|]. intros n [<-|[]]. exact Hn.
    - destruct (Hd x D l1 r' H1) as (L & Nd & Out). cbn [length names map app]. split; [lia|]. split.
      + constructor; [|exact Nd]. intros I. apply (Out _ I). apply in_or_app. right. left. reflexivity.
      + intros n [<-|I]; [exact Hn|]. intros C. apply (Out n I). apply in_or_app. left. exact C.
  Qed.

  Lemma load_good depth : forall V chain r chosen t nfes chosen', okc V chosen ->
    load w depth chain r chosen = Loaded t nfes chosen' ->
    (loaded_as w r t /\ shape depth chain r) /\ okc (fun u => V u \/ mentioned w r u) chosen'.
  Proof.
    induction depth as [|depth IH]; intros V chain r chosen t nfes chosen' Hok; cbn [load]; [discriminate|].
    destruct (str_mem (w_name w (rp_url r)) chain) eqn:C; [discriminate|].
    apply str_mem_false in C.
    destruct (register w chosen (rp_url r)) as [c1|e] eqn:R; [|discriminate].
    pose proof (register_ok _ _ _ _ Hok R) as K1.
    destruct (w_cached w (rp_url r)) as [t0|] eqn:Ca.
    - intros H. injection H as <- <- <-. split; [split|].
      + apply la_cached, Ca.
      + apply shape_leaf; [exact C|]. intros r' (H & _). congruence.
      + eapply okc_ext; [|exact K1]. intros u. split.
        * intros [H| ->]; [auto|right; constructor].
        * intros [H|H]; [auto|]. apply mentioned_inv in H as [->|[(us & (P & _) & _)|(r' & (P & _) & _)]]; [auto|congruence|congruence].
    - destruct (rp_content r) as [|ds|[[u us]|e]] eqn:Co; [| | |discriminate].
      + unfold load_own. destruct (rp_files r) as [own|e]; [|discriminate].
        intros H. injection H as <- <- <-. split; [split|].
        * apply la_plain; trivial.
        * apply shape_leaf; [exact C|]. intros r' (_ & ds & d & x & H & _). congruence.
        * eapply okc_ext; [|exact K1]. intros u. split.
          -- intros [H| ->]; [auto|right; constructor].
          -- intros [H|H]; [auto|]. apply mentioned_inv in H as [->|[(us & (_ & y & P) & _)|(r' & (_ & ds & d & x & P & _) & _)]]; [auto|congruence|congruence].
      + destruct (load_deps w (load w depth (app chain [w_name w (rp_url r)])) ds [] c1) as [ts n2 c2|e] eqn:E; [|discriminate].
        unfold load_own. destruct (rp_files r) as [own|e]; [|discriminate].
        intros H. injection H as <- <- <-.
        destruct (load_deps_good _ (fun r' t => loaded_as w r' t /\ shape depth (app chain [w_name w (rp_url r)]) r')
                    (fun V' r' => IH V' _ r') ds _ _ _ _ _ _ K1 E) as [G K].
        split; [split|].
        * apply la_definition with ds; trivial. apply loaded_all_of.
          eapply Forall2_impl; [|exact G]. intros d t (r' & x & F & L & _). eauto.
        * apply shape_node; [exact C|]. intros r' (_ & ds' & d & x & Co' & I & F).
          rewrite Co in Co'. injection Co' as <-.
          destruct (forall2_left _ _ _ _ G I) as (t & _ & r'' & y & F' & _ & S').
          rewrite F in F'. injection F' as <- <-. exact S'.
        * eapply okc_ext; [|exact K]. intros u. split.
          -- intros [[H| ->]|(d & r' & x & I & F & M)]; [auto|right; constructor|].
             right. apply me_dependency with r'; [|exact M]. split; [exact Ca|]. exists ds, d, x. auto.
          -- intros [H|H]; [auto|]. apply mentioned_inv in H as [->|[(us' & (_ & y & P) & I)|(r' & (_ & ds' & d & z & P & I & F) & M)]]; [auto|congruence|].
             rewrite Co in P. injection P as <-. right. exists d, r', z. auto.
      + destruct (register_all w c1 us) as [c2|e] eqn:E; [|discriminate].
        intros H. injection H as <- <- <-. split; [split|].
        * apply la_published; trivial.
        * apply shape_leaf; [exact C|]. intros r' (_ & ds & d & x & H & _). congruence.
        * eapply okc_ext; [|exact (register_all_ok _ _ _ _ K1 E)]. intros x. split.
          -- intros [[H| ->]|H]; [auto|right; constructor|]. right. apply me_published with us; [|exact H].
             split; [exact Ca|eauto].
          -- intros [H|H]; [auto|]. apply mentioned_inv in H as [->|[(us' & (_ & y & P) & I)|(r' & (_ & ds & d & z & P & _) & _)]]; [auto| |congruence].
             rewrite Co in P. injection P as <- <-. auto.
  Qed.
End Versions.
