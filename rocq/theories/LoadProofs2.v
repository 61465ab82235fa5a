From Coq Require Import String Ascii Bool Arith Lia Permutation Sorted NArith List.
From Verif Require Import Base BaseProofs BaseProofs2 Semver SemverProofs SemTypes ResultModel ResolveModel ExtProofs
  Str StrProofs LoadModel LoadSpec LoadProofs.
Import ListNotations.
Local Open Scope string_scope.

Section Failure.
  Variable w : world.
  Variable main : repo.
  Hypothesis clean : reads_as_read w main.

  Lemma read_error r e : reached w main r -> w_cached w (rp_url r) = None ->
    ((exists ds d, rp_content r = CDefinition ds /\ In d ds /\ w_fetch w d = inr e) \/
     rp_content r = CPublished (inr e) \/ (rp_files r = inr e /\ forall s, rp_content r <> CPublished s)) ->
    explained w main e.
  Proof.
    intros R Ca H.
    assert (match e with LFetch _ | LFiles _ | LSchema _ | LWarning _ => True | _ => False end) as K.
    { apply (clean r e R). destruct H as [H|[H|[H _]]]; auto. }
    destruct e; try contradiction; exists r; auto.
  Qed.

  Lemma names_snoc l r : names w (app l [r]) = app (names w l) [w_name w (rp_url r)].
  Proof. unfold names. rewrite map_app. reflexivity. Qed.

  (* what the loop has seen: earlier declarations, first of their name *)
  Definition seen_from (before : list decl) (seen : list (string * decl)) : Prop :=
    forall n d, slookup n seen = Some d -> In d before /\ w_name w (dc_url d) = n.

  Lemma in_before (d : decl) l : In d l -> exists a b, l = app a (d :: b).
  Proof. intros H. apply in_split in H. exact H. Qed.

  Lemma load_deps_fail rec r ds0 (fails : forall V r' chosen e, declares w r r' -> okc w V chosen ->
       (forall u, V u -> mentioned w main u) -> rec r' chosen = LoadFailed e -> explained w main e)
    (good : forall V r' chosen t nfes chosen', okc w V chosen -> rec r' chosen = Loaded t nfes chosen' ->
       okc w (fun u => V u \/ mentioned w r' u) chosen') :
    reached w main r -> w_cached w (rp_url r) = None -> rp_content r = CDefinition ds0 ->
    forall ds before V seen chosen e, ds0 = app before ds -> seen_from before seen -> okc w V chosen ->
      (forall u, V u -> mentioned w main u) -> load_deps w rec ds seen chosen = DFailed e -> explained w main e.
  Proof.
    intros R Ca Co. induction ds as [|d ds IH]; intros before V seen chosen e E Hs Hok Hv; cbn [load_deps]; [discriminate|].
    assert (In d ds0) as Id by (rewrite E; apply in_or_app; right; left; reflexivity).
    assert (declared : forall d1, In d1 before -> w_name w (dc_url d1) = w_name w (dc_url d) -> declared_twice w r d1 d).
    { intros d1 I N. split; [exact Ca|]. destruct (in_before d1 before I) as (a & b & ->).
      exists a, b, ds. split; [|exact N]. rewrite Co, E, <- app_assoc. reflexivity. }
    destruct (slookup (w_name w (dc_url d)) seen) as [prev|] eqn:P.
    - destruct (Hs _ _ P) as [I N].
      destruct (check_version_compatibility w prev d) as [x|] eqn:Ch.
      + intros H. injection H as <-.
        destruct (check_compat_bad _ _ _ _ Ch N) as [[-> Hu]|(c & -> & Hc)].
        * exists r, prev, d. split; [exact R|]. split; [apply declared; trivial|]. split; [reflexivity|exact Hu].
        * right. exists r, prev, d. split; [exact R|]. split; [apply declared; trivial|exact Hc].
      + destruct (w_fetch w d) as [[r' warns]|x] eqn:F.
        2:{ intros H. injection H as <-. apply (read_error r x R Ca). left. exists ds0, d. auto. }
        assert (declares w r r') as D by (split; [exact Ca|]; exists ds0, d, warns; auto).
        destruct (rec r' chosen) as [t n1 c1|x] eqn:Re.
        2:{ intros H. injection H as <-. exact (fails _ _ _ _ D Hok Hv Re). }
        destruct (load_deps w rec ds seen c1) as [ts n2 c2|x] eqn:E2; [discriminate|].
        intros H. injection H as <-. revert E2.
        apply (IH (app before [d]) (fun u => V u \/ mentioned w r' u)).
        * rewrite <- app_assoc. exact E.
        * intros n d' H. destruct (Hs n d' H). split; [apply in_or_app; left|]; trivial.
        * exact (good _ _ _ _ _ _ Hok Re).
        * intros u [H|H]; [exact (Hv u H)|]. destruct R as [l Rt].
          apply (mentioned_route w main l r u Rt). exact (me_dependency w r r' u D H).
    - destruct (w_fetch w d) as [[r' warns]|x] eqn:F.
      2:{ intros H. injection H as <-. apply (read_error r x R Ca). left. exists ds0, d. auto. }
      assert (declares w r r') as D by (split; [exact Ca|]; exists ds0, d, warns; auto).
      destruct (rec r' chosen) as [t n1 c1|x] eqn:Re.
      2:{ intros H. injection H as <-. exact (fails _ _ _ _ D Hok Hv Re). }
      destruct (load_deps w rec ds _ c1) as [ts n2 c2|x] eqn:E2; [discriminate|].
      intros H. injection H as <-. revert E2.
      apply (IH (app before [d]) (fun u => V u \/ mentioned w r' u)).
      * rewrite <- app_assoc. exact E.
      * intros n d'. rewrite slookup_sinsert. destruct (String.eqb_spec n (w_name w (dc_url d))) as [->|Ne].
        -- intros H. injection H as <-. split; [apply in_or_app; right; left; reflexivity|reflexivity].
        -- intros H. destruct (Hs n d' H). split; [apply in_or_app; left|]; trivial.
      * exact (good _ _ _ _ _ _ Hok Re).
      * intros u [H|H]; [exact (Hv u H)|]. destruct R as [l Rt].
        apply (mentioned_route w main l r u Rt). exact (me_dependency w r r' u D H).
  Qed.

  Lemma load_fail depth : forall V l r chosen e, route w main l r -> length l + depth = 10 -> NoDup (names w l) ->
    okc w V chosen -> (forall u, V u -> mentioned w main u) ->
    load w depth (names w l) r chosen = LoadFailed e -> explained w main e.
  Proof.
    induction depth as [|depth IH]; intros V l r chosen e Rt Hl Nd Hok Hv; cbn [load].
    - intros H. injection H as <-. exists l, r. split; [exact Rt|]. split; [lia|]. split; [exact Nd|reflexivity].
    - destruct (str_mem (w_name w (rp_url r)) (names w l)) eqn:C.
      + intros H. injection H as <-. apply str_mem_true in C. exists l, r. auto.
      + apply str_mem_false in C.
        assert (forall u, mentioned w r u -> mentioned w main u) as Mr by (intros u; apply (mentioned_route w main l r u Rt)).
        destruct (register w chosen (rp_url r)) as [c1|x] eqn:Re.
        2:{ intros H. injection H as <-. destruct (register_bad _ _ _ _ _ Hok Re) as (c & p & -> & Vp & Np & Cp).
            left. exists p, (rp_url r). split; [exact (Hv p Vp)|]. split; [apply Mr; constructor|]. split; [exact Np|exact Cp]. }
        pose proof (register_ok _ _ _ _ _ Hok Re) as K1.
        assert (forall u, V u \/ u = rp_url r -> mentioned w main u) as Hv1.
        { intros u [H| ->]; [exact (Hv u H)|apply Mr; constructor]. }
        assert (reached w main r) as R by (exists l; exact Rt).
        destruct (w_cached w (rp_url r)) as [t|] eqn:Ca; [discriminate|].
        destruct (rp_content r) as [|ds|[[u us]|x]] eqn:Co.
        * unfold load_own. destruct (rp_files r) as [own|x] eqn:F; [discriminate|].
          intros H. injection H as <-. apply (read_error r x R Ca). right. right. split; [exact F|]. intros s. congruence.
        * destruct (load_deps w (load w depth (app (names w l) [w_name w (rp_url r)])) ds [] c1) as [ts n2 c2|x] eqn:E.
          -- unfold load_own. destruct (rp_files r) as [own|x] eqn:F; [discriminate|].
             intros H. injection H as <-. apply (read_error r x R Ca). right. right. split; [exact F|]. intros s. congruence.
          -- intros H. injection H as <-. rewrite <- names_snoc in E.
             refine (load_deps_fail _ r ds _ _ R Ca Co ds [] _ [] c1 x eq_refl _ K1 Hv1 E).
             ++ intros V' r' chosen' e' D Hok' Hv' H'. apply (IH V' (app l [r]) r' chosen' e'); trivial.
                ** apply rt_next; trivial.
                ** rewrite app_length. cbn. lia.
                ** rewrite names_snoc. apply NoDup_rev in Nd. rewrite <- (rev_involutive (app _ _)).
                   apply NoDup_rev. rewrite rev_app_distr. cbn. constructor; [|exact Nd].
                   intros I. apply C. apply in_rev. exact I.
             ++ intros V' r' chosen' t nfes chosen'' Hok' H'. exact (proj2 (load_good w depth V' _ r' _ _ _ _ Hok' H')).
             ++ intros n d H. discriminate.
        * destruct (register_all w c1 us) as [c2|x] eqn:E; [discriminate|].
          intros H. injection H as <-. destruct (register_all_bad _ _ _ _ _ K1 E) as (c & p & v & -> & Vp & Iv & Np & Cp).
          assert (forall y, In y us -> mentioned w main y) as Mus.
          { intros y Iy. apply Mr. apply me_published with us; [split; [exact Ca|eauto]|exact Iy]. }
          left. exists p, v. split; [destruct Vp as [Vp|Vp]; [exact (Hv1 p Vp)|exact (Mus p Vp)]|].
          split; [exact (Mus v Iv)|]. split; [exact Np|exact Cp].
        * intros H. injection H as <-. apply (read_error r x R Ca). right. left. exact Co.
  Qed.
End Failure.

Section Collect.
  Variable w : world.
  (* every URL in one list, in the order visited *)
  Definition urls_of (deps : list (option string * list string)) : list string :=
    flat_map (fun d => app (match fst d with Some u => [u] | None => [] end) (snd d)) deps.

  Lemma collect_flat deps : forall m,
    fold_left (fun m d => fold_left (collect_url w) (snd d) (match fst d with Some u => collect_url w m u | None => m end)) deps m
    = fold_left (collect_url w) (urls_of deps) m.
  Proof.
    induction deps as [|[[u|] us] deps IH]; intros m; cbn; [reflexivity| |]; rewrite IH; rewrite fold_left_app; reflexivity.
  Qed.
  Lemma collect_url_ok V chosen u : okc w V chosen -> (forall x, V x -> w_name w x = w_name w u -> compatible w x u) ->
    okc w (fun x => V x \/ x = u) (collect_url w chosen u).
  Proof.
    intros Hok Hc. unfold collect_url. destruct (slookup (w_name w u) chosen) as [prev|] eqn:P.
    - destruct (proj1 Hok _ _ P) as [N Vp].
      destruct (latest_major (w_name w) (w_semver w) prev u) as [c|e] eqn:E.
      + exact (chosen_step w V chosen u c prev Hok P E).
      + exfalso. destruct (Hc prev Vp N) as (_ & v1 & v2 & E1 & E2 & M).
        destruct (latest_major_bad w _ _ _ N E) as (_ & [[_ H]|[[_ H]|(_ & x & y & H1 & H2 & H)]]); congruence.
    - exact (chosen_new w V chosen u Hok P).
  Qed.
  Lemma collect_ok us : forall V chosen, okc w V chosen ->
    (forall x y, (V x \/ In x us) -> (V y \/ In y us) -> w_name w x = w_name w y -> compatible w x y) ->
    okc w (fun x => V x \/ In x us) (fold_left (collect_url w) us chosen).
  Proof.
    induction us as [|u us IH]; intros V chosen Hok Hc; cbn [fold_left].
    - apply (okc_ext w V); [|exact Hok]. intros x. cbn. tauto.
    - apply (okc_ext w (fun x => (V x \/ x = u) \/ In x us)); [intros x; cbn; intuition|].
      apply IH.
      + apply collect_url_ok; [exact Hok|]. intros x Vx N. apply Hc; [auto|right; left; reflexivity|exact N].
      + intros x y Hx Hy. apply Hc; cbn; intuition.
  Qed.
  (* without the assumption: an entry for exactly the names met *)
  Lemma collect_names us : forall chosen n, (slookup n (fold_left (collect_url w) us chosen) = None) <->
    (slookup n chosen = None /\ forall u, In u us -> w_name w u <> n).
  Proof.
    induction us as [|u us IH]; intros chosen n; cbn [fold_left].
    - split; [intros H; split; [exact H|intros u []]|tauto].
    - rewrite IH. unfold collect_url.
      assert (forall c, (slookup n (sinsert (w_name w u) c chosen) = None /\ (forall x, In x us -> w_name w x <> n)) <->
        (slookup n chosen = None /\ (forall x, In x (u :: us) -> w_name w x <> n))) as K.
      { intros c. rewrite slookup_sinsert. destruct (String.eqb_spec n (w_name w u)) as [->|Ne].
        - split; [intros [H _]; discriminate|]. intros [_ H]. destruct (H u (or_introl eq_refl) eq_refl).
        - split; intros [A B]; (split; [exact A|]); intros x Hx; [destruct Hx as [<-|Hx]; [congruence|exact (B x Hx)]|exact (B x (or_intror Hx))]. }
      destruct (slookup (w_name w u) chosen) as [prev|] eqn:P; [|apply K].
      destruct (latest_major (w_name w) (w_semver w) prev u); [apply K|].
      split; intros [A B]; (split; [exact A|]); intros x Hx; [destruct Hx as [<-|Hx]; [congruence|exact (B x Hx)]|exact (B x (or_intror Hx))].
  Qed.
End Collect.

Section Warn.
  Variable w : world.
  Lemma main_deps_last ds n u : slookup n (main_dependencies w ds) = Some u <-> last_declared w ds n u.
  Proof.
    unfold main_dependencies. rewrite <- (rev_involutive ds).
    induction (rev ds) as [|d l IH]; cbn [rev].
    - cbn. split; [discriminate|]. intros (a & d & b & H & _). destruct a; discriminate.
    - rewrite fold_left_app. cbn [fold_left]. rewrite slookup_sinsert.
      destruct (String.eqb_spec n (w_name w (dc_url d))) as [->|Ne].
      + split.
        * intros H. injection H as <-. exists (rev l), d, []. repeat split; trivial. intros d' [].
        * intros (a & d' & b & E & N & U & Hb). f_equal.
          destruct b as [|y b _] using rev_ind.
          -- apply app_inj_tail in E as [_ E]. congruence.
          -- exfalso. rewrite app_comm_cons, app_assoc in E. apply app_inj_tail in E as [_ ->].
             apply (Hb y); [apply in_or_app; right; left|]; reflexivity.
      + rewrite IH. split; intros (a & d' & b & E & N & U & Hb).
        * exists a, d', (app b [d]). rewrite E, <- app_assoc. repeat split; trivial.
          intros x Hx. apply in_app_or in Hx as [Hx|[<-|[]]]; [exact (Hb x Hx)|congruence].
        * destruct b as [|y b _] using rev_ind.
          -- apply app_inj_tail in E as [_ E]. subst d'. congruence.
          -- rewrite app_comm_cons, app_assoc in E. apply app_inj_tail in E as [E ->].
             exists a, d', b. repeat split; trivial. intros x Hx. apply Hb, in_or_app. left. exact Hx.
  Qed.
  Lemma upgrade_in mains chosen x : In x (upgrade_warnings w mains chosen) <->
    exists n u m, In (n, u) mains /\ slookup n chosen = Some m /\ m <> u /\ x = LUpgraded n (w_version w u) (w_version w m).
  Proof.
    induction mains as [|[n u] mains IH]; cbn [upgrade_warnings].
    - split; [intros []|]. intros (n & u & m & [] & _).
    - assert (In x (upgrade_warnings w mains chosen) -> exists n0 u0 m, In (n0, u0) ((n, u) :: mains) /\ slookup n0 chosen = Some m /\ m <> u0 /\ x = LUpgraded n0 (w_version w u0) (w_version w m)) as K.
      { intros H. apply IH in H as (n' & u' & m & I & H). exists n', u', m. split; [right; exact I|exact H]. }
      destruct (slookup n chosen) as [sel|] eqn:E.
      + destruct (String.eqb_spec sel u) as [->|Ne].
        * split; [exact K|]. intros (n' & u' & m & [I|I] & H & N & X).
          -- injection I as <- <-. congruence.
          -- apply IH. eauto 7.
        * cbn [In]. split.
          -- intros [<-|H]; [|exact (K H)]. exists n, u, sel. repeat split; trivial. left. reflexivity.
          -- intros (n' & u' & m & [I|I] & H & N & X).
             ++ injection I as <- <-. left. congruence.
             ++ right. apply IH. eauto 7.
      + split; [exact K|]. intros (n' & u' & m & [I|I] & H & N & X).
        * injection I as <- <-. congruence.
        * apply IH. eauto 7.
  Qed.
End Warn.
