(* C37: which of several definitions of an attribute wins. *)
From Coq Require Import String Ascii Bool Arith NArith Lia Permutation Sorted List.
Import ListNotations.
From Verif Require Import Base BaseProofs BaseProofs2 Json SemTypes Resolved Semver SemverProofs VersionSpec DefModel DefSpec ResolveModel ResolveSpec
  ResolveProofs RefProofs ExtProofs ImportModel ImportSpec ImportProofs AssocProofs UniqueSpec PropUnique ConflictSpec.
Local Open Scope string_scope.

(* ---- first elements ---- *)
Lemma first_some_iff {A B} (f : A -> option B) l b :
  first_some f l = Some b <-> exists x, first_with (fun y => f y <> None) l x /\ f x = Some b.
Proof.
  induction l as [|y l IH]; cbn [first_some].
  - split; [discriminate|]. intros (x & (l1 & l2 & E & _) & _). destruct l1; discriminate.
  - destruct (f y) as [c|] eqn:Ey.
    + split.
      * intros H. injection H as ->. exists y. split; [|exact Ey]. exists [], l. split; [reflexivity|]. split; [congruence|]. intros z [].
      * intros (x & (l1 & l2 & E & Hx & Hn) & Eb). destruct l1 as [|z l1].
        -- injection E as -> ->. congruence.
        -- injection E as -> _. destruct (Hn z (or_introl eq_refl)). congruence.
    + rewrite IH. split.
      * intros (x & (l1 & l2 & -> & Hx & Hn) & Eb). exists x. split; [|exact Eb]. exists (y :: l1), l2. split; [reflexivity|]. split; [exact Hx|].
        intros z [<-|Hz]; [congruence|apply Hn; exact Hz].
      * intros (x & (l1 & l2 & E & Hx & Hn) & Eb). destruct l1 as [|z l1].
        -- injection E as -> ->. congruence.
        -- injection E as -> ->. exists x. split; [|exact Eb]. exists l1, l2. split; [reflexivity|]. split; [exact Hx|]. intros w Hw. apply Hn. right. exact Hw.
Qed.
Lemma first_some_none {A B} (f : A -> option B) l : first_some f l = None <-> forall x, In x l -> f x = None.
Proof.
  induction l as [|y l IH]; cbn [first_some]; [split; [intros _ x []|reflexivity]|]. destruct (f y) eqn:Ey.
  - split; [discriminate|]. intros H. rewrite (H y (or_introl eq_refl)) in Ey. discriminate.
  - rewrite IH. split; intros H x Hx; [destruct Hx as [<-|Hx]; auto|apply H; right; exact Hx].
Qed.
Lemma find_first_iff {A} (p : A -> bool) (P : A -> Prop) l x : (forall y, p y = true <-> P y) -> (find p l = Some x <-> first_with P l x).
Proof.
  intros Hp. induction l as [|y l IH]; cbn [find].
  - split; [discriminate|]. intros (l1 & l2 & E & _). destruct l1; discriminate.
  - destruct (p y) eqn:Ey.
    + split.
      * intros H. injection H as ->. exists [], l. split; [reflexivity|]. split; [apply Hp; exact Ey|]. intros z [].
      * intros (l1 & l2 & E & Hx & Hn). destruct l1 as [|z l1]; [cbn [app] in E; congruence|]. injection E as -> _. destruct (Hn z (or_introl eq_refl)). apply Hp. exact Ey.
    + rewrite IH. split.
      * intros (l1 & l2 & -> & Hx & Hn). exists (y :: l1), l2. split; [reflexivity|]. split; [exact Hx|].
        intros z [<-|Hz]; [intros X; apply Hp in X; congruence|apply Hn; exact Hz].
      * intros (l1 & l2 & E & Hx & Hn). destruct l1 as [|z l1].
        -- injection E as -> ->. apply Hp in Hx. congruence.
        -- injection E as -> ->. exists l1, l2. split; [reflexivity|]. split; [exact Hx|]. intros w Hw. apply Hn. right. exact Hw.
Qed.
Lemma first_with_ext {A} (P Q : A -> Prop) l x : (forall y, P y <-> Q y) -> (first_with P l x <-> first_with Q l x).
Proof.
  intros H. split; intros (l1 & l2 & E & Hx & Hn); exists l1, l2; (split; [exact E|]); (split; [apply H; exact Hx|]);
    intros y Hy X; apply (Hn y Hy), H; exact X.
Qed.
Lemma first_with_fun {A} (P : A -> Prop) l x y : first_with P l x -> first_with P l y -> x = y.
Proof.
  intros (l1 & l2 & -> & Hx & Hn) (m1 & m2 & E & Hy & Hm). revert m1 E Hm. induction l1 as [|z l1 IH]; intros [|w m1] E Hm; cbn [app] in E; injection E as Ez E'.
  - exact Ez.
  - subst w. destruct (Hm x (or_introl eq_refl) Hx).
  - subst z. destruct (Hn y (or_introl eq_refl) Hy).
  - apply (IH (fun v Hv => Hn v (or_intror Hv)) m1 E' (fun v Hv => Hm v (or_intror Hv))).
Qed.
Lemma first_with_in {A} (P : A -> Prop) l x : first_with P l x -> In x l /\ P x.
Proof. intros (l1 & l2 & -> & Hx & _). split; [apply in_or_app; right; left; reflexivity|exact Hx]. Qed.
Lemma first_with_app {A} (P : A -> Prop) l m x : first_with P (app l m) x <-> first_with P l x \/ ((forall y, In y l -> ~ P y) /\ first_with P m x).
Proof.
  induction l as [|y l IH]; cbn [app].
  - split; [intros H; right; split; [intros z []|exact H]|]. intros [(l1 & l2 & E & _)|[_ H]]; [destruct l1; discriminate|exact H].
  - split.
    + intros (l1 & l2 & E & Hx & Hn). destruct l1 as [|z l1]; cbn [app] in E; injection E as -> E.
      * left. exists [], l. split; [reflexivity|]. split; [exact Hx|]. intros z [].
      * assert (F : first_with P (app l m) x) by (exists l1, l2; split; [exact E|]; split; [exact Hx|]; intros v Hv; apply Hn; right; exact Hv).
        apply IH in F. destruct F as [(k1 & k2 & -> & Hx' & Hk)|[Hk F]].
        -- left. exists (z :: k1), k2. split; [reflexivity|]. split; [exact Hx|]. intros v [<-|Hv]; [apply Hn; left; reflexivity|apply Hk; exact Hv].
        -- right. split; [|exact F]. intros v [<-|Hv]; [apply Hn; left; reflexivity|apply Hk; exact Hv].
    + intros [(l1 & l2 & E & Hx & Hn)|[Hn F]].
      * exists l1, (app l2 m). split; [|split; assumption]. destruct l1; cbn [app] in E |- *; injection E as -> ->; [reflexivity|]. rewrite <- app_assoc. reflexivity.
      * destruct F as (l1 & l2 & -> & Hx & Hl). exists (y :: app l l1), l2. split; [cbn [app]; rewrite <- app_assoc; reflexivity|]. split; [exact Hx|].
        intros v [<-|Hv]; [apply Hn; left; reflexivity|]. apply in_app_or in Hv. destruct Hv as [Hv|Hv]; [apply Hn; right; exact Hv|apply Hl; exact Hv].
Qed.

(* ---- what a dependency gives ---- *)
Lemma hidden_iff a : opt_excluded (at_annotations a) = true <-> hidden a.
Proof.
  unfold opt_excluded, hidden. destruct (at_annotations a) as [ann|].
  - rewrite excluded_iff. unfold hides. split; [intros (m & H); exists ann, m; tauto|]. intros (ann' & m & E & H). injection E as <-. exists m. exact H.
  - split; [discriminate|]. intros (ann & m & E & _). discriminate.
Qed.
Lemma url_iff g u : g_url g = Some u <-> declared_at g u.
Proof.
  unfold g_url, declared_at. destruct (g_lineage g) as [l|]; cbn [option_map]; split.
  - intros H. injection H as <-. exists l. auto.
  - intros (l' & E & <-). injection E as <-. reflexivity.
  - discriminate.
  - intros (l' & E & _). discriminate.
Qed.
Lemma url_none g : g_url g = None <-> g_lineage g = None.
Proof. unfold g_url. destruct (g_lineage g); cbn [option_map]; split; congruence. Qed.
Lemma urls_first e n gs u :
  first_some (fun g => match g_url g with Some u => if String.eqb (ev_name e u) n then Some u else None | None => None end) gs = Some u <->
  first_with (fun u' => ev_name e u' = n) (urls_of gs) u.
Proof.
  unfold urls_of. induction gs as [|g gs IH]; cbn [first_some flat_map].
  - split; [discriminate|]. intros (l1 & l2 & E & _). destruct l1; discriminate.
  - unfold g_url at 1. destruct (g_lineage g) as [l|]; cbn [option_map]; [|exact IH]. rewrite first_with_app.
    destruct (String.eqb (ev_name e (pv_url (gl_provenance l))) n) eqn:Q.
    + apply String.eqb_eq in Q. split.
      * intros H. injection H as <-. left. exists [], []. split; [reflexivity|]. split; [exact Q|]. intros z [].
      * intros [F|[F _]]; [apply first_with_in in F; destruct F as [[<-|[]] _]; reflexivity|]. destruct (F _ (or_introl eq_refl) Q).
    + apply String.eqb_neq in Q. rewrite IH. split.
      * intros H. right. split; [|exact H]. intros z [<-|[]]. exact Q.
      * intros [F|[_ F]]; [|exact F]. apply first_with_in in F. destruct F as [[<-|[]] X]. contradiction.
Qed.
Lemma recorded_iff e s source u : recorded_url e s source = Some u <-> recorded e s source u.
Proof.
  unfold recorded_url, recorded. destruct (strip_prefix "v2_dependency." source) as [n|] eqn:E.
  - apply strip_prefix_spec in E. subst source. split.
    + intros H. left. exists n. split; [reflexivity|]. apply first_with_app.
      destruct (find (fun u0 => String.eqb (ev_name e u0) n) (s1_dependencies s)) as [u0|] eqn:F.
      * injection H as ->. left. apply (find_first_iff (fun u0 => String.eqb (ev_name e u0) n)); [intros y; apply String.eqb_eq|exact F].
      * right. split; [|apply urls_first; exact H]. intros y Hy X. pose proof (List.find_none _ _ F y Hy) as N. cbn in N. apply String.eqb_neq in N. contradiction.
    + intros [(m & Em & F)|(N & _)]; [|destruct (N n eq_refl)]. assert (m = n) as -> by (apply (str_app_inj_l "v2_dependency."); symmetry; exact Em).
      apply first_with_app in F. destruct F as [F|[N F]].
      * apply (find_first_iff (fun u0 => String.eqb (ev_name e u0) n)) in F; [|intros y; apply String.eqb_eq]. rewrite F. reflexivity.
      * destruct (find (fun u0 => String.eqb (ev_name e u0) n) (s1_dependencies s)) as [u0|] eqn:X.
        -- apply find_some in X. destruct X as [X Q]. apply String.eqb_eq in Q. destruct (N u0 X Q).
        -- apply urls_first. exact F.
  - assert (N : forall n, source <> "v2_dependency." ++ n).
    { intros n X. assert (Y : strip_prefix "v2_dependency." source = Some n) by (apply strip_prefix_spec; exact X). congruence. }
    split.
    + intros H. right. split; [exact N|]. destruct (find (fun g => String.eqb (g_id g) source) (s1_groups s)) as [g|] eqn:F; [|discriminate].
      exists g. split; [|apply url_iff; exact H]. apply (find_first_iff (fun g => String.eqb (g_id g) source)); [intros y; apply String.eqb_eq|exact F].
    + intros [(n & X & _)|(_ & g & F & D)]; [destruct (N n X)|].
      apply (find_first_iff (fun g => String.eqb (g_id g) source)) in F; [|intros y; apply String.eqb_eq]. rewrite F. apply url_iff. exact D.
Qed.

Lemma placed_at_iff (s : schema1) key (g : group) (f : attribute -> sourced) x :
  first_some (fun ar => match nth_error (s1_catalog s) ar with
                        | Some a => if String.eqb (at_name a) key then Some (f a) else None
                        | None => None
                        end) (g_attributes g) = Some x <-> exists a, placed s key g a /\ x = f a.
Proof.
  rewrite first_some_iff. unfold placed.
  assert (Q : forall r, match nth_error (s1_catalog s) r with Some a => if String.eqb (at_name a) key then Some (f a) else None | None => None end <> None
                <-> exists a', nth_error (s1_catalog s) r = Some a' /\ at_name a' = key).
  { intros r. destruct (nth_error (s1_catalog s) r) as [a|].
    - destruct (String.eqb_spec (at_name a) key) as [E|N].
      + split; [intros _; exists a; auto|discriminate].
      + split; [intros X; destruct (X eq_refl)|]. intros (a' & E & X). injection E as <-. contradiction.
    - split; [intros X; destruct (X eq_refl)|]. intros (a' & E & _). discriminate. }
  split.
  - intros (r & F & E). apply (first_with_ext _ _ _ _ Q) in F. destruct (nth_error (s1_catalog s) r) as [a|] eqn:N; [|discriminate].
    destruct (String.eqb (at_name a) key); [|discriminate]. injection E as <-. exists a. split; [|reflexivity]. exists r. auto.
  - intros (a & (r & F & N) & ->). exists r. split; [apply (first_with_ext _ _ _ _ Q); exact F|]. rewrite N.
    apply first_with_in in F. destruct F as [_ (a' & N' & K)]. assert (a' = a) as -> by congruence. rewrite K, String.eqb_refl. reflexivity.
Qed.
Lemma placed_fun s key g a b : placed s key g a -> placed s key g b -> a = b.
Proof. intros (r & F & E) (r' & F' & E'). assert (r = r') as <- by (eapply first_with_fun; eassumption). congruence. Qed.
Lemma found_iff s key x :
  first_some (fun g => first_some
         (fun ar => match nth_error (s1_catalog s) ar with
                    | Some a =>
                      if String.eqb (at_name a) key then
                        Some {| ws_attr := a; ws_source := match g_url g with Some u => SDep u | None => SLocal (g_id g) end; ws_def := true |}
                      else None
                    | None => None
                    end) (g_attributes g)) (s1_groups s) = Some x <->
  exists g a, first_with (fun g' => exists a', placed s key g' a') (s1_groups s) g /\ placed s key g a /\
    x = {| ws_attr := a; ws_source := match g_url g with Some u => SDep u | None => SLocal (g_id g) end; ws_def := true |}.
Proof.
  rewrite first_some_iff.
  set (mk := fun (g : group) a => {| ws_attr := a; ws_source := match g_url g with Some u => SDep u | None => SLocal (g_id g) end; ws_def := true |}).
  assert (Q : forall g, first_some (fun ar => match nth_error (s1_catalog s) ar with
                        | Some a => if String.eqb (at_name a) key then Some (mk g a) else None | None => None end) (g_attributes g) <> None
              <-> exists a', placed s key g a').
  { intros g. destruct (first_some _ (g_attributes g)) as [y|] eqn:F.
    - apply (placed_at_iff s key g (mk g)) in F. destruct F as (a & P & _). split; [intros _; exists a; exact P|discriminate].
    - split; [intros X; destruct (X eq_refl)|]. intros (a & P). exfalso.
      assert (F' : exists y, first_some (fun ar => match nth_error (s1_catalog s) ar with
                        | Some a => if String.eqb (at_name a) key then Some (mk g a) else None | None => None end) (g_attributes g) = Some y).
      { exists (mk g a). apply (placed_at_iff s key g (mk g)). exists a. auto. }
      destruct F' as (y & F'). congruence. }
  split.
  - intros (g & F & E). apply (first_with_ext _ _ _ _ Q) in F. apply (placed_at_iff s key g (mk g)) in E. destruct E as (a & P & ->). exists g, a. auto.
  - intros (g & a & F & P & ->). exists g. split; [apply (first_with_ext _ _ _ _ Q); exact F|]. apply (placed_at_iff s key g (mk g)). exists a. auto.
Qed.
Lemma published_iff s key x : lookup_attr2 s key = Some x <-> exists a u, defined_by x a u /\ forall e, gives e (D2 s) key a u.
Proof.
  unfold lookup_attr2. rewrite first_some_iff.
  set (f := fun ar => match nth_error (s2_catalog s) ar with
                      | Some a => if String.eqb (a2_key a) key then
                          Some {| ws_attr := attribute_of_v2 a RRequired None None; ws_source := SDep (source_url2 s (p2_source (a2_provenance a))); ws_def := true |}
                        else None
                      | None => None
                      end).
  assert (Q : forall r, f r <> None <-> exists a', nth_error (s2_catalog s) r = Some a' /\ a2_key a' = key).
  { intros r. unfold f. destruct (nth_error (s2_catalog s) r) as [a|].
    - destruct (String.eqb_spec (a2_key a) key) as [E|N].
      + split; [intros _; exists a; auto|discriminate].
      + split; [intros X; destruct (X eq_refl)|]. intros (a' & E & X). injection E as <-. contradiction.
    - split; [intros X; destruct (X eq_refl)|]. intros (a' & E & _). discriminate. }
  split.
  - intros (r & F & E). apply (first_with_ext _ _ _ _ Q) in F. unfold f in E. destruct (nth_error (s2_catalog s) r) as [a|] eqn:N; [|discriminate].
    destruct (String.eqb_spec (a2_key a) key) as [K|]; [|discriminate]. injection E as <-. eexists _, _. split; [split; [reflexivity|split; reflexivity]|].
    intros e. unfold attribute_of_v2, source_url2. rewrite K. unfold opt_get. apply (gives_published e s key r a F N).
  - intros (a & u & (D1 & D2 & D3) & G). specialize (G {| ev_name := fun u => u; ev_semver := fun _ => None; ev_parse := fun _ => None;
      ev_chosen := fun _ => None; ev_cached := fun _ => None; ev_deps := [] |}). inversion G as [| | | |s' key' r a0 F N]; subst. exists r.
    split; [apply (first_with_ext _ _ _ _ Q); exact F|]. unfold f. rewrite N. apply first_with_in in F. destruct F as [_ (a' & N' & K)].
    assert (a' = a0) as -> by congruence. rewrite K, String.eqb_refl. f_equal. destruct x as [xa xs xd]. cbn in *. subst. unfold attribute_of_v2, source_url2, opt_get. reflexivity.
Qed.
(* A dependency gives the definition of an attribute that the specification says. *)
Theorem C37_given : forall e d key x,
  dep_lookup_attr e d key = Got (Some x) <-> exists a u, defined_by x a u /\ gives e d key a u.
Proof.
  intros e d key x. destruct d as [s roots|s]; cbn [dep_lookup_attr].
  2:{ split.
      - intros H. assert (H' : lookup_attr2 s key = Some x) by congruence. apply published_iff in H'. destruct H' as (a & u & D & G). exists a, u. auto.
      - intros (a & u & D & G). f_equal. apply published_iff. exists a, u. split; [exact D|]. intros e'. inversion G; subst; econstructor; eassumption. }
  unfold lookup_attr1. destruct (slookup key roots) as [r|] eqn:R.
  - destruct (ra_def r) eqn:Dr; [|split; [discriminate|]].
    2:{ intros (a & u & _ & G). inversion G; congruence. }
    cbn [ws_source ws_attr ws_def]. destruct (recorded_url e s (ra_source r)) as [u|] eqn:U.
    + pose proof (proj1 (recorded_iff e s (ra_source r) u) U) as Rec. split.
      * intros H. assert (X : x = {| ws_attr := ra_attr r; ws_source := SDep u; ws_def := true |}) by congruence. subst x.
        exists (ra_attr r), u. split; [repeat split|]. apply gives_root; assumption.
      * intros (a & u' & (D1 & D2 & D3) & G). inversion G as [s0 ro k r0 u0 L Df Rc|s0 ro k r0 u0 L Df N P|s0 ro k g a0 u0 L|s0 ro k g a0 u0 L|]; subst; try congruence.
        -- assert (r0 = r) as -> by congruence. apply recorded_iff in Rc. assert (u' = u) as -> by congruence. destruct x as [xa xs xd]. cbn in *. subst. reflexivity.
        -- assert (r0 = r) as -> by congruence. destruct (N u Rec).
    + assert (N : forall u, ~ recorded e s (ra_source r) u) by (intros u X; apply recorded_iff in X; congruence).
      destruct (ev_parse e (s1_url s)) as [u|] eqn:P.
      * split.
        -- intros H. assert (X : x = {| ws_attr := ra_attr r; ws_source := SDep u; ws_def := true |}) by congruence. subst x.
           exists (ra_attr r), u. split; [repeat split|]. apply gives_own_root; assumption.
        -- intros (a & u' & (D1 & D2 & D3) & G). inversion G as [s0 ro k r0 u0 L Df Rc|s0 ro k r0 u0 L Df N' P'|s0 ro k g a0 u0 L|s0 ro k g a0 u0 L|]; subst; try congruence.
           ++ assert (r0 = r) as -> by congruence. destruct (N u' Rc).
           ++ assert (r0 = r) as -> by congruence. assert (u' = u) as -> by congruence. destruct x as [xa xs xd]. cbn in *. subst. reflexivity.
      * split; [discriminate|]. intros (a & u' & _ & G). inversion G as [s0 ro k r0 u0 L Df Rc|s0 ro k r0 u0 L Df N' P'|s0 ro k g a0 u0 L|s0 ro k g a0 u0 L|]; subst; try congruence.
        assert (r0 = r) as -> by congruence. destruct (N u' Rc).
  - destruct (first_some _ (s1_groups s)) as [y|] eqn:F.
    + apply found_iff in F. destruct F as (g & a & F & Pl & ->). cbn [ws_source ws_attr ws_def]. destruct (g_url g) as [u|] eqn:U.
      * apply url_iff in U. split.
        -- intros H. assert (X : x = {| ws_attr := a; ws_source := SDep u; ws_def := true |}) by congruence. subst x.
           exists a, u. split; [repeat split|]. apply (gives_placed e s roots key g a u R F Pl U).
        -- intros (a' & u' & (D1 & D2 & D3) & G).
           inversion G as [s0 ro k r0 u0 L|s0 ro k r0 u0 L|s0 ro k g' a0 u0 L F' Pl' U'|s0 ro k g' a0 u0 L F' Pl' U'|]; subst; try congruence.
           ++ assert (g' = g) as -> by (eapply first_with_fun; eassumption). pose proof (placed_fun _ _ _ _ _ Pl Pl') as Ea.
              apply url_iff in U, U'. assert (u' = u) as -> by congruence. destruct x as [xa xs xd]. cbn in *. subst. reflexivity.
           ++ assert (g' = g) as -> by (eapply first_with_fun; eassumption). apply url_iff in U. apply url_none in U'. congruence.
      * apply url_none in U. destruct (ev_parse e (s1_url s)) as [u|] eqn:P.
        -- split.
           ++ intros H. assert (X : x = {| ws_attr := a; ws_source := SDep u; ws_def := true |}) by congruence. subst x.
              exists a, u. split; [repeat split|]. apply (gives_own_placed e s roots key g a u R F Pl U P).
           ++ intros (a' & u' & (D1 & D2 & D3) & G).
              inversion G as [s0 ro k r0 u0 L|s0 ro k r0 u0 L|s0 ro k g' a0 u0 L F' Pl' U'|s0 ro k g' a0 u0 L F' Pl' U' P'|]; subst; try congruence.
              ** assert (g' = g) as -> by (eapply first_with_fun; eassumption). apply url_iff in U'. apply url_none in U. congruence.
              ** assert (g' = g) as -> by (eapply first_with_fun; eassumption). pose proof (placed_fun _ _ _ _ _ Pl Pl') as Ea.
                 assert (u' = u) as -> by congruence. destruct x as [xa xs xd]. cbn in *. subst. reflexivity.
        -- split; [discriminate|]. intros (a' & u' & _ & G).
           inversion G as [s0 ro k r0 u0 L|s0 ro k r0 u0 L|s0 ro k g' a0 u0 L F' Pl' U'|s0 ro k g' a0 u0 L F' Pl' U' P'|]; subst; try congruence.
           assert (g' = g) as -> by (eapply first_with_fun; eassumption). apply url_iff in U'. apply url_none in U. congruence.
    + split; [discriminate|]. intros (a' & u' & _ & G).
      assert (X : forall g a, first_with (fun g' => exists a', placed s key g' a') (s1_groups s) g -> placed s key g a -> False).
      { intros g a F' Pl. assert (Y : exists y, first_some (fun g => first_some (fun ar => match nth_error (s1_catalog s) ar with
                    | Some a => if String.eqb (at_name a) key then
                        Some {| ws_attr := a; ws_source := match g_url g with Some u => SDep u | None => SLocal (g_id g) end; ws_def := true |} else None
                    | None => None end) (g_attributes g)) (s1_groups s) = Some y) by (eexists; apply found_iff; exists g, a; eauto).
        destruct Y as (y & Y). congruence. }
      inversion G as [s0 ro k r0 u0 L|s0 ro k r0 u0 L|s0 ro k g' a0 u0 L F' Pl' U'|s0 ro k g' a0 u0 L F' Pl' U' P'|]; subst; try congruence; destruct (X _ _ F' Pl').
Qed.
(* It fails only when it needs its own url and has no usable one. *)
Theorem C37_given_failure : forall e d key err,
  dep_lookup_attr e d key = Bad err <-> exists url, err = XInvalidUrl url /\ unusable_url e d key url.
Proof.
  intros e d key err. destruct d as [s roots|s]; cbn [dep_lookup_attr unusable_url]; [|split; [discriminate|intros (url & _ & [])]].
  unfold lookup_attr1. destruct (slookup key roots) as [r|] eqn:R.
  - destruct (ra_def r) eqn:Dr; [|split; [discriminate|]].
    2:{ intros (url & _ & _ & _ & [(r0 & E & D & _)|(E & _)]); congruence. }
    cbn [ws_source]. destruct (recorded_url e s (ra_source r)) as [u|] eqn:U.
    + split; [discriminate|]. intros (url & _ & _ & _ & [(r0 & E & D & N)|(E & _)]); [|congruence]. assert (r0 = r) as -> by congruence. apply recorded_iff in U. destruct (N u U).
    + destruct (ev_parse e (s1_url s)) as [u|] eqn:P.
      * split; [discriminate|]. intros (url & _ & -> & X & _). congruence.
      * split.
        -- intros H. exists (s1_url s). split; [congruence|]. split; [reflexivity|]. split; [exact P|]. left. exists r. split; [reflexivity|]. split; [exact Dr|].
           intros u X. apply recorded_iff in X. congruence.
        -- intros (url & -> & -> & _). reflexivity.
  - destruct (first_some _ (s1_groups s)) as [y|] eqn:F.
    + apply found_iff in F. destruct F as (g & a & F & Pl & ->). cbn [ws_source]. destruct (g_url g) as [u|] eqn:U.
      * split; [discriminate|]. intros (url & _ & _ & _ & [(r0 & E & _)|(E & g' & a' & F' & _ & L)]); [congruence|].
        assert (g' = g) as -> by (eapply first_with_fun; eassumption). apply url_none in L. congruence.
      * apply url_none in U. destruct (ev_parse e (s1_url s)) as [u|] eqn:P.
        -- split; [discriminate|]. intros (url & _ & -> & X & _). congruence.
        -- split.
           ++ intros H. exists (s1_url s). split; [congruence|]. split; [reflexivity|]. split; [exact P|]. right. split; [reflexivity|]. exists g, a. auto.
           ++ intros (url & -> & -> & _). reflexivity.
    + split; [discriminate|]. intros (url & _ & _ & _ & [(r0 & E & _)|(E & g & a & F' & Pl & _)]); [congruence|].
      assert (Y : exists y, first_some (fun g => first_some (fun ar => match nth_error (s1_catalog s) ar with
                    | Some a => if String.eqb (at_name a) key then
                        Some {| ws_attr := a; ws_source := match g_url g with Some u => SDep u | None => SLocal (g_id g) end; ws_def := true |} else None
                    | None => None end) (g_attributes g)) (s1_groups s) = Some y) by (eexists; apply found_iff; exists g, a; eauto).
      destruct Y as (y & Y). congruence.
Qed.

(* ---- which one wins ---- *)
Definition dep_def (x : sourced) : Prop := exists u, ws_source x = SDep u /\ ws_def x = true.
Definition seen (x : sourced) : bool := negb (opt_excluded (at_annotations (ws_attr x))).
Lemma seen_iff x : seen x = true <-> ~ hidden (ws_attr x).
Proof.
  unfold seen. rewrite <- hidden_iff. destruct (opt_excluded (at_annotations (ws_attr x))); cbn; split; intros H; congruence.
Qed.
Definition match_up (e : env) (x y : sourced) : Prop :=
  exists u1 u2, ws_source x = SDep u1 /\ ws_source y = SDep u2 /\ compatible e u1 u2.
Definition below (e : env) (x y : sourced) : Prop :=
  x = y \/ match_up e x y /\ exists u1 u2, ws_source x = SDep u1 /\ ws_source y = SDep u2 /\ not_newer e u1 u2.
Lemma compatible_sym e u1 u2 : compatible e u1 u2 -> compatible e u2 u1.
Proof. intros (A & v1 & v2 & B & C & D). split; [auto|]. exists v2, v1. auto. Qed.
Lemma compatible_trans e u1 u2 u3 : compatible e u1 u2 -> compatible e u2 u3 -> compatible e u1 u3.
Proof. intros (A & v1 & v2 & B & C & D) (A' & v2' & v3 & B' & C' & D'). split; [congruence|]. exists v1, v3. split; [exact B|]. split; [exact C'|]. congruence. Qed.
Lemma match_up_sym e x y : match_up e x y -> match_up e y x.
Proof. intros (u1 & u2 & A & B & C). exists u2, u1. split; [exact B|]. split; [exact A|]. apply compatible_sym. exact C. Qed.
Lemma match_up_trans e x y z : match_up e x y -> match_up e y z -> match_up e x z.
Proof.
  intros (u1 & u2 & A & B & C) (v1 & v2 & A' & B' & C'). assert (v1 = u2) as -> by congruence. exists u1, v2.
  split; [exact A|]. split; [exact B'|]. eapply compatible_trans; eassumption.
Qed.
Lemma ver_le_trans a b c : ver_le a b -> ver_le b c -> ver_le a c.
Proof.
  unfold ver_le. intros H1 H2. destruct (ver_cmp a b) eqn:E1; [|clear H1|destruct (H1 eq_refl)].
  - apply ver_cmp_eq in E1. subst b. exact H2.
  - destruct (ver_cmp b c) eqn:E2; [|clear H2|destruct (H2 eq_refl)].
    + apply ver_cmp_eq in E2. subst c. congruence.
    + rewrite (ver_cmp_lt _ _ _ E1 E2). discriminate.
Qed.
Lemma below_trans e x y z : below e x y -> below e y z -> below e x z.
Proof.
  intros [->|(M & u1 & u2 & A & B & v1 & v2 & C & D & L)] H; [exact H|]. destruct H as [<-|(M' & w1 & w2 & A' & B' & v2' & v3 & C' & D' & L')].
  - right. split; [exact M|]. exists u1, u2. split; [exact A|]. split; [exact B|]. exists v1, v2. auto.
  - right. split; [eapply match_up_trans; eassumption|]. exists u1, w2. split; [exact A|]. split; [exact B'|].
    assert (w1 = u2) as -> by congruence. assert (v2' = v2) as -> by congruence. exists v1, v3. split; [exact C|]. split; [exact D'|]. eapply ver_le_trans; eassumption.
Qed.
Lemma latest_spec e u1 u2 : match latest_major (ev_name e) (ev_semver e) u1 u2 with
  | Got w => compatible e u1 u2 /\ (w = u1 /\ not_newer e u2 u1 /\ ~ not_newer e u1 u2 \/ w = u2 /\ not_newer e u1 u2)
  | Bad _ => ~ compatible e u1 u2
  end.
Proof.
  unfold latest_major. destruct (String.eqb_spec (ev_name e u1) (ev_name e u2)) as [En|Nn]; cbn [negb]; [|intros (X & _); contradiction].
  destruct (ev_semver e u1) as [v1|] eqn:E1; [|intros (_ & a & b & X & _); congruence].
  destruct (ev_semver e u2) as [v2|] eqn:E2; [|intros (_ & a & b & _ & X & _); congruence].
  destruct (N.eqb_spec (v_major v1) (v_major v2)) as [M|M].
  - split; [split; [exact En|]; exists v1, v2; auto|]. unfold version_gtb. destruct (ver_cmp v1 v2) eqn:C.
    + right. split; [reflexivity|]. exists v1, v2. split; [exact E1|]. split; [exact E2|]. unfold ver_le. congruence.
    + right. split; [reflexivity|]. exists v1, v2. split; [exact E1|]. split; [exact E2|]. unfold ver_le. congruence.
    + left. split; [reflexivity|]. split.
      * exists v2, v1. split; [exact E2|]. split; [exact E1|]. unfold ver_le. rewrite ver_cmp_opp, C. discriminate.
      * intros (a & b & A & B & L). assert (a = v1) as -> by congruence. assert (b = v2) as -> by congruence. unfold ver_le in L. contradiction.
  - intros (_ & a & b & A & B & C). congruence.
Qed.
Lemma conflict_spec e key m x : dep_def m -> dep_def x -> seen m = true -> seen x = true ->
  match resolve_conflict e key m x with
  | Got w => match_up e x m /\ (w = m /\ below e x m \/ w = x /\ below e m x)
  | Bad err => ~ match_up e x m /\ exists u1 u2, ws_source x = SDep u1 /\ ws_source m = SDep u2 /\ err = XAmbiguous key u2 u1
  end.
Proof.
  intros (u1 & Sm & Dm) (u2 & Sx & Dx) Hm Hx. unfold resolve_conflict. cbv zeta. unfold seen in Hm, Hx. apply negb_true_iff in Hm, Hx.
  rewrite Hm, Hx, Dm, Dx, Sm, Sx. cbn [Bool.eqb negb]. pose proof (latest_spec e u1 u2) as L.
  destruct (latest_major (ev_name e) (ev_semver e) u1 u2) as [w|er].
  - destruct L as (C & L). assert (M : match_up e x m) by (exists u2, u1; split; [exact Sx|]; split; [exact Sm|]; apply compatible_sym; exact C).
    assert (Keep : not_newer e u1 u2 -> below e m x).
    { intros N. right. split; [apply match_up_sym; exact M|]. exists u1, u2. auto. }
    destruct (String.eqb_spec w u2) as [->|N].
    + split; [exact M|]. right. split; [reflexivity|]. apply Keep. destruct L as [(-> & L & _)|(_ & L)]; [|exact L]. destruct L as (a & b & A & B & L).
      exists a, b. auto.
    + split; [exact M|]. left. split; [reflexivity|]. destruct L as [(_ & L & _)|(X & _)]; [|contradiction]. right. split; [exact M|]. exists u2, u1. auto.
  - split; [|exists u2, u1; auto]. intros (a & b & A & B & C). apply L. assert (a = u2) as -> by congruence. assert (b = u1) as -> by congruence. apply compatible_sym. exact C.
Qed.
Definition ordered {A} (x y : A) (l : list A) : Prop := exists l1 l2 l3, l = app l1 (x :: app l2 (y :: l3)).
Lemma ordered_cons {A} (x y z : A) l : ordered x y l -> ordered x y (z :: l).
Proof. intros (l1 & l2 & l3 & ->). exists (z :: l1), l2, l3. reflexivity. Qed.
Lemma ordered_head {A} (x y : A) l : In y l -> ordered x y (x :: l).
Proof. intros H. apply in_split in H. destruct H as (l2 & l3 & ->). exists [], l2, l3. reflexivity. Qed.
Lemma ordered_cons_inv {A} (x y z : A) l : ordered x y (z :: l) -> z = x /\ In y l \/ ordered x y l.
Proof.
  intros (l1 & l2 & l3 & E). destruct l1 as [|w l1]; cbn [app] in E; injection E as -> ->.
  - left. split; [reflexivity|]. apply in_or_app. right. left. reflexivity.
  - right. exists l1, l2, l3. reflexivity.
Qed.
Lemma fold_spec e key l : forall acc, Forall dep_def (acc :: l) ->
  match fold_matches e key (Some acc) l with
  | Got (Some w) => In w (acc :: l) /\
      (forall x y, ordered x y (filter seen (acc :: l)) -> match_up e x y) /\
      (forall y, In y (filter seen (acc :: l)) -> seen w = true /\ below e y w)
  | Got None => False
  | Bad err => exists x y u1 u2, ordered x y (filter seen (acc :: l)) /\ ~ match_up e x y /\
      ws_source x = SDep u1 /\ ws_source y = SDep u2 /\ err = XAmbiguous key u2 u1
  end.
Proof.
  induction l as [|m l IH]; intros acc F; cbn [fold_matches].
  - split; [left; reflexivity|]. cbn [filter]. split.
    + intros x y (l1 & l2 & l3 & E). destruct (seen acc); destruct l1 as [|z [|z' l1]]; try discriminate E; destruct l2; discriminate E.
    + destruct (seen acc) eqn:Sa; [|intros y []]. intros y [<-|[]]. split; [reflexivity|left; reflexivity].
  - inversion F as [|? ? Fa F']; subst. inversion F' as [|? ? Fm Fl]; subst.
    change (opt_excluded (at_annotations (ws_attr m))) with (opt_excluded (at_annotations (ws_attr m))).
    destruct (opt_excluded (at_annotations (ws_attr m))) eqn:Xm.
    + cbn [orb]. assert (Sm : seen m = false) by (unfold seen; rewrite Xm; reflexivity).
      specialize (IH acc (Forall_cons _ Fa Fl)).
      assert (Ef : filter seen (acc :: m :: l) = filter seen (acc :: l)) by (cbn [filter]; rewrite Sm; reflexivity). rewrite Ef.
      destruct (fold_matches e key (Some acc) l) as [[w|]|err]; [|exact IH|exact IH]. destruct IH as (A & B). split; [|exact B].
      destruct A as [A|A]; [left; exact A|right; right; exact A].
    + assert (Sm : seen m = true) by (unfold seen; rewrite Xm; reflexivity). cbn [orb].
      destruct (opt_excluded (at_annotations (ws_attr acc))) eqn:Xa.
      * assert (Sa : seen acc = false) by (unfold seen; rewrite Xa; reflexivity). specialize (IH m F').
        assert (Ef : filter seen (acc :: m :: l) = filter seen (m :: l)) by (cbn [filter]; rewrite Sa; reflexivity). rewrite Ef.
        destruct (fold_matches e key (Some m) l) as [[w|]|err]; [|exact IH|exact IH]. destruct IH as (A & B). split; [right; exact A|exact B].
      * assert (Sa : seen acc = true) by (unfold seen; rewrite Xa; reflexivity). pose proof (conflict_spec e key m acc Fm Fa Sm Sa) as C.
        assert (Ef : filter seen (acc :: m :: l) = acc :: m :: filter seen l) by (cbn [filter]; rewrite Sa, Sm; reflexivity). rewrite Ef. clear Ef.
        destruct (resolve_conflict e key m acc) as [w0|err] eqn:Rc; cbn [rr_bind].
        -- destruct C as (M & C).
           assert (G : forall win lose, Forall dep_def (win :: l) -> seen win = true -> match_up e lose win -> below e lose win ->
                     match fold_matches e key (Some win) l with
                     | Got (Some w) => In w (win :: l) /\
                         (forall x y, ordered x y (filter seen l) -> match_up e x y) /\
                         (forall y, In y (filter seen l) -> match_up e win y /\ match_up e lose y) /\
                         (forall y, y = win \/ y = lose \/ In y (filter seen l) -> seen w = true /\ below e y w)
                     | Got None => False
                     | Bad err => exists x y u1 u2, (x = win /\ In y (filter seen l) \/ ordered x y (filter seen l)) /\ ~ match_up e x y /\
                         ws_source x = SDep u1 /\ ws_source y = SDep u2 /\ err = XAmbiguous key u2 u1
                     end).
           { intros win lose Fw Sw Mw Bw. specialize (IH win Fw). cbn [filter] in IH. rewrite Sw in IH.
             destruct (fold_matches e key (Some win) l) as [[w|]|err]; [|exact IH|].
             - destruct IH as (A & B & D). split; [exact A|]. split; [intros x y O; apply B, ordered_cons, O|]. split.
               + intros y Hy. assert (Y : match_up e win y) by (apply B, ordered_head, Hy). split; [exact Y|]. eapply match_up_trans; eassumption.
               + destruct (D win (or_introl eq_refl)) as [D1 D2]. intros y [->|[->|Hy]]; [split; assumption| |apply D; right; exact Hy].
                 split; [exact D1|]. eapply below_trans; eassumption.
             - destruct IH as (x & y & u1 & u2 & O & R). exists x, y, u1, u2. split; [|exact R]. apply ordered_cons_inv in O. destruct O as [[-> O]|O]; auto. }
           destruct C as [(-> & B)|(-> & B)].
           ++ specialize (G m acc F' Sm M B). destruct (fold_matches e key (Some m) l) as [[w|]|err]; [|exact G|].
              ** destruct G as (A & O & P & D). split; [right; exact A|]. split.
                 --- intros x y H. apply ordered_cons_inv in H. destruct H as [[<- H]|H].
                     +++ destruct H as [<-|H]; [exact M|]. apply (P y H).
                     +++ apply ordered_cons_inv in H. destruct H as [[<- H]|H]; [apply (P y H)|apply O; exact H].
                 --- intros y [<-|[<-|H]]; apply D; auto.
              ** destruct G as (x & y & u1 & u2 & O & R). exists x, y, u1, u2. split; [|exact R]. apply ordered_cons. destruct O as [[-> O]|O]; [apply ordered_head; exact O|apply ordered_cons; exact O].
           ++ specialize (G acc m (Forall_cons _ Fa Fl) Sa (match_up_sym _ _ _ M) B). destruct (fold_matches e key (Some acc) l) as [[w|]|err]; [|exact G|].
              ** destruct G as (A & O & P & D). split; [destruct A as [A|A]; [left; exact A|right; right; exact A]|]. split.
                 --- intros x y H. apply ordered_cons_inv in H. destruct H as [[<- H]|H].
                     +++ destruct H as [<-|H]; [exact M|]. apply (P y H).
                     +++ apply ordered_cons_inv in H. destruct H as [[<- H]|H]; [apply (P y H)|apply O; exact H].
                 --- intros y [<-|[<-|H]]; apply D; auto.
              ** destruct G as (x & y & u1 & u2 & O & R). exists x, y, u1, u2. split; [|exact R].
                 destruct O as [[-> O]|O]; [apply ordered_head; right; exact O|apply ordered_cons, ordered_cons; exact O].
        -- destruct C as (N & u1 & u2 & A & B & ->). exists acc, m, u1, u2. split; [|auto]. apply ordered_head. left. reflexivity.
Qed.

(* ---- all dependencies ---- *)
Definition given_list (e : env) (key : string) (d : dependency) : list sourced :=
  match dep_lookup_attr e d key with Got (Some x) => [x] | _ => [] end.
Lemma collect_spec e key ds :
  match collect_matches e key ds with
  | Got l => l = flat_map (given_list e key) ds /\ forall d err, In d ds -> dep_lookup_attr e d key <> Bad err
  | Bad err => exists d, In d ds /\ dep_lookup_attr e d key = Bad err
  end.
Proof.
  induction ds as [|d ds IH]; cbn [collect_matches flat_map]; [split; [reflexivity|intros d err []]|]. unfold given_list at 1.
  destruct (dep_lookup_attr e d key) as [o|err] eqn:E; cbn [rr_bind]; [|exists d; split; [left; reflexivity|exact E]].
  destruct (collect_matches e key ds) as [l|err]; cbn [rr_bind].
  - destruct IH as [-> N]. split; [destruct o; reflexivity|]. intros d' err [<-|H]; [congruence|apply N; exact H].
  - destruct IH as (d' & H & X). exists d'. split; [right; exact H|exact X].
Qed.
Lemma given_in e key d x : In x (given_list e key d) <-> exists a u, defined_by x a u /\ gives e d key a u.
Proof.
  rewrite <- C37_given. unfold given_list. destruct (dep_lookup_attr e d key) as [[y|]|err].
  - split; [intros [<-|[]]; reflexivity|]. intros H. left. congruence.
  - split; [intros []|discriminate].
  - split; [intros []|discriminate].
Qed.
Lemma given_one e key d : given_list e key d = [] \/ exists x, given_list e key d = [x].
Proof. unfold given_list. destruct (dep_lookup_attr e d key) as [[y|]|err]; eauto. Qed.
Lemma given_deps e key ds : Forall dep_def (flat_map (given_list e key) ds).
Proof.
  apply Forall_forall. intros x H. apply in_flat_map in H. destruct H as (d & _ & H). apply given_in in H. destruct H as (a & u & (_ & A & B) & _). exists u. auto.
Qed.
Lemma flat_split {A B} (f : A -> list B) (one : forall x, f x = [] \/ exists y, f x = [y]) l : forall m1 y m2,
  flat_map f l = app m1 (y :: m2) -> exists l1 x l2, l = app l1 (x :: l2) /\ f x = [y] /\ flat_map f l2 = m2.
Proof.
  induction l as [|x l IH]; intros m1 y m2 E; cbn [flat_map] in E; [destruct m1; discriminate|]. destruct (one x) as [Ex|(z & Ex)]; rewrite Ex in E; cbn [app] in E.
  - destruct (IH _ _ _ E) as (l1 & x' & l2 & -> & R). exists (x :: l1), x', l2. auto.
  - destruct m1 as [|w m1]; cbn [app] in E; injection E as -> E.
    + exists [], x, l. auto.
    + destruct (IH _ _ _ E) as (l1 & x' & l2 & -> & R). exists (x :: l1), x', l2. auto.
Qed.
Lemma filter_flat {A B} (p : B -> bool) (f : A -> list B) l : filter p (flat_map f l) = flat_map (fun x => filter p (f x)) l.
Proof. induction l as [|x l IH]; [reflexivity|]. cbn [flat_map]. rewrite filter_app, IH. reflexivity. Qed.
Lemma ordered_deps e key ds x y : ordered x y (filter seen (flat_map (given_list e key) ds)) <->
  exists l1 d l2 d' l3, ds = app l1 (d :: app l2 (d' :: l3)) /\ In x (given_list e key d) /\ In y (given_list e key d') /\ seen x = true /\ seen y = true.
Proof.
  rewrite filter_flat.
  assert (One : forall d, filter seen (given_list e key d) = [] \/ exists z, filter seen (given_list e key d) = [z]).
  { intros d. destruct (given_one e key d) as [->|(z & ->)]; cbn [filter]; [auto|]. destruct (seen z); eauto. }
  split.
  - intros (m1 & m2 & m3 & E). destruct (flat_split _ One _ _ _ _ E) as (l1 & d & r & -> & Ed & Er).
    destruct (flat_split _ One _ _ _ _ Er) as (l2 & d' & l3 & -> & Ed' & _). exists l1, d, l2, d', l3. split; [reflexivity|].
    assert (X : In x (filter seen (given_list e key d))) by (rewrite Ed; left; reflexivity).
    assert (Y : In y (filter seen (given_list e key d'))) by (rewrite Ed'; left; reflexivity).
    apply filter_In in X, Y. tauto.
  - intros (l1 & d & l2 & d' & l3 & -> & X & Y & Sx & Sy).
    assert (Fx : forall d z, In z (given_list e key d) -> seen z = true -> filter seen (given_list e key d) = [z]).
    { intros d0 z Hz Sz. destruct (given_one e key d0) as [E|(w & E)]; rewrite E in Hz |- *; [destruct Hz|]. destruct Hz as [->|[]]. cbn [filter]. rewrite Sz. reflexivity. }
    rewrite flat_map_app. cbn [flat_map]. rewrite flat_map_app. cbn [flat_map]. rewrite (Fx _ _ X Sx), (Fx _ _ Y Sy). cbn [app]. eexists _, _, _. reflexivity.
Qed.
Lemma in_given e key x : In x (flat_map (given_list e key) (ev_deps e)) <-> exists d a u, In d (ev_deps e) /\ gives e d key a u /\ defined_by x a u.
Proof.
  rewrite in_flat_map. split.
  - intros (d & Hd & H). apply given_in in H. destruct H as (a & u & D & G). exists d, a, u. auto.
  - intros (d & a & u & Hd & G & D). exists d. split; [exact Hd|]. apply given_in. exists a, u. auto.
Qed.
Lemma defined_fun x a u a' u' : defined_by x a u -> defined_by x a' u' -> a = a' /\ u = u'.
Proof. intros (A & B & _) (A' & B' & _). split; congruence. Qed.
Lemma defined_inj x y a u : defined_by x a u -> defined_by y a u -> x = y.
Proof. destruct x, y. intros (A & B & C) (A' & B' & C'). cbn in *. congruence. Qed.
Lemma match_up_iff e x y a u a' u' : defined_by x a u -> defined_by y a' u' -> (match_up e x y <-> compatible e u u').
Proof.
  intros (_ & A & _) (_ & B & _). split.
  - intros (u1 & u2 & C & D & E). assert (u1 = u) as <- by congruence. assert (u2 = u') as <- by congruence. exact E.
  - intros C. exists u, u'. auto.
Qed.

(* A reference to an attribute of the dependencies takes an unhidden definition when there is one; all the other unhidden ones are from
   versions of the same registry, of the same major number and not newer. *)
Theorem C37_winner : forall e key x, deps_lookup_attr e key = Got (Some x) ->
  exists a u, defined_by x a u /\ (exists d, In d (ev_deps e) /\ gives e d key a u) /\
    forall d a' u', In d (ev_deps e) -> gives e d key a' u' -> ~ hidden a' ->
      ~ hidden a /\ ((a' = a /\ u' = u) \/ (compatible e u' u /\ not_newer e u' u)).
Proof.
  intros e key x H. unfold deps_lookup_attr in H. pose proof (collect_spec e key (ev_deps e)) as C.
  destruct (collect_matches e key (ev_deps e)) as [l|err]; cbn [rr_bind] in H; [|discriminate]. destruct C as [El _].
  destruct l as [|x0 l]; [discriminate H|]. cbn [fold_matches] in H. pose proof (fold_spec e key l x0) as F. rewrite H in F.
  assert (Fd : Forall dep_def (x0 :: l)) by (rewrite El; apply given_deps). destruct (F Fd) as (I & _ & B). rewrite El in I. apply in_given in I.
  destruct I as (d & a & u & Hd & G & D). exists a, u. split; [exact D|]. split; [exists d; auto|].
  intros d' a' u' Hd' G' N'. set (y := {| ws_attr := a'; ws_source := SDep u'; ws_def := true |}).
  assert (Dy : defined_by y a' u') by (repeat split).
  assert (Iy : In y (filter seen (x0 :: l))).
  { apply filter_In. split; [|apply seen_iff; exact N']. rewrite El. apply in_given. exists d', a', u'. auto. }
  destruct (B y Iy) as [Sx Bl]. split; [destruct D as [<- _]; apply seen_iff; exact Sx|]. destruct Bl as [E|(M & u1 & u2 & A1 & A2 & L)].
  - left. rewrite E in Dy. destruct (defined_fun _ _ _ _ _ D Dy) as [-> ->]. auto.
  - right. split; [apply (match_up_iff e _ _ _ _ _ _ Dy D); exact M|]. destruct D as (_ & D & _). cbn in A1. assert (u1 = u') as <- by congruence.
    assert (u2 = u) as <- by congruence. exact L.
Qed.
(* It finds nothing exactly when no dependency defines the attribute. *)
Theorem C37_nothing : forall e key, deps_lookup_attr e key = Got None <->
  (forall d a u, In d (ev_deps e) -> ~ gives e d key a u) /\ (forall d url, In d (ev_deps e) -> ~ unusable_url e d key url).
Proof.
  intros e key. unfold deps_lookup_attr. pose proof (collect_spec e key (ev_deps e)) as C.
  destruct (collect_matches e key (ev_deps e)) as [l|err]; cbn [rr_bind].
  - destruct C as [El Nb]. split.
    + intros H. destruct l as [|x0 l].
      * split.
        -- intros d a u Hd G. assert (I : In {| ws_attr := a; ws_source := SDep u; ws_def := true |} (flat_map (given_list e key) (ev_deps e))).
           { apply in_given. exists d, a, u. repeat (split; [assumption|]). repeat split. }
           rewrite <- El in I. destruct I.
        -- intros d url Hd U. apply (Nb d (XInvalidUrl url) Hd). apply C37_given_failure. eauto.
      * cbn [fold_matches] in H. pose proof (fold_spec e key l x0) as F. rewrite H in F. destruct F. rewrite El. apply given_deps.
    + intros [N _]. destruct l as [|x0 l]; [reflexivity|]. exfalso. assert (I : In x0 (flat_map (given_list e key) (ev_deps e))) by (rewrite <- El; left; reflexivity).
      apply in_given in I. destruct I as (d & a & u & Hd & G & _). exact (N d a u Hd G).
  - destruct C as (d & Hd & E). split; [discriminate|]. intros [_ N]. apply C37_given_failure in E. destruct E as (url & _ & U). destruct (N d url Hd U).
Qed.
(* It fails only for a dependency with an unusable url, or for two definitions that no version rule decides between: *)
Theorem C37_failure : forall e key err, deps_lookup_attr e key = Bad err ->
  (exists d url, In d (ev_deps e) /\ unusable_url e d key url /\ err = XInvalidUrl url) \/
  (exists u1 u2, undecided e key u1 u2 /\ err = XAmbiguous key u2 u1).
Proof.
  intros e key err H. unfold deps_lookup_attr in H. pose proof (collect_spec e key (ev_deps e)) as C.
  destruct (collect_matches e key (ev_deps e)) as [l|er]; cbn [rr_bind] in H.
  - destruct C as [El _]. destruct l as [|x0 l]; [discriminate|]. cbn [fold_matches] in H. pose proof (fold_spec e key l x0) as F. rewrite H in F.
    assert (Fd : Forall dep_def (x0 :: l)) by (rewrite El; apply given_deps). destruct (F Fd) as (x & y & u1 & u2 & O & N & Sx & Sy & ->). rewrite El in O.
    apply ordered_deps in O. destruct O as (l1 & d & l2 & d' & l3 & E & X & Y & Vx & Vy). apply given_in in X, Y.
    destruct X as (a & u & Dx & Gx), Y as (a' & u' & Dy & Gy). right. exists u1, u2. split; [|reflexivity].
    pose proof (match_up_iff e _ _ _ _ _ _ Dx Dy) as M. apply seen_iff in Vx, Vy.
    destruct Dx as (<- & Dx & _), Dy as (<- & Dy & _). assert (u = u1) as <- by congruence. assert (u' = u2) as <- by congruence.
    exists l1, d, l2, d', l3, (ws_attr x), (ws_attr y). repeat (split; [assumption|]). intros K. apply N, M. exact K.
  - destruct C as (d & Hd & E). assert (er = err) as -> by congruence. apply C37_given_failure in E. destruct E as (url & -> & U). left. exists d, url. auto.
Qed.
(* and it does fail for these. *)
Theorem C37_refused : forall e key,
  (exists d url, In d (ev_deps e) /\ unusable_url e d key url) \/ (exists u1 u2, undecided e key u1 u2) -> exists err, deps_lookup_attr e key = Bad err.
Proof.
  intros e key H. unfold deps_lookup_attr. pose proof (collect_spec e key (ev_deps e)) as C.
  destruct (collect_matches e key (ev_deps e)) as [l|er]; cbn [rr_bind]; [|eauto]. destruct C as [El Nb]. destruct H as [(d & url & Hd & U)|(u1 & u2 & Un)].
  - exfalso. apply (Nb d (XInvalidUrl url) Hd). apply C37_given_failure. eauto.
  - destruct Un as (l1 & d & l2 & d' & l3 & a & a' & E & G & G' & N & N' & K).
    set (x := {| ws_attr := a; ws_source := SDep u1; ws_def := true |}). set (y := {| ws_attr := a'; ws_source := SDep u2; ws_def := true |}).
    assert (Dx : defined_by x a u1) by (repeat split). assert (Dy : defined_by y a' u2) by (repeat split).
    assert (O : ordered x y (filter seen l)).
    { rewrite El. apply ordered_deps. exists l1, d, l2, d', l3. split; [exact E|]. split; [apply given_in; exists a, u1; auto|]. split; [apply given_in; exists a', u2; auto|].
      split; apply seen_iff; assumption. }
    destruct l as [|x0 l]; [destruct O as ([|] & ? & ? & O); discriminate O|]. cbn [fold_matches]. pose proof (fold_spec e key l x0) as F.
    assert (Fd : Forall dep_def (x0 :: l)) by (rewrite El; apply given_deps). specialize (F Fd).
    destruct (fold_matches e key (Some x0) l) as [[w|]|err]; [|destruct F|eauto]. destruct F as (_ & M & _). exfalso. apply K.
    apply (match_up_iff e _ _ _ _ _ _ Dx Dy). apply M. exact O.
Qed.
(* ---- the order of the dependencies ---- *)
Lemma gives_deps e ds d key a u : gives (with_dependencies e ds) d key a u <-> gives e d key a u.
Proof.
  split; intros G; inversion G; subst; [eapply gives_root|eapply gives_own_root|eapply gives_placed|eapply gives_own_placed|eapply gives_published|
    eapply gives_root|eapply gives_own_root|eapply gives_placed|eapply gives_own_placed|eapply gives_published]; eassumption.
Qed.
Lemma ordered_perm {A} (R : A -> A -> Prop) l l' : (forall x y, R x y -> R y x) -> Permutation l l' ->
  (forall x y, ordered x y l -> R x y) -> forall x y, ordered x y l' -> R x y.
Proof.
  intros Sym P. induction P as [|z l l' P IH|z w l|l l1 l2 _ IH1 _ IH2]; intros H x y O.
  - exact (H x y O).
  - apply ordered_cons_inv in O. destruct O as [[-> O]|O].
    + apply H, ordered_head. apply (Permutation_in _ (Permutation_sym P)). exact O.
    + apply IH; [|exact O]. intros a b Oab. apply H, ordered_cons. exact Oab.
  - apply ordered_cons_inv in O. destruct O as [[-> O]|O].
    + destruct O as [->|O].
      * apply Sym, H, ordered_head. left. reflexivity.
      * apply H, ordered_cons, ordered_head. exact O.
    + apply ordered_cons_inv in O. destruct O as [[-> O]|O]; [apply H, ordered_head; right; exact O|apply H, ordered_cons, ordered_cons; exact O].
  - apply IH2; [|exact O]. intros a b Oab. apply IH1; [exact H|exact Oab].
Qed.
Lemma flat_perm {A B} (f : A -> list B) l l' : Permutation l l' -> Permutation (flat_map f l) (flat_map f l').
Proof. apply Permutation_flat_map. Qed.
(* The order of the dependencies does not matter. *)
Theorem C37_order : forall e ds ds' key, Permutation ds ds' -> consistent (with_dependencies e ds) key ->
  alike (deps_lookup_attr (with_dependencies e ds) key) (deps_lookup_attr (with_dependencies e ds') key).
Proof.
  intros e ds ds' key P Con.
  assert (Suff : forall ds ds' x, Permutation ds ds' -> deps_lookup_attr (with_dependencies e ds) key = Got (Some x) ->
            exists y, deps_lookup_attr (with_dependencies e ds') key = Got (Some y)).
  { clear ds ds' P Con. intros ds ds' x P H. destruct (deps_lookup_attr (with_dependencies e ds') key) as [[y|]|err] eqn:E.
    - exists y. reflexivity.
    - exfalso. destruct (C37_winner _ _ _ H) as (a & u & _ & (d & Hd & G) & _). apply C37_nothing in E. destruct E as [N _].
      apply (N d a u); [cbn; apply (Permutation_in _ P); exact Hd|]. apply gives_deps. apply gives_deps in G. exact G.
    - exfalso. unfold deps_lookup_attr in H, E. pose proof (collect_spec (with_dependencies e ds) key ds) as C. pose proof (collect_spec (with_dependencies e ds') key ds') as C'.
      cbn [with_dependencies ev_deps] in H, E.
      destruct (collect_matches (with_dependencies e ds) key ds) as [l|er]; cbn [rr_bind] in H; [|discriminate].
      destruct (collect_matches (with_dependencies e ds') key ds') as [l'|er]; cbn [rr_bind] in E.
      + destruct C as [El _], C' as [El' _]. change (given_list (with_dependencies e ds)) with (given_list e) in El.
        change (given_list (with_dependencies e ds')) with (given_list e) in El'.
        assert (Pl : Permutation l l') by (rewrite El, El'; apply flat_perm; exact P).
        destruct l as [|x0 l]; [discriminate H|]. destruct l' as [|y0 l']; [discriminate E|]. cbn [fold_matches] in H, E.
        assert (Fd : Forall dep_def (x0 :: l)) by (rewrite El; apply given_deps). assert (Fd' : Forall dep_def (y0 :: l')) by (rewrite El'; apply given_deps).
        pose proof (fold_spec (with_dependencies e ds) key l x0 Fd) as F. pose proof (fold_spec (with_dependencies e ds') key l' y0 Fd') as F'. rewrite H in F. rewrite E in F'.
        destruct F as (_ & M & _). destruct F' as (x1 & y1 & u1 & u2 & O & N & _). apply N.
        assert (Pf : Permutation (filter seen (x0 :: l)) (filter seen (y0 :: l'))) by (apply PropUnique.filter_perm; exact Pl).
        exact (ordered_perm _ _ _ (match_up_sym (with_dependencies e ds)) Pf M x1 y1 O).
      + destruct C as [_ N]. destruct C' as (d & Hd & B). apply (N d er); [apply (Permutation_in _ (Permutation_sym P)); exact Hd|exact B]. }
  destruct (deps_lookup_attr (with_dependencies e ds) key) as [[x|]|err] eqn:E.
  - destruct (Suff _ _ _ P E) as (y & E'). rewrite E'. cbn [alike].
    destruct (C37_winner _ _ _ E) as (a & u & D & (d & Hd & G) & W). destruct (C37_winner _ _ _ E') as (a' & u' & D' & (d' & Hd' & G') & W'). cbn in Hd, Hd', W, W'.
    destruct D as (<- & Su & Df). destruct D' as (<- & Su' & Df').
    destruct (opt_excluded (at_annotations (ws_attr x))) eqn:Hx.
    + right. split; [apply hidden_iff; exact Hx|]. destruct (opt_excluded (at_annotations (ws_attr y))) eqn:Hy; [apply hidden_iff; exact Hy|]. exfalso.
      assert (Ny : ~ hidden (ws_attr y)) by (intros X; apply hidden_iff in X; congruence).
      destruct (W d' (ws_attr y) u') as [X _].
      * apply (Permutation_in _ (Permutation_sym P)). exact Hd'.
      * apply gives_deps. apply gives_deps in G'. exact G'.
      * exact Ny.
      * apply X, hidden_iff. exact Hx.
    + left. assert (Nx : ~ hidden (ws_attr x)) by (intros X; apply hidden_iff in X; congruence).
      assert (Gx' : gives (with_dependencies e ds') d key (ws_attr x) u) by (apply gives_deps; apply gives_deps in G; exact G).
      assert (Gy : gives (with_dependencies e ds) d' key (ws_attr y) u') by (apply gives_deps; apply gives_deps in G'; exact G').
      assert (Hdx : In d ds') by (apply (Permutation_in _ P); exact Hd). assert (Hdy : In d' ds) by (apply (Permutation_in _ (Permutation_sym P)); exact Hd').
      destruct (W' d _ _ Hdx Gx' Nx) as [Ny B1]. destruct (W d' _ _ Hdy Gy Ny) as [_ B2].
      assert (Fin : ws_attr x = ws_attr y /\ u = u').
      { destruct B1 as [[A B]|((Nm & _) & v1 & v2 & V1 & V2 & L)]; [auto|]. destruct B2 as [[A B]|(_ & w1 & w2 & V3 & V4 & L')]; [auto|].
        cbn in Nm, V1, V2, V3, V4. assert (w1 = v2) as -> by congruence. assert (w2 = v1) as -> by congruence.
        apply (Con d d' (ws_attr x) (ws_attr y) u u' Hd Hdy G Gy Nm). cbn. rewrite V1, V2. f_equal. apply ver_cmp_eq.
        unfold ver_le in L, L'. rewrite ver_cmp_opp in L'. destruct (ver_cmp v1 v2); [reflexivity| |]; cbn in L'; congruence. }
      destruct Fin as [F1 F2]. destruct x as [xa xs xd], y as [ya ys yd]. cbn in *. congruence.
  - destruct (deps_lookup_attr (with_dependencies e ds') key) as [[y|]|err'] eqn:E'; cbn [alike]; [|exact I|].
    + destruct (Suff _ _ _ (Permutation_sym P) E') as (x & X). congruence.
    + apply C37_nothing in E. destruct E as [N1 N2]. cbn in N1, N2. apply C37_failure in E'.
      destruct E' as [(d & url & Hd & U & _)|(u1 & u2 & (l1 & d & l2 & d' & l3 & a & a' & Ed & G & _) & _)].
      * cbn in Hd. apply (N2 d url); [apply (Permutation_in _ (Permutation_sym P)); exact Hd|]. exact U.
      * cbn in Ed. apply (N1 d a u1); [apply (Permutation_in _ (Permutation_sym P)); rewrite Ed; apply in_or_app; right; left; reflexivity|].
        apply gives_deps. apply gives_deps in G. exact G.
  - destruct (deps_lookup_attr (with_dependencies e ds') key) as [[y|]|err'] eqn:E'; cbn [alike]; [| |exact I].
    + destruct (Suff _ _ _ (Permutation_sym P) E') as (x & X). congruence.
    + apply C37_nothing in E'. destruct E' as [N1 N2]. cbn in N1, N2. apply C37_failure in E.
      destruct E as [(d & url & Hd & U & _)|(u1 & u2 & (l1 & d & l2 & d' & l3 & a & a' & Ed & G & _) & _)].
      * cbn in Hd. apply (N2 d url); [apply (Permutation_in _ P); exact Hd|]. exact U.
      * cbn in Ed. apply (N1 d a u1); [apply (Permutation_in _ P); rewrite Ed; apply in_or_app; right; left; reflexivity|].
        apply gives_deps. apply gives_deps in G. exact G.
Qed.

Definition prefb (x y : sourced) : bool :=
  let hx := opt_excluded (at_annotations (ws_attr x)) in
  let hy := opt_excluded (at_annotations (ws_attr y)) in
  (negb hx && hy) ||
  (Bool.eqb hx hy && ((ws_def x && negb (ws_def y)) ||
     (Bool.eqb (ws_def x) (ws_def y) && match ws_source x, ws_source y with SDep _, SLocal _ => true | _, _ => false end))).
Lemma prefb_iff x y : preferred x y <-> prefb x y = true.
Proof.
  unfold preferred, prefb. rewrite <- !hidden_iff. cbv zeta.
  destruct (opt_excluded (at_annotations (ws_attr x))), (opt_excluded (at_annotations (ws_attr y))), (ws_def x), (ws_def y),
    (ws_source x) as [g1|u1], (ws_source y) as [g2|u2]; cbn [negb andb orb Bool.eqb]; split; try (intros _; reflexivity); try discriminate;
    try (intros _; left; split; [discriminate|reflexivity]);
    try (intros _; right; split; [tauto|left; split; reflexivity]);
    try (intros _; right; split; [tauto|right; split; [reflexivity|eexists _, _; split; reflexivity]]);
    intros [[A B]|[A [[B C]|(B & u & g & C & D)]]]; try discriminate; try (destruct A as [A1 A2]); try tauto; intuition discriminate.
Qed.
(* Between two definitions of one attribute met while definitions are resolved, the better kind wins
   in either order.  Among equals a newer version of one registry wins; two local ones leave the
   one met first; incompatible versions are refused. *)
Theorem C37_precedence : forall e key m x,
  (preferred m x -> resolve_conflict e key m x = Got m) /\
  (preferred x m -> resolve_conflict e key m x = Got x) /\
  (~ preferred m x -> ~ preferred x m ->
     match ws_source m, ws_source x with
     | SDep u1, SDep u2 =>
       (compatible e u1 u2 -> resolve_conflict e key m x = Got x /\ not_newer e u1 u2 \/
                              resolve_conflict e key m x = Got m /\ not_newer e u2 u1 /\ ~ not_newer e u1 u2) /\
       (~ compatible e u1 u2 -> resolve_conflict e key m x = Bad (XAmbiguous key u1 u2))
     | SLocal _, SLocal _ => resolve_conflict e key m x = Got x
     | _, _ => False
     end).
Proof.
  intros e key m x. rewrite !prefb_iff. unfold prefb, resolve_conflict. cbv zeta.
  assert (L : forall u1 u2, ((compatible e u1 u2 ->
      match latest_major (ev_name e) (ev_semver e) u1 u2 with Got w => if String.eqb w u2 then Got x else Got m | Bad _ => Bad (XAmbiguous key u1 u2) end = Got x /\ not_newer e u1 u2 \/
      match latest_major (ev_name e) (ev_semver e) u1 u2 with Got w => if String.eqb w u2 then Got x else Got m | Bad _ => Bad (XAmbiguous key u1 u2) end = Got m /\ not_newer e u2 u1 /\ ~ not_newer e u1 u2) /\
     (~ compatible e u1 u2 -> 
      match latest_major (ev_name e) (ev_semver e) u1 u2 with Got w => if String.eqb w u2 then Got x else Got m | Bad _ => Bad (XAmbiguous key u1 u2) end = Bad (XAmbiguous key u1 u2)))).
  { intros u1 u2. pose proof (latest_spec e u1 u2) as L. destruct (latest_major (ev_name e) (ev_semver e) u1 u2) as [w|er].
    - destruct L as (C & L). split; [intros _|intros N; contradiction]. destruct (String.eqb_spec w u2) as [->|N].
      + left. split; [reflexivity|]. destruct L as [(-> & L & _)|(_ & L)]; exact L.
      + right. split; [reflexivity|]. destruct L as [(_ & L)|(-> & _)]; [exact L|contradiction].
    - split; [intros C; contradiction|intros _; reflexivity]. }
  destruct (opt_excluded (at_annotations (ws_attr m))), (opt_excluded (at_annotations (ws_attr x))), (ws_def m), (ws_def x),
    (ws_source m) as [g1|u1], (ws_source x) as [g2|u2]; cbn [negb andb orb Bool.eqb];
    (split; [intros P; (discriminate || reflexivity)|]); (split; [intros P; (discriminate || reflexivity)|]); intros A B;
    try (exfalso; apply A; reflexivity); try (exfalso; apply B; reflexivity); try reflexivity; apply L.
Qed.

(* The files' order decides whether a registry resolves: two dependencies that are no versions of one
   registry give different definitions of "x", and a definition of the registry settles it only
   if it comes first. *)
Definition ambiguous_deps := [sample_giving "acme/1.0" "base.a" "x" "of acme" false; sample_giving "other" "base.b" "x" "of other" false].
Theorem C37_file_order_refuted : exists glob o e l1 l2 r err, real_orders o /\ Permutation l1 l2 /\
  resolve_registry glob o e [(l1, sample_file)] [] false = Done r /\ rs_errors r = [] /\
  resolve_registry glob o e [(l2, sample_file)] [] false = Failed [err].
Proof.
  set (d := sample_defining "own" [sample_id "x" "own"]).
  exists sample_glob, sample_orders, (sample_versions ambiguous_deps), [d; sample_extending "one" "base.a"; sample_extending "two" "base.b"],
    [sample_extending "one" "base.a"; sample_extending "two" "base.b"; d].
  eexists _, _. split; [apply sample_orders_real|]. split.
  - apply (Permutation_cons_append [sample_extending "one" "base.a"; sample_extending "two" "base.b"] d).
  - split; [vm_compute; reflexivity|]. split; [reflexivity|]. vm_compute. reflexivity.
Qed.
(* Two definitions of the files that give one attribute differently, neither of them an attribute
   group: the one that comes first is what references get, and nothing is reported. *)
Theorem C37_local_order_refuted : exists glob o e l1 l2 r1 r2, real_orders o /\ Permutation l1 l2 /\
  resolve_registry glob o e [(l1, sample_file)] [] false = Done r1 /\ rs_errors r1 = [] /\
  resolve_registry glob o e [(l2, sample_file)] [] false = Done r2 /\ rs_errors r2 = [] /\
  In ("span.ref", ["one"]) (sample_texts r1) /\ In ("span.ref", ["two"]) (sample_texts r2).
Proof.
  set (a := sample_spec "span.a" GSpan None None [] [sample_id "x" "one"]).
  set (b := sample_spec "span.b" GSpan None None [] [sample_id "x" "two"]).
  exists sample_glob, sample_orders, (sample_env []), [a; b; sample_referring "span.ref" "x"], [b; a; sample_referring "span.ref" "x"].
  eexists _, _. split; [apply sample_orders_real|]. split; [apply perm_swap|].
  split; [vm_compute; reflexivity|]. split; [reflexivity|]. split; [vm_compute; reflexivity|]. split; [reflexivity|].
  split; vm_compute; tauto.
Qed.
(* A definition that extends one both dependencies publish gets the attributes of the dependency listed
   first, an older version of the same registry though it may be. *)
Theorem C37_extends_order_refuted : exists glob o e ds ds' l r1 r2, real_orders o /\ Permutation ds ds' /\
  consistent (with_dependencies e ds) "x" /\
  resolve_registry glob o (with_dependencies e ds) [(l, sample_file)] [] false = Done r1 /\ rs_errors r1 = [] /\
  resolve_registry glob o (with_dependencies e ds') [(l, sample_file)] [] false = Done r2 /\ rs_errors r2 = [] /\
  In ("span.a", ["older"]) (sample_texts r1) /\ In ("span.a", ["newer"]) (sample_texts r2).
Proof.
  set (d1 := sample_giving "acme/1.0" "base" "x" "older" false).
  set (d2 := sample_giving "acme/1.2" "base" "x" "newer" false).
  exists sample_glob, sample_orders, (sample_versions []), [d1; d2], [d2; d1], [sample_extending "span.a" "base"].
  eexists _, _. split; [apply sample_orders_real|]. split; [apply perm_swap|]. split.
  - set (e := with_dependencies (sample_versions []) [d1; d2]).
    assert (X : forall d a u, In d [d1; d2] -> gives e d "x" a u ->
      a = sample_noted "x" "older" false /\ u = "acme/1.0" \/ a = sample_noted "x" "newer" false /\ u = "acme/1.2").
    { intros d a u Hd G. assert (Y := proj2 (C37_given e d "x" {| ws_attr := a; ws_source := SDep u; ws_def := true |})
          (ex_intro _ a (ex_intro _ u (conj (conj eq_refl (conj eq_refl eq_refl)) G)))).
      destruct Hd as [<-|[<-|[]]]; vm_compute in Y; injection Y as Ya Yu; subst; [left|right]; split; reflexivity. }
    intros d d' a a' u u' Hd Hd' G G' _ V.
    destruct (X d a u Hd G) as [[-> ->]|[-> ->]]; destruct (X d' a' u' Hd' G') as [[-> ->]|[-> ->]]; try (split; reflexivity); vm_compute in V; discriminate.
  - split; [vm_compute; reflexivity|]. split; [reflexivity|]. split; [vm_compute; reflexivity|]. split; [reflexivity|].
    split; vm_compute; tauto.
Qed.
(* Two definitions that extend one definition of one dependency, whose version is no semantic
   version: the attribute it gives to both conflicts with itself and the registry is refused.
   Either of them alone is resolved. *)
Definition undotted_env : env :=
  {| ev_name := fun _ => "acme"; ev_semver := fun _ => None; ev_parse := fun u => Some u; ev_chosen := fun _ => None; ev_cached := fun _ => None;
     ev_deps := [sample_giving "acme/latest" "base" "x" "of acme" false] |}.
Theorem C37_one_version_refuted : exists glob o e g1 g2 r1 r2 u, real_orders o /\ length (ev_deps e) = 1 /\
  resolve_registry glob o e [([g1], sample_file)] [] false = Done r1 /\ rs_errors r1 = [] /\
  resolve_registry glob o e [([g2], sample_file)] [] false = Done r2 /\ rs_errors r2 = [] /\
  resolve_registry glob o e [([g1; g2], sample_file)] [] false = Failed [XAmbiguous "x" u u].
Proof.
  exists sample_glob, sample_orders, undotted_env, (sample_extending "one" "base"), (sample_extending "two" "base").
  eexists _, _, _. split; [apply sample_orders_real|]. split; [reflexivity|].
  split; [vm_compute; reflexivity|]. split; [reflexivity|]. split; [vm_compute; reflexivity|]. split; [reflexivity|]. vm_compute. reflexivity.
Qed.
(* Cases: a newer version beats an older one and a hidden one counts for nothing; versions with
   different major numbers are refused. *)
Definition given_deps37 := [sample_giving "acme/1.0" "base.a" "x" "older" false; sample_giving "other" "base.b" "x" "hidden" true;
                            sample_giving "acme/1.2" "base.c" "x" "newer" false].
Example C37_case : (forall x, deps_lookup_attr (sample_versions given_deps37) "x" = Got (Some x) ->
    ws_attr x = sample_noted "x" "newer" false) /\
  (exists x, deps_lookup_attr (sample_versions given_deps37) "x" = Got (Some x)) /\
  (exists x, deps_lookup_attr (sample_versions (rev given_deps37)) "x" = Got (Some x) /\ ws_attr x = sample_noted "x" "newer" false) /\
  compatible (sample_versions given_deps37) "acme/1.0" "acme/1.2" /\
  deps_lookup_attr (sample_versions [sample_giving "acme/1.0" "base.a" "x" "a" false; sample_giving "acme/2.0" "base.b" "x" "b" false]) "x" =
    Bad (XAmbiguous "x" "acme/2.0" "acme/1.0").
Proof.
  split; [intros x H; vm_compute in H; injection H as <-; reflexivity|]. split; [eexists; vm_compute; reflexivity|].
  split; [eexists; split; vm_compute; reflexivity|]. split; [|vm_compute; reflexivity].
  split; [reflexivity|]. eexists _, _. split; [reflexivity|]. split; reflexivity.
Qed.
Example C37_registry_case : exists r, resolve_registry sample_glob sample_orders (sample_versions given_deps37) [([sample_referring "span.a" "x"], sample_file)] [] false = Done r /\
  sample_texts r = [("span.a", ["newer"])].
Proof. eexists. split; vm_compute; reflexivity. Qed.
Print Assumptions C37_given.
Print Assumptions C37_given_failure.
Print Assumptions C37_winner.
Print Assumptions C37_nothing.
Print Assumptions C37_failure.
Print Assumptions C37_refused.
Print Assumptions C37_order.
Print Assumptions C37_precedence.
Print Assumptions C37_file_order_refuted.
Print Assumptions C37_local_order_refuted.
Print Assumptions C37_extends_order_refuted.
Print Assumptions C37_one_version_refuted.
