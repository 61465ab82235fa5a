(* C35: a registry with dependencies resolves for one order of its definitions iff it does for another. *)
From Coq Require Import String Ascii Bool Arith NArith Lia Permutation Sorted List.
Import ListNotations.
From Verif Require Import Base BaseProofs BaseProofs2 Json SemTypes Resolved Semver DefModel DefSpec ResolveModel ResolveSpec ResolveProofs
  ExtProofs RefProofs ImportModel ImportSpec ImportProofs AssocProofs UniqueSpec ConflictSpec PropCatalog PropInherit PropRefs PropImport PropAssoc PropUnique
  OrderSpec OrderProofs PropOrder OrderImport PropOrderDeps.
Local Open Scope string_scope.

Section Offers.
Variables (e : env) (P : string -> string -> Prop).
Hypothesis agree : forall x a b, P x a -> P x b -> exists w, latest_major (ev_name e) (ev_semver e) a b = Got w.
Hypothesis chosen_too : forall x u c, P x u -> ev_chosen e (ev_name e u) = Some c -> P x c.
Hypothesis found_too : forall x s u, deps_lookup_attr e x = Got (Some s) -> ws_source s = SDep u -> P x u.

(* ---------- references ---------- *)
Definition from_ok (k : string) (s : sourced) : Prop := forall u, ws_source s = SDep u -> P k u.
Definition roots_from (c : catalog) : Prop := forall k x, slookup k (ct_roots c) = Some x -> from_ok k x.
Definition roots_shown (c : catalog) : Prop := forall k x, slookup k (ct_roots c) = Some x -> opt_excluded (at_annotations (ws_attr x)) = false.
Definition fine (a : uattr) : Prop :=
  opt_excluded (annotations_of (ua_spec a)) = false /\ (forall url, ua_origin a = Some url -> P (spec_id (ua_spec a)) url) /\
  (forall r, ua_spec a = SRef r -> answers e (rs_ref r)).
Lemma set_from k x c : roots_from c -> from_ok k x -> roots_from (set_root k x c).
Proof.
  intros H Hx k' x' L. unfold set_root in L. cbn [ct_roots] in L. rewrite slookup_sinsert in L.
  destruct (String.eqb_spec k' k) as [->|]; [|exact (H k' x' L)]. injection L as <-. exact Hx.
Qed.
Lemma set_shown k x c : roots_shown c -> opt_excluded (at_annotations (ws_attr x)) = false -> roots_shown (set_root k x c).
Proof.
  intros H Hx k' x' L. unfold set_root in L. cbn [ct_roots] in L. rewrite slookup_sinsert in L.
  destruct (String.eqb_spec k' k) as [->|]; [|exact (H k' x' L)]. injection L as <-. exact Hx.
Qed.
Lemma same_from c c' : ct_roots c' = ct_roots c -> roots_from c -> roots_from c'.
Proof. intros E H k x L. rewrite E in L. exact (H k x L). Qed.
Lemma same_shown c c' : ct_roots c' = ct_roots c -> roots_shown c -> roots_shown c'.
Proof. intros E H k x L. rewrite E in L. exact (H k x L). Qed.
Lemma conflict_settles k m x : from_ok k m -> from_ok k x -> exists w, resolve_conflict e k m x = Got w.
Proof.
  intros Hm Hx. unfold resolve_conflict. cbv zeta. destruct (negb _); [eauto|].
  assert (Q : exists w, match ws_source m, ws_source x with
      | SLocal _, SLocal _ => Got x | SLocal _, SDep _ => Got x | SDep _, SLocal _ => Got m
      | SDep u1, SDep u2 => match latest_major (ev_name e) (ev_semver e) u1 u2 with
        | Got w => if String.eqb w u2 then Got x else Got m | Bad _ => Bad (XAmbiguous k u1 u2) end end = Got w).
  { destruct (ws_source m) as [g|u1] eqn:E1, (ws_source x) as [h|u2] eqn:E2; eauto.
    destruct (agree k u1 u2 (Hm _ E1) (Hx _ E2)) as (w & ->). destruct (String.eqb w u2); eauto. }
  destruct (ws_def m), (ws_def x); eauto.
Qed.
Lemma upgrade_from k a n : from_ok k a -> upgrade_attr e a = Got n -> from_ok k n.
Proof.
  intros H. unfold upgrade_attr. destruct (ws_source a) as [g|u] eqn:E; [intros X; injection X as <-; exact H|].
  destruct (ev_chosen e (ev_name e u)) as [ch|] eqn:C; [|intros X; injection X as <-; exact H].
  destruct (String.eqb ch u); [intros X; injection X as <-; exact H|].
  destruct (latest_major (ev_name e) (ev_semver e) u ch) as [w|err]; cbn [rr_bind]; [|discriminate].
  destruct (String.eqb w ch); [|intros X; injection X as <-; exact H].
  destruct (ev_cached e ch) as [d|]; [|intros X; injection X as <-; exact H].
  destruct (schema_lookup_attr e d (at_name (ws_attr a))) as [up|]; [|discriminate].
  intros X. injection X as <-. intros u' X. cbn [ws_source] in X. injection X as <-. exact (chosen_too k u ch (H _ E) C).
Qed.
Lemma shown_opt (o : option (list (string * json))) : (forall ann, o = Some ann -> is_excluded ann = false) -> opt_excluded o = false.
Proof. intros H. unfold opt_excluded. destruct o as [ann|]; [exact (H ann eq_refl)|reflexivity]. Qed.
Lemma resolve_fine gid gp gx a c : fine a -> roots_from c -> roots_shown c ->
  match resolve_attr e gid gp gx a c with
  | Got (Some (ar, c', en)) => roots_from c' /\ roots_shown c'
  | Got None => True
  | Bad _ => False
  end.
Proof.
  intros (P1 & P2 & P3) F S. unfold resolve_attr. destruct (ua_spec a) as [r|i] eqn:E; cbn [annotations_of spec_id] in P1, P2.
  - specialize (P3 r eq_refl). cbv zeta.
    assert (G : forall root c1, opt_excluded (at_annotations (ws_attr root)) = false -> roots_from c1 -> roots_shown c1 ->
      match (let texcl := opt_excluded (at_annotations (ws_attr root)) in
           let fails := match ws_source root with SDep _ => texcl | SLocal _ => texcl && negb gx end in
           if fails then Bad (XExcluded (rs_ref r) "Attribute" gid)
           else
             let name := if rs_prefix r then gp ++ "." ++ rs_ref r else rs_ref r in
             let res := apply_ref r (ws_attr root) name in
             let '(ar, c2) := attribute_ref res c1 in
             let lin := ref_lineage r (ws_attr root) (al_new (source_label e (ws_source root))) in
             let c3 := if rs_prefix r
                       then set_root name {| ws_attr := res; ws_source := SLocal gid; ws_def := true |} c2
                       else c2 in
             Got (Some (ar, c3, Some (name, lin)))) with
      | Got (Some (ar, c', en)) => roots_from c' /\ roots_shown c'
      | Got None => True
      | Bad _ => False
      end).
    { intros root c1 X F1 S1. cbv zeta. rewrite X.
      replace (match ws_source root with SLocal _ => false && negb gx | SDep _ => false end) with false by (destruct (ws_source root); reflexivity).
      destruct (attribute_ref (apply_ref r (ws_attr root) (if rs_prefix r then gp ++ "." ++ rs_ref r else rs_ref r)) c1) as [ar c2] eqn:A.
      pose proof (attribute_ref_roots _ _ _ _ A) as Er. apply (same_from _ _ Er) in F1. apply (same_shown _ _ Er) in S1.
      destruct (rs_prefix r); [|auto]. split.
      - apply set_from; [exact F1|]. intros u X'. discriminate X'.
      - apply set_shown; [exact S1|]. cbn [ws_attr apply_ref at_annotations]. unfold opt_or. destruct (rs_annotations r); [exact P1|exact X]. }
    assert (D : match rr_bind (rr_bind (deps_lookup_attr e (rs_ref r))
           (fun o => match o with
                     | Some s => rr_bind (upgrade_attr e s) (fun s' => Got (Some (s', set_root (rs_ref r) s' c)))
                     | None => Got None
                     end)) (fun x => Got x) with
                | Bad _ => False | Got None => True
                | Got (Some (s, c1)) => opt_excluded (at_annotations (ws_attr s)) = false /\ roots_from c1 /\ roots_shown c1 end).
    { unfold answers in P3. destruct (deps_lookup_attr e (rs_ref r)) as [[s|]|err] eqn:L; cbn [rr_bind]; [|exact I|exact P3].
      destruct P3 as (s' & U & X). rewrite U. cbn [rr_bind]. apply shown_opt in X. split; [exact X|].
      split; [apply set_from; [exact F|]|apply set_shown; [exact S|exact X]].
      eapply upgrade_from; [|exact U]. intros u E'. exact (found_too _ _ _ L E'). }
    destruct (slookup (rs_ref r) (ct_roots c)) as [s|] eqn:K; [destruct (ws_def s)|].
    + cbn [rr_bind]. exact (G s c (S _ _ K) F S).
    + destruct (rr_bind (deps_lookup_attr e (rs_ref r)) _) as [[[s' c1]|]|err]; cbn [rr_bind] in *; [|exact I|destruct D]. apply G; apply D.
    + destruct (rr_bind (deps_lookup_attr e (rs_ref r)) _) as [[[s' c1]|]|err]; cbn [rr_bind] in *; [|exact I|destruct D]. apply G; apply D.
  - rewrite P1, andb_false_r.
    set (root := {| ws_attr := attribute_of_id i; ws_source := match ua_origin a with Some u => SDep u | None => SLocal gid end; ws_def := negb (is_some (ua_origin a)) |}).
    assert (Fr : from_ok (is_id i) root). { intros u X. cbn [root ws_source] in X. destruct (ua_origin a) as [v|]; [|discriminate]. injection X as <-. apply P2. reflexivity. }
    cbv zeta. fold root.
    assert (G : exists w, match slookup (is_id i) (ct_roots c) with Some existing => resolve_conflict e (is_id i) root existing | None => Got root end = Got w /\
                from_ok (is_id i) w /\ opt_excluded (at_annotations (ws_attr w)) = false).
    { destruct (slookup (is_id i) (ct_roots c)) as [s|] eqn:K; [|exists root; auto].
      destruct (conflict_settles (is_id i) root s Fr (F _ _ K)) as (w & W). exists w. split; [exact W|].
      destruct (resolve_conflict_got _ _ _ _ _ W) as [-> | ->]; [split; [exact Fr|exact P1]|split; [exact (F _ _ K)|exact (S _ _ K)]]. }
    destruct G as (w & -> & Fw & Sw). cbn [rr_bind].
    destruct (attribute_ref (attribute_of_id i) (set_root (is_id i) w c)) as [ar c2] eqn:A. pose proof (attribute_ref_roots _ _ _ _ A) as Er.
    split; [apply (same_from _ _ Er), set_from; assumption|apply (same_shown _ _ Er), set_shown; assumption].
Qed.
Lemma visit_fine b u l : (forall a, In a l -> fine a) -> forall c lin, roots_from c -> roots_shown c ->
  exists v, visit_attrs e b u l c lin = Got v /\ roots_from (vs_catalog v) /\ roots_shown (vs_catalog v) /\ (forall a, In a (vs_left v) -> fine a) /\
    forall err, In err (vs_errors v) -> exists g r, err = XUnresolvedAttr g r.
Proof.
  induction l as [|a l IH]; intros Hl c lin L S; cbn [visit_attrs].
  - eexists. split; [reflexivity|]. cbn. split; [exact L|]. split; [exact S|]. split; [exact Hl|]. intros err [].
  - assert (Hl' : forall x, In x l -> fine x) by (intros x Hx; apply Hl; right; exact Hx). assert (Ha : fine a) by (apply Hl; left; reflexivity).
    destruct (b && negb (is_id_spec a)).
    + destruct (IH Hl' c lin L S) as (v & -> & A & A' & B & C). cbn [rr_bind]. eexists. split; [reflexivity|]. cbn. split; [exact A|]. split; [exact A'|]. split; [|exact C].
      intros x [<-|Hx]; [exact Ha|exact (B x Hx)].
    + pose proof (resolve_fine (uid u) (g_prefix (ug_group u)) (ug_excluded u) a c Ha L S) as R.
      destruct (resolve_attr e (uid u) (g_prefix (ug_group u)) (ug_excluded u) a c) as [[[[ar c'] en]|]|err]; [| |destruct R].
      * destruct R as [R R']. destruct (IH Hl' c' (match en with Some (k, al) => option_map (gl_add k al) lin | None => lin end) R R') as (v & -> & A & A' & B & C). cbn [rr_bind]. eexists. split; [reflexivity|]. cbn. auto.
      * destruct (IH Hl' c lin L S) as (v & -> & A & A' & B & C). cbn [rr_bind]. eexists. split; [reflexivity|]. cbn. split; [exact A|]. split; [exact A'|]. split.
        -- intros x [<-|Hx]; [exact Ha|exact (B x Hx)].
        -- intros err He. destruct (ua_spec a); [|exact (C err He)]. destruct b; [exact (C err He)|]. destruct He as [<-|He]; [eexists _, _; reflexivity|exact (C err He)].
Qed.
Definition fine_group (u : ugroup) : Prop := forall a, In a (ug_attrs u) -> fine a.
Lemma visits_fine b gs : (forall u, In u gs -> fine_group u) -> forall c, roots_from c -> roots_shown c ->
  exists p, visit_groups e b gs c = Got p /\ roots_from (ps_catalog p) /\ roots_shown (ps_catalog p) /\ (forall u, In u (ps_groups p) -> fine_group u) /\
    forall err, In err (ps_errors p) -> exists g r, err = XUnresolvedAttr g r.
Proof.
  induction gs as [|u gs IH]; intros Hg c L S; cbn [visit_groups].
  - eexists. split; [reflexivity|]. cbn. split; [exact L|]. split; [exact S|]. split; [exact Hg|]. intros err [].
  - destruct (visit_fine b u (ug_attrs u) (Hg u (or_introl eq_refl)) c (g_lineage (ug_group u)) L S) as (v & -> & A & A2 & B & C). cbn [rr_bind].
    destruct (IH (fun x Hx => Hg x (or_intror Hx)) (vs_catalog v) A A2) as (p & -> & A' & A2' & B' & C'). cbn [rr_bind]. eexists. split; [reflexivity|]. cbn.
    split; [exact A'|]. split; [exact A2'|]. split.
    + intros x [<-|Hx]; [exact B|exact (B' x Hx)].
    + intros err He. apply in_app_or in He as [He|He]; [exact (C err He)|exact (C' err He)].
Qed.
Lemma loop_fine : forall n init gs c, (forall u, In u gs -> fine_group u) -> roots_from c -> roots_shown c ->
  (forall err, In err init -> exists g r, err = XUnresolvedAttr g r) ->
  match refs_loop n e init gs c with
  | Failed es => forall err, In err es -> exists g r, err = XUnresolvedAttr g r
  | Done (_, c') => roots_from c'
  | Running => True
  end.
Proof.
  induction n as [|n IH]; intros init gs c Hg L S Hi; cbn [refs_loop]; [exact I|].
  destruct (visits_fine false gs Hg c L S) as (p & -> & A & A2 & B & C).
  assert (G : forall err, In err (app init (ps_errors p)) -> exists g r, err = XUnresolvedAttr g r).
  { intros err He. apply in_app_or in He as [He|He]; [exact (Hi err He)|exact (C err He)]. }
  destruct (app init (ps_errors p)) as [|e1 es1]; [exact A|]. destruct (Nat.eqb (ps_count p) 0); [exact G|].
  exact (IH _ _ _ B A A2 Hi).
Qed.
Lemma refs_fine gs : (forall u, In u gs -> fine_group u) ->
  match resolve_references e gs empty_catalog with
  | Failed es => forall err, In err es -> exists g r, err = XUnresolvedAttr g r
  | Done (_, c') => roots_from c'
  | Running => True
  end.
Proof.
  intros Hg. assert (L : roots_from empty_catalog) by (intros k x Hk; discriminate). assert (S : roots_shown empty_catalog) by (intros k x Hk; discriminate).
  unfold resolve_references. destruct (visits_fine true gs Hg empty_catalog L S) as (p & -> & A & A2 & B & C). exact (loop_fine _ _ _ _ B A A2 C).
Qed.
Lemma refs_go gs gs' r c : (forall u, In u gs -> fine_group u) -> unreferenced gs -> Permutation gs gs' ->
  resolve_references e gs empty_catalog = Done (r, c) -> exists r' c', resolve_references e gs' empty_catalog = Done (r', c') /\ roots_from c'.
Proof.
  intros Hp Hu Pm H. assert (I : incl gs' gs) by (intros x Hx; apply (Permutation_in _ (Permutation_sym Pm)), Hx).
  assert (Hp' : forall u, In u gs' -> fine_group u) by (intros u X; apply Hp, I, X).
  assert (Hu' : unreferenced gs') by (intros u X; apply Hu, I, X).
  pose proof (refs_fine gs' Hp') as Pl.
  destruct (resolve_references e gs' empty_catalog) as [[r' c']|es|] eqn:E.
  - eauto.
  - exfalso.
    assert (Nx : no_excluded_attribute gs'). { intros u a i X Y Z. destruct (Hp' u X a Y) as [Q _]. rewrite Z in Q. exact Q. }
    destruct (C34_refs_failure e gs' es Hu' Nx E) as [(err & -> & C)|[(x & t & g & C)|[N C]]].
    + destruct (Pl err (or_introl eq_refl)) as (g & r0 & ->). exact C.
    + destruct (Pl _ C) as (g' & r0 & X). discriminate.
    + destruct es as [|err es]; [contradiction|]. destruct (proj1 (C err) (or_introl eq_refl)) as (u & a & r0 & X & Y & Z & _ & W).
      pose proof (C34_refs_complete e gs r c Hu H) as F. destruct (forall2_left _ _ _ _ F (I u X)) as (v & _ & _ & _ & ds & ds' & _ & _ & G).
      destruct (forall2_left _ _ _ _ G Y) as (d & _ & R). unfold resolved_as in R. rewrite Z in R. destruct R as (d0 & R & _). apply W. exists d0.
      eapply defines_incl; [|exact R]. intros y Hy. apply (Permutation_in _ Pm), Hy.
  - exfalso. exact (C34_refs_terminate e gs' Hu' E).
Qed.

(* ---------- imports ---------- *)
Hypothesis listed1 : forall s roots my a, known_as e (D1 s roots) my -> In a (s1_catalog s) -> P (at_name a) (attr_source1 e s roots (at_name a) my).
Hypothesis listed2 : forall s my a, known_as e (D2 s) my -> In a (s2_catalog s) -> P (a2_key a) (source_url2 s (p2_source (a2_provenance a))).
Lemma prov_go a src c c' r c1 : roots_from c' -> P (at_name a) src -> attribute_ref_prov e a (SDep src) c = Got (r, c1) ->
  exists r' c1', attribute_ref_prov e a (SDep src) c' = Got (r', c1') /\ roots_from c1'.
Proof.
  intros F Hp H. unfold attribute_ref_prov in *. destruct (upgrade_attr e _) as [n|err] eqn:U; cbn [rr_bind] in *; [|discriminate].
  assert (Fn : from_ok (at_name a) n). { eapply upgrade_from; [|exact U]. intros u X. cbn [ws_source] in X. injection X as <-. exact Hp. }
  destruct (attribute_ref (ws_attr n) c') as [x y] eqn:R. rewrite (attribute_ref_roots _ _ _ _ R).
  destruct (slookup (at_name a) (ct_roots c')) as [s|] eqn:K.
  - destruct (conflict_settles _ _ _ Fn (F _ _ K)) as (w & W). rewrite W. cbn [rr_bind]. eexists _, _. split; [reflexivity|].
    apply set_from; [apply (same_from _ _ (attribute_ref_roots _ _ _ _ R)), F|]. destruct (resolve_conflict_got _ _ _ _ _ W) as [-> | ->]; [exact Fn|exact (F _ _ K)].
  - cbn [rr_bind]. eexists _, _. split; [reflexivity|]. apply set_from; [apply (same_from _ _ (attribute_ref_roots _ _ _ _ R)), F|exact Fn].
Qed.
Lemma intern_go l : (forall a src, In (a, src) l -> P (at_name a) src) -> forall c c' rs c1, roots_from c' -> intern e l c = Got (rs, c1) ->
  exists rs' c1', intern e l c' = Got (rs', c1') /\ roots_from c1'.
Proof.
  induction l as [|[a src] l IH]; intros Hl c c' rs c1 F H; cbn [intern] in *; [eauto|].
  destruct (attribute_ref_prov e a (SDep src) c) as [[r d]|err] eqn:R; cbn [rr_bind fst snd] in H; [|discriminate].
  destruct (prov_go _ _ _ c' _ _ F (Hl a src (or_introl eq_refl)) R) as (r' & d' & -> & F'). cbn [rr_bind fst snd].
  destruct (intern e l d) as [[q f]|err] eqn:I; cbn [rr_bind fst snd] in H; [|discriminate].
  destruct (IH (fun x y X => Hl x y (or_intror X)) _ _ _ _ F' I) as (q' & f' & -> & F2). cbn [rr_bind fst snd]. eauto.
Qed.
Lemma intern2_go s : In (D2 s) (ev_deps e) -> forall l c c' rs c1, roots_from c' -> intern2 e s l c = Got (rs, c1) ->
  exists rs' c1', intern2 e s l c' = Got (rs', c1') /\ roots_from c1'.
Proof.
  intros Hs. induction l as [|[[[i req] sa] role] l IH]; intros c c' rs c1 F H; cbn [intern2] in *; [eauto|].
  destruct (nth_error (s2_catalog s) i) as [a|] eqn:Na; [|discriminate].
  match type of H with rr_bind ?X _ = _ => destruct X as [[r d]|err] eqn:R end; cbn [rr_bind fst snd] in H; [|discriminate].
  destruct (prov_go (attribute_of_v2 a req sa role) _ _ c' _ _ F (listed2 s (s2_url s) a (conj Hs eq_refl) (nth_error_In _ _ Na)) R) as (r' & d' & -> & F'). cbn [rr_bind fst snd].
  destruct (intern2 e s l d) as [[q f]|err] eqn:I; cbn [rr_bind fst snd] in H; [|discriminate].
  destruct (IH _ _ _ _ F' I) as (q' & f' & -> & F2). cbn [rr_bind fst snd]. eauto.
Qed.
Lemma sourced_go s roots my g : known_as e (D1 s roots) my -> forall a src, In (a, src) (sourced_attrs e s roots my g) -> P (at_name a) src.
Proof.
  intros K a src H. unfold sourced_attrs in H. apply in_map_iff in H as (b & E & Hb). injection E as -> <-. apply listed1; [exact K|].
  revert Hb. induction (g_attributes g) as [|n l IH]; cbn [map somes]; [intros []|].
  destruct (nth_error (s1_catalog s) n) as [x|] eqn:N; [|exact IH]. intros [->|X]; [exact (nth_error_In _ _ N)|exact (IH X)].
Qed.
Lemma upgrade_go g g' url c c' o c1 : unref g = unref g' -> roots_from c' -> upgrade_group e g url c = Got (o, c1) ->
  exists o' c1', upgrade_group e g' url c' = Got (o', c1') /\ roots_from c1'.
Proof.
  intros B F H. unfold upgrade_group in *. cbv zeta in *. rewrite <- (rest_origin _ _ url B).
  destruct (ev_chosen e (ev_name e (origin_url g url))) as [ch|]; [|eauto].
  destruct (String.eqb ch (origin_url g url)); [eauto|].
  destruct (latest_major (ev_name e) (ev_semver e) (origin_url g url) ch) as [w|err]; [|eauto].
  destruct (negb (String.eqb w ch)); [eauto|].
  destruct (ev_cached e ch) as [[s roots|s]|] eqn:Ec; [|eauto..].
  rewrite (find_same (same_group g') (same_group g)) by (intros x; symmetry; apply rest_same_l, B).
  destruct (find (same_group g) (s1_groups s)) as [up|]; [|eauto].
  destruct (intern e _ c) as [[rs d]|err] eqn:E; cbn [rr_bind fst snd] in H; [|discriminate].
  destruct (intern_go _ (sourced_go s roots ch up (or_intror Ec)) _ c' _ _ F E) as (rs' & d' & -> & F'). cbn [rr_bind fst snd]. eauto.
Qed.
Lemma import1_go glob bs s roots my : In (D1 s roots) (ev_deps e) -> ev_parse e (s1_url s) = Some my -> forall gs c c' l es c1,
  cat_ok c -> cat_ok c' -> roots_from c' ->
  import1 glob e bs s roots my gs c = Got (l, es, c1) -> exists l' es' c1', import1 glob e bs s roots my gs c' = Got (l', es', c1') /\ roots_from c1'.
Proof.
  intros Hs My. induction gs as [|g gs IH]; intros c c' l es c1 O O' F H; cbn [import1] in *; [eauto|].
  destruct (negb (matches glob bs g)); [exact (IH _ _ _ _ _ O O' F H)|].
  destruct (match g_annotations g with Some a => import_decision a (matches glob (explicit_blocks bs) g) (g_id g) (g_type g) | None => Include end) as [| |er].
  - destruct (upgrade_group e g my c) as [[o d]|err] eqn:U; cbn [rr_bind] in H; [|discriminate].
    destruct (upgrade_go g g my c c' o d eq_refl F U) as (o' & d' & U' & F'). rewrite U'. cbn [rr_bind].
    destruct (upgrade_alike _ _ _ _ _ _ _ _ _ _ O O' eq_refl U U') as (G & X).
    assert (Z : exists h f h' f', (match (o, d) with
                 | (Some g', c1) => Got (g', c1)
                 | (None, c1) => rr_bind (intern e (sourced_attrs e s roots my g) c1) (fun p => Got (set_attributes (fst p) g, snd p))
                 end) = Got (h, f) /\ (match (o', d') with
                 | (Some g', c1) => Got (g', c1)
                 | (None, c1) => rr_bind (intern e (sourced_attrs e s roots my g) c1) (fun p => Got (set_attributes (fst p) g, snd p))
                 end) = Got (h', f') /\ cat_ok f /\ cat_ok f' /\ roots_from f').
    { destruct o as [h|], o' as [h'|]; try contradiction.
      - exists h, d, h', d'. split; [reflexivity|]. split; [reflexivity|]. split; [apply G|]. split; [apply G|exact F'].
      - destruct (intern e (sourced_attrs e s roots my g) d) as [[rs f]|err] eqn:E; cbn [rr_bind fst snd] in H |- *; [|discriminate].
        destruct (intern_go _ (sourced_go s roots my g (or_introl (conj Hs My))) _ d' _ _ F' E) as (rs' & f' & E' & F2). rewrite E'. cbn [rr_bind fst snd].
        destruct (intern_alike _ _ _ _ _ _ _ _ (proj1 G) (proj1 (proj2 G)) E E') as (G2 & _).
        eexists _, _, _, _. split; [reflexivity|]. split; [reflexivity|]. split; [apply G2|]. split; [apply G2|exact F2]. }
    destruct Z as (h & f & h' & f' & Z & Z' & O2 & O2' & F2). rewrite Z in H. rewrite Z'. cbn [rr_bind fst snd] in *.
    destruct (import1 glob e bs s roots my gs f) as [[[m ms] k]|err] eqn:E; cbn [rr_bind] in H; [|discriminate].
    destruct (IH _ f' _ _ _ O2 O2' F2 E) as (m' & ms' & k' & -> & F3). cbn [rr_bind]. eauto.
  - exact (IH _ _ _ _ _ O O' F H).
  - destruct (import1 glob e bs s roots my gs c) as [[[m ms] k]|err] eqn:E; cbn [rr_bind] in H; [|discriminate].
    destruct (IH _ c' _ _ _ O O' F E) as (m' & ms' & k' & -> & F3). cbn [rr_bind]. eauto.
Qed.
Lemma import2_go glob bs s : In (D2 s) (ev_deps e) -> forall vs m c c' l o es c1, roots_from c' ->
  import2 glob e bs s vs m c = Got (l, o, es, c1) -> exists l' o' es' c1', import2 glob e bs s vs m c' = Got (l', o', es', c1') /\ roots_from c1'.
Proof.
  intros Hs. induction vs as [|v vs IH]; intros m c c' l o es c1 F H; cbn [import2] in *; [eauto 6|].
  destruct (negb (matches_key glob bs (v_field v) (v_id v))); [exact (IH _ _ _ _ _ _ _ F H)|].
  destruct (import_decision _ _ _ _) as [| |er].
  - destruct (intern2 e s (v_uses v) c) as [[rs d]|err] eqn:U; cbn [rr_bind fst snd] in H; [|discriminate].
    destruct (intern2_go s Hs _ _ c' _ _ F U) as (rs' & d' & -> & F'). cbn [rr_bind fst snd].
    match type of H with rr_bind ?X _ = _ => destruct X as [[[[q qo] qe] k]|err] eqn:E end; cbn [rr_bind] in H; [|discriminate].
    destruct (IH _ _ d' _ _ _ _ F' E) as (q' & qo' & qe' & k' & -> & F3). cbn [rr_bind]. eauto 6.
  - exact (IH _ _ _ _ _ _ _ F H).
  - match type of H with rr_bind ?X _ = _ => destruct X as [[[[q qo] qe] k]|err] eqn:E end; cbn [rr_bind] in H; [|discriminate].
    destruct (IH _ _ c' _ _ _ _ F E) as (q' & qo' & qe' & k' & -> & F3). cbn [rr_bind]. eauto 6.
Qed.
Lemma upgrades_go url gs gs' : Forall2 (fun g g' => unref g = unref g') gs gs' -> forall c c' l c1, roots_from c' ->
  upgrade_all e url gs c = Got (l, c1) -> exists l' c1', upgrade_all e url gs' c' = Got (l', c1') /\ roots_from c1'.
Proof.
  intros A. induction A as [|g g' gs gs' B _ IH]; intros c c' l c1 F H; cbn [upgrade_all] in *; [eauto|].
  destruct (upgrade_group e g url c) as [[o d]|err] eqn:U; cbn [rr_bind fst snd] in H; [|discriminate].
  destruct (upgrade_go g g' url c c' o d B F U) as (o' & d' & -> & F'). cbn [rr_bind fst snd].
  destruct (upgrade_all e url gs d) as [[q k]|err] eqn:E; cbn [rr_bind fst snd] in H; [|discriminate].
  destruct (IH _ d' _ _ F' E) as (q' & k' & -> & F3). cbn [rr_bind fst snd]. eauto.
Qed.
Lemma one_go glob bs d c c' l c1 : In d (ev_deps e) -> cat_ok c -> cat_ok c' -> roots_from c' ->
  import_one glob e bs d c = Done (l, c1) -> exists l' c1', import_one glob e bs d c' = Done (l', c1') /\ roots_from c1'.
Proof.
  intros Hd O O' F H. destruct d as [s roots|s]; cbn [import_one] in *.
  - unfold import_v1 in *. destruct (ev_parse e (s1_url s)) as [my|] eqn:My; [|discriminate].
    destruct (import1 glob e bs s roots my (s1_groups s) c) as [[[m [|x ms]] k]|err] eqn:E; try discriminate.
    destruct (import1_go glob bs s roots my Hd My _ _ c' _ _ _ O O' F E) as (m' & ms' & k' & E' & F').
    destruct (import1_alike _ _ _ _ _ _ _ _ _ _ _ _ _ _ _ O O' E E') as (_ & <- & _). rewrite E'. eauto.
  - unfold import_v2 in *.
    destruct (import2 glob e bs s (v2_signals s) [] c) as [[[[q qo] [|x qe]] k]|err] eqn:E; try discriminate.
    destruct (import2_go glob bs s Hd _ _ _ c' _ _ _ _ F E) as (q' & qo' & qe' & k' & E' & F').
    destruct (import2_alike _ _ _ _ _ (fun x X => X) _ _ _ _ _ _ _ _ _ _ _ O O' E E') as (G & <- & _ & Fq). rewrite E'.
    destruct (upgrade_all e (s2_url s) q k) as [[u j]|err] eqn:U; [|discriminate].
    assert (Fu : Forall2 (fun g g' => unref g = unref g') q q') by (eapply forall2_weak; [|exact Fq]; intros x y X; apply X).
    destruct (upgrades_go (s2_url s) q q' Fu _ k' _ _ F' U) as (u' & j' & -> & F2). eauto.
Qed.
Lemma all_go glob bs ds : incl ds (ev_deps e) -> forall k k' c c' l c1, cat_ok c -> cat_ok c' -> roots_from c' ->
  import_all glob e bs ds k c = Done (l, c1) -> exists l' c1', import_all glob e bs ds k' c' = Done (l', c1').
Proof.
  induction ds as [|d ds IH]; intros Hd k k' c c' l c1 O O' F H; cbn [import_all] in *; [eauto|].
  destruct (import_one glob e bs d c) as [[q f]|er|] eqn:E; cbn [run_bind fst snd] in H; [|discriminate|discriminate].
  destruct (one_go glob bs d c c' q f (Hd d (or_introl eq_refl)) O O' F E) as (q' & f' & E' & F'). rewrite E'. cbn [run_bind fst snd].
  destruct (one_alike _ _ _ _ _ _ _ _ _ _ O O' E E') as (G & _).
  exact (IH (fun x X => Hd x (or_intror X)) _ _ _ _ _ _ (proj1 G) (proj1 (proj2 G)) F' H).
Qed.
End Offers.

(* ---------- the whole ---------- *)
Lemma forall2_split {A B} (R : A -> B -> Prop) l x b a : Forall2 R l (app b (x :: a)) ->
  exists b' y a', l = app b' (y :: a') /\ Forall2 R b' b /\ R y x /\ Forall2 R a' a.
Proof.
  intros F. apply Forall2_app_inv_r in F as (b' & c' & Fb & Fc & ->). inversion Fc as [|y ? a' ? Hy Fa]; subst. exists b', y, a'. auto.
Qed.
Lemma deps_success : forall glob o o' e specs specs' bs inc gs r,
  NoDup (map (fun sp => gs_id (fst sp)) (read_order specs)) -> files_apart e specs ->
  Permutation (read_order specs) (read_order specs') -> inherits_to e specs gs ->
  none_hidden gs -> entities_open gs -> references_answered e gs -> offers_agree e gs ->
  resolve_registry glob o e specs bs inc = Done r -> exists r', resolve_registry glob o' e specs' bs inc = Done r'.
Proof.
  intros glob o o' e specs specs' bs inc gs r N Ap P Hi Hh Ho Ra Ag H.
  destruct (run_parts _ _ _ _ _ _ _ H) as (gs1 & gs2 & c & w & I1 & R1 & W1 & A1 & S1 & E1).
  unfold inherits_to in Hi, I1. rewrite Hi in I1. injection I1 as <-.
  set (start := fun sp : group_spec * provenance => resolve_prefix (group_from_spec (fst sp) (snd sp))) in *.
  assert (Nu : NoDup (map uid (map start (read_order specs)))) by (unfold start; rewrite start_ids; exact N).
  destruct (C35_extends e _ (map start (read_order specs')) gs Nu (extended_apart _ _ Ap) (Permutation_map start P) Hi) as (gs1' & Hg & Pg).
  assert (Un : unreferenced gs) by (eapply extends_unreferenced; [apply start_unreferenced|exact Hi]).
  assert (Un' : unreferenced gs1') by (eapply extends_unreferenced; [apply start_unreferenced|exact Hg]).
  assert (Agree : forall x a b, on_offer e gs x a -> on_offer e gs x b -> exists w, latest_major (ev_name e) (ev_semver e) a b = Got w).
  { intros x a b Oa Ob. destruct (Ag x a b Oa Ob) as (En & va & vb & Ea & Eb & Em). unfold latest_major. rewrite En, String.eqb_refl. cbn [negb].
    rewrite Ea, Eb, Em, N.eqb_refl. eauto. }
  pose proof (oo_chosen e gs) as Ch. pose proof (oo_found e gs) as Fo.
  assert (Fi : forall u, In u gs -> fine_group e (on_offer e gs) u).
  { intros u Iu a Ia. split; [apply shown_opt; intros ann Ea; exact (Hh u a ann Iu Ia Ea)|].
    split; [intros url Eo; exact (oo_inherited e gs u a url Iu Ia Eo)|]. intros q Eq. exact (Ra u a q Iu Ia Eq). }
  destruct (refs_go e (on_offer e gs) Agree Ch Fo gs gs1' gs2 c Fi Un Pg R1) as (gs2' & c' & R1' & Fc).
  destruct (resolve_references_ok _ _ _ _ _ empty_ok (unreferenced_ok _ _ Un) R1) as (Hc & _ & Hok).
  destruct (resolve_references_ok _ _ _ _ _ empty_ok (unreferenced_ok _ _ Un') R1') as (Hc' & _ & Hok').
  assert (Im : exists w', resolve_imports glob e (if inc then app bs [everything] else bs) gs2' c' = Done w').
  { unfold resolve_imports in W1 |- *. destruct (import_all glob e _ (ev_deps e) [] c) as [[l d]|es|] eqn:E; cbn [run_bind] in W1; [|discriminate|discriminate].
    destruct (all_go e (on_offer e gs) Agree Ch (oo_listed1 e gs) (oo_listed2 e gs) glob _ (ev_deps e) (fun x X => X) [] [] c c' l d Hc Hc' Fc E) as (l' & d' & ->).
    cbn [run_bind]. eauto. }
  destruct Im as (w' & W1'). destruct (C35_imports _ _ _ _ _ _ _ _ _ Hc Hc' W1 W1') as (us & us' & Eg & Eg' & Fu & Eo & Ee).
  unfold resolve_registry. cbv zeta. rewrite start_read. fold start. rewrite Hg. cbn [run_bind]. rewrite R1'. cbn [run_bind fst snd]. rewrite W1'. cbn [run_bind].
  destruct (C71_total e (wi_groups w') (wi_origins w')) as [(m' & Em)|(es & Em)]; rewrite Em; cbn [run_bind].
  { destruct (stabilize (or_leb o') (or_refs o') (wi_groups w') (wi_catalog w')) as [out cat]. eexists. reflexivity. }
  exfalso. destruct (C71_errors _ _ _ _ Em) as (Ne & A & _). destruct es as [|er es]; [apply Ne; reflexivity|].
  destruct (A er (or_introl eq_refl)) as (u' & n & Iu' & Nn & Nb & W).
  pose proof (refs_kept _ _ _ _ _ R1) as K. pose proof (refs_kept _ _ _ _ _ R1') as K'.
  assert (Fk : Forall2 kept us us') by (eapply forall2_weak; [|exact Fu]; intros x y (X1 & X2 & X3 & _); split; [exact X1|]; split; [exact X2|exact X3]).
  assert (Back : forall v', In v' (wi_groups w') -> exists v, In v (wi_groups w) /\ kept v v').
  { intros v' Iv. rewrite Eg' in Iv. rewrite Eg. apply in_app_or in Iv as [Iv|Iv].
    - destruct (forall2_right _ _ _ _ K' Iv) as (x & Ix & Kx). apply (Permutation_in _ (Permutation_sym Pg)) in Ix. destruct (forall2_left _ _ _ _ K Ix) as (v & Iv' & Kv).
      exists v. split; [apply in_or_app; left; exact Iv'|]. eapply kept_trans; [apply kept_sym, Kv|exact Kx].
    - destruct (forall2_right _ _ _ _ Fk Iv) as (v & Iv' & Kv). exists v. split; [apply in_or_app; right; exact Iv'|exact Kv]. }
  assert (Fwd : forall v, In v (wi_groups w) -> exists v', In v' (wi_groups w') /\ kept v v').
  { intros v Iv. rewrite Eg in Iv. rewrite Eg'. apply in_app_or in Iv as [Iv|Iv].
    - destruct (forall2_right _ _ _ _ K Iv) as (x & Ix & Kx). apply (Permutation_in _ Pg) in Ix. destruct (forall2_left _ _ _ _ K' Ix) as (v' & Iv' & Kv').
      exists v'. split; [apply in_or_app; left; exact Iv'|]. eapply kept_trans; [apply kept_sym, Kx|exact Kv'].
    - destruct (forall2_left _ _ _ _ Fk Iv) as (v' & Iv' & Kv'). exists v'. split; [apply in_or_app; right; exact Iv'|exact Kv']. }
  destruct (Back u' Iu') as (u & Iu & Ku).
  assert (Nv : names_entity u n).
  { destruct Nn as (a & Ia & Ma). exists a. split; [|exact Ma]. assert (Q : g_assocs (ug_group u) = g_assocs (ug_group u')) by apply Ku. rewrite Q. exact Ia. }
  assert (Nbv : ~ brought (wi_origins w) u n).
  { intros X. apply Nb. rewrite <- Eo. unfold brought in *. assert (Q : uid u = uid u') by apply Ku. rewrite <- Q. exact X. }
  assert (Own : no_own_entity (wi_groups w') n -> no_own_entity (wi_groups w) n).
  { intros X v Iv Nm. destruct (Fwd v Iv) as (v' & Iv' & Kv). exact (X v' Iv' (entity_kept _ _ _ Kv Nm)). }
  destruct (C71_resolved _ _ _ _ A1 u n Iu Nv) as [X|[(x & Ox & Bx)|(url & (No & Of & Un1) & _)]]; [exact (Nbv X)| |].
  - (* an entity of the registry: it is the same one for the other order if it is imported, and not kept back if it is not *)
    assert (Here : ~ no_own_entity (wi_groups w') n).
    { intros X. apply own_in in Ox as [Ix Nx]. exact (Own X x Ix Nx). }
    inversion W as [y Oy Kb Nk| | |]; subst; try contradiction.
    assert (Iy : In y us').
    { pose proof (own_in _ _ _ Oy) as [Iy [Ty _]]. rewrite Eg' in Iy. apply in_app_or in Iy as [Iy|Iy]; [|exact Iy]. exfalso.
      destruct (forall2_right _ _ _ _ K' Iy) as (v & Iv & Kv). apply (Permutation_in _ (Permutation_sym Pg)) in Iv. apply (Ho v Iv).
      - rewrite <- Ty. apply Kv.
      - apply kept_back_same with y; [apply kept_sym, Kv|exact Kb]. }
    assert (Oz : exists z, own_entity (wi_groups w) n z /\ kept z y).
    { destruct Oy as (before & after & Sp & Ny & La). rewrite Eg' in Sp.
      assert (Cut : exists b2, us' = app b2 (y :: after)).
      { clear -Sp Iy Ny La. revert before Sp. induction gs2' as [|g l IH]; intros before Sp; [exists before; exact Sp|].
        destruct before as [|b0 before]; cbn [app] in Sp; injection Sp as E1 E2.
        - exfalso. assert (X : In y after) by (rewrite <- E2; apply in_or_app; right; exact Iy). exact (La y X Ny).
        - exact (IH before E2). }
      destruct Cut as (b2 & Cut). rewrite Cut in Fk. apply forall2_split in Fk as (b' & z & a' & Eu & _ & Kz & Fa).
      exists z. split; [|exact Kz]. exists (app gs2 b'), a'. split; [rewrite Eg, Eu, app_assoc; reflexivity|]. split; [exact (entity_kept _ _ _ (kept_sym _ _ Kz) Ny)|].
      intros t It Nt. destruct (forall2_left _ _ _ _ Fa It) as (t' & It' & Kt). exact (La t' It' (entity_kept _ _ _ Kt Nt)). }
    destruct Oz as (z & Oz & Kz). rewrite (own_fun _ _ _ _ Oz Ox) in Kz. destruct Bx as [Bx|Bx].
    + apply Bx. exact (kept_back_same _ _ (kept_sym _ _ Kz) Kb).
    + apply Nk. exact (kept_back_same _ _ Ku Bx).
  - (* an entity of a dependency *)
    inversion W as [y Oy Kb Nk|Nw Nof|urls Nw Nd Le Iff|Nw Nof]; subst.
    + apply own_in in Oy as [Iy Ny]. destruct (Back y Iy) as (v & Iv & Kv). exact (No v Iv (entity_kept _ _ _ (kept_sym _ _ Kv) Ny)).
    + exact (Nof url Of).
    + destruct urls as [|a [|b urls]]; cbn [length] in Le; try lia. inversion Nd as [|? ? Na _]; subst. apply Na. left.
      rewrite (Un1 a (proj1 (Iff a) (or_introl eq_refl))). apply Un1. apply Iff. right. left. reflexivity.
    + exact (Nof url Of).
Qed.
Lemma offer_perm e gs gs' x url : Permutation gs gs' -> on_offer e gs x url -> on_offer e gs' x url.
Proof.
  intros P. induction 1 as [u a url Iu Ia Eo|x s url L S|s roots my a K Ia|s my a K Ia|x url ch _ IH C].
  - apply (oo_inherited e gs' u a url); [exact (Permutation_in _ P Iu)|exact Ia|exact Eo].
  - eapply oo_found; eassumption.
  - eapply oo_listed1; eassumption.
  - eapply oo_listed2; eassumption.
  - eapply oo_chosen; eassumption.
Qed.
(* A registry with dependencies resolves for one order of its files and of the definitions in them iff it
   does for any other.  Needed: ids that differ from each other and from those the dependencies offer, no
   attribute or entity that is kept from other registries, dependencies that have an answer for every
   reference, and no attribute offered by registries that are not versions of one another.  Where these
   do not hold the order may decide: C37_file_order_refuted, C35_shadow_refuted. *)
Theorem C35_dependencies_success : forall glob o o' e specs specs' bs inc gs,
  NoDup (map (fun sp => gs_id (fst sp)) (read_order specs)) -> files_apart e specs ->
  Permutation (read_order specs) (read_order specs') -> inherits_to e specs gs ->
  none_hidden gs -> entities_open gs -> references_answered e gs -> offers_agree e gs ->
  ((exists r, resolve_registry glob o e specs bs inc = Done r) <-> (exists r', resolve_registry glob o' e specs' bs inc = Done r')).
Proof.
  intros glob o o' e specs specs' bs inc gs N Ap P Hi Hh Ho Ra Ag. split; intros (r & H).
  - exact (deps_success glob o o' e specs specs' bs inc gs r N Ap P Hi Hh Ho Ra Ag H).
  - assert (Nu : NoDup (map uid (map (fun sp => resolve_prefix (group_from_spec (fst sp) (snd sp))) (read_order specs)))) by (rewrite start_ids; exact N).
    destruct (C35_extends e _ _ gs Nu (extended_apart _ _ Ap) (Permutation_map _ P) Hi) as (gs' & Hg & Pg).
    assert (B : forall u, In u gs' -> In u gs) by (intros u; apply Permutation_in, Permutation_sym, Pg).
    apply (deps_success glob o' o e specs' specs bs inc gs' r); auto.
    + eapply Permutation_NoDup; [apply Permutation_map, P|exact N].
    + intros s p I. apply (Ap s p). exact (Permutation_in _ (Permutation_sym P) I).
    + apply Permutation_sym, P.
    + intros u a ann Iu. apply (Hh u a ann (B u Iu)).
    + intros u Iu. apply (Ho u (B u Iu)).
    + intros u a q Iu. apply (Ra u a q (B u Iu)).
    + intros x a b Oa Ob. apply (Ag x a b); eapply offer_perm; try eassumption; apply Permutation_sym, Pg.
Qed.
Print Assumptions C35_dependencies_success.

(* ---------- a concrete registry: two versions of one registry offer the same attribute ---------- *)
Definition two_env : env := sample_versions [sample_giving "acme/1.0" "base" "x" "of acme" false; sample_giving "acme/1.2" "newer" "x" "of acme" false].
Lemma two_offered x url gs : (forall u a v, In u gs -> In a (ug_attrs u) -> ua_origin a = Some v -> v = "acme/1.0" \/ v = "acme/1.2") ->
  on_offer two_env gs x url -> url = "acme/1.0" \/ url = "acme/1.2".
Proof.
  intros G. induction 1 as [u a url Iu Ia Eo|x s url L S|s roots my a K Ia|s my a K Ia|x url ch _ IH C].
  - exact (G u a url Iu Ia Eo).
  - unfold deps_lookup_attr in L. cbn [two_env sample_versions ev_deps collect_matches] in L.
    destruct (String.eqb_spec x "x") as [->|Ne]; [vm_compute in L; inversion L; subst s; vm_compute in S; inversion S; auto|].
    assert (E : String.eqb x "x" = false) by (apply String.eqb_neq, Ne). assert (E' : String.eqb "x" x = false) by (apply String.eqb_neq; congruence).
    unfold dep_lookup_attr, sample_giving, lookup_attr1, slookup in L. cbn -[String.eqb] in L. rewrite E in L. cbn -[String.eqb] in L. rewrite E' in L. cbn -[String.eqb] in L.
    discriminate L.
  - cbn [known_as two_env sample_versions ev_deps ev_cached ev_parse] in K. destruct K as [[[K|[K|[]]] My]|K]; [| |discriminate K];
      inversion K; subst s roots; inversion My; subst my; cbn in Ia; destruct Ia as [<-|[]]; vm_compute; auto.
  - destruct K as [[K|[K|[]]] _]; discriminate K.
  - discriminate C.
Qed.
Example C35_success_case : exists gs r',
  NoDup (map (fun sp => gs_id (fst sp)) (read_order [(deps_specs, sample_file)])) /\ files_apart two_env [(deps_specs, sample_file)] /\
  Permutation (read_order [(deps_specs, sample_file)]) (read_order [(deps_specs', sample_file)]) /\
  inherits_to two_env [(deps_specs, sample_file)] gs /\
  none_hidden gs /\ entities_open gs /\ references_answered two_env gs /\ offers_agree two_env gs /\
  resolve_registry sample_glob sample_orders two_env [(deps_specs', sample_file)] [] true = Done r' /\
  on_offer two_env gs "x" "acme/1.0" /\ on_offer two_env gs "x" "acme/1.2".
Proof.
  eexists _, _.
  assert (I : inherits_to two_env [(deps_specs, sample_file)] _) by (unfold inherits_to; vm_compute; reflexivity).
  split; [|split; [|split; [|split; [exact I|split; [|split; [|split; [|split; [|split; [|split]]]]]]]]].
  - cbn. repeat constructor; cbn; intuition discriminate.
  - intros s p Hs (l & d & t & Id & S & _). cbn in Id, Hs. destruct Id as [<-|[<-|[]]];
    destruct Hs as [Hs|[Hs|[Hs|[]]]]; injection Hs as <- <-; vm_compute in S; discriminate.
  - apply (Permutation_rev [_; _; _]).
  - intros u a ann Hu Ha E. clear I. cbn in Hu. destruct Hu as [<-|[<-|[<-|[]]]]; cbn [ug_attrs] in Ha; destruct Ha as [<-|[]]; cbn in E; try discriminate E; injection E as <-; reflexivity.
  - intros u Hu T. clear I. cbn in Hu. destruct Hu as [<-|[<-|[<-|[]]]]; discriminate T.
  - intros u a q Hu Ha E. clear I. cbn in Hu. destruct Hu as [<-|[<-|[<-|[]]]]; cbn [ug_attrs] in Ha; destruct Ha as [<-|[]]; cbn [ua_spec] in E; try discriminate E; inversion E; subst q.
    unfold answers. vm_compute. eexists. split; [reflexivity|]. intros ann X. discriminate X.
  - intros x a b Oa Ob.
    apply two_offered in Oa; [apply two_offered in Ob|].
    + destruct Oa as [-> | ->], Ob as [-> | ->]; (split; [reflexivity|]); eexists _, _; (split; [vm_compute; reflexivity|]); (split; [vm_compute; reflexivity|reflexivity]).
    + intros u c v Hu Hc E. clear I Oa Ob. cbn in Hu. destruct Hu as [<-|[<-|[<-|[]]]]; cbn [ug_attrs] in Hc; destruct Hc as [<-|[]]; cbn in E; try discriminate E; injection E as <-; auto.
    + intros u c v Hu Hc E. clear I Oa Ob. cbn in Hu. destruct Hu as [<-|[<-|[<-|[]]]]; cbn [ug_attrs] in Hc; destruct Hc as [<-|[]]; cbn in E; try discriminate E; injection E as <-; auto.
  - vm_compute. reflexivity.
  - exact (oo_listed1 two_env _ _ _ "acme/1.0" (sample_noted "x" "of acme" false) (or_introl (conj (or_introl eq_refl) eq_refl)) (or_introl eq_refl)).
  - exact (oo_listed1 two_env _ _ _ "acme/1.2" (sample_noted "x" "of acme" false) (or_introl (conj (or_intror (or_introl eq_refl)) eq_refl)) (or_introl eq_refl)).
Qed.

(* A reference without a definition is always refused (C34_refs_undefined_fails), but not always named:
   two unrelated registries that offer one attribute stop resolution at once, with that error alone. *)
Definition torn_env : env := sample_versions [sample_giving "acme/1.0" "base" "x" "of acme" false; sample_giving "other" "base" "x" "of other" false].
Theorem C34_refs_masked_refuted : ~ (forall e gs es u a r, unreferenced gs -> no_excluded_attribute gs ->
  In u gs -> In a (ug_attrs u) -> ua_spec a = SRef r -> ~ (exists d, defines e gs (rs_ref r) d) ->
  resolve_references e gs empty_catalog = Failed es -> In (XUnresolvedAttr (g_id (ug_group u)) (rs_ref r)) es).
Proof.
  intros H. set (u := sample_group "s" GSpan None None [] [sample_ref "gone" None; sample_ref "x" None]).
  assert (Ea : exists a1 a2, ug_attrs u = [a1; a2] /\ (exists r, ua_spec a1 = SRef r /\ rs_ref r = "gone" /\ rs_prefix r = false) /\
    exists r, ua_spec a2 = SRef r /\ rs_prefix r = false).
  { eexists _, _. split; [reflexivity|]. split; eexists; repeat split; reflexivity. }
  destruct Ea as (a1 & a2 & Ea & (r1 & E1 & Er & P1) & (r2 & E2 & P2)).
  destruct (resolve_references torn_env [u] empty_catalog) as [x|es|] eqn:E; try (vm_compute in E; discriminate E).
  assert (X := H torn_env [u] es u a1 r1).
  assert (Y : In (XUnresolvedAttr (g_id (ug_group u)) (rs_ref r1)) es).
  { apply X; clear X; [| |left; reflexivity|rewrite Ea; left; reflexivity|exact E1| |exact E].
    - intros v [<-|[]]. reflexivity.
    - intros v a i [<-|[]] Ia Es. rewrite Ea in Ia. destruct Ia as [<-|[<-|[]]]; congruence.
    - rewrite Er. intros (d & D). inversion D as [v a i d0 Iv Ia Es _ _ En|y s s' L _|v a r d0 d1 Iv Ia Es Pr _ _ En]; subst.
      + destruct Iv as [<-|[]]. rewrite Ea in Ia. destruct Ia as [<-|[<-|[]]]; congruence.
      + vm_compute in L. discriminate L.
      + destruct Iv as [<-|[]]. rewrite Ea in Ia. destruct Ia as [<-|[<-|[]]]; congruence. }
  rewrite Er in Y. vm_compute in E. injection E as <-. destruct Y as [Y|[]]. discriminate Y.
Qed.
Print Assumptions C34_refs_masked_refuted.
