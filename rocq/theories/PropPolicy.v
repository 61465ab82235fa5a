(* C86: policies are asked at their stages, and what they find is reported. *)
From Coq Require Import String Ascii Bool Arith Lia List.
Import ListNotations.
From Verif Require Import Base Json BaseProofs BaseProofs2 ResultModel PolicyModel PolicySpec PropFinding.
From Verif Require LiveModel LoadModel VdirModel VdirProofs.
Local Open Scope string_scope.

Lemma str_mem_in x l : str_mem x l = true <-> In x l.
Proof.
  unfold str_mem. rewrite existsb_exists. split.
  - intros (y & I & E). apply String.eqb_eq in E. subst y. exact I.
  - intros I. exists x. split; [exact I|apply String.eqb_refl].
Qed.
Lemma package_eq s : package_of s = package s.
Proof. destruct s; reflexivity. Qed.
Lemma rule_eq s : deny_of s = rule s.
Proof. destruct s; reflexivity. Qed.

(* ---------- one stage ---------- *)
Lemma offered_data R (docs : list (option json)) : forall (e : engine R) file,
  add_all_data e file docs
  = (mk_engine (fst (offered R (en_state e) docs)) (en_count e) (en_packages e),
     repeat (InvalidPolicyFile file) (snd (offered R (en_state e) docs))).
Proof.
  induction docs as [|d docs IH]; intros e file; cbn.
  - destruct e; reflexivity.
  - destruct d as [d|]; cbn.
    + destruct (ri_data R (en_state e) d) as [s [|]]; cbn; rewrite IH; cbn;
        destruct (offered R s docs); reflexivity.
    + rewrite IH. destruct (offered R (en_state e) docs); reflexivity.
Qed.
Lemma check_found R (e : engine R) s :
  (~ in_use e s -> snd (check e s) = ROk [])
  /\ (in_use e s -> forall fs, findings_in (snd (ri_eval R (en_state e) (rule s))) fs <-> snd (check e s) = ROk fs)
  /\ (in_use e s -> (forall fs, ~ findings_in (snd (ri_eval R (en_state e) (rule s))) fs) ->
      snd (check e s) = RErr ViolationEvaluationError).
Proof.
  unfold check, in_use. rewrite package_eq, rule_eq.
  destruct (str_mem (package s) (en_packages e)) eqn:M; cbn [negb].
  - apply str_mem_in in M. split; [tauto|].
    destruct (ri_eval R (en_state e) (rule s)) as [st v]. cbn.
    assert (K : forall fs, findings_in v fs <->
      match v with None => RErr ViolationEvaluationError
      | Some v => match read_findings v with ROk fs => ROk fs | RErr _ => RErr ViolationEvaluationError end end
      = ROk fs).
    { intros fs. unfold findings_in. split.
      - intros (vs & -> & Hs). pose proof (proj2 (C85_list (JArr vs) fs) (ex_intro _ vs (conj eq_refl Hs))) as H.
        rewrite H. reflexivity.
      - destruct v as [v|]; [|discriminate]. destruct (read_findings v) as [fs'|] eqn:E; [|discriminate].
        intros [= <-]. apply C85_list in E as (vs & -> & Hs). exists vs. auto. }
    split; [intros _; exact K|]. intros _ H.
    destruct v as [v|]; [|reflexivity]. destruct (read_findings v) as [fs'|] eqn:E; [|reflexivity].
    destruct (H fs'). apply K. reflexivity.
  - assert (N : ~ In (package s) (en_packages e)) by (rewrite <- str_mem_in; congruence).
    split; [reflexivity|]. split; intro; contradiction.
Qed.
Lemma check_cases R (e : engine R) s :
  (exists fs, snd (check e s) = ROk fs) \/ snd (check e s) = RErr ViolationEvaluationError.
Proof.
  unfold check. destruct (negb _); [left; eexists; reflexivity|].
  destruct (ri_eval R (en_state e) (deny_of s)) as [st [v|]]; cbn; [|auto].
  destruct (read_findings v); eauto.
Qed.

(* A document checked at a stage gives one error for each data document the interpreter
   refuses and, if some policy declares the package of the stage, one violation for each
   finding in the answer, or one error if there is no legible answer. *)
Theorem C86_stage : forall R (e : engine R) s file input docs,
  exists errs, reported e s file input docs errs
    /\ with_errors (check_policy_stage e s file input docs) errs.
Proof.
  intros R e s file input docs. unfold check_policy_stage. rewrite offered_data.
  set (n := repeat _ _). set (e1 := mk_engine _ _ _).
  assert (W : forall late, exists errs, errs = app n late /\ with_errors (with_nfes tt (app n late)) errs).
  { intros late. exists (app n late). split; [reflexivity|]. unfold with_errors.
    destruct (app n late); [left; auto|right; split; [discriminate|reflexivity]]. }
  destruct input as [i|]; cbn [set_input].
  - set (e2 := mk_engine (ri_input R (en_state e1) i) (en_count e1) (en_packages e1)).
    destruct (check_found R e2 s) as (C1 & C2 & C3).
    assert (U : in_use e2 s <-> in_use e s) by reflexivity.
    assert (A : snd (ri_eval R (en_state e2) (rule s)) = answer e s i docs) by reflexivity.
    destruct (in_dec string_dec (package s) (en_packages e)) as [I|N].
    + destruct (check_cases R e2 s) as [[fs Hc]|Hc].
      * pose proof (proj2 (C2 (proj2 U I) fs) Hc) as F. rewrite A in F.
        destruct (check e2 s) as [e3 r]. cbn in Hc. subst r.
        destruct (W (map (PolicyViolation file) fs)) as (errs & Ee & We).
        exists errs. split; [|exact We]. exists (map (PolicyViolation file) fs). split; [exact Ee|].
        right. right. left. exists i, fs. auto.
      * assert (F : forall fs, ~ findings_in (answer e s i docs) fs).
        { intros fs Hf. rewrite <- A in Hf. apply (C2 (proj2 U I)) in Hf. congruence. }
        destruct (check e2 s) as [e3 r]. cbn in Hc. subst r.
        destruct (W [InvalidPolicyFile file]) as (errs & Ee & We).
        exists errs. split; [|exact We]. exists [InvalidPolicyFile file]. split; [exact Ee|].
        right. right. right. exists i. auto.
    + pose proof (C1 N) as Hc. destruct (check e2 s) as [e3 r]. cbn in Hc. subst r.
      destruct (W []) as (errs & Ee & We). exists errs. split; [|exact We].
      exists []. split; [exact Ee|]. right. left. exists i. auto.
  - destruct (W [InvalidPolicyFile file]) as (errs & Ee & We). exists errs. split; [|exact We].
    exists [InvalidPolicyFile file]. auto.
Qed.

Lemma join_errors rs ess nfes : Forall2 with_errors rs ess ->
  join_results rs nfes = with_nfes tt (app nfes (concat ess)).
Proof.
  intros H. revert nfes. induction H as [|r es rs ess Hr Hs IH]; intro nfes; cbn.
  - rewrite app_nil_r. reflexivity.
  - destruct Hr as [[-> ->]|[N ->]]; cbn; rewrite IH; [reflexivity|]. rewrite app_assoc. reflexivity.
Qed.
Lemma with_errors_nfes errs : with_errors (with_nfes tt errs : wresult unit ckerr) errs.
Proof. destruct errs; [left; auto|right; split; [discriminate|reflexivity]]. Qed.

(* Every file of a registry is checked on its own, from the same engine, and the errors come in
   the order of the files. *)
Theorem C86_files : forall R (e : engine R) specs,
  exists errs, reported_each e specs errs /\ with_errors (check_policy e specs) errs.
Proof.
  intros R e specs. unfold check_policy.
  assert (H : exists ess, Forall2 (fun sp es => reported e BeforeResolution (fst sp) (snd sp) [] es) specs ess
    /\ Forall2 with_errors
         (map (fun sp => check_policy_stage e BeforeResolution (fst sp) (snd sp) []) specs) ess).
  { induction specs as [|sp specs (ess & H1 & H2)]; [exists []; split; constructor|].
    destruct (C86_stage R e BeforeResolution (fst sp) (snd sp) []) as (errs & He & Hw).
    exists (errs :: ess). split; constructor; auto. }
  destruct H as (ess & H1 & H2). exists (concat ess). split; [exists ess; auto|].
  rewrite (join_errors _ _ _ H2). apply with_errors_nfes.
Qed.

(* ---------- which policies are loaded ---------- *)
Lemma ends_rego p : is_policy_file p = true <-> rego_named p.
Proof.
  unfold is_policy_file, rego_named. split.
  - revert p. induction p as [|c p IH].
    + cbn. discriminate.
    + intros H. cbn [VdirModel.ends_with] in H. apply orb_true_iff in H as [H|H].
      * apply String.eqb_eq in H. exists "". exact H.
      * destruct (IH H) as [q ->]. exists (String c q). reflexivity.
  - intros [q ->]. induction q as [|c q IH]; [reflexivity|].
    cbn [append VdirModel.ends_with]. rewrite IH. apply orb_true_r.
Qed.
Lemma hidden_dot n : is_hidden n = false <-> forall r, n <> "." ++ r.
Proof.
  assert (K : is_hidden n = true <-> exists r, n = "." ++ r).
  { unfold is_hidden. apply starts_with_spec. }
  split.
  - intros H r E. rewrite (proj2 K (ex_intro _ r E)) in H. discriminate H.
  - intros H. destruct (is_hidden n); [|reflexivity]. destruct (proj1 K eq_refl) as [r E]. destruct (H r E).
Qed.

Lemma node_ind2 (P : node -> Prop) :
  (forall n, P (NFile n)) -> (forall n, P (NDir n None)) ->
  (forall n cs, Forall P cs -> P (NDir n (Some cs))) -> forall n, P n.
Proof.
  intros H1 H2 H3. fix IH 1. intros [n|n [cs|]]; [apply H1| |apply H2]. apply H3.
  induction cs as [|c cs IHc]; constructor; [apply IH|exact IHc].
Qed.
Lemma walk_seen n : forall p q, In q (walk p n) <-> seen p n q.
Proof.
  induction n as [n|n|n cs IH] using node_ind2; intros p q.
  - cbn. split; [intros [<-|[]]; constructor|intros H; inversion H; subst; auto].
  - cbn. split; [intros [<-|[]]; constructor|intros H; inversion H; subst; auto].
  - cbn [walk].
    assert (B : forall l, Forall (fun c => forall p q, In q (walk p c) <-> seen p c q) l ->
      In q ((fix below (cs0 : list node) : list string :=
         match cs0 with
         | [] => []
         | c :: r => app (if is_hidden (node_name c) then [] else walk (LoadModel.join_path p (node_name c)) c) (below r)
         end) l)
      <-> exists c, In c l /\ (forall r, node_name c <> "." ++ r) /\ seen (LoadModel.join_path p (node_name c)) c q).
    { induction l as [|c l IHl]; intros Hl.
      - split; [intros []|intros (c & [] & _)].
      - inversion Hl as [|? ? Hc Hl']; subst. rewrite in_app_iff, (IHl Hl'). split.
        + intros [I|(c' & I & Hh & Hs)].
          * destruct (is_hidden (node_name c)) eqn:Eh; [destruct I|]. exists c. split; [left; reflexivity|].
            split; [apply hidden_dot; exact Eh|apply Hc; exact I].
          * exists c'. split; [right; exact I|auto].
        + intros (c' & [<-|I] & Hh & Hs).
          * left. rewrite (proj2 (hidden_dot _) Hh). apply Hc. exact Hs.
          * right. exists c'. auto. }
    split.
    + intros [<-|I]; [constructor|]. apply (B cs IH) in I as (c & Ic & Hh & Hs).
      eapply seen_below; eauto.
    + intros H. inversion H as [|p' d cs' c q' Ic Hh Hs]; subst; [left; reflexivity|].
      right. apply (B cs IH). exists c. auto.
Qed.

Section Loaded.
  Variable R : rego.
  Variable pkg : source -> option string.
  Hypothesis stateless : declares_package R pkg.

  (* [e'] is [e] with the policies of a set of sources, all of them accepted *)
  Definition grows (e e' : engine R) (src : source -> Prop) : Prop :=
    (forall x, src x -> pkg x <> None)
    /\ forall p, In p (en_packages e') <-> In p (en_packages e) \/ exists x, src x /\ pkg x = Some p.

  Lemma grows_refl e (src : source -> Prop) : (forall x, ~ src x) -> grows e e src.
  Proof. intros N. split; [intros x Hx; destruct (N x Hx)|]. intros p. split; [auto|]. intros [|(x & Hx & _)]; [auto|destruct (N x Hx)]. Qed.
  Lemma grows_trans e1 e2 e3 (s1 s2 s3 : source -> Prop) :
    (forall x, s3 x <-> s1 x \/ s2 x) -> grows e1 e2 s1 -> grows e2 e3 s2 -> grows e1 e3 s3.
  Proof.
    intros Hs [A1 A2] [B1 B2]. split.
    - intros x Hx. apply Hs in Hx as [Hx|Hx]; auto.
    - intros p. rewrite B2, A2. split.
      + intros [[H|(x & Hx & E)]|(x & Hx & E)]; [auto|right; exists x; split; [apply Hs; auto|exact E]..].
      + intros [H|(x & Hx & E)]; [auto|]. apply Hs in Hx as [Hx|Hx]; [left; right|right]; eauto.
  Qed.
  Lemma set_add_in x l p : In p (set_add x l) <-> In p l \/ p = x.
  Proof.
    unfold set_add. destruct (str_mem x l) eqn:M.
    - apply str_mem_in in M. split; [auto|]. intros [H| ->]; auto.
    - cbn. split; intros [H|H]; auto.
  Qed.
  Lemma add_policy_grows e src e' r : add_policy e src = (e', r) ->
    (forall p, r = ROk p -> grows e e' (fun x => x = src))
    /\ ((exists x, r = RErr x) <-> pkg src = None).
  Proof.
    unfold add_policy. pose proof (stateless (en_state e) src) as K.
    destruct (ri_add R (en_state e) src) as [s [p|]]; cbn in K; intros E; injection E as <- <-.
    - split.
      + intros p' _. split; [intros x ->; congruence|]. cbn. intros q. rewrite set_add_in. split.
        * intros [H| ->]; [auto|]. right. exists src. auto.
        * intros [H|(x & -> & E)]; [auto|]. right. congruence.
      + split; [intros [x E]; discriminate E|congruence].
    - split; [intros p E; discriminate E|]. split; [intros _; congruence|intros _; eexists; reflexivity].
  Qed.
  Definition among (paths : list string) (x : source) : Prop :=
    exists p, In p paths /\ rego_named p /\ x = File p.
  Lemma add_files_grows paths : forall e e' n es, add_policy_files e paths = (e', n, es) ->
    (es = [] -> grows e e' (among paths))
    /\ (es = [] <-> forall x, among paths x -> pkg x <> None).
  Proof.
    induction paths as [|p paths IH]; intros e e' n es H; cbn in H.
    - injection H as <- <- <-. split.
      + intros _. apply grows_refl. intros x (q & [] & _).
      + split; [intros _ x (q & [] & _)|reflexivity].
    - destruct (is_policy_file p) eqn:Ep.
      + apply ends_rego in Ep. destruct (add_policy e (File p)) as [e1 [pk|x]] eqn:Ea.
        * destruct (add_policy_grows _ _ _ _ Ea) as [G1 F1].
          destruct (add_policy_files e1 paths) as [[e2 n2] es2] eqn:Er. injection H as <- <- <-.
          destruct (IH _ _ _ _ Er) as [G2 F2]. split.
          -- intros E. apply (grows_trans e e1 e2 (fun x => x = File p) (among paths)); auto.
             ++ intros x. split.
                ** intros (q & [->|I] & Hq & ->); [left; reflexivity|right; exists q; auto].
                ** intros [->|(q & I & Hq & ->)]; [exists p; cbn; auto|exists q; cbn; auto].
             ++ apply (G1 pk). reflexivity.
          -- rewrite F2. split.
             ++ intros A x (q & [->|I] & Hq & ->); [|apply A; exists q; auto].
                intros N. apply F1 in N as [x E]. discriminate E.
             ++ intros A x (q & I & Hq & ->). apply A. exists q. cbn; auto.
        * destruct (add_policy_grows _ _ _ _ Ea) as [_ F1].
          destruct (add_policy_files e1 paths) as [[e2 n2] es2] eqn:Er. injection H as <- <- <-. split; [discriminate|].
          split; [discriminate|]. intros A. destruct (A (File p)); [exists p; cbn; auto|].
          apply F1. eexists; reflexivity.
      + assert (N : ~ rego_named p) by (rewrite <- ends_rego; congruence).
        assert (K : forall x, among (p :: paths) x <-> among paths x).
        { intros x. split; [intros (q & [->|I] & Hq & ->); [contradiction|exists q; auto]
                           |intros (q & I & Hq & ->); exists q; cbn; auto]. }
        destruct (IH _ _ _ _ H) as [G F]. split.
        -- intros E. destruct (G E) as [G1 G2]. split; [intros x Hx; apply G1, K, Hx|].
           intros q. rewrite G2. split; (intros [I|(x & Hx & E')]; [auto|right; exists x; split; [apply K; exact Hx|exact E']]).
        -- rewrite F. split; intros A x Hx; apply A, K, Hx.
  Qed.
  Lemma handle_ok es : handle_errors es = ROk tt <-> es = [].
  Proof. destruct es as [|x [|y es]]; cbn; split; congruence. Qed.
  Definition in_tree (path : string) (root : option node) (x : source) : Prop :=
    exists t p, root = Some t /\ seen path t p /\ rego_named p /\ x = File p.
  Lemma add_policies_grows e path root e' r : add_policies e path root = (e', r) ->
    ((exists n, r = ROk n) -> grows e e' (in_tree path root))
    /\ ((exists n, r = ROk n) <-> forall x, in_tree path root x -> pkg x <> None).
  Proof.
    unfold add_policies. intros H.
    set (paths := match root with Some t => walk path t | None => [] end) in H.
    assert (K : forall x, among paths x <-> in_tree path root x).
    { intros x. unfold paths. destruct root as [t|].
      - split.
        + intros (p & I & Hp & ->). exists t, p. apply walk_seen in I. auto.
        + intros (t' & p & [= <-] & Hs & Hp & ->). exists p. apply walk_seen in Hs. auto.
      - split; [intros (p & [] & _)|intros (t & p & E & _); discriminate E]. }
    destruct (add_policy_files e paths) as [[e1 n] es] eqn:Ea. injection H as <- <-.
    destruct (add_files_grows _ _ _ _ _ Ea) as [G F].
    assert (D : (exists n0, match handle_errors es with ROk _ => ROk n | RErr x => RErr x end = ROk n0) <-> es = []).
    { split.
      - intros [n0 E]. destruct (handle_errors es) as [[]|] eqn:Eh; [apply handle_ok; exact Eh|discriminate E].
      - intros ->. exists n. reflexivity. }
    rewrite D. split.
    - intros E. destruct (G E) as [G1 G2]. split; [intros x Hx; apply G1, K, Hx|].
      intros q. rewrite G2. split; (intros [I|(x & Hx & E')]; [auto|right; exists x; split; [apply K; exact Hx|exact E']]).
    - rewrite F. split; intros A x Hx; apply A, K, Hx.
  Qed.
  Definition at_path (p : string * option stat) (x : source) : Prop :=
    (snd p = Some StatFile /\ x = File (fst p))
    \/ (exists t q, snd p = Some (StatDir t) /\ seen (fst p) t q /\ rego_named q /\ x = File q).
  Definition statable (p : string * option stat) : Prop := snd p <> None /\ snd p <> Some StatOther.
  Lemma add_path_grows e p st e' r : add_policy_from_file_or_dir e p st = (e', r) ->
    (r = ROk tt -> grows e e' (at_path (p, st)))
    /\ (r = ROk tt <-> statable (p, st) /\ forall x, at_path (p, st) x -> pkg x <> None).
  Proof.
    unfold add_policy_from_file_or_dir, statable, at_path. cbn [fst snd]. destruct st as [[|t|]|].
    - destruct (add_policy e (File p)) as [e1 r1] eqn:Ea. intros H. injection H as <- <-.
      destruct (add_policy_grows _ _ _ _ Ea) as [G F].
      assert (K : forall x, x = File p <-> (Some StatFile = Some StatFile /\ x = File p)
         \/ (exists t q, Some StatFile = Some (StatDir t) /\ seen p t q /\ rego_named q /\ x = File q)).
      { intros x. split; [auto|]. intros [[_ E]|(t & q & E & _)]; [exact E|discriminate E]. }
      split.
      + intros E. destruct r1 as [pk|]; [|discriminate E]. destruct (G pk eq_refl) as [G1 G2].
        split; [intros x Hx; apply G1, K, Hx|].
        intros q. rewrite G2. split; (intros [I|(x & Hx & E')]; [auto|right; exists x; split; [apply K; exact Hx|exact E']]).
      + split.
        * intros E. split; [split; discriminate|]. intros x Hx. apply K in Hx. subst x. intros N.
          apply F in N as [x ->]. discriminate E.
        * intros [_ A]. destruct r1 as [pk|x]; [reflexivity|]. destruct (A (File p)); [auto|].
          apply F. eexists; reflexivity.
    - destruct (add_policies e p (Some t)) as [e1 r1] eqn:Ea. intros H. injection H as <- <-.
      destruct (add_policies_grows _ _ _ _ _ Ea) as [G F].
      assert (K : forall x, in_tree p (Some t) x <-> (Some (StatDir t) = Some StatFile /\ x = File p)
         \/ (exists t0 q, Some (StatDir t) = Some (StatDir t0) /\ seen p t0 q /\ rego_named q /\ x = File q)).
      { intros x. split.
        - intros (t0 & q & [= <-] & H). right. exists t, q. auto.
        - intros [[E _]|(t0 & q & [= <-] & H)]; [discriminate E|]. exists t, q. auto. }
      assert (D : match r1 with ROk _ => ROk tt | RErr x => RErr x end = ROk tt <-> exists n, r1 = ROk n).
      { destruct r1; split; [eauto|reflexivity|discriminate|intros [n E]; discriminate E]. }
      rewrite D. split.
      + intros E. destruct (G E) as [G1 G2]. split; [intros x Hx; apply G1, K, Hx|].
        intros q. rewrite G2. split; (intros [I|(x & Hx & E')]; [auto|right; exists x; split; [apply K; exact Hx|exact E']]).
      + rewrite F. split; [intros A; split; [split; discriminate|]; intros x Hx; apply A, K, Hx
                          |intros [_ A] x Hx; apply A, K, Hx].
    - intros H. injection H as <- <-. split; [discriminate|]. split; [discriminate|]. intros [[_ N] _]. congruence.
    - intros H. injection H as <- <-. split; [discriminate|]. split; [discriminate|]. intros [[N _] _]. congruence.
  Qed.
  Definition at_paths (ps : list (string * option stat)) (x : source) : Prop :=
    exists p, In p ps /\ at_path p x.
  Lemma add_user_grows ps : forall e,
    (forall e', add_user_policies e ps = ROk e' -> grows e e' (at_paths ps))
    /\ ((exists e', add_user_policies e ps = ROk e') <->
        (forall p, In p ps -> statable p) /\ forall x, at_paths ps x -> pkg x <> None).
  Proof.
    induction ps as [|[p st] ps IH]; intros e; cbn.
    - split.
      + intros e' [= <-]. apply grows_refl. intros x (q & [] & _).
      + split; [intros _; split; [intros q []|intros x (q & [] & _)]|intros _; eexists; reflexivity].
    - destruct (add_policy_from_file_or_dir e p st) as [e1 r] eqn:Ea.
      destruct (add_path_grows _ _ _ _ _ Ea) as [G F]. destruct r as [[]|x].
      + destruct (IH e1) as [G2 F2]. destruct (proj1 F eq_refl) as [S1 S2]. split.
        * intros e' H. apply (grows_trans e e1 e' (at_path (p, st)) (at_paths ps)); auto.
          intros x. split; [intros (q & [<-|I] & Hq); [auto|right; exists q; auto]
                           |intros [Hx|(q & I & Hq)]; [exists (p, st); cbn; auto|exists q; cbn; auto]].
        * rewrite F2. split.
          -- intros [A B]. split; [intros q [<-|I]; auto|]. intros x (q & [<-|I] & Hq); [auto|].
             apply B. exists q. auto.
          -- intros [A B]. split; [intros q I; apply A; auto|]. intros x (q & I & Hq). apply B. exists q. cbn; auto.
      + split; [discriminate|]. split; [intros [e' E]; discriminate E|]. intros [A B].
        assert (N : RErr x = ROk tt) by (apply F; split; [apply A; left; reflexivity|intros y Hy; apply B; exists (p, st); cbn; auto]).
        discriminate N.
  Qed.
  Lemma init_grows (g : registry) ps :
    (forall e, init_policy_engine g ps = ROk e -> grows (new_engine R) e (policy_source g ps))
    /\ ((exists e : engine R, init_policy_engine g ps = ROk e) <->
        (forall p, In p ps -> statable p) /\ forall x, policy_source g ps x -> pkg x <> None).
  Proof.
    unfold init_policy_engine. set (b := Builtin _).
    assert (K : forall x, policy_source g ps x <->
       (x = b \/ in_tree (rg_dir g) (rg_tree g) x) \/ at_paths ps x).
    { intros x. split.
      - intros [|t p Et Hs Hp|p I|d t p I Hs Hp].
        + left. left. reflexivity.
        + left. right. exists t, p. auto.
        + right. exists (p, Some StatFile). split; [exact I|]. left. auto.
        + right. exists (d, Some (StatDir t)). split; [exact I|]. right. exists t, p. auto.
      - intros [[->|(t & p & Et & Hs & Hp & ->)]|([p st] & I & [[E ->]|(t & q & E & Hs & Hq & ->)])].
        + constructor.
        + eapply source_registry; eauto.
        + cbn in *. subst st. apply source_file. exact I.
        + cbn in *. subst st. eapply source_dir; eauto. }
    destruct (add_policy (new_engine R) b) as [e1 [pk|x]] eqn:E1.
    - destruct (add_policy_grows _ _ _ _ E1) as [G1 F1].
      destruct (add_policies e1 (rg_dir g) (rg_tree g)) as [e2 r2] eqn:E2.
      destruct (add_policies_grows _ _ _ _ _ E2) as [G2 F2].
      assert (Nb : pkg b <> None) by (intro N; apply F1 in N as [x E]; discriminate E).
      destruct r2 as [n|x].
      + destruct (add_user_grows ps e2) as [G3 F3].
        pose proof (proj1 F2 (ex_intro _ n eq_refl)) as Nt. split.
        * intros e H. apply (grows_trans _ e2 e (fun x => x = b \/ in_tree (rg_dir g) (rg_tree g) x) (at_paths ps)).
          -- exact K.
          -- apply (grows_trans _ e1 e2 (fun x => x = b) (in_tree (rg_dir g) (rg_tree g))).
             ++ intros x. reflexivity.
             ++ apply (G1 pk eq_refl).
             ++ apply G2. eexists; reflexivity.
          -- apply G3. exact H.
        * rewrite F3. split.
          -- intros [A B]. split; [exact A|]. intros x Hx. apply K in Hx as [[->|Hx]|Hx]; auto.
          -- intros [A B]. split; [exact A|]. intros x Hx. apply B, K. auto.
      + split; [discriminate|]. split; [intros [e E]; discriminate E|]. intros [A B].
        assert (N : exists n, RErr x = (ROk n : result nat ckerr)) by (apply F2; intros y Hy; apply B, K; auto).
        destruct N as [n N]. discriminate N.
    - destruct (add_policy_grows _ _ _ _ E1) as [G1 F1]. split; [discriminate|].
      split; [intros [e E]; discriminate E|]. intros [A B].
      destruct (B b); [apply K; auto|]. apply F1. eexists; reflexivity.
  Qed.
End Loaded.

(* The engine is built exactly when every path the user names is a file or a directory and
   every policy is accepted; a stage is then in use exactly when one of the policies, found
   anywhere below the directories outside hidden ones, declares its package. *)
Theorem C86_policies : forall R pkg, declares_package R pkg -> forall g ps,
  ((exists e : engine R, init_policy_engine g ps = ROk e) <->
     (forall p, In p ps -> snd p <> None /\ snd p <> Some StatOther)
     /\ forall x, policy_source g ps x -> pkg x <> None)
  /\ forall (e : engine R) s, init_policy_engine g ps = ROk e ->
       (in_use e s <-> exists x, policy_source g ps x /\ pkg x = Some (package s)).
Proof.
  intros R pkg Hd g ps. destruct (init_grows R pkg Hd g ps) as [G F]. split; [exact F|].
  intros e s H. destruct (G e H) as [_ G2]. unfold in_use. rewrite G2. split; [intros [[]|K]; exact K|auto].
Qed.

(* ---------- the commands ---------- *)
Lemma dnew_verdict future ms :
  (match map (dnew future) ms with [] => ROk (mk_exit 0 None) | _ => RErr (map (dnew future) ms) end)
  = verdict future ms.
Proof.
  assert (K : forall e, dnew future e = mk_diag e (if future then Some SevError else match e with
      | WOther _ s => s | WChecker _ | IncompatibleRegistries => None | _ => Some SevWarning end)).
  { intros e. unfold dnew, diag_new. destruct future; [reflexivity|]. destruct e; reflexivity. }
  unfold verdict. destruct ms as [|m ms]; [reflexivity|].
  apply (f_equal (@RErr (exit_directives werr) (list (diag werr)))). apply map_ext. exact K.
Qed.
Lemma capture_errors future r errs ds : with_errors r errs ->
  capture future r ds = (ROk tt, app ds (map (dnew future) (map WChecker errs))).
Proof.
  intros [[-> ->]|[N ->]]; cbn; [rewrite app_nil_r; reflexivity|]. rewrite map_map. reflexivity.
Qed.

Section Commands.
  Variable R : rego.
  Variable future : bool.
  Notation dn := (dnew future).

  Lemma visit_before (e : engine R) (c : settings) (g : registry) l ds :
    st_v2 c = false -> value_of (rg_load g) = Some l ->
    exists ms, before_messages c g (Some e) ms /\ visit R future e l ds = ROk (app ds (map dn ms)).
  Proof.
    intros E2 El. unfold before_messages. rewrite E2, El. unfold visit.
    destruct l as [specs| |].
    - destruct (C86_files R e specs) as (errs & Hr & Hw). exists (map WChecker errs). split; [exists errs; auto|].
      destruct Hw as [[-> ->]|[N ->]]; cbn; [rewrite app_nil_r; reflexivity|]. rewrite map_map. reflexivity.
    - exists []. cbn. rewrite app_nil_r. auto.
    - exists []. cbn. rewrite app_nil_r. auto.
  Qed.
  Lemma schema_runs (g : registry) visitor ds l b ms :
    value_of (rg_load g) = Some l -> value_of (rg_resolve g) = Some b ->
    visitor l ds = ROk (app ds (map dn ms)) ->
    exists r, load_and_resolve_schema g visitor ds = (inl r, app ds (map dn ms))
      /\ value_of r = Some b /\ nfes_of r = app (nfes_of (rg_load g)) (nfes_of (rg_resolve g)).
  Proof.
    intros El Eb Hv. unfold load_and_resolve_schema.
    destruct (rg_load g) as [l'|l' nf|x]; cbn in El; [| |discriminate El]; injection El as ->; rewrite Hv;
      eexists; (split; [reflexivity|]); destruct (rg_resolve g) as [b'|b' nb|x]; cbn in Eb;
      try discriminate Eb; injection Eb as ->; try (cbn; rewrite ?app_nil_r; auto).
    destruct nf; cbn; rewrite ?app_nil_r; auto.
  Qed.

  Lemma repo_runs (c : settings) (g : registry) b v (pe : option (engine R)) ds :
    usable c g b v -> prepare_policy_engine c g = ROk pe ->
    exists ms, loading_messages c g b pe ms
      /\ load_and_resolve_repo R future c g ds = (ROk (mk_resolved b v (rg_name g) pe), app ds (map dn ms)).
  Proof.
    intros Hu Hp. unfold load_and_resolve_repo. rewrite Hp.
    assert (Hl : exists l, value_of (rg_load g) = Some l) by (destruct Hu; eauto).
    destruct Hl as [l El].
    assert (Hb : exists b0, value_of (rg_resolve g) = Some b0) by (destruct Hu; eauto).
    destruct Hb as [b0 Eb].
    assert (S1 : exists before r, before_messages c g pe before
      /\ (match st_v2 c, pe with
          | false, Some e => load_and_resolve_schema g (visit R future e) ds
          | v2, _ =>
            load_and_resolve_schema g (fun _ d => ROk d)
              (if v2 then match pe with
                          | Some e => if has_stage e BeforeResolution
                                      then app ds [dn BeforeResolutionUnsupported] else ds
                          | None => ds end else ds)
          end) = (inl r, app ds (map dn before))
      /\ value_of r = Some b0 /\ nfes_of r = app (nfes_of (rg_load g)) (nfes_of (rg_resolve g))).
    { destruct (st_v2 c) eqn:E2.
      - destruct pe as [e|].
        + unfold before_messages. rewrite E2. unfold has_stage. rewrite package_eq.
          destruct (str_mem (package BeforeResolution) (en_packages e)) eqn:M.
          * apply str_mem_in in M.
            destruct (schema_runs g (fun _ d => ROk d) (app ds [dn BeforeResolutionUnsupported]) l b0 [] El Eb) as (r & H1 & H2 & H3);
              [cbn; rewrite app_nil_r; reflexivity|].
            exists [BeforeResolutionUnsupported], r. split; [left; split; [exact M|reflexivity]|].
            cbn [map] in *. rewrite app_nil_r in H1. auto.
          * destruct (schema_runs g (fun _ d => ROk d) ds l b0 [] El Eb) as (r & H1 & H2 & H3);
              [cbn; rewrite app_nil_r; reflexivity|].
            exists [], r. split; [right; split; [|reflexivity]|auto].
            intro I. apply str_mem_in in I. congruence.
        + destruct (schema_runs g (fun _ d => ROk d) ds l b0 [] El Eb) as (r & H1 & H2 & H3);
              [cbn; rewrite app_nil_r; reflexivity|]. exists [], r. split; [reflexivity|auto].
      - destruct pe as [e|].
        + destruct (visit_before e c g l ds E2 El) as (ms & Hm & Hv).
          destruct (schema_runs g (visit R future e) ds l b0 ms El Eb Hv) as (r & H1 & H2 & H3).
          exists ms, r. auto.
        + destruct (schema_runs g (fun _ d => ROk d) ds l b0 [] El Eb) as (r & H1 & H2 & H3);
              [cbn; rewrite app_nil_r; reflexivity|]. exists [], r. split; [reflexivity|auto]. }
    destruct S1 as (before & r & Hbm & Hs & Hv & Hn).
    match goal with |- context [let '(_, _) := ?X in _] =>
      assert (HX : X = (inl r, app ds (map dn before))) end.
    { rewrite <- Hs. destruct (st_v2 c); [reflexivity|]. destruct pe; reflexivity. }
    rewrite HX. clear HX Hs.
    exists (app before (app (nfes_of (rg_load g)) (app (nfes_of (rg_resolve g))
             (app (flag_messages c g) (view_messages b g))))).
    split; [exists before; auto|].
    assert (T : forall d, d = app (app ds (map dn before)) (map dn (nfes_of r)) ->
      (match b0 with
       | BundleV1 => if st_v2 c then
            match rg_convert g with
            | RErr x => (RErr x, d)
            | ROk _ => match rg_view2 g with
                       | WOk v => (ROk (mk_resolved BundleV2 v (rg_name g) pe), d)
                       | WOkNfe v nfes => (ROk (mk_resolved BundleV2 v (rg_name g) pe), app d (map dn nfes))
                       | WFatal x => (RErr x, d) end
            end
          else match rg_view1 g with
               | RErr x => (RErr x, d)
               | ROk v => (ROk (mk_resolved BundleV1 v (rg_name g) pe), d)
               end
       | BundleV2 => let d := if st_v2 c then d else app d [dn V2FlagMissing] in
          match rg_view2 g with
                       | WOk v => (ROk (mk_resolved BundleV2 v (rg_name g) pe), d)
                       | WOkNfe v nfes => (ROk (mk_resolved BundleV2 v (rg_name g) pe), app d (map dn nfes))
                       | WFatal x => (RErr x, d) end
       end) = (ROk (mk_resolved b v (rg_name g) pe),
          app ds (map dn (app before (app (nfes_of (rg_load g)) (app (nfes_of (rg_resolve g))
             (app (flag_messages c g) (view_messages b g)))))))).
    { intros d ->. rewrite Hn.
      destruct Hu as [l' v' _ E1 E2 Ev|l' v' _ E1 E2 Ec Ev|l' v' _ E1 Ev]; rewrite E1 in Eb; injection Eb as <-.
      - rewrite E2, Ev. unfold flag_messages. rewrite E1. cbn [view_messages].
        f_equal. rewrite !map_app, !app_assoc, !app_nil_r. reflexivity.
      - rewrite E2, Ec. unfold flag_messages. rewrite E1. cbn [view_messages].
        destruct (rg_view2 g) as [w|w nf|x]; cbn in Ev; [| |discriminate Ev]; injection Ev as ->; f_equal;
          cbn [nfes_of]; rewrite !map_app, !app_assoc, ?app_nil_r; reflexivity.
      - unfold flag_messages. rewrite E1. cbn [view_messages].
        destruct (rg_view2 g) as [w|w nf|x]; cbn in Ev; [| |discriminate Ev]; injection Ev as ->;
          destruct (st_v2 c); cbn zeta; f_equal; cbn [nfes_of]; rewrite !map_app, !app_assoc, ?app_nil_r; reflexivity. }
    destruct r as [b1|b1 nr|x]; cbn in Hv; [| |discriminate Hv]; injection Hv as ->; cbn [nfes_of] in T.
    - rewrite app_nil_r in T. rewrite <- (T _ eq_refl). destruct b0; [destruct (st_v2 c)|]; reflexivity.
    - rewrite <- (T _ eq_refl). destruct b0; [destruct (st_v2 c)|]; reflexivity.
  Qed.
  Lemma after_runs (r : resolved R) ds :
    exists ms, stage_messages (rs_engine r) AfterResolution (rs_name r) (rs_view r) [] ms
      /\ check_after_resolution R future r ds = (ROk tt, app ds (map dn ms)).
  Proof.
    unfold check_after_resolution, stage_messages. destruct (rs_engine r) as [e|].
    - destruct (C86_stage R e AfterResolution (rs_name r) (rs_view r) []) as (errs & He & Hw).
      exists (map WChecker errs). split; [exists errs; auto|]. apply capture_errors. exact Hw.
    - exists []. rewrite app_nil_r. auto.
  Qed.
End Commands.

(* `registry check` of a registry that can be used reports every message of opening it, of the
   policies before resolution, of loading, resolving and viewing it and of the policies after
   resolution, in this order, each once; it succeeds when there is none. *)
Theorem C86_check : forall R future c g nfes b v (pe : option (engine R)),
  rg_open g = ROk nfes -> usable c g b v -> prepare_policy_engine c g = ROk pe ->
  exists load after,
    loading_messages c g b pe load
    /\ stage_messages pe AfterResolution (rg_name g) v [] after
    /\ registry_check R future c g None = verdict future (app nfes (app load after)).
Proof.
  intros R future c g nfes b v pe Ho Hu Hp.
  unfold registry_check, load_and_resolve_main. rewrite Ho. cbn [app].
  destruct (repo_runs R future c g b v pe (map (dnew future) nfes) Hu Hp) as (load & Hl & El).
  rewrite El.
  destruct (after_runs R future (mk_resolved b v (rg_name g) pe)
              (app (map (dnew future) nfes) (map (dnew future) load))) as (after & Ha & Ea).
  rewrite Ea. exists load, after. split; [exact Hl|]. split; [exact Ha|].
  rewrite <- !map_app, <- app_assoc. apply dnew_verdict.
Qed.

(* With a baseline of the same version the policies that compare follow; nothing the baseline
   itself causes, except to fail, is reported. *)
Theorem C86_compare : forall R future c g nfes b v (pe : option (engine R)) h hn v' (pe' : option (engine R)),
  rg_open g = ROk nfes -> usable c g b v -> prepare_policy_engine c g = ROk pe ->
  rg_open h = ROk hn -> usable c h b v' -> prepare_policy_engine c h = ROk pe' ->
  exists load after compared,
    loading_messages c g b pe load
    /\ stage_messages pe AfterResolution (rg_name g) v [] after
    /\ stage_messages pe ComparisonAfterResolution (rg_name g) v [v'] compared
    /\ registry_check R future c g (Some h) = verdict future (app nfes (app load (app after compared))).
Proof.
  intros R future c g nfes b v pe h hn v' pe' Ho Hu Hp Hho Hhu Hhp.
  unfold registry_check, load_and_resolve_main. rewrite Ho, Hho. cbn [app].
  destruct (repo_runs R future c g b v pe (map (dnew future) nfes) Hu Hp) as (load & Hl & El).
  rewrite El.
  destruct (repo_runs R future c h b v' pe' [] Hhu Hhp) as (load' & _ & El'). rewrite El'.
  destruct (after_runs R future (mk_resolved b v (rg_name g) pe)
              (app (map (dnew future) nfes) (map (dnew future) load))) as (after & Ha & Ea).
  rewrite Ea. unfold check_comparison. cbn [rs_bundle rs_engine rs_name rs_view].
  assert (K : exists compared, stage_messages pe ComparisonAfterResolution (rg_name g) v [v'] compared
    /\ (match pe with
        | Some e => capture future (check_policy_stage e ComparisonAfterResolution (rg_name g) v [v'])
            (app (app (map (dnew future) nfes) (map (dnew future) load)) (map (dnew future) after))
        | None => (ROk tt, app (app (map (dnew future) nfes) (map (dnew future) load)) (map (dnew future) after))
        end) = (ROk tt, map (dnew future) (app nfes (app load (app after compared))))).
  { destruct pe as [e|].
    - destruct (C86_stage R e ComparisonAfterResolution (rg_name g) v [v']) as (errs & He & Hw).
      exists (map WChecker errs). split; [exists errs; auto|]. rewrite (capture_errors _ _ _ _ Hw).
      f_equal. rewrite !map_app, !app_assoc. reflexivity.
    - exists []. split; [reflexivity|]. f_equal. rewrite !map_app, app_nil_r, !app_assoc. reflexivity. }
  destruct K as (compared & Hc & Ec). exists load, after, compared. repeat (split; [assumption|]).
  rewrite <- dnew_verdict. destruct b; rewrite Ec; reflexivity.
Qed.

(* The versions of the two registries have to agree: otherwise that is all that is reported. *)
Theorem C86_incompatible : forall R future c g nfes b v (pe : option (engine R)) h hn b' v' (pe' : option (engine R)),
  rg_open g = ROk nfes -> usable c g b v -> prepare_policy_engine c g = ROk pe ->
  rg_open h = ROk hn -> usable c h b' v' -> prepare_policy_engine c h = ROk pe' -> b <> b' ->
  registry_check R future c g (Some h) = verdict future [IncompatibleRegistries].
Proof.
  intros R future c g nfes b v pe h hn b' v' pe' Ho Hu Hp Hho Hhu Hhp Nb.
  unfold registry_check, load_and_resolve_main. rewrite Ho, Hho. cbn [app].
  destruct (repo_runs R future c g b v pe (map (dnew future) nfes) Hu Hp) as (load & Hl & El).
  rewrite El.
  destruct (repo_runs R future c h b' v' pe' [] Hhu Hhp) as (load' & _ & El'). rewrite El'.
  destruct (after_runs R future (mk_resolved b v (rg_name g) pe)
              (app (map (dnew future) nfes) (map (dnew future) load))) as (after & Ha & Ea).
  rewrite Ea. unfold check_comparison. cbn [rs_bundle]. rewrite <- dnew_verdict. cbn [map].
  destruct b, b'; try (destruct Nb; reflexivity); reflexivity.
Qed.

(* Skipping the policies leaves none to ask. *)
Theorem C86_skipped : forall R c g,
  (st_skip_policies c = true -> prepare_policy_engine c g = ROk (None : option (engine R)))
  /\ (st_skip_policies c = false -> forall pe : option (engine R), prepare_policy_engine c g = ROk pe ->
      exists e ps, pe = Some e /\ st_policies c = map ROk ps /\ init_policy_engine g ps = ROk e).
Proof.
  intros R c g. unfold prepare_policy_engine. split; intros ->; [reflexivity|]. intros pe H.
  destruct (fetch_all (st_policies c)) as [ps|] eqn:Ef; [|discriminate H].
  destruct (init_policy_engine g ps) as [e|] eqn:Ei; [|discriminate H]. injection H as <-.
  exists e, ps. split; [reflexivity|]. split; [|exact Ei]. clear Ei.
  revert ps Ef. induction (st_policies c) as [|[p|x] l IH]; intros ps Ef; cbn in Ef.
  - injection Ef as <-. reflexivity.
  - destruct (fetch_all l) as [ps'|]; [|discriminate Ef]. injection Ef as <-. cbn. f_equal. apply IH. reflexivity.
  - discriminate Ef.
Qed.

(* ---------- exit codes ---------- *)
Lemma filter_len {A} (p : A -> bool) l : length (filter p l) <= length l.
Proof. induction l as [|x l IH]; cbn; [lia|]. destruct (p x); cbn; lia. Qed.
Lemma verdict_code future ms m : In m ms -> werr_severity m = None -> exit_code (verdict future ms) = 1.
Proof.
  intros I Hm. unfold verdict, exit_code. destruct ms as [|m0 ms0]; [destruct I|].
  cbn [process_diagnostics negb]. set (ds := map _ _).
  assert (H : has_error ds = true).
  { unfold has_error. apply Nat.ltb_lt. unfold count_if.
    assert (J : In (mk_diag m (if future then Some SevError else None)) ds).
    { unfold ds. apply in_map_iff. exists m. split; [|exact I]. destruct future; [reflexivity|].
      f_equal. destruct m; cbn in Hm; try reflexivity; try discriminate Hm. exact Hm. }
    set (p := fun d : diag werr => _).
    assert (P : p (mk_diag m (if future then Some SevError else None)) = false) by (destruct future; reflexivity).
    clearbody ds p. revert J. induction ds as [|d ds IH]; [intros []|]. intros [E|J]; cbn [filter length].
    - subst d. rewrite P. pose proof (filter_len p ds). lia.
    - specialize (IH J). destruct (p d); cbn [length]; lia. }
  rewrite H. reflexivity.
Qed.

Lemma messages_exit R (pe : option (engine R)) s name v docs e i f fs ms :
  stage_messages pe s name v docs ms -> pe = Some e -> v = Some i -> in_use e s ->
  findings_in (answer e s i docs) fs -> In f fs -> In (WChecker (PolicyViolation name f)) ms.
Proof.
  intros H -> -> U F I. destruct H as (errs & (late & -> & Hc) & ->). apply in_map.
  apply in_or_app. right. destruct Hc as [[E _]|[(i' & _ & N & _)|[(i' & fs' & E & _ & F' & ->)|(i' & E & _ & N & _)]]].
  - discriminate E.
  - contradiction.
  - injection E as <-.
    assert (fs' = fs) as ->.
    { destruct F as (vs & Ea & H1), F' as (vs' & Ea' & H2). rewrite Ea in Ea'. injection Ea' as <-.
      clear Ea I. revert fs' H2. induction H1 as [|x y l1 l2 Hx Hl IH]; intros fs' H2;
        inversion H2 as [|? y' ? l2' Hy Hl']; subst; [reflexivity|].
      apply C85_read in Hx, Hy. f_equal; [congruence|apply IH; exact Hl']. }
    apply in_map. exact I.
  - injection E as <-. destruct (N fs F).
Qed.

(* A finding of a policy after resolution is among the messages, with the name of the
   registry, and makes the command fail. *)
Theorem C86_finding_fails : forall R future c g nfes b i (e : engine R) fs f,
  rg_open g = ROk nfes -> usable c g b (Some i) -> prepare_policy_engine c g = ROk (Some e) ->
  in_use e AfterResolution -> findings_in (answer e AfterResolution i []) fs -> In f fs ->
  (exists ms, In (WChecker (PolicyViolation (rg_name g) f)) ms
     /\ registry_check R future c g None = verdict future ms)
  /\ exit_code (registry_check R future c g None) = 1.
Proof.
  intros R future c g nfes b i e fs f Ho Hu Hp U F I.
  destruct (C86_check R future c g nfes b (Some i) (Some e) Ho Hu Hp) as (load & after & _ & Ha & ->).
  assert (J : In (WChecker (PolicyViolation (rg_name g) f)) (app nfes (app load after))).
  { apply in_or_app. right. apply in_or_app. right.
    eapply messages_exit; eauto. }
  split; [exists (app nfes (app load after)); auto|]. eapply verdict_code; [exact J|reflexivity].
Qed.

(* ---------- the command `registry generate` ---------- *)
(* Generating reports the same messages, and what policies find does not stop it. *)
Theorem C86_generate : forall R future c g nfes b v (pe : option (engine R)) generate,
  rg_open g = ROk nfes -> usable c g b v -> prepare_policy_engine c g = ROk pe ->
  generate v = ROk tt ->
  exists load after,
    loading_messages c g b pe load
    /\ stage_messages pe AfterResolution (rg_name g) v [] after
    /\ registry_generate R future c g (ROk tt) generate
       = (verdict future (app nfes (app load after)), true).
Proof.
  intros R future c g nfes b v pe gen Ho Hu Hp Hg.
  unfold registry_generate, load_and_resolve_main. rewrite Ho. cbn [app].
  destruct (repo_runs R future c g b v pe (map (dnew future) nfes) Hu Hp) as (load & Hl & El).
  rewrite El.
  destruct (after_runs R future (mk_resolved b v (rg_name g) pe)
              (app (map (dnew future) nfes) (map (dnew future) load))) as (after & Ha & Ea).
  rewrite Ea. cbn [rs_view]. rewrite Hg. exists load, after. split; [exact Hl|]. split; [exact Ha|].
  f_equal. rewrite <- !map_app, <- app_assoc. apply dnew_verdict.
Qed.

Lemma fatal_schema R future c (g : registry) (pe : option (engine R)) x ds :
  (rg_load g = WFatal x \/ exists l, value_of (rg_load g) = Some l /\ rg_resolve g = WFatal x) ->
  prepare_policy_engine c g = ROk pe ->
  exists d, load_and_resolve_repo R future c g ds = (RErr x, d).
Proof.
  intros Hx Hp. unfold load_and_resolve_repo. rewrite Hp.
  assert (K : forall visitor d, (forall l, exists d', visitor l d = ROk d') ->
     exists d', load_and_resolve_schema g visitor d = (inl (WFatal x), d')).
  { intros visitor d Hv. unfold load_and_resolve_schema. destruct Hx as [->|(l & El & ->)]; [eexists; reflexivity|].
    destruct (rg_load g) as [l'|l' nf|y]; cbn in El; [| |discriminate El];
      destruct (Hv l') as [d' ->]; eexists; reflexivity. }
  assert (V : forall e l d, exists d', visit R future e l d = ROk d').
  { intros e l d. unfold visit. destruct l as [specs| |]; [|eexists; reflexivity..].
    destruct (C86_files R e specs) as (errs & _ & [[_ ->]|[_ ->]]); eexists; reflexivity. }
  destruct (st_v2 c).
  - set (d0 := match pe with Some e => _ | None => ds end).
    destruct (K (fun _ d => ROk d) d0) as [d' E]; [intros l; eexists; reflexivity|].
    exists d'. destruct pe; rewrite E; reflexivity.
  - destruct pe as [e|].
    + destruct (K (visit R future e) ds) as [d' E]; [intros l; apply V|]. exists d'. rewrite E. reflexivity.
    + destruct (K (fun _ d => ROk d) ds) as [d' E]; [intros l; eexists; reflexivity|].
      exists d'. rewrite E. reflexivity.
Qed.
Lemma stops_repo R future c (g : registry) x : stops R c g x -> forall ds,
  rg_open g = RErr x \/ exists nfes d, rg_open g = ROk nfes /\ load_and_resolve_repo R future c g ds = (RErr x, d).
Proof.
  intros H ds.
  assert (S1 : forall visitor l b, value_of (rg_load g) = Some l -> value_of (rg_resolve g) = Some b ->
     forall d, (forall l, exists d', visitor l d = ROk d') ->
     exists r d', load_and_resolve_schema g visitor d = (inl r, d') /\ value_of r = Some b).
  { intros visitor l b El Eb d Hv. unfold load_and_resolve_schema.
    destruct (rg_load g) as [l'|l' nf|y]; cbn in El; [| |discriminate El];
      destruct (Hv l') as [d' ->]; eexists; eexists; (split; [reflexivity|]);
      destruct (rg_resolve g) as [b'|b' nb|y]; cbn in Eb; try discriminate Eb; injection Eb as ->;
      try (destruct nf); reflexivity. }
  assert (V : forall e l d, exists d', visit R future e l d = ROk d').
  { intros e l d. unfold visit. destruct l as [specs| |]; [|eexists; reflexivity..].
    destruct (C86_files R e specs) as (errs & _ & [[_ ->]|[_ ->]]); eexists; reflexivity. }
  assert (S2 : forall (pe : option (engine R)) l b (P : bundle -> Prop), value_of (rg_load g) = Some l ->
     value_of (rg_resolve g) = Some b -> prepare_policy_engine c g = ROk pe ->
     (forall d, exists d',
        match b with
        | BundleV1 =>
          if st_v2 c then
            match rg_convert g with
            | RErr x => (RErr x, d)
            | ROk _ => match rg_view2 g with
                       | WOk v => (ROk (mk_resolved BundleV2 v (rg_name g) pe), d)
                       | WOkNfe v nfes => (ROk (mk_resolved BundleV2 v (rg_name g) pe), app d (map (dnew future) nfes))
                       | WFatal x => (RErr x, d) end
            end
          else match rg_view1 g with
               | RErr x => (RErr x, d)
               | ROk v => (ROk (mk_resolved BundleV1 v (rg_name g) pe), d)
               end
        | BundleV2 => let d := if st_v2 c then d else app d [dnew future V2FlagMissing] in
          match rg_view2 g with
                       | WOk v => (ROk (mk_resolved BundleV2 v (rg_name g) pe), d)
                       | WOkNfe v nfes => (ROk (mk_resolved BundleV2 v (rg_name g) pe), app d (map (dnew future) nfes))
                       | WFatal x => (RErr x, d) end
        end = (RErr x, d')) ->
     exists d, load_and_resolve_repo R future c g ds = (RErr x, d)).
  { intros pe l b _ El Eb Hp Hc. unfold load_and_resolve_repo. rewrite Hp.
    assert (T : forall d, exists r d',
       (match st_v2 c, pe with
        | false, Some e => load_and_resolve_schema g (visit R future e) ds
        | _, _ => load_and_resolve_schema g (fun _ d => ROk d) d end) = (inl r, d') /\ value_of r = Some b).
    { intros d. destruct (st_v2 c); [apply (S1 _ l); auto; intros; eexists; reflexivity|].
      destruct pe; apply (S1 _ l); auto; intros; eexists; reflexivity. }
    destruct (T (if st_v2 c then match pe with
                                | Some e => if has_stage e BeforeResolution
                                            then app ds [dnew future BeforeResolutionUnsupported] else ds
                                | None => ds
                                end
                     else ds)) as (r & d' & Er & Ev).
    match goal with |- context [let '(_, _) := ?X in _] => assert (HX : X = (inl r, d')) end.
    { rewrite <- Er. destruct (st_v2 c); [reflexivity|]. destruct pe; reflexivity. }
    rewrite HX. clear HX Er T.
    destruct r as [b'|b' nr|y]; cbn in Ev; [| |discriminate Ev]; injection Ev as ->.
    - destruct (Hc d') as [d2 E]. exists d2. rewrite <- E. destruct b; [destruct (st_v2 c)|]; reflexivity.
    - destruct (Hc (app d' (map (dnew future) nr))) as [d2 E]. exists d2. rewrite <- E.
      destruct b; [destruct (st_v2 c)|]; reflexivity. }
  destruct H as [x Ho|nfes x Ho Hp|nfes pe x Ho Hp Hl|nfes pe l x Ho Hp Hl Hr|nfes pe l x Ho Hp Hl Hr H2 Hv
                |nfes pe l x Ho Hp Hl Hr H2 Hv|nfes pe l x Ho Hp Hl Hr H2 Hk Hv|nfes pe l x Ho Hp Hl Hr Hv].
  - left. exact Ho.
  - right. exists nfes, ds. split; [exact Ho|]. unfold load_and_resolve_repo. rewrite Hp. reflexivity.
  - right. destruct (fatal_schema R future c g pe x ds) as [d E]; [auto|exact Hp|]. exists nfes, d. auto.
  - right. destruct (fatal_schema R future c g pe x ds) as [d E]; [right; exists l; auto|exact Hp|]. exists nfes, d. auto.
  - right. destruct (S2 pe l BundleV1 (fun _ => True) Hl Hr Hp) as [d E]; [|exists nfes, d; auto].
    intros d. rewrite H2, Hv. eexists; reflexivity.
  - right. destruct (S2 pe l BundleV1 (fun _ => True) Hl Hr Hp) as [d E]; [|exists nfes, d; auto].
    intros d. rewrite H2, Hv. eexists; reflexivity.
  - right. destruct (S2 pe l BundleV1 (fun _ => True) Hl Hr Hp) as [d E]; [|exists nfes, d; auto].
    intros d. rewrite H2, Hk, Hv. eexists; reflexivity.
  - right. destruct (S2 pe l BundleV2 (fun _ => True) Hl Hr Hp) as [d E]; [|exists nfes, d; auto].
    intros d. rewrite Hv. eexists; reflexivity.
Qed.

(* A registry either can be used, with its policies, or stops the command; then the error of the
   step that failed is all that is reported, and nothing is generated. *)
Theorem C86_stopped : forall R future c g x,
  stops R c g x ->
  (forall base, registry_check R future c g base = verdict future [x])
  /\ (forall templates generate, registry_generate R future c g templates generate = (verdict future [x], false)).
Proof.
  intros R future c g x H.
  assert (M : exists d, load_and_resolve_main R future c g [] = (RErr x, d)).
  { unfold load_and_resolve_main.
    destruct (rg_open g) as [nfes|y] eqn:Eo.
    - destruct (stops_repo R future c g x H (app [] (map (dnew future) nfes))) as [E|(n & d & E & Hd)]; [congruence|].
      rewrite Hd. eauto.
    - exists []. destruct (stops_repo R future c g x H []) as [E|(n & d & E & Hd)]; [|congruence].
      congruence. }
  destruct M as [d M]. split.
  - intros base. unfold registry_check. rewrite M. rewrite <- dnew_verdict. reflexivity.
  - intros templates gen. unfold registry_generate. rewrite M. rewrite <- dnew_verdict. reflexivity.
Qed.
Theorem C86_baseline_stopped : forall R future c g nfes b v (pe : option (engine R)) h x,
  rg_open g = ROk nfes -> usable c g b v -> prepare_policy_engine c g = ROk pe -> stops R c h x ->
  registry_check R future c g (Some h) = verdict future [x].
Proof.
  intros R future c g nfes b v pe h x Ho Hu Hp H. unfold registry_check, load_and_resolve_main. rewrite Ho. cbn [app].
  destruct (repo_runs R future c g b v pe (map (dnew future) nfes) Hu Hp) as (load & Hl & El). rewrite El.
  rewrite <- dnew_verdict.
  destruct (stops_repo R future c h x H []) as [E|(n & d & E & Hd)]; rewrite E; [reflexivity|]. rewrite Hd. reflexivity.
Qed.
Theorem C86_total : forall R c g,
  (exists nfes b v (pe : option (engine R)), rg_open g = ROk nfes /\ usable c g b v /\ prepare_policy_engine c g = ROk pe)
  \/ exists x, stops R c g x.
Proof.
  intros R c g. destruct (rg_open g) as [nfes|x] eqn:Eo; [|right; exists x; constructor; exact Eo].
  destruct (prepare_policy_engine (R := R) c g) as [pe|x] eqn:Ep; [|right; exists x; eapply stops_policies; eauto].
  assert (L : (exists l, value_of (rg_load g) = Some l) \/ exists x, rg_load g = WFatal x) by (destruct (rg_load g); cbn; eauto).
  destruct L as [[l El]|[x El]]; [|right; exists x; eapply stops_load; eauto].
  assert (L : (exists l, value_of (rg_resolve g) = Some l) \/ exists x, rg_resolve g = WFatal x) by (destruct (rg_resolve g); cbn; eauto).
  destruct L as [[b Eb]|[x Eb]]; [|right; exists x; eapply stops_resolve; eauto].
  assert (L : (exists l, value_of (rg_view2 g) = Some l) \/ exists x, rg_view2 g = WFatal x) by (destruct (rg_view2 g); cbn; eauto).
  destruct b.
  - destruct (st_v2 c) eqn:E2.
    + destruct (rg_convert g) as [[]|x] eqn:Ec; [|right; exists x; eapply stops_convert; eauto].
      destruct L as [[v Ev]|[x Ev]]; [|right; exists x; eapply stops_view2_converted; eauto].
      left. exists nfes, BundleV2, v, pe. split; [reflexivity|]. split; [eapply usable_converted; eauto|reflexivity].
    + destruct (rg_view1 g) as [v|x] eqn:Ev; [|right; exists x; eapply stops_view1; eauto].
      left. exists nfes, BundleV1, v, pe. split; [reflexivity|]. split; [eapply usable_v1; eauto|reflexivity].
  - destruct L as [[v Ev]|[x Ev]]; [|right; exists x; eapply stops_view2; eauto].
    left. exists nfes, BundleV2, v, pe. split; [reflexivity|]. split; [eapply usable_v2; eauto|reflexivity].
Qed.

(* The advice of policies about a sample of a live check: the findings, each with the signal
   of the sample where the policy names none. *)
Theorem C86_advice : forall R (e : engine R) i signal,
  (~ in_use e LiveCheckAdvice -> snd (rego_advise e (Some i) signal) = ROk [])
  /\ (in_use e LiveCheckAdvice -> forall fs, findings_in (answer e LiveCheckAdvice i []) fs ->
      exists gs, snd (rego_advise e (Some i) signal) = ROk gs
        /\ Forall2 (fun f g => LiveModel.f_id g = LiveModel.f_id f /\ LiveModel.f_message g = LiveModel.f_message f
             /\ LiveModel.f_level g = LiveModel.f_level f /\ LiveModel.f_context g = LiveModel.f_context f
             /\ (forall t, LiveModel.f_signal_type f = Some t -> LiveModel.f_signal_type g = Some t)
             /\ (LiveModel.f_signal_type f = None -> LiveModel.f_signal_type g = LiveModel.signal_type signal)
             /\ (forall n, LiveModel.f_signal_name f = Some n -> LiveModel.f_signal_name g = Some n)
             /\ (LiveModel.f_signal_name f = None -> LiveModel.f_signal_name g = LiveModel.signal_name signal))
           fs gs)
  /\ (in_use e LiveCheckAdvice -> (forall fs, ~ findings_in (answer e LiveCheckAdvice i []) fs) ->
      snd (rego_advise e (Some i) signal) = RErr ViolationEvaluationError).
Proof.
  intros R e i signal. unfold rego_advise. cbn [set_input].
  set (e1 := mk_engine _ _ _). destruct (check_found R e1 LiveCheckAdvice) as (C1 & C2 & C3).
  assert (A : snd (ri_eval R (en_state e1) (rule LiveCheckAdvice)) = answer e LiveCheckAdvice i []) by reflexivity.
  rewrite A in *. split; [|split].
  - intros N. specialize (C1 N). destruct (check e1 LiveCheckAdvice) as [e2 r]. cbn in C1. subst r. reflexivity.
  - intros U fs F. apply (C2 U) in F. destruct (check e1 LiveCheckAdvice) as [e2 r]. cbn in F. subst r.
    eexists. split; [reflexivity|]. clear. induction fs as [|f fs IH]; constructor; [|exact IH].
    destruct f as [id c m l [t|] [n|]]; cbn; repeat split; congruence.
  - intros U N. specialize (C3 U N). destruct (check e1 LiveCheckAdvice) as [e2 r]. cbn in C3. subst r. reflexivity.
Qed.

(* ---------- claims that are false ---------- *)
Lemma note_in : findings_in (Some (JArr [note_doc])) [note].
Proof. exists [note_doc]. split; [reflexivity|]. constructor; [|constructor]. apply C85_read. reflexivity. Qed.

(* What policies found before resolution is lost when the resolution then fails. *)
Theorem C86_lost_refuted :
  ~ (forall R future c g nfes (e : engine R) specs file i fs f,
       rg_open g = ROk nfes -> prepare_policy_engine c g = ROk (Some e) -> st_v2 c = false ->
       value_of (rg_load g) = Some (Unresolved specs) -> In (file, Some i) specs ->
       in_use e BeforeResolution -> findings_in (answer e BeforeResolution i []) fs -> In f fs ->
       exists ds, registry_check R future c g None = RErr ds
         /\ In (WChecker (PolicyViolation file f)) (map (@dm_error werr) ds)).
Proof.
  intro H.
  pose (g := holding [NFile "before.rego"] (WOk (Unresolved [("a.yaml", Some (JArr [note_doc]))]))
               (WFatal (WOther "unresolved" None)) JNull).
  destruct (prepare_policy_engine (R := echo) quiet g) as [[e|]|] eqn:Ep; [|vm_compute in Ep; discriminate Ep..].
  destruct (H echo false quiet g [] e [("a.yaml", Some (JArr [note_doc]))] "a.yaml" (JArr [note_doc]) [note] note)
    as (ds & E & I).
  - reflexivity.
  - exact Ep.
  - reflexivity.
  - reflexivity.
  - left. reflexivity.
  - vm_compute in Ep. injection Ep as <-. vm_compute. auto.
  - apply note_in.
  - left. reflexivity.
  - vm_compute in E. injection E as <-. vm_compute in I. destruct I as [I|[]]. discriminate I.
Qed.

(* A finding that is only information fails the command all the same. *)
Theorem C86_level_refuted :
  ~ (forall R future c g nfes b i (e : engine R) fs,
       rg_open g = ROk nfes -> usable c g b (Some i) -> prepare_policy_engine c g = ROk (Some e) ->
       in_use e AfterResolution -> findings_in (answer e AfterResolution i []) fs ->
       (exists ms, registry_check R future c g None = verdict future ms
          /\ forall m, In m ms -> exists f, In f fs /\ m = WChecker (PolicyViolation (rg_name g) f)) ->
       (forall f, In f fs -> LiveModel.f_level f = LiveModel.Information) ->
       exit_code (registry_check R future c g None) = 0).
Proof.
  intro H.
  pose (g := holding [NFile "after.rego"] (WOk (Unresolved [])) (WOk BundleV1) (JArr [note_doc])).
  destruct (prepare_policy_engine (R := echo) quiet g) as [[e|]|] eqn:Ep; [|vm_compute in Ep; discriminate Ep..].
  specialize (H echo false quiet g [] BundleV1 (JArr [note_doc]) e [note]).
  discriminate H.
  - reflexivity.
  - apply (usable_v1 _ _ (Unresolved [])); reflexivity.
  - exact Ep.
  - vm_compute in Ep. injection Ep as <-. vm_compute. auto.
  - apply note_in.
  - exists [WChecker (PolicyViolation "reg" note)]. split; [vm_compute; reflexivity|].
    intros m [<-|[]]. exists note. split; [left; reflexivity|reflexivity].
  - intros f [<-|[]]. reflexivity.
Qed.

(* Policies before resolution are passed over without a word for a registry that is already
   resolved. *)
Theorem C86_unflagged_refuted :
  ~ (forall R future c g nfes b v (e : engine R),
       rg_open g = ROk nfes -> usable c g b v -> prepare_policy_engine c g = ROk (Some e) ->
       in_use e BeforeResolution -> (forall specs, value_of (rg_load g) <> Some (Unresolved specs)) ->
       exists ds, registry_check R future c g None = RErr ds
         /\ In BeforeResolutionUnsupported (map (@dm_error werr) ds)).
Proof.
  intro H.
  pose (g := holding [NFile "before.rego"] (WOk LoadedV1) (WOk BundleV1) JNull).
  destruct (prepare_policy_engine (R := echo) quiet g) as [[e|]|] eqn:Ep; [|vm_compute in Ep; discriminate Ep..].
  destruct (H echo false quiet g [] BundleV1 (Some JNull) e) as (ds & E & _).
  - reflexivity.
  - apply (usable_v1 _ _ LoadedV1); reflexivity.
  - exact Ep.
  - vm_compute in Ep. injection Ep as <-. vm_compute. auto.
  - intros specs. discriminate.
  - vm_compute in E. discriminate E.
Qed.

(* One finding that cannot be read hides all others. *)
Theorem C86_malformed_refuted :
  ~ (forall R (e : engine R) s file i vs v f errs,
       in_use e s -> answer e s i [] = Some (JArr vs) -> In v vs -> read_as v f ->
       with_errors (check_policy_stage e s file (Some i) []) errs -> In (PolicyViolation file f) errs).
Proof.
  intro H.
  specialize (H echo (mk_engine (None : ri_state echo) 1 ["data.after_resolution"]) AfterResolution "reg"
    (JArr [note_doc; JNull]) [note_doc; JNull] note_doc note [InvalidPolicyFile "reg"]).
  assert (K : In (PolicyViolation "reg" note) [InvalidPolicyFile "reg"]).
  { apply H.
    - left. reflexivity.
    - reflexivity.
    - left. reflexivity.
    - apply C85_read. reflexivity.
    - right. split; [discriminate|]. vm_compute. reflexivity. }
  destruct K as [K|[]]. discriminate K.
Qed.

(* Generating writes its files although policies object. *)
Theorem C86_generated_refuted :
  ~ (forall R future c g templates generate,
       exit_code (fst (registry_generate R future c g templates generate)) <> 0 ->
       snd (registry_generate R future c g templates generate) = false).
Proof.
  intro H.
  specialize (H echo false quiet (holding [NFile "after.rego"] (WOk (Unresolved [])) (WOk BundleV1) (JArr [note_doc]))
    (ROk tt) (fun _ => ROk tt)).
  vm_compute in H. discriminate H. discriminate.
Qed.

(* A directory below the policies that cannot be listed is passed over: its policies are not
   asked and nothing is said. *)
Theorem C86_unlisted_refuted :
  ~ (forall R pkg, declares_package R pkg -> forall g ps d name (e : engine R),
       In (d, Some (StatDir (NDir name None))) ps -> init_policy_engine g ps <> ROk e).
Proof.
  intro H.
  pose (ps := [("/p", Some (StatDir (NDir "p" None)))]).
  pose (g := holding [] (WOk (Unresolved [])) (WOk BundleV1) JNull).
  destruct (init_policy_engine (R := echo) g ps) as [e|] eqn:Ei; [|vm_compute in Ei; discriminate Ei].
  apply (H echo echo_package) with (g := g) (ps := ps) (d := "/p") (name := "p") (e := e).
  - intros s src. reflexivity.
  - left. reflexivity.
  - exact Ei.
Qed.

(* ---------- cases ---------- *)
Example echo_declares : declares_package echo echo_package.
Proof. intros s src. reflexivity. Qed.
Example policies_case :
  let g := holding [NFile "after.rego"; NDir ".git" (Some [NFile "x.rego"]); NFile "readme"]
             (WOk (Unresolved [])) (WOk BundleV1) (JArr [note_doc]) in
  exists e : engine echo, init_policy_engine g [("/p/compare.rego", Some StatFile)] = ROk e
    /\ in_use e AfterResolution /\ in_use e ComparisonAfterResolution /\ ~ in_use e BeforeResolution.
Proof.
  eexists. split; [vm_compute; reflexivity|]. vm_compute. split; [auto|]. split; [auto|].
  intros [E|[E|[E|[]]]]; discriminate E.
Qed.
Example check_case :
  let g := holding [NFile "after.rego"; NFile "before.rego"]
             (WOkNfe (Unresolved [("a.yaml", Some (JArr [note_doc])); ("b.yaml", Some JNull)])
                [WOther "load" (Some SevWarning)])
             (WOkNfe BundleV1 [WOther "resolve" (Some SevWarning)]) (JArr [note_doc]) in
  usable quiet g BundleV1 (Some (JArr [note_doc]))
  /\ registry_check echo false quiet g None
     = verdict false [WChecker (PolicyViolation "a.yaml" note); WChecker (InvalidPolicyFile "b.yaml");
         WOther "load" (Some SevWarning); WOther "resolve" (Some SevWarning);
         WChecker (PolicyViolation "reg" note)]
  /\ registry_check echo false quiet g (Some g)
     = verdict false [WChecker (PolicyViolation "a.yaml" note); WChecker (InvalidPolicyFile "b.yaml");
         WOther "load" (Some SevWarning); WOther "resolve" (Some SevWarning);
         WChecker (PolicyViolation "reg" note); WChecker (PolicyViolation "reg" note)]
  /\ exit_code (registry_check echo false quiet g None) = 1.
Proof.
  cbv zeta. split; [eapply usable_v1; reflexivity|]. split; [vm_compute; reflexivity|].
  split; vm_compute; reflexivity.
Qed.
Example incompatible_case :
  let g := holding [] (WOk (Unresolved [])) (WOk BundleV1) JNull in
  let h := holding [] (WOk LoadedV2) (WOk BundleV2) JNull in
  usable quiet g BundleV1 (Some JNull) /\ usable quiet h BundleV2 (Some JNull)
  /\ registry_check echo false quiet g (Some h) = verdict false [IncompatibleRegistries].
Proof.
  cbv zeta. split; [eapply usable_v1; reflexivity|]. split; [eapply usable_v2; reflexivity|]. vm_compute. reflexivity.
Qed.

Print Assumptions C86_stage.
Print Assumptions C86_files.
Print Assumptions C86_policies.
Print Assumptions C86_check.
Print Assumptions C86_compare.
Print Assumptions C86_incompatible.
Print Assumptions C86_skipped.
Print Assumptions C86_finding_fails.
Print Assumptions C86_generate.
Print Assumptions C86_stopped.
Print Assumptions C86_baseline_stopped.
Print Assumptions C86_total.
Print Assumptions C86_advice.
Print Assumptions C86_lost_refuted.
Print Assumptions C86_level_refuted.
Print Assumptions C86_unflagged_refuted.
Print Assumptions C86_malformed_refuted.
Print Assumptions C86_generated_refuted.
Print Assumptions C86_unlisted_refuted.
