(* C122: the rules on findings do what they say as written, or the command refuses them. *)
From Coq Require Import String Ascii Bool Arith Lia List.
Import ListNotations.
From Verif Require Import Base BaseProofs SemTypes LiveModel LiveSpec LiveProofs2 PropLive RulesModel RulesSpec.
Local Open Scope string_scope.
Local Open Scope list_scope.

Section Rules.
  Variable is_pattern : string -> bool.
  Variable matches : string -> string -> bool.
  Variable buildable : list string -> bool.
  Notation compile := (compile_globset is_pattern matches buildable).
  Notation from := (from_rules is_pattern matches buildable).
  Notation usable := (usable is_pattern buildable).

  Lemma bad_none l : bad_pattern is_pattern l = None <-> Forall (fun p => is_pattern p = true) l.
  Proof.
    unfold bad_pattern. split.
    - intros H. apply Forall_forall. intros p Hp. pose proof (find_none _ _ H p Hp) as K. cbn in K.
      destruct (is_pattern p); [reflexivity|discriminate].
    - intros H. destruct (find _ l) as [p|] eqn:E; [|reflexivity].
      apply find_some in E as [Hin E]. rewrite Forall_forall in H. rewrite (H p Hin) in E. discriminate.
  Qed.

  Lemma compile_ok l : (exists m, compile l = Ok m) <-> usable l.
  Proof.
    unfold compile_globset, RulesSpec.usable. destruct l as [|x l].
    - split; [auto|eauto].
    - destruct (bad_pattern is_pattern (x :: l)) as [p|] eqn:E.
      + split; [intros [m H]; discriminate|]. intros [H|[H _]]; [discriminate|].
        apply bad_none in H. congruence.
      + apply bad_none in E. destruct (buildable (x :: l)).
        * split; [auto|eauto].
        * split; [intros [m H]; discriminate|]. intros [H|[_ H]]; discriminate.
  Qed.

  Lemma compile_some l m : compile l = Ok m ->
    m = match l with [] => None | _ => Some (fun n => existsb (fun p => matches p n) l) end.
  Proof.
    unfold compile_globset. destruct l as [|x l]; [congruence|].
    destruct (bad_pattern is_pattern (x :: l)); [discriminate|].
    destruct (buildable (x :: l)); [congruence|discriminate].
  Qed.

  Lemma names_ok l m f r st : compile l = Ok m -> in_scope st m f r <-> about matches st l f r.
  Proof.
    intros H. apply compile_some in H. subst m. unfold in_scope, about, named.
    destruct l as [|x l].
    - split; intros [H1 _]; (split; [exact H1|]); [left; reflexivity|]. intros p E. discriminate.
    - split; intros [H1 H2]; (split; [exact H1|]).
      + right. destruct (H2 _ eq_refl) as (n & En & Hn).
        change (existsb (fun p0 => matches p0 n) (x :: l) = true) in Hn. apply existsb_exists in Hn as (p & Hp & Hm). eauto.
      + destruct H2 as [H2|(n & p & En & Hp & Hm)]; [discriminate|].
        intros q Eq. injection Eq as <-. exists n. split; [exact En|].
        change (existsb (fun p0 => matches p0 n) (x :: l) = true). apply existsb_exists. eauto.
  Qed.

  Lemma samples_ok l m r : compile l = Ok m ->
    (exists p n, m = Some p /\ sample_name r = Some n /\ p n = true) <-> named matches l r.
  Proof.
    intros H. apply compile_some in H. subst m. unfold named. destruct l as [|x l].
    - split; [intros (p & n & E & _); discriminate|intros (n & p & _ & [] & _)].
    - split.
      + intros (p & n & E & En & Hp). injection E as <-.
        change (existsb (fun p0 => matches p0 n) (x :: l) = true) in Hp. apply existsb_exists in Hp as (q & Hq & Hm). eauto.
      + intros (n & q & En & Hq & Hm). eexists _, n. split; [reflexivity|]. split; [exact En|].
        change (existsb (fun p0 => matches p0 n) (x :: l) = true). apply existsb_exists. eauto.
  Qed.

  Lemma filter_ok w c f r : compile_filter is_pattern matches buildable w = Ok c ->
    filter_drops c f r <-> drops matches w f r.
  Proof.
    unfold compile_filter. destruct (compile (wf_sample_names w)) as [n|] eqn:En; [|discriminate].
    destruct (compile (wf_exclude_samples w)) as [s|] eqn:Es; [|discriminate].
    intros H. injection H as <-. unfold filter_drops, drops. cbn.
    rewrite (names_ok _ _ f r _ En). rewrite (samples_ok _ _ r Es). reflexivity.
  Qed.

  Lemma override_ok w c f r : compile_override is_pattern matches buildable w = Ok c ->
    (override_applies c f r <-> relevels matches w f r) /\ co_level c = wo_level w.
  Proof.
    unfold compile_override. destruct (compile (wo_sample_names w)) as [n|] eqn:En; [|discriminate].
    intros H. injection H as <-. unfold override_applies, relevels. cbn.
    rewrite (names_ok _ _ f r _ En). split; reflexivity.
  Qed.

  Lemma collect_ok {A B} (g : A -> res B) l l' : collect g l = Ok l' -> Forall2 (fun x y => g x = Ok y) l l'.
  Proof.
    revert l'. induction l as [|x l IH]; cbn; intros l' H.
    - injection H as <-. constructor.
    - destruct (g x) as [y|] eqn:E; [|discriminate]. destruct (collect g l) as [ys|]; [|discriminate].
      injection H as <-. constructor; auto.
  Qed.

  Lemma collect_all {A B} (g : A -> res B) l : (exists l', collect g l = Ok l') <-> forall x, In x l -> exists y, g x = Ok y.
  Proof.
    induction l as [|x l IH]; cbn.
    - split; [intros _ x []|eauto].
    - destruct (g x) as [y|e] eqn:E.
      + destruct (collect g l) as [ys|e].
        * split; [|eauto]. intros _ z [<-|Hz]; [eauto|]. apply (proj1 IH); eauto.
        * split; [intros [l' H]; discriminate|]. intros H. destruct (proj2 IH) as [l' K]; [|discriminate].
          intros z Hz. apply H. auto.
      + split; [intros [l' H]; discriminate|]. intros H. destruct (H x (or_introl eq_refl)) as [y K]. congruence.
  Qed.

  Lemma levels_ok os cos f r l : Forall2 (fun w c => compile_override is_pattern matches buildable w = Ok c) os cos ->
    overridden_level cos f r l -> new_level matches os f r l.
  Proof.
    intros F H.
    assert (N : forall os cos, Forall2 (fun w c => compile_override is_pattern matches buildable w = Ok c) os cos ->
       (forall c, In c cos -> ~ override_applies c f r) -> forall w, In w os -> ~ relevels matches w f r).
    { clear. intros os cos F. induction F as [|w c os cos E F IH]; intros H x; [intros []|].
      intros [<-|Hx].
      - rewrite <- (proj1 (override_ok _ _ f r E)). apply H. left. reflexivity.
      - apply IH; [intros d Hd; apply H; right; exact Hd|exact Hx]. }
    destruct H as [(b & o & a & Ecos & Ho & Hb & Hl)|[Hn Hl]].
    - left. subst cos. apply Forall2_app_inv_r in F. destruct F as (b' & x & Fb & Fx & ->).
      inversion Fx as [|o' o0 a' a0 Eo Fa]; subst. exists b', o', a'.
      split; [reflexivity|]. destruct (override_ok _ _ f r Eo) as [K1 K2].
      split; [apply K1, Ho|]. split; [congruence|]. exact (N _ _ Fb Hb).
    - right. split; [exact (N _ _ F Hn)|exact Hl].
  Qed.

  (* The rules are accepted exactly when all their lists of names are usable patterns. *)
  Theorem C122_accepted : forall fs os,
    (exists m, from fs os = Ok m) <->
    (forall w, In w fs -> usable (wf_sample_names w) /\ usable (wf_exclude_samples w)) /\
    (forall o, In o os -> usable (wo_sample_names o)).
  Proof.
    intros fs os.
    assert (Hf : (exists l, collect (compile_filter is_pattern matches buildable) fs = Ok l) <->
       forall w, In w fs -> usable (wf_sample_names w) /\ usable (wf_exclude_samples w)).
    { rewrite collect_all. split; intros H w Hw; specialize (H w Hw).
      - destruct H as [c H]. unfold compile_filter in H.
        destruct (compile (wf_sample_names w)) as [n|] eqn:En; [|discriminate].
        destruct (compile (wf_exclude_samples w)) as [s|] eqn:Es; [|discriminate].
        split; apply compile_ok; eauto.
      - destruct H as [H1 H2]. apply compile_ok in H1, H2. destruct H1 as [n H1], H2 as [s H2].
        unfold compile_filter. rewrite H1, H2. eauto. }
    assert (Ho : (exists l, collect (compile_override is_pattern matches buildable) os = Ok l) <->
       forall o, In o os -> usable (wo_sample_names o)).
    { rewrite collect_all. split; intros H w Hw; specialize (H w Hw).
      - destruct H as [c H]. unfold compile_override in H.
        destruct (compile (wo_sample_names w)) as [n|] eqn:En; [|discriminate]. apply compile_ok; eauto.
      - apply compile_ok in H. destruct H as [n H]. unfold compile_override. rewrite H. eauto. }
    rewrite <- Hf, <- Ho. unfold from_rules. destruct fs as [|w fs]; [destruct os as [|o os]|].
    - cbn. split; eauto.
    - change (collect (compile_filter is_pattern matches buildable) []) with (@Ok (list cfilter) []).
      destruct (collect _ (o :: os)) as [l|]; split.
      + intros _. split; eauto.
      + eauto.
      + intros [m H]. discriminate.
      + intros [_ [l H]]. discriminate.
    - destruct (collect _ (w :: fs)) as [l|]; [|split; [intros [m H]; discriminate|intros [[l H] _]; discriminate]].
      destruct (collect _ os) as [l'|]; split.
      + intros _. split; eauto.
      + eauto.
      + intros [m H]. discriminate.
      + intros [_ [l0 H]]. discriminate.
  Qed.

  (* When they are accepted, every finding gets the level of the first override about it,
     and is left out exactly when some filter about it, at that level, drops it; else it is
     kept as it is but for the level.  When they are not, there is no result. *)
  Theorem C122_applied : forall fs os f r,
    match finding_after is_pattern matches buildable fs os f r with
    | None => ~ ((forall w, In w fs -> usable (wf_sample_names w) /\ usable (wf_exclude_samples w)) /\
                 (forall o, In o os -> usable (wo_sample_names o)))
    | Some result =>
      exists l, new_level matches os f r l /\
        (result = None <-> exists w, In w fs /\ drops matches w (with_level f l) r) /\
        (forall f', result = Some f' -> f' = with_level f l)
    end.
  Proof.
    intros fs os f r. unfold finding_after.
    destruct (from fs os) as [m|e] eqn:E.
    - destruct m as [m|].
      + assert (K : Forall2 (fun w c => compile_filter is_pattern matches buildable w = Ok c) fs (filters m) /\
                    Forall2 (fun w c => compile_override is_pattern matches buildable w = Ok c) os (overrides m)).
        { unfold from_rules in E.
          assert (G : match collect (compile_filter is_pattern matches buildable) fs with
                      | Ok cfs => match collect (compile_override is_pattern matches buildable) os with
                                  | Ok cos => Ok (Some {| overrides := cos; filters := cfs |})
                                  | Err e => Err e end
                      | Err e => Err e end = Ok (Some m)).
          { destruct fs; [destruct os; [discriminate|]|]; exact E. }
          clear E. destruct (collect _ fs) as [cfs|] eqn:Ef; [|discriminate].
          destruct (collect _ os) as [cos|] eqn:Eo; [|discriminate]. injection G as <-. cbn.
          split; apply collect_ok; assumption. }
        destruct K as [Ff Fo].
        assert (D : forall g, (exists c, In c (filters m) /\ filter_drops c g r) <-> exists w, In w fs /\ drops matches w g r).
        { intros g. clear -Ff. induction Ff as [|w c fs cs Ec F IH].
          - split; intros (x & [] & _).
          - split; intros (x & [<-|Hx] & Hd).
            + exists w. split; [left; reflexivity|]. apply (filter_ok _ _ g r Ec), Hd.
            + destruct (proj1 IH) as (y & Hy & Dy); [eauto|]. exists y. split; [right; exact Hy|exact Dy].
            + exists c. split; [left; reflexivity|]. apply (filter_ok _ _ g r Ec), Hd.
            + destruct (proj2 IH) as (y & Hy & Dy); [eauto|]. exists y. split; [right; exact Hy|exact Dy]. }
        destruct (C04_modifier m f r) as (l & Hl & H). exists l.
        split; [exact (levels_ok _ _ _ _ _ Fo Hl)|].
        rewrite <- D. destruct H as [[-> Hk]|[-> Hd]].
        * split; [|congruence]. split; [discriminate|]. intros (c & Hc & Hdr). exfalso. exact (Hk c Hc Hdr).
        * split; [|congruence]. split; [auto|reflexivity].
      + assert (fs = [] /\ os = []) as [-> ->].
        { unfold from_rules in E. destruct fs; [destruct os; [auto|]|];
          (destruct (collect _ _); [|discriminate]; destruct (collect _ _); discriminate). }
        exists (f_level f). split; [right; split; [intros x []|reflexivity]|]. split.
        * split; [discriminate|]. intros (w & [] & _).
        * intros f' H. injection H as <-. destruct f; reflexivity.
    - intros H. apply C122_accepted in H. destruct H as [m H]. congruence.
  Qed.

  (* The pattern a refusal names is the first bad one of the list it is in. *)
  Theorem C122_refused : forall patterns p before after,
    patterns = before ++ p :: after -> is_pattern p = false ->
    Forall (fun q => is_pattern q = true) before ->
    compile patterns = Err ("Invalid sample name pattern '" ++ p ++ "'").
  Proof.
    intros patterns p before after -> Hp Hb. unfold compile_globset.
    assert (E : bad_pattern is_pattern (before ++ p :: after) = Some p).
    { unfold bad_pattern. induction Hb as [|q b Hq Hb IH]; cbn; [rewrite Hp; reflexivity|].
      rewrite Hq. exact IH. }
    rewrite E. destruct before; reflexivity.
  Qed.
End Rules.

(* Rules in the manner of the documentation: patterns that end in a star *)
Fixpoint star (p n : string) : bool :=
  match p, n with
  | String "*" "", _ => true
  | EmptyString, EmptyString => true
  | String a p', String b n' => Ascii.eqb a b && star p' n'
  | _, _ => false
  end.
Definition good_pattern (p : string) : bool := negb (String.eqb p "[").
Definition ex_finding (id : string) : finding :=
  {| f_id := id; f_context := None; f_message := "m"; f_level := Information;
     f_signal_type := Some "span"; f_signal_name := None |}.
Definition ex_overrides : list woverride :=
  [mk_woverride (Some ["undefined_enum_variant"]) Violation (Some "span") ["http.*"];
   mk_woverride None Improvement None []].
Definition ex_filters : list wfilter := [mk_wfilter None (Some Violation) None ["trace.*"] []].

Example C122_case :
  let after fs id n := finding_after good_pattern star (fun _ => true) fs ex_overrides (ex_finding id) (RfAttribute (ex_sattr n)) in
  after ex_filters "undefined_enum_variant" "http.method" = Some (Some (with_level (ex_finding "undefined_enum_variant") Violation)) /\
  after ex_filters "undefined_enum_variant" "db.name" = Some None /\
  after [] "undefined_enum_variant" "db.name" = Some (Some (with_level (ex_finding "undefined_enum_variant") Improvement)) /\
  after [mk_wfilter None None None [] ["["]] "x" "y" = None.
Proof. vm_compute. auto. Qed.

(* An empty list of names restricts nothing, but an empty list of ids makes an override
   never apply. *)
Theorem C122_empty_ids_refuted :
  ~ (forall is_pattern matches buildable fs l st names f r,
       finding_after is_pattern matches buildable fs [mk_woverride (Some []) l st names] f r =
       finding_after is_pattern matches buildable fs [mk_woverride None l st names] f r).
Proof.
  intros H. specialize (H good_pattern star (fun _ => true) [] Violation None [] (ex_finding "x") (RfAttribute (ex_sattr "y"))).
  vm_compute in H. discriminate.
Qed.

Print Assumptions C122_accepted.
Print Assumptions C122_applied.
Print Assumptions C122_refused.
Print Assumptions C122_empty_ids_refuted.
