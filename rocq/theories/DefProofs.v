(* Proofs about the validation of definitions. *)
From Coq Require Import String Ascii Bool Arith Lia Permutation ZArith NArith List.
Import ListNotations.
From Verif Require Import Base BaseProofs Json SemTypes Resolved ResultModel ResultSpec VdirModel Str CodeModel CodeSpec
  CodeProofs MdModel MdProofs DefModel DefSpec.
Local Open Scope string_scope.

(* [w]: warnings are let through *)
Definition quiet (w : bool) (l : list spec_error) : Prop :=
  forall e, In e l -> w = true /\ spec_severity e = Some SevWarning.

Lemma q_nil w : quiet w []. Proof. intros e []. Qed.
Lemma q_app w a b : quiet w (a ++ b)%list <-> quiet w a /\ quiet w b.
Proof.
  unfold quiet. split.
  - intros H. split; intros e I; apply H; apply in_or_app; [left|right]; exact I.
  - intros [A B] e I. apply in_app_or in I. destruct I as [I|I]; [exact (A e I)|exact (B e I)].
Qed.
Lemma q_flat {X} w (f : X -> list spec_error) l : quiet w (flat_map f l) <-> forall x, In x l -> quiet w (f x).
Proof.
  unfold quiet. split.
  - intros H x I e J. apply H. apply in_flat_map. exists x. auto.
  - intros H e I. apply in_flat_map in I. destruct I as (x & I & J). exact (H x I e J).
Qed.
Lemma q_one_warn w e : spec_severity e = Some SevWarning -> (quiet w [e] <-> w = true).
Proof.
  intros E. split.
  - intros H. exact (proj1 (H e (or_introl eq_refl))).
  - intros -> x [<-|[]]. auto.
Qed.
Lemma q_one_err w e : spec_severity e <> Some SevWarning -> ~ quiet w [e].
Proof. intros N H. exact (N (proj2 (H e (or_introl eq_refl)))). Qed.
Lemma q_warn w b e : spec_severity e = Some SevWarning -> (quiet w (when b e) <-> (w = false -> b = false)).
Proof.
  intros E. unfold when. destruct b.
  - rewrite (q_one_warn w e E). destruct w; intuition congruence.
  - split; [auto|]. intros _. apply q_nil.
Qed.
Lemma q_err w b e : spec_severity e <> Some SevWarning -> (quiet w (when b e) <-> b = false).
Proof.
  intros E. unfold when. destruct b.
  - split; [intros H; exfalso; exact (q_one_err w e E H)|discriminate].
  - split; [auto|]. intros _. apply q_nil.
Qed.
Lemma q_if w (b : bool) l l' : quiet w (if b then l else l') <-> (b = true -> quiet w l) /\ (b = false -> quiet w l').
Proof. destruct b; intuition congruence. Qed.

Lemma no_false {A} (o : option A) : no o = false <-> o <> None.
Proof. destruct o; cbn; split; congruence. Qed.
Lemma is_some_false {A} (o : option A) : is_some o = false <-> o = None.
Proof. destruct o; cbn; split; congruence. Qed.
Lemma type_eq a b : group_type_eqb a b = true <-> a = b.
Proof. destruct a, b; split; try reflexivity; discriminate. Qed.
Lemma type_neq a b : group_type_eqb a b = false <-> a <> b.
Proof. destruct a, b; split; try reflexivity; try discriminate; intros H; try congruence; exfalso; apply H; reflexivity. Qed.
Lemma stab_false o s : opt_stab_eqb o s = false <-> o <> Some s.
Proof. destruct o as [x|]; cbn; [destruct x, s; cbn; split; congruence|split; congruence]. Qed.
Lemma unspecified_false d : is_unspecified d = false <-> ~ unstructured d.
Proof.
  unfold unstructured. destruct d as [[]|]; cbn; split; try reflexivity; try discriminate;
    try (intros _ [n E]; discriminate E).
  intros H. exfalso. apply H. eexists. reflexivity.
Qed.

(* ** examples *)
Ltac shapes := repeat (match goal with
  | H : has_shape _ _ _ |- _ => inversion H; clear H; subst
  | H : prim_of _ _ _ |- _ => inversion H; clear H; subst
  | H : exists _, _ |- _ => destruct H
  | H : _ /\ _ |- _ => destruct H
  | H : _ \/ _ |- _ => destruct H
  end); try discriminate; try congruence.

Lemma validate_examples_quiet w e t gid aid :
  quiet w (validate_examples e t gid aid) <-> (fit e t \/ old_form e t) /\ (w = false -> ~ old_form e t).
Proof.
  assert (G : forall (l : list spec_error),
    (l = [] /\ fit e t /\ ~ old_form e t \/ l = [EExampleWarning gid aid] /\ old_form e t \/
     l = [EExampleError gid aid] /\ ~ fit e t /\ ~ old_form e t) ->
    (quiet w l <-> (fit e t \/ old_form e t) /\ (w = false -> ~ old_form e t))).
  { intros l [(-> & F & O)|[(-> & O)|(-> & F & O)]].
    - split; [auto|]. intros _. apply q_nil.
    - rewrite q_one_warn by reflexivity. destruct w.
      + split; [intros _; split; [right; exact O|discriminate]|reflexivity].
      + split; [discriminate|]. intros [_ H]. exfalso. exact (H eq_refl O).
    - split; [intros H; exfalso; apply (q_one_err w (EExampleError gid aid)); [discriminate|exact H]|].
      intros [[H|H] _]; contradiction. }
  apply G. clear G w.
  destruct t as [p|p|ms].
  - destruct p; destruct e; cbn [validate_examples fit old_form]; unfold prim_examples;
    try (left; split; [reflexivity|split; [|intros H; shapes]];
      first [left; reflexivity
            |right; left; eexists; split; [constructor|first [left; constructor|right; constructor]]
            |right; right; eexists; split; constructor]; fail);
    try (right; left; split; [reflexivity|]; eexists; split; constructor; fail);
    right; right; (split; [reflexivity|split; intros H; shapes]).
  - destruct p; destruct e; cbn [validate_examples fit old_form]; unfold prim_examples;
    try (left; split; [reflexivity|split; [|intros H; shapes]];
      first [left; reflexivity
            |right; left; eexists; split; [constructor|first [left; constructor|right; constructor]]
            |right; right; eexists; split; constructor]; fail);
    try (right; left; split; [reflexivity|]; split; [reflexivity|]; first [left; constructor|right; constructor]; fail);
    right; right; (split; [reflexivity|split; intros H; shapes]).
  - destruct e; left; (split; [reflexivity|split; [exact I|intros []]]).
Qed.

Lemma validate_av_quiet w e v gid : quiet w (validate_av_examples e v gid) <-> body_fit e v.
Proof.
  assert (G : forall l, (l = [] /\ body_fit e v \/ l = [EAnyValueExample gid (av_id v)] /\ ~ body_fit e v) ->
    (quiet w l <-> body_fit e v)).
  { intros l [(-> & F)|(-> & F)].
    - split; [auto|]. intros _. apply q_nil.
    - split; [intros H; exfalso; apply (q_one_err w (EAnyValueExample gid (av_id v))); [discriminate|exact H]|contradiction]. }
  apply G. clear G w.
  destruct v as [p c|c l|c l|c|c|c l].
  - destruct p; destruct e; cbn [validate_av_examples body_fit]; unfold prim_examples;
    try (left; split; [reflexivity|]; split; [discriminate|];
      first [right; left; eexists; split; [constructor|first [left; constructor|right; constructor]]
            |right; right; eexists; split; constructor]; fail);
    right; (split; [reflexivity|intros H; shapes]).
  - destruct e; cbn [validate_av_examples body_fit];
    try (left; split; [reflexivity|eexists; constructor]; fail); right; (split; [reflexivity|intros H; shapes]).
  - destruct e; cbn [validate_av_examples body_fit];
    try (left; split; [reflexivity|eexists; constructor]; fail); right; (split; [reflexivity|intros H; shapes]).
  - destruct e; left; (split; [reflexivity|exact I]).
  - destruct e; left; (split; [reflexivity|exact I]).
  - destruct e; left; (split; [reflexivity|exact I]).
Qed.

(* ** bodies *)
Fixpoint any_value_ind2 (P : any_value -> Prop)
  (Hp : forall p c, P (AvPrim p c)) (Hm : forall c l, Forall P l -> P (AvMap c l))
  (Hms : forall c l, Forall P l -> P (AvMaps c l)) (Hb : forall c, P (AvBytes c))
  (Hu : forall c, P (AvUndefined c)) (He : forall c l, P (AvEnum c l)) (v : any_value) : P v :=
  let rec := any_value_ind2 P Hp Hm Hms Hb Hu He in
  let go := fix go (l : list any_value) : Forall P l :=
    match l with [] => Forall_nil P | x :: r => Forall_cons x (rec x) (go r) end in
  match v with
  | AvPrim p c => Hp p c
  | AvMap c l => Hm c l (go l)
  | AvMaps c l => Hms c l (go l)
  | AvBytes c => Hb c
  | AvUndefined c => Hu c
  | AvEnum c l => He c l
  end.

Lemma within_inv v x : within v x <-> x = v \/ exists c l f, v = AvMap c l /\ In f l /\ within f x.
Proof.
  split.
  - intros H. inversion H; subst; [left; reflexivity|]. right. eexists _, _, _. split; [reflexivity|]. split; eassumption.
  - intros [->|(c & l & f & -> & I & H)]; [constructor|econstructor; eassumption].
Qed.
Lemma forall_within (P : any_value -> Prop) v :
  (forall x, within v x -> P x) <-> P v /\ (forall c l f, v = AvMap c l -> In f l -> forall x, within f x -> P x).
Proof.
  split.
  - intros H. split; [apply H; constructor|]. intros c l f -> I x W. apply H. econstructor; eassumption.
  - intros [A B] x W. apply within_inv in W. destruct W as [->|(c & l & f & -> & I & W)]; [exact A|]. exact (B c l f eq_refl I x W).
Qed.

Definition own_ex (v : any_value) (gid : string) : list spec_error :=
  match ac_examples (av_common v) with
  | Some e => validate_av_examples e v gid
  | None => match v with AvPrim PString _ | AvPrim PStrings _ => [EAnyValueExample gid (av_id v)] | _ => [] end
  end.
Definition own_st (v : any_value) (gid : string) : list spec_error :=
  match ac_stability (av_common v) with None => [EAnyValue gid (av_id v)] | Some _ => [] end.
Lemma own_examples w v gid : quiet w (own_ex v gid) <-> value_examples v.
Proof.
  unfold value_examples, own_ex. change (common_of v) with (av_common v).
  destruct (ac_examples (av_common v)) as [e|]; [apply validate_av_quiet|].
  destruct v as [p c|c l|c l|c|c|c l];
    try (split; [intros _ c'; split; discriminate|intros _; apply q_nil]).
  destruct p; try (split; [intros _ c'; split; discriminate|intros _; apply q_nil]).
  - split; [intros H; exfalso; eapply q_one_err; [|exact H]; discriminate|]. intros H. destruct (H c) as [N _]. congruence.
  - split; [intros H; exfalso; eapply q_one_err; [|exact H]; discriminate|]. intros H. destruct (H c) as [_ N]. congruence.
Qed.

Lemma av_examples_unfold v gid : av_examples_errors v gid =
  app (own_ex v gid) (match v with AvMap _ fields => flat_map (fun f => av_examples_errors f gid) fields | _ => [] end).
Proof. destruct v; reflexivity. Qed.
Lemma av_errors_unfold v gid : av_errors v gid =
  app (own_st v gid)
      (match v with
       | AvEnum _ members =>
         flat_map (fun m => match ee_stability m with None => [EAnyValue gid (av_id v)] | Some _ => [] end) members
       | AvMap _ fields => flat_map (fun f => av_errors f gid) fields
       | _ => []
       end).
Proof. destruct v; reflexivity. Qed.

Lemma av_examples_quiet w gid : forall v, quiet w (av_examples_errors v gid) <-> (forall x, within v x -> value_examples x).
Proof.
  induction v as [p c|c l IH|c l IH|c|c|c l] using any_value_ind2;
    rewrite forall_within, av_examples_unfold, q_app, own_examples;
    try (split; [intros [H _]; split; [exact H|intros; discriminate]|intros [H _]; split; [exact H|apply q_nil]]; fail).
  rewrite q_flat.
  rewrite Forall_forall in IH. split; intros [A B]; (split; [exact A|]).
  - intros c' l' f E I. injection E as E1 E2. rewrite <- E2 in I. apply (IH f I). exact (B f I).
  - intros f I. apply (IH f I). exact (B c l f eq_refl I).
Qed.

Lemma own_stability w v gid :
  quiet w (own_st v gid) <-> (w = false -> ac_stability (common_of v) <> None).
Proof.
  unfold own_st.
  change (common_of v) with (av_common v). destruct (ac_stability (av_common v)).
  - split; [intros _ _; discriminate|intros _; apply q_nil].
  - rewrite q_one_warn by reflexivity. destruct w; split; try congruence. intros H. exfalso. exact (H eq_refl eq_refl).
Qed.

Lemma av_errors_quiet w gid : forall v, quiet w (av_errors v gid) <-> (w = false -> forall x, within v x -> value_stability x).
Proof.
  intros v. enough (G : quiet w (av_errors v gid) <-> (forall x, within v x -> (w = false -> value_stability x))).
  { rewrite G. clear. firstorder. }
  induction v as [p c|c l IH|c l IH|c|c|c l] using any_value_ind2;
    rewrite forall_within, av_errors_unfold, q_app, own_stability; unfold value_stability;
    try (split; [intros [H _]; split; [intros W; split; [exact (H W)|intros; discriminate]|intros; discriminate]
                |intros [H _]; split; [intros W; exact (proj1 (H W))|apply q_nil]]; fail).
  - rewrite q_flat.
    rewrite Forall_forall in IH. split; intros [A B]; split.
    + intros W. split; [exact (A W)|intros; discriminate].
    + intros c' l' f E I. injection E as E1 E2. rewrite <- E2 in I. apply (IH f I). exact (B f I).
    + intros W. exact (proj1 (A W)).
    + intros f I. apply (IH f I). exact (B c l f eq_refl I).
  - rewrite q_flat. split.
    + intros [A B]. split; [|intros; discriminate]. intros W. split; [exact (A W)|].
      intros c' ms m E I. injection E as _ E. rewrite <- E in I. specialize (B m I). destruct (ee_stability m); [discriminate|].
      rewrite q_one_warn in B by reflexivity. congruence.
    + intros [A _]. split; [intros W; exact (proj1 (A W))|]. intros m I. destruct (ee_stability m) eqn:E; [apply q_nil|].
      rewrite q_one_warn by reflexivity. destruct w; [reflexivity|]. exfalso. exact (proj2 (A eq_refl) c l m eq_refl I E).
Qed.

(* ** duplicate references *)
Definition refs_in (l : list attr_spec) : list string :=
  flat_map (fun a => match a with SRef r => [rs_ref r] | SId _ => [] end) l.
Lemma duplicate_refs_warn gid l : forall seen e, In e (duplicate_refs gid seen l) -> spec_severity e = Some SevWarning.
Proof.
  induction l as [|[r|i] l IH]; intros seen e I; cbn [duplicate_refs] in I; [destruct I| |exact (IH _ _ I)].
  destruct (str_mem (rs_ref r) seen); [destruct I as [<-|I]; [reflexivity|exact (IH _ _ I)]|exact (IH _ _ I)].
Qed.
Lemma duplicate_refs_nil gid l : forall seen,
  duplicate_refs gid seen l = [] <-> NoDup (refs_in l) /\ forall x, In x (refs_in l) -> ~ In x seen.
Proof.
  induction l as [|[r|i] l IH]; intros seen; cbn [duplicate_refs refs_in flat_map app].
  - split; [intros _; split; [constructor|intros x []]|reflexivity].
  - fold (refs_in l). destruct (str_mem (rs_ref r) seen) eqn:M.
    + apply str_mem_spec in M. split; [discriminate|]. intros [_ H]. exfalso. exact (H _ (or_introl eq_refl) M).
    + apply str_mem_false in M. rewrite IH. split.
      * intros [N H]. split; [constructor; [|exact N]|].
        { intros I. apply (H _ I). left. reflexivity. }
        intros x [<-|I] J; [contradiction|]. apply (H _ I). right. exact J.
      * intros [N H]. inversion N as [|? ? N1 N2 E]; subst. split; [exact N2|].
        intros x I [<-|J]; [contradiction|]. exact (H x (or_intror I) J).
  - exact (IH seen).
Qed.
Lemma duplicate_refs_quiet w gid l : quiet w (duplicate_refs gid [] l) <-> (w = false -> NoDup (refs_in l)).
Proof.
  split.
  - intros H W. assert (E : duplicate_refs gid [] l = []).
    { destruct (duplicate_refs gid [] l) as [|e r]; [reflexivity|]. destruct (H e (or_introl eq_refl)). congruence. }
    exact (proj1 (proj1 (duplicate_refs_nil gid l []) E)).
  - intros H e I. destruct w; [split; [reflexivity|exact (duplicate_refs_warn _ _ _ _ I)]|].
    rewrite (proj2 (duplicate_refs_nil gid l [])) in I; [destruct I|]. split; [exact (H eq_refl)|intros x _ []].
Qed.

(* ** entity associations *)
Lemma association_iff a : association_error a = None <-> well_formed a.
Proof.
  induction a as [n|cs IH|cs IH] using assoc_ind2.
  - cbn [association_error]. destruct (is_empty (trim_ws n)) eqn:E.
    + split; [discriminate|]. intros H. inversion H as [m N|? ? ?|? ? ?]; subst. exfalso. apply N. apply all_white_iff. exact E.
    + split; [|reflexivity]. intros _. constructor. intros B. apply all_white_iff in B. unfold all_white in B. congruence.
  - cbn [association_error]. rewrite Forall_forall in IH. destruct cs as [|c r].
    + split; [discriminate|]. intros H. inversion H as [|? N ?|]; subst. congruence.
    + set (first := fix first (l : list (assoc string)) : option string := _).
      assert (F : forall l, (forall x, In x l -> association_error x = None <-> well_formed x) ->
                first l = None <-> forall x, In x l -> well_formed x).
      { clear. induction l as [|x l IH]; intros H; [split; [intros _ x []|reflexivity]|].
        change (first (x :: l)) with (match association_error x with Some e => Some e | None => first l end).
        destruct (association_error x) eqn:E.
        - split; [discriminate|]. intros K. specialize (K x (or_introl eq_refl)).
          apply (H x (or_introl eq_refl)) in K. congruence.
        - rewrite IH by (intros y I; apply H; right; exact I). split.
          + intros K y [<-|I]; [apply (H x (or_introl eq_refl)); exact E|exact (K y I)].
          + intros K y I. apply K. right. exact I. }
      change (first (c :: r) = None <-> well_formed (AOneOf (c :: r))). rewrite (F _ IH). split.
      * intros K. constructor; [discriminate|exact K].
      * intros K. inversion K; subst. assumption.
  - cbn [association_error]. rewrite Forall_forall in IH. destruct cs as [|c r].
    + split; [discriminate|]. intros H. inversion H as [| |? N ?]; subst. congruence.
    + set (first := fix first (l : list (assoc string)) : option string := _).
      assert (F : forall l, (forall x, In x l -> association_error x = None <-> well_formed x) ->
                first l = None <-> forall x, In x l -> well_formed x).
      { clear. induction l as [|x l IH]; intros H; [split; [intros _ x []|reflexivity]|].
        change (first (x :: l)) with (match association_error x with Some e => Some e | None => first l end).
        destruct (association_error x) eqn:E.
        - split; [discriminate|]. intros K. specialize (K x (or_introl eq_refl)).
          apply (H x (or_introl eq_refl)) in K. congruence.
        - rewrite IH by (intros y I; apply H; right; exact I). split.
          + intros K y [<-|I]; [apply (H x (or_introl eq_refl)); exact E|exact (K y I)].
          + intros K y I. apply K. right. exact I. }
      change (first (c :: r) = None <-> well_formed (AAllOf (c :: r))). rewrite (F _ IH). split.
      * intros K. constructor; [discriminate|exact K].
      * intros K. inversion K; subst. assumption.
Qed.

(* ** attributes *)
Lemma member_quiet w gid aid m : quiet w (member_errors gid aid m) <->
  (w = false -> good_stability (ee_stability m) /\ ~ unstructured (ee_deprecated m)).
Proof.
  unfold member_errors, good_stability. rewrite q_app, q_if. rewrite q_one_warn by reflexivity.
  rewrite !q_warn by reflexivity. rewrite no_false, stab_false, unspecified_false.
  assert (N : no (ee_stability m) = true <-> ee_stability m = None) by (destruct (ee_stability m); cbn; split; congruence).
  rewrite N. split.
  - intros ((A & B) & C) W. subst w. assert (X : ee_stability m <> None) by (intros E; specialize (A E); discriminate A).
    split; [split; [exact X|exact (B X eq_refl)]|exact (C eq_refl)].
  - intros H. split; [split|].
    + intros E. destruct w; [reflexivity|]. destruct (H eq_refl) as ((X & _) & _). contradiction.
    + intros _ W. exact (proj2 (proj1 (H W))).
    + intros W. exact (proj2 (H W)).
Qed.

Definition attr_sound (i : id_spec) : Prop :=
  (is_brief i <> None \/ is_deprecated i <> None) /\
  (forall e, is_examples i = Some e -> fit e (is_type i) \/ old_form e (is_type i)).
Definition attr_clean (i : id_spec) : Prop :=
  good_stability (is_stability i) /\
  (forall ms m, is_type i = TEnum ms -> In m ms -> good_stability (ee_stability m) /\ ~ unstructured (ee_deprecated m)) /\
  ~ unstructured (is_deprecated i) /\
  (forall e, is_examples i = Some e -> ~ old_form e (is_type i)) /\
  (is_examples i = None -> ~ text_type (is_type i)).

Lemma missing_examples_quiet w gid aid t :
  quiet w (match t with TPrim PString | TPrim PStrings => [EExampleWarning gid aid] | _ => [] end) <->
  (w = false -> ~ text_type t).
Proof.
  unfold text_type. destruct t as [p| |];
    try (split; [intros _ _ [E|E]; discriminate E|intros _; apply q_nil]).
  destruct p; try (split; [intros _ _ [E|E]; discriminate E|intros _; apply q_nil]).
  - rewrite q_one_warn by reflexivity. destruct w; split; try discriminate; try reflexivity. intros H. exfalso. apply H; auto.
  - rewrite q_one_warn by reflexivity. destruct w; split; try discriminate; try reflexivity. intros H. exfalso. apply H; auto.
Qed.

Lemma attribute_quiet w gid i : quiet w (attribute_errors gid (SId i)) <-> attr_sound i /\ (w = false -> attr_clean i).
Proof.
  cbn [attribute_errors]. rewrite !q_app, q_if. rewrite (q_err w _ (EInvalidAttribute gid (is_id i))) by discriminate.
  rewrite q_one_warn by reflexivity. rewrite !q_warn by reflexivity. rewrite no_false, stab_false, unspecified_false.
  assert (N : no (is_stability i) = true <-> is_stability i = None) by (destruct (is_stability i); cbn; split; congruence).
  rewrite N. rewrite andb_false_iff, !no_false.
  assert (M : quiet w (match is_type i with TEnum ms => flat_map (member_errors gid (is_id i)) ms | _ => [] end) <->
    (w = false -> forall ms m, is_type i = TEnum ms -> In m ms -> good_stability (ee_stability m) /\ ~ unstructured (ee_deprecated m))).
  { destruct (is_type i) as [p|p|ms]; try (split; [intros; discriminate|intros _; apply q_nil]).
    rewrite q_flat. split.
    - intros H W ms' m E I. injection E as <-. apply (member_quiet w gid (is_id i)); [exact (H m I)|exact W].
    - intros H m I. apply member_quiet. intros W. exact (H W ms m eq_refl I). }
  rewrite M.
  assert (X : quiet w (match is_examples i with
     | Some e => validate_examples e (is_type i) gid (is_id i)
     | None => match is_type i with TPrim PString | TPrim PStrings => [EExampleWarning gid (is_id i)] | _ => [] end
     end) <-> (forall e, is_examples i = Some e -> fit e (is_type i) \/ old_form e (is_type i)) /\
              (w = false -> (forall e, is_examples i = Some e -> ~ old_form e (is_type i)) /\
                            (is_examples i = None -> ~ text_type (is_type i)))).
  { destruct (is_examples i) as [e|].
    - rewrite validate_examples_quiet. split.
      + intros [A B]. split; [intros e' E; injection E as <-; exact A|]. intros W. split; [|discriminate].
        intros e' E. injection E as <-. exact (B W).
      + intros [A B]. split; [exact (A e eq_refl)|]. intros W. exact (proj1 (B W) e eq_refl).
    - rewrite missing_examples_quiet. split.
      + intros A. split; [discriminate|]. intros W. split; [discriminate|]. intros _. exact (A W).
      + intros [_ B] W. exact (proj2 (B W) eq_refl). }
  rewrite X. unfold attr_sound, attr_clean, good_stability. split.
  - intros (A & (B & C) & D & E & F & G). split; [split; assumption|]. intros W. specialize (D W). specialize (E W). specialize (G W).
    assert (Y : is_stability i <> None) by (intros Z; specialize (B Z); congruence).
    split; [split; [exact Y|exact (C Y W)]|]. split; [exact D|]. split; [exact E|]. exact G.
  - intros ((A & F) & H). split; [exact A|]. split; [split|].
    + intros E. destruct w; [reflexivity|]. destruct (H eq_refl) as ((Y & _) & _). contradiction.
    + intros _ W. exact (proj2 (proj1 (H W))).
    + split; [intros W; exact (proj1 (proj2 (H W)))|]. split; [intros W; exact (proj1 (proj2 (proj2 (H W))))|].
      split; [exact F|]. intros W. exact (proj2 (proj2 (proj2 (H W)))).
Qed.

Lemma attributes_quiet w gid l : quiet w (flat_map (attribute_errors gid) l) <->
  (forall i, In (SId i) l -> attr_sound i) /\ (w = false -> forall i, In (SId i) l -> attr_clean i).
Proof.
  rewrite q_flat. split.
  - intros H. split; [intros i I; exact (proj1 (proj1 (attribute_quiet w gid i) (H _ I)))|].
    intros W i I. exact (proj2 (proj1 (attribute_quiet w gid i) (H _ I)) W).
  - intros [A B] [r|i] I; [apply q_nil|]. apply attribute_quiet. split; [exact (A i I)|]. intros W. exact (B W i I).
Qed.

Lemma assocs_quiet w g : quiet w (match gs_assocs g with
        | [] => []
        | _ =>
          app (match gs_type g with GEvent | GMetric | GSpan => [] | _ => [EInvalidGroup (gs_id g) "entity_associations"] end)
              (flat_map (fun a => match association_error a with Some e => [EInvalidGroup (gs_id g) e] | None => [] end) (gs_assocs g))
        end) <->
  (gs_assocs g <> [] -> In (gs_type g) [GEvent; GMetric; GSpan]) /\ (forall a, In a (gs_assocs g) -> well_formed a).
Proof.
  assert (K : quiet w (flat_map (fun a => match association_error a with Some e => [EInvalidGroup (gs_id g) e] | None => [] end) (gs_assocs g)) <->
    (forall a, In a (gs_assocs g) -> well_formed a)).
  { rewrite q_flat. split; intros H a I; specialize (H a I).
    - apply association_iff. destruct (association_error a); [|reflexivity]. exfalso. eapply q_one_err; [|exact H]. discriminate.
    - apply association_iff in H. rewrite H. apply q_nil. }
  destruct (gs_assocs g) as [|a r] eqn:E.
  - split; [|intros _; apply q_nil]. intros _. split; [congruence|intros a []].
  - rewrite q_app, K.
    assert (L : quiet w (match gs_type g with GEvent | GMetric | GSpan => [] | _ => [EInvalidGroup (gs_id g) "entity_associations"] end) <->
      (a :: r <> [] -> In (gs_type g) [GEvent; GMetric; GSpan])).
    { destruct (gs_type g); cbn [In];
        try (split; [intros _ _; auto|intros _; apply q_nil]);
        (split; [intros H; exfalso; eapply q_one_err; [|exact H]; discriminate|
                 intros H; destruct H as [H|[H|[H|[]]]]; try discriminate H; discriminate]). }
    rewrite L. reflexivity.
Qed.

(* ** groups *)
Lemma group_quiet w g : quiet w (group_errors g) <-> group_sound g /\ (w = false -> group_clean g).
Proof.
  unfold group_errors. cbn zeta. rewrite !q_app.
  rewrite (assocs_quiet w g), attributes_quiet, duplicate_refs_quiet.
  rewrite !q_if. rewrite !q_app.
  rewrite (q_warn w _ (EUsesPrefix (gs_id g))) by reflexivity.
  rewrite !(q_warn w _ (EGroupStability (gs_id g))) by reflexivity.
  rewrite (q_warn w _ (EMissingContent (gs_id g))) by reflexivity.
  rewrite (q_warn w _ (EMissingType (gs_id g))) by reflexivity.
  rewrite (q_warn w _ (EMissingSpanKind (gs_id g))) by reflexivity.
  rewrite (q_warn w _ (EUnstructured (gs_id g))) by reflexivity.
  rewrite !(q_err w _ (EInvalidGroup (gs_id g) _)) by discriminate.
  rewrite !(q_err w _ (EInvalidMetric (gs_id g) _)) by discriminate.
  rewrite !andb_true_iff, !andb_false_iff, !negb_true_iff, !negb_false_iff.
  rewrite !no_false, !is_some_false, !type_eq, !type_neq, !stab_false, unspecified_false.
  rewrite !String.eqb_eq, !String.eqb_neq.
  assert (B : quiet w (match gs_body g with
              | Some b => app (av_errors b (gs_id g)) (av_examples_errors b (gs_id g))
              | None => []
              end) <-> (forall b v, gs_body g = Some b -> within b v -> value_examples v) /\
                       (w = false -> forall b v, gs_body g = Some b -> within b v -> value_stability v)).
  { destruct (gs_body g) as [b|].
    - rewrite q_app, av_examples_quiet, av_errors_quiet. split.
      + intros [X Y]. split; [intros b' v E; injection E as <-; apply Y|]. intros W b' v E. injection E as <-. exact (X W v).
      + intros [X Y]. split; [intros W v; exact (Y W b v eq_refl)|intros v; exact (X b v eq_refl)].
    - split; [intros _; split; intros; discriminate|intros _; apply q_nil]. }
  rewrite B. clear B. unfold group_sound, group_clean.
  change (refs_in (gs_attributes g)) with (refs_of g).
  assert (EV : (match gs_events g with [] => false | _ => true end) = false <-> gs_events g = [])
    by (destruct (gs_events g); split; congruence).
  assert (EA : (match gs_attributes g with [] => true | _ => false end) = false <-> gs_attributes g <> [])
    by (destruct (gs_attributes g); split; congruence).
  rewrite EV, EA. clear EV EA.
  assert (NB : no (gs_body g) = false <-> gs_body g <> None) by apply no_false.
  split.
  - intros (H1 & H2 & H3 & H4 & H5 & (H6 & _) & H7 & H8 & (H9 & H9') & (H10 & _) & H11 & (H12 & H12') & H13 & H14).
    split.
    + split; [intros N1 N2; exact (H6 (conj N1 N2))|].
      split.
      { intros T. destruct (H9 T) as (A & B & C & _). split; [|exact C].
        destruct (gs_name g) as [n|] eqn:En; [left; discriminate|].
        destruct A as [A|A]; [|congruence]. destruct B as [[B|B]|B]; [congruence|congruence|].
        right. split; assumption. }
      split; [exact H9'|]. split; [intros T; destruct (H10 T) as (A & B & C); auto|].
      split; [exact H12|]. split; [exact H13|exact H14].
    + intros W. split; [specialize (H1 W); exact H1|].
      split; [intros T; destruct (H2 W) as [E|E]; [contradiction|exact E]|].
      split; [exact (H3 W)|]. split; [exact (H4 W)|].
      split.
      { intros T1 T2. destruct (H5 W) as [[[E|E]|E]|E]; [contradiction|contradiction|left; exact E|right; exact E]. }
      split; [exact (H7 W)|].
      split; [intros T; destruct (H8 W) as [E|E]; [contradiction|exact E]|].
      split; [intros b v T; destruct (H9 T) as (_ & _ & _ & D); exact (D W b v)|].
      split; [exact (H11 W)|]. exact (H12' W).
  - intros ((S1 & S2 & S3 & S4 & S5 & S6 & S7) & C).
    split; [intros W; exact (proj1 (C W))|].
    split.
    { intros W. destruct (C W) as (_ & C2 & _). destruct (group_type_eqb (gs_type g) GAttributeGroup) eqn:T;
        [left; apply type_eq; exact T|right; apply C2; apply type_neq; exact T]. }
    split; [intros W; exact (proj1 (proj2 (proj2 (C W))))|].
    split; [intros W; exact (proj1 (proj2 (proj2 (proj2 (C W)))))|].
    split.
    { intros W. destruct (C W) as (_ & _ & _ & _ & C5 & _).
      destruct (group_type_eqb (gs_type g) GMetric) eqn:T1; [left; left; left; apply type_eq; exact T1|].
      destruct (group_type_eqb (gs_type g) GEvent) eqn:T2; [left; left; right; apply type_eq; exact T2|].
      destruct (C5 (proj1 (type_neq _ _) T1) (proj1 (type_neq _ _) T2)) as [E|E]; [left; right; exact E|right; exact E]. }
    split; [split; [intros [N1 N2]; exact (S1 N1 N2)|intros _; apply q_nil]|].
    split; [intros W; exact (proj1 (proj2 (proj2 (proj2 (proj2 (proj2 (C W)))))))|].
    split.
    { intros W. destruct (C W) as (_ & _ & _ & _ & _ & _ & C7 & _).
      destruct (group_type_eqb (gs_type g) GSpan) eqn:T; [right; apply C7; apply type_eq; exact T|left; apply type_neq; exact T]. }
    split.
    { split; [|exact S3]. intros T. destruct (S2 T) as (N & EX). split; [|split; [|split; [exact EX|]]].
      - destruct N as [N|[N _]]; [right; exact N|left; exact N].
      - destruct N as [N|[_ N]]; [left; right; exact N|right; exact N].
      - intros W b v Eb. destruct (C W) as (_ & _ & _ & _ & _ & _ & _ & C8 & _). exact (C8 b v T Eb). }
    split; [split; [intros T; destruct (S4 T) as (A & B & D); auto|intros _; apply q_nil]|].
    split; [intros W; exact (proj1 (proj2 (proj2 (proj2 (proj2 (proj2 (proj2 (proj2 (proj2 (C W))))))))))|].
    split; [split; [exact S5|]|].
    { intros W. exact (proj2 (proj2 (proj2 (proj2 (proj2 (proj2 (proj2 (proj2 (proj2 (C W)))))))))). }
    split; assumption.
Qed.

Lemma quiet_nil l : quiet false l <-> l = [].
Proof.
  split; [|intros ->; apply q_nil]. intros H. destruct l as [|e r]; [reflexivity|].
  destruct (H e (or_introl eq_refl)). discriminate.
Qed.
Lemma quiet_warnings l : quiet true l <-> only_warnings l.
Proof. unfold quiet, only_warnings. split; intros H e I; [exact (proj2 (H e I))|split; [reflexivity|exact (H e I)]]. Qed.

Lemma with_nfes_errors {A} (x : A) (l : list spec_error) : errors_of (with_nfes x l) = l.
Proof. destruct l; reflexivity. Qed.
Lemma with_nfes_value {A} (x : A) (l : list spec_error) : value_of (with_nfes x l) = Some x.
Proof. destruct l; reflexivity. Qed.

(* ** referenced entities *)
Lemma size_pos a : 1 <= assoc_size a. Proof. destruct a; cbn; lia. Qed.
Lemma sum_rev l : list_sum (map assoc_size (rev l)) = list_sum (map assoc_size l).
Proof.
  induction l as [|x l IH]; [reflexivity|]. cbn [rev]. rewrite map_app, list_sum_app, IH.
  change (list_sum (map assoc_size (x :: l))) with (assoc_size x + list_sum (map assoc_size l)). cbn [map list_sum fold_right]. lia.
Qed.
Lemma sum_cons a l : list_sum (map assoc_size (a :: l)) = assoc_size a + list_sum (map assoc_size l).
Proof. reflexivity. Qed.
Lemma drain_all n : forall stack, list_sum (map assoc_size stack) <= n ->
  Permutation (drain n stack) (flat_map leaves stack).
Proof.
  induction n as [|n IH]; intros stack L.
  - destruct stack as [|a r]; [constructor|]. rewrite sum_cons in L. pose proof (size_pos a). lia.
  - destruct stack as [|[x|cs|cs] r]; [constructor| | |]; rewrite sum_cons in L; cbn [drain flat_map leaves].
    + cbn [app]. apply perm_skip. apply IH. cbn [assoc_size] in L. lia.
    + eapply perm_trans; [apply IH|].
      * rewrite map_app, list_sum_app, sum_rev. cbn [assoc_size] in L. lia.
      * rewrite flat_map_app. apply Permutation_app_tail. apply Permutation_flat_map. apply Permutation_sym, Permutation_rev.
    + eapply perm_trans; [apply IH|].
      * rewrite map_app, list_sum_app, sum_rev. cbn [assoc_size] in L. lia.
      * rewrite flat_map_app. apply Permutation_app_tail. apply Permutation_flat_map. apply Permutation_sym, Permutation_rev.
Qed.
Lemma leaves_iff x : forall a, In x (leaves a) <-> mentions a x.
Proof.
  induction a as [n|cs IH|cs IH] using assoc_ind2; cbn [leaves].
  - split; [intros [<-|[]]; constructor|]. intros H. inversion H; subst. left. reflexivity.
  - rewrite Forall_forall in IH. rewrite in_flat_map. split.
    + intros (c & I & J). econstructor; [exact I|]. apply (IH c I). exact J.
    + intros H. inversion H as [|? c ? I J|]; subst. exists c. split; [exact I|]. apply (IH c I). exact J.
  - rewrite Forall_forall in IH. rewrite in_flat_map. split.
    + intros (c & I & J). econstructor; [exact I|]. apply (IH c I). exact J.
    + intros H. inversion H as [| |? c ? I J]; subst. exists c. split; [exact I|]. apply (IH c I). exact J.
Qed.
