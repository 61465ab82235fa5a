(** * C96: text input of live check *)
From Coq Require Import String Ascii Bool Arith Lia List.
From Verif Require Import Base BaseProofs Json SemTypes LiveModel LiveAdvisors LiveSpec Str StrProofs CodeModel CodeSpec CodeProofs OtelModel.
From Verif Require Import TextModel TextSpec.
From Verif Require LiveProofs3 PropOtel OtlpSpec.
Import ListNotations.
Local Open Scope string_scope.

Lemma no_equals_iff s : no_equals s <-> all_chars (fun d => negb (Ascii.eqb d "="%char)) s = true.
Proof.
  induction s as [|c s IH]; cbn [no_equals all_chars]; [tauto|].
  rewrite andb_true_iff, negb_true_iff, Ascii.eqb_neq, IH. reflexivity.
Qed.
Lemma split_at a b : no_equals a -> split_once "="%char (a ++ "=" ++ b) = Some (a, b).
Proof.
  induction a as [|c a IH]; intros H; [reflexivity|]. destruct H as [H1 H2].
  cbn [append split_once]. rewrite (proj2 (Ascii.eqb_neq c "="%char) H1). cbn in IH. rewrite (IH H2). reflexivity.
Qed.
Lemma trim_is s t : trimmed s t <-> t = trim_ws s.
Proof.
  split; [intros H; eapply trimmed_det; [exact H|apply trim_ws_trimmed]|intros ->; apply trim_ws_trimmed].
Qed.
Lemma trim_blank s : trim_ws s = "" <-> blank s.
Proof.
  split.
  - intros E. destruct (trim_ws_trimmed s) as (u & v & H & Hu & Hv & _). rewrite E in H. cbn in H. subst s.
    apply blank_iff. rewrite all_chars_app, (proj1 (blank_iff u) Hu), (proj1 (blank_iff v) Hv). reflexivity.
  - intros H. symmetry. apply trim_is. exists s, "". cbn [append].
    split; [symmetry; apply str_app_nil_r|]. split; [exact H|]. split; [constructor|].
    split; [intros (c & a & E & _); discriminate|intros (a & c & E & _); destruct a; discriminate].
Qed.
Lemma trimmed_before u s t : blank u -> trimmed s t -> trimmed (u ++ s) t.
Proof.
  intros H (a & b & -> & Ha & Hb & P). exists (u ++ a), b. rewrite str_app_assoc. repeat split; try tauto.
  apply blank_iff. rewrite all_chars_app, (proj1 (blank_iff u) H), (proj1 (blank_iff a) Ha). reflexivity.
Qed.
Lemma trimmed_after v s t : blank v -> trimmed s t -> trimmed (s ++ v) t.
Proof.
  intros H (a & b & -> & Ha & Hb & P). exists a, (b ++ v). rewrite !str_app_assoc. repeat split; try tauto.
  apply blank_iff. rewrite all_chars_app, (proj1 (blank_iff v) H), (proj1 (blank_iff b) Hb). reflexivity.
Qed.
Lemma blank_no_equals u : blank u -> no_equals u.
Proof.
  induction 1 as [|c s W _ IH]; [exact I|]. split; [|exact IH]. intros ->. cbn in W. intuition discriminate.
Qed.
Lemma no_equals_app a b : no_equals (a ++ b) <-> no_equals a /\ no_equals b.
Proof. rewrite !no_equals_iff, all_chars_app, andb_true_iff. reflexivity. Qed.

Section T.
  Variables (parse : string -> option json) (readable : string -> bool).

  Lemma type_iff j ty : (forall p, ty = Some p <-> has_type j p) <-> ty = infer_type j.
  Proof.
    split.
    - intros H. destruct (infer_type j) as [p|] eqn:E.
      + apply H, LiveProofs3.infer_type_spec, E.
      + destruct ty as [p|]; [|reflexivity]. pose proof (proj1 (H p) eq_refl) as X.
        apply LiveProofs3.infer_type_spec in X. congruence.
    - intros -> p. apply LiveProofs3.infer_type_spec.
  Qed.

  Lemma line_iff l a : try_from parse l = Some a <-> says parse l a.
  Proof.
    unfold try_from. cbv zeta. split.
    - destruct (is_empty (trim_ws l)) eqn:E0; [discriminate|].
      destruct (split_once "="%char (trim_ws l)) as [[x y]|] eqn:E.
      + intros [= <-]. apply PropOtel.split_once_some in E as [E Hx].
        destruct (trim_ws_trimmed l) as (u & v & H & Hu & Hv & _). rewrite E in H.
        assert (L : l = (u ++ x) ++ "=" ++ (y ++ v)).
        { rewrite H. rewrite !str_app_assoc. reflexivity. }
        rewrite L. apply says_pair with (t := trim_ws y).
        * apply no_equals_app. split; [apply blank_no_equals, Hu|apply no_equals_iff, Hx].
        * apply trimmed_before; [exact Hu|apply trim_ws_trimmed].
        * apply trimmed_after; [exact Hv|apply trim_ws_trimmed].
        * unfold value_of. destruct (parse (trim_ws y)); auto.
        * apply type_iff. reflexivity.
      + intros [= <-]. apply says_name; [apply trim_ws_trimmed|intros Q; rewrite Q in E0; discriminate|].
        apply no_equals_iff, PropOtel.split_once_none, E.
    - intros H. destruct H as [l n T N NE|a b n t j ty NE Ta Tb V Ty].
      + apply trim_is in T. subst n.
        destruct (is_empty (trim_ws l)) eqn:E0; [destruct (trim_ws l); [contradiction|discriminate]|].
        rewrite (proj2 (PropOtel.split_once_none "="%char (trim_ws l)) (proj1 (no_equals_iff _) NE)). reflexivity.
      + destruct (trim_ws_trimmed (a ++ "=" ++ b)) as (u & v & H & Hu & Hv & _).
        set (T := trim_ws (a ++ "=" ++ b)) in *.
        destruct (split_once "="%char T) as [[x y]|] eqn:E.
        * apply PropOtel.split_once_some in E as [E Hx].
          destruct (is_empty T) eqn:E0; [rewrite E in E0; destruct x; discriminate|].
          assert (L : a ++ "=" ++ b = (u ++ x) ++ "=" ++ (y ++ v)).
          { rewrite H, E, !str_app_assoc. reflexivity. }
          assert (NX : no_equals (u ++ x)).
          { apply no_equals_app. split; [apply blank_no_equals, Hu|apply no_equals_iff, Hx]. }
          pose proof (split_at a b NE) as P1. rewrite L, (split_at _ _ NX) in P1. injection P1 as <- <-.
          assert (n = trim_ws x) as ->.
          { eapply trimmed_det; [exact Ta|]. apply trimmed_before; [exact Hu|apply trim_ws_trimmed]. }
          assert (t = trim_ws y) as ->.
          { eapply trimmed_det; [exact Tb|]. apply trimmed_after; [exact Hv|apply trim_ws_trimmed]. }
          apply type_iff in Ty. subst ty.
          destruct V as [V|[V ->]]; rewrite V; reflexivity.
        * exfalso. apply PropOtel.split_once_none, no_equals_iff in E.
          assert (Q : no_equals (a ++ "=" ++ b)).
          { rewrite H. rewrite !no_equals_app. repeat split; try assumption; apply blank_no_equals; assumption. }
          apply no_equals_app in Q as [_ Q]. destruct Q as [Q _]. contradiction.
  Qed.

  Lemma none_iff l : try_from parse l = None <-> blank l.
  Proof.
    rewrite <- trim_blank. unfold try_from. cbv zeta. split.
    - destruct (trim_ws l); [reflexivity|]. cbn [is_empty].
      destruct (split_once _ _) as [[? ?]|]; discriminate.
    - intros ->. reflexivity.
  Qed.

  Lemma attributes_flat ls out : attributes_of parse ls out <->
    out = flat_map (fun l => match try_from parse l with Some a => [SmpAttribute a] | None => [] end) ls.
  Proof.
    revert out. induction ls as [|l ls IH]; intros out; cbn [flat_map].
    - split; [intros H; inversion H; reflexivity|intros ->; constructor].
    - split.
      + intros H. inversion H as [|l0 ls0 o B A|l0 a ls0 o B A]; subst.
        * apply none_iff in B. rewrite B. apply IH, A.
        * apply line_iff in B. rewrite B. cbn. f_equal. apply IH, A.
      + intros ->. destruct (try_from parse l) as [a|] eqn:E; cbn.
        * apply ao_line; [apply line_iff, E|apply IH; reflexivity].
        * apply ao_blank; [apply none_iff, E|apply IH; reflexivity].
  Qed.
End T.

(** A line is read as its name, or its name and value. *)
Theorem C96_line : forall parse l,
  (forall a, try_from parse l = Some a <-> says parse l a) /\ (try_from parse l = None <-> blank l).
Proof. intros. split; [intros; apply line_iff|apply none_iff]. Qed.
Print Assumptions C96_line.

(** A file gives one attribute per line that is not blank, in order; it is refused when it
    is not valid text. *)
Theorem C96_file : forall parse readable content ls,
  reads_as content ls ->
  ((forall l, In l ls -> readable l = true) ->
     exists out, text_file parse readable content = Ok out /\ attributes_of parse ls out) /\
  ((exists l, In l ls /\ readable l = false) -> exists e, text_file parse readable content = Err e).
Proof.
  intros parse readable content ls R.
  assert (lines content = ls) as L by (symmetry; apply reads_as_lines, R).
  unfold text_file. rewrite L. split.
  - intros H. rewrite (proj2 (forallb_forall readable ls) H). eexists. split; [reflexivity|]. apply attributes_flat. reflexivity.
  - intros (l & Hl & E). destruct (forallb readable ls) eqn:F; [|eauto].
    rewrite forallb_forall in F. rewrite (F l Hl) in E. discriminate.
Qed.
Print Assumptions C96_file.

(** Standard input gives the attributes of the lines before the first blank one. *)
Theorem C96_stdin_partial : forall parse readable content ls,
  reads_as content ls ->
  exists pre post, filter readable ls = (pre ++ post)%list /\
    Forall (fun l => ~ blank l) pre /\ match post with [] => True | l :: _ => blank l end /\
    attributes_of parse pre (text_stdin parse readable content).
Proof.
  intros parse readable content ls R.
  assert (lines content = ls) as L by (symmetry; apply reads_as_lines, R).
  unfold text_stdin. rewrite L. clear. induction ls as [|l ls IH]; cbn [filter text_stdin_next].
  - exists [], []. repeat split; constructor.
  - destruct (readable l); [|exact IH]. destruct (try_from parse l) as [a|] eqn:E.
    + destruct IH as (pre & post & E1 & F & P & A). exists (l :: pre), post. rewrite E1. repeat split; try assumption.
      * constructor; [|exact F]. intros B. apply (none_iff parse) in B. congruence.
      * apply ao_line; [apply line_iff, E|exact A].
    + exists [], (l :: filter readable ls). repeat split; [constructor|apply (none_iff parse), E|constructor].
Qed.
Print Assumptions C96_stdin_partial.

(** A text whose blank lines are all at its end is read alike from a file and from
    standard input. *)
Theorem C96_same_partial : forall parse readable content ls a b,
  reads_as content ls -> (forall l, In l ls -> readable l = true) ->
  ls = (a ++ b)%list -> Forall (fun l => ~ blank l) a -> Forall blank b ->
  text_file parse readable content = Ok (text_stdin parse readable content).
Proof.
  intros parse readable content ls a b R V E A B.
  assert (lines content = ls) as L by (symmetry; apply reads_as_lines, R).
  unfold text_file, text_stdin. rewrite L, (proj2 (forallb_forall readable ls) V). f_equal.
  clear R L. subst ls. induction A as [|l a H _ IH]; cbn [app flat_map text_stdin_next].
  - destruct B as [|l b H HB]; [reflexivity|]. cbn [flat_map text_stdin_next].
    rewrite (V l) by (left; reflexivity). rewrite (proj2 (none_iff parse l) H). cbn.
    clear -HB. induction HB as [|x b H _ IH]; [reflexivity|]. cbn [flat_map]. rewrite (proj2 (none_iff parse x) H). exact IH.
  - rewrite (V l) by (left; reflexivity).
    destruct (try_from parse l) as [x|] eqn:E; [|apply none_iff in E; contradiction].
    cbn. f_equal. apply IH. intros y Hy. apply V. right. exact Hy.
Qed.
Print Assumptions C96_same_partial.

(** A blank line ends standard input: what follows is not checked, so a run that fails on a
    file succeeds on the same text piped in. *)
Theorem C96_stdin_refuted : forall parse readable, (forall l, readable l = true) ->
  let content := nl ++ "unknown" ++ nl in
  let c := OtlpSpec.empty_checker None in
  text_stdin parse readable content = [] /\
  (exists out, text_file parse readable content = Ok out /\ length out = 1 /\
     exists r st, live_check c false FailViolation out = Ok (r, st, 1)) /\
  exists r st, live_check c false FailViolation (text_stdin parse readable content) = Ok (r, st, 0).
Proof.
  intros parse readable V content c.
  assert (L : lines content = [""; "unknown"]) by reflexivity.
  assert (A : text_stdin parse readable content = []).
  { unfold text_stdin. rewrite L. cbn [text_stdin_next]. rewrite V. reflexivity. }
  split; [exact A|]. split.
  - unfold text_file. rewrite L. cbn [forallb]. rewrite !V. eexists. split; [reflexivity|]. split; [reflexivity|].
    eexists; eexists. vm_compute. reflexivity.
  - rewrite A. eexists; eexists. vm_compute. reflexivity.
Qed.
Print Assumptions C96_stdin_refuted.

(** ** Cases *)
Example C96_case :
  let parse := fun s => if String.eqb s "1" then Some (JNum (NInt (BinNums.Zpos BinNums.xH))) else None in
  text_file parse (fun _ => true) (" task.id = 1 " ++ nl ++ nl ++ "a=b=c" ++ nl ++ "x") =
  Ok [SmpAttribute {| sa_name := "task.id"; sa_value := Some (JNum (NInt (BinNums.Zpos BinNums.xH))); sa_type := Some PInt; sa_result := None |};
      SmpAttribute {| sa_name := "a"; sa_value := Some (JStr "b=c"); sa_type := Some PString; sa_result := None |};
      SmpAttribute {| sa_name := "x"; sa_value := None; sa_type := None; sa_result := None |}].
Proof. vm_compute. reflexivity. Qed.
Example C96_reads : reads_as ("a" ++ nl ++ "b" ++ nl ++ " " ++ nl) ["a"; "b"; " "].
Proof. change ["a"; "b"; " "] with (lines ("a" ++ nl ++ "b" ++ nl ++ " " ++ nl)). apply lines_read. Qed.
