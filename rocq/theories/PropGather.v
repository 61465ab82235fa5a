(* C119: errors that are gathered and wrapped are all reported. *)
From Coq Require Import String Ascii DecimalString Bool Arith Lia List.
From Verif Require Import Base ResultModel GatherModel GatherSpec.
Import ListNotations.
Open Scope list_scope.

(* induction over errors inside collections *)
Lemma err_ind2 : forall P : err -> Prop,
  (forall k s t i, P (Single k s t i)) ->
  (forall k l, Forall P l -> P (Many k l)) ->
  (forall k e, P e -> P (Wrap k e)) ->
  forall e, P e.
Proof.
  intros P HS HM HW. fix IH 1. intros [k s t i|k l|k e].
  - apply HS.
  - apply HM. induction l as [|a l IHl]; constructor; [apply IH | exact IHl].
  - apply HW, IH.
Qed.

Lemma flat_map_compound : forall l,
  flat_map elementary (flat_map (fun e => match e with Many _ es => es | e => [e] end) l) = flat_map elementary l.
Proof.
  induction l as [|e l IH]; [reflexivity|]. cbn [flat_map]. rewrite flat_map_app, IH. f_equal.
  destruct e; cbn; rewrite ?app_nil_r; reflexivity.
Qed.

(* Gathering fails exactly when there is an error, and keeps each of them, once and in order. *)
Theorem C119_gathered : forall k l,
  (handle_errors k l = None <-> l = []) /\
  (forall e, handle_errors k l = Some e -> elementary e = flat_map elementary l).
Proof.
  intros k l. split.
  - split; [|intros ->; destruct k; reflexivity].
    destruct l as [|a [|b r]]; [reflexivity| |]; destruct k; discriminate.
  - intros e H. destruct l as [|a [|b r]].
    + destruct k; discriminate.
    + destruct k; injection H as <-;
        solve [cbn [flat_map]; now rewrite app_nil_r | apply (flat_map_compound [a])].
    + assert (E : e = compound k (a :: b :: r)) by (destruct k; now injection H as <-).
      rewrite E. apply flat_map_compound.
Qed.
Print Assumptions C119_gathered.

Lemma messages_many : forall k l, messages (Many k l) = flat_map messages l.
Proof. reflexivity. Qed.

Lemma elementary_single : forall e x, In x (elementary e) -> elementary x = [x].
Proof.
  induction e as [k s t i|k l IH|k e IH] using err_ind2; intros x H; cbn in H.
  - destruct H as [<- | []]. reflexivity.
  - apply in_flat_map in H. destruct H as [y [Hy Hx]]. rewrite Forall_forall in IH. exact (IH y Hy x Hx).
  - exact (IH x H).
Qed.

Lemma no_collection_one : forall e, no_collection e -> exists x, elementary e = [x].
Proof. induction 1 as [k s t i|k e H [x IH]]; [eexists; reflexivity | exists x; exact IH]. Qed.

(* Each elementary error is in exactly one message, and the messages are in the order of the errors; a message is of a
   single error when no collection was wrapped. *)
Theorem C119_reported_partial : forall e,
  flat_map elementary (messages e) = elementary e /\
  (no_wrapped_collection e -> map elementary (messages e) = map (fun x => [x]) (elementary e)).
Proof.
  induction e as [k s t i|k l IH|k e IH] using err_ind2.
  - split; [reflexivity | intros _; reflexivity].
  - split.
    + cbn. induction IH as [|a l [H _] F IHl]; [reflexivity|]. cbn [flat_map]. rewrite flat_map_app, H, IHl. reflexivity.
    + intros N. inversion N as [|? ? F| |]; subst. cbn. clear N.
      induction IH as [|a l [_ H] G IHl]; [reflexivity|]. inversion F; subst.
      cbn [flat_map]. rewrite !map_app, H, IHl by assumption. reflexivity.
  - destruct IH as [A B]. split.
    + destruct k; cbn; rewrite ?app_nil_r; try reflexivity; exact A.
    + intros N. assert (C : no_collection e \/ (k = KGen /\ no_wrapped_collection e)).
      { inversion N; subst; [right; split; [reflexivity|assumption] | left; assumption]. }
      destruct C as [C|[-> C]].
      * destruct (no_collection_one e C) as [x Ex].
        assert (M : messages (Wrap k e) = [Wrap k e] \/ k = KGen) by (destruct k; auto).
        destruct M as [M| ->].
        -- rewrite M. cbn. rewrite Ex. reflexivity.
        -- cbn. apply B. clear - C. induction C; [constructor|]. apply nw_wrap. assumption.
      * cbn. apply B, C.
Qed.
Print Assumptions C119_reported_partial.

(* The program must end with a failure if one of the errors is one: has_error. *)
Definition soft {E} (d : diag E) : bool :=
  match dm_severity d with Some SevWarning | Some SevAdvice => true | _ => false end.

Lemma has_error_iff : forall E (ds : list (diag E)),
  has_error ds = true <-> exists d, In d ds /\ dm_severity d <> Some SevWarning /\ dm_severity d <> Some SevAdvice.
Proof.
  intros E ds. unfold has_error. rewrite Nat.ltb_lt.
  change (0 < length ds - count_if soft ds <-> exists d, In d ds /\ dm_severity d <> Some SevWarning /\ dm_severity d <> Some SevAdvice).
  assert (G : count_if soft ds <= length ds /\
    (count_if soft ds < length ds <->
     exists d, In d ds /\ dm_severity d <> Some SevWarning /\ dm_severity d <> Some SevAdvice)).
  { induction ds as [|d l [L IH]].
    - split; [cbn; lia|]. split; [cbn; lia | intros [d [[] _]]].
    - assert (Q : (soft d = true /\ count_if soft (d :: l) = S (count_if soft l)) \/
                  (soft d = false /\ count_if soft (d :: l) = count_if soft l)).
      { cbn. destruct (soft d); [left | right]; split; reflexivity. }
      destruct Q as [[Sd ->] | [Sd ->]]; cbn [length]; (split; [lia|]); split.
      + intros H. assert (H' : count_if soft l < length l) by lia. apply IH in H'. destruct H' as [x [I1 I2]].
        exists x. split; [right; exact I1 | exact I2].
      + intros [x [[<- |I1] [I2 I3]]]; [unfold soft in Sd; destruct (dm_severity d) as [[| |]|]; congruence|].
        assert (H' := proj2 IH (ex_intro _ x (conj I1 (conj I2 I3)))). lia.
      + intros _. exists d. split; [now left|]. unfold soft in Sd. destruct (dm_severity d) as [[| |]|]; split; congruence.
      + intros _. lia. }
  destruct G as [L H]. rewrite <- H. lia.
Qed.

Lemma severity_wrapped : forall e x, In x (elementary e) -> failure x ->
  messages e = [e] \/ is_collection e = false -> is_collection e = false ->
  severity_of e <> Some SevWarning /\ severity_of e <> Some SevAdvice.
Proof.
  induction e as [k s t i|k l IH|k e IH] using err_ind2; intros x Hx Fx _ C.
  - cbn in Hx. destruct Hx as [<- | []]. destruct s as [[| |]|]; cbn in *; try contradiction; split; discriminate.
  - discriminate.
  - cbn in Hx |- *. destruct (transparent k); [|split; discriminate].
    destruct (is_collection e) eqn:Ce.
    + destruct e; try discriminate. cbn. split; discriminate.
    + exact (IH x Hx Fx (or_intror eq_refl) eq_refl).
Qed.

Lemma messages_not_collections : forall e m, In m (messages e) -> is_collection m = false.
Proof.
  induction e as [k s t i|k l IH|k e IH] using err_ind2; intros m H.
  - cbn in H. destruct H as [<- | []]. reflexivity.
  - cbn in H. apply in_flat_map in H. destruct H as [y [Hy Hm]]. rewrite Forall_forall in IH. exact (IH y Hy m Hm).
  - destruct k; cbn in H; try (destruct H as [<- | []]; reflexivity). exact (IH m H).
Qed.

(* A failure among the errors makes the command fail, wherever it was gathered and wrapped. *)
Theorem C119_failure_kept : forall future e x,
  In x (elementary e) -> failure x -> has_error (diagnostics future e) = true.
Proof.
  intros future e x Hx Fx. apply has_error_iff.
  rewrite <- (proj1 (C119_reported_partial e)) in Hx. apply in_flat_map in Hx. destruct Hx as [m [Hm Hx]].
  exists (diag_new severity_of future m). split; [apply in_map, Hm|].
  unfold diag_new. destruct future; cbn; [split; discriminate|].
  apply (severity_wrapped m x Hx Fx); [right|]; exact (messages_not_collections e m Hm).
Qed.
Print Assumptions C119_failure_kept.

Lemma keeps_messages : forall e, keeps_severity e ->
  forall m, In m (messages e) -> exists x, In x (elementary e) /\ severity_of m = severity_of x.
Proof.
  induction e as [k s t i|k l IH|k e IH] using err_ind2; intros K m H.
  - cbn in H. destruct H as [<- | []]. eexists; split; [left; reflexivity | reflexivity].
  - inversion K as [|? ? F| |]; subst. cbn in H |- *. apply in_flat_map in H. destruct H as [y [Hy Hm]].
    rewrite Forall_forall in IH, F. destruct (IH y Hy (F y Hy) m Hm) as [x [Hx E]].
    exists x. split; [apply in_flat_map; exists y; split; assumption | exact E].
  - inversion K as [| |e' K'|s k' t i]; subst.
    + cbn in H |- *. exact (IH K' m H).
    + cbn in H. destruct H as [<- | []]. eexists. split; [left; reflexivity | reflexivity].
Qed.

Lemma elementary_failure : forall e x, In x (elementary e) ->
  severity_of x <> Some SevWarning -> severity_of x <> Some SevAdvice -> failure x.
Proof.
  intros e x H. assert (E := elementary_single e x H). destruct x as [k s t i| |k y].
  - destruct s as [[| |]|]; cbn; intros A B; try exact Logic.I; congruence.
  - intros _ _. exact Logic.I.
  - intros _ _. exact Logic.I.
Qed.

(* Without the future mode, and where severities are kept, warnings alone do not make it fail. *)
Theorem C119_warnings_partial : forall e, keeps_severity e ->
  (has_error (diagnostics false e) = true <-> exists x, In x (elementary e) /\ failure x).
Proof.
  intros e K. split.
  - intros H. apply has_error_iff in H. destruct H as [d [Hd [A B]]].
    unfold diagnostics in Hd. apply in_map_iff in Hd. destruct Hd as [m [<- Hm]]. cbn in A, B.
    destruct (keeps_messages e K m Hm) as [x [Hx E]]. rewrite E in A, B.
    exists x. split; [exact Hx | exact (elementary_failure e x Hx A B)].
  - intros [x [Hx Fx]]. exact (C119_failure_kept false e x Hx Fx).
Qed.
Print Assumptions C119_warnings_partial.

(* In future mode any message is a failure. *)
Theorem C119_future : forall e, has_error (diagnostics true e) = true <-> messages e <> [].
Proof.
  intros e. rewrite has_error_iff. unfold diagnostics. split.
  - intros [d [Hd _]] E. rewrite E in Hd. exact Hd.
  - intros H. destruct (messages e) as [|m r]; [congruence|].
    exists (diag_new severity_of true m). split; [now left | cbn; split; discriminate].
Qed.
Print Assumptions C119_future.

(* What the resolver logs of an error is what it reports of it. *)
Theorem C119_logged : forall e,
  (forall x, In x (logged e) -> is_collection x = false) /\ flat_map elementary (logged e) = elementary e.
Proof.
  induction e as [k s t i|k l IH|k e IH] using err_ind2.
  - split; [intros x [<- | []]; reflexivity | reflexivity].
  - split.
    + intros x H. cbn in H. apply in_flat_map in H. destruct H as [y [Hy Hx]]. rewrite Forall_forall in IH.
      exact (proj1 (IH y Hy) x Hx).
    + cbn. induction IH as [|a l [_ H] F IHl]; [reflexivity|]. cbn [flat_map]. rewrite flat_map_app, H, IHl. reflexivity.
  - split; [intros x [<- | []]; reflexivity | cbn; apply app_nil_r].
Qed.
Print Assumptions C119_logged.

(* What is gathered from errors that were themselves gathered has no collection inside a collection. *)
Theorem C119_flat : forall k l e, Forall flat l -> handle_errors k l = Some e -> flat e.
Proof.
  intros k l e F H.
  assert (C : flat (compound k l)).
  { clear H. cbn. induction F as [|a l Fa F IH]; [constructor|]. cbn [flat_map]. apply Forall_app. split; [|exact IH].
    destruct a; cbn in *; [repeat constructor | exact Fa | repeat constructor]. }
  destruct l as [|a [|b r]].
  - destruct k; discriminate.
  - inversion F; subst. destruct k; injection H as <-; assumption.
  - assert (E : e = compound k (a :: b :: r)) by (destruct k; now injection H as <-). rewrite E. exact C.
Qed.
Print Assumptions C119_flat.

Lemma count_in_keys : forall key text m,
  In key (map fst m) -> map fst (count_in key text m) = map fst m.
Proof.
  induction m as [|[k d] m IH]; intros H; [contradiction|]. cbn.
  destruct (String.eqb k key) eqn:E; [reflexivity|]. cbn. f_equal. apply IH.
  destruct H as [<- | H]; [|exact H]. cbn in E. rewrite String.eqb_refl in E. discriminate.
Qed.

(* the state of the map after the errors [l], from the map [m] *)
Definition add_all (show : err -> string) (l : list err) (m : list (string * dedup)) : list (string * dedup) :=
  fold_left (dedup_step show) l m.

Lemma dedup_step_key : forall show m e, dedup_step show m e = count_in (key_of show e) (text_of show e) m.
Proof. intros show m [k s t [i|]| |]; reflexivity. Qed.

Lemma add_cons : forall show x l m,
  add_all show (x :: l) m = add_all show l (count_in (key_of show x) (text_of show x) m).
Proof. intros. unfold add_all. cbn [fold_left]. rewrite dedup_step_key. reflexivity. Qed.

(* an entry at the head collects its similar errors, the rest goes on without them *)
Lemma add_head : forall show l e d m,
  add_all show l ((key_of show e, d) :: m) =
  (key_of show e, {| dd_error := dd_error d; dd_occurrences := length (filter (similar show e) l) + dd_occurrences d |})
    :: add_all show (filter (fun x => negb (similar show e x)) l) m.
Proof.
  intros show. induction l as [|x l IH]; intros e d m.
  - cbn. destruct d. reflexivity.
  - rewrite add_cons. cbn [count_in filter].
    assert (Q : similar show e x = String.eqb (key_of show e) (key_of show x)) by reflexivity.
    rewrite Q. destruct (String.eqb (key_of show e) (key_of show x)); cbn [negb length].
    + rewrite IH. cbn [dd_error dd_occurrences]. rewrite Nat.add_succ_r. reflexivity.
    + rewrite IH, add_cons. reflexivity.
Qed.

Lemma dedup_line_line : forall t n, dedup_line {| dd_error := t; dd_occurrences := n + 1 |} = line t n.
Proof.
  intros t [|[|n]]; [reflexivity | reflexivity |].
  unfold dedup_line. cbn [dd_occurrences dd_error]. replace (S (S n) + 1) with (S (S (S n))) by lia. reflexivity.
Qed.

(* Of similar errors the first is printed, with the number of the others, in the order of the first ones. *)
Theorem C119_printed : forall show k l, report show l (print_dedup show (Many k l)).
Proof.
  intros show k l. unfold print_dedup. fold (add_all show l []).
  remember (length l) as n. assert (L : length l <= n) by lia. clear Heqn. revert l L.
  induction n as [|n IH]; intros [|e l] L; try (cbn in L; lia); try constructor.
  rewrite add_cons. cbn [count_in]. rewrite add_head. cbn [map snd dd_error dd_occurrences]. rewrite dedup_line_line. constructor.
  apply IH. cbn in L.
  assert (F : forall (p : err -> bool) q, length (filter p q) <= length q).
  { intros p q. induction q as [|x q IHq]; [cbn; lia|]. cbn. destruct (p x); cbn; lia. }
  specialize (F (fun x => negb (similar show e x)) l). lia.
Qed.
Print Assumptions C119_printed.

(* The report says one thing: it is determined by the errors, has one entry for each key, and an error alone is printed
   as it is. *)
Theorem C119_report_once : forall show l out, report show l out ->
  (forall out', report show l out' -> out' = out) /\
  length out = length (nodup String.string_dec (map (key_of show) l)) /\
  (forall e, l = [e] -> out = [text_of show e]).
Proof.
  intros show l out H. split; [|split].
  - induction H as [|e l out H IH]; intros out' H'; inversion H'; subst; [reflexivity|]. f_equal. apply IH. assumption.
  - assert (N : forall l out, report show l out -> exists ks, NoDup ks /\ length ks = length out /\
  forall k, In k ks <-> In k (map (key_of show) l)).
    { clear. intros l out H. induction H as [|e l out H [ks [N [L K]]]].
      - exists []. split; [constructor|]. split; [reflexivity | intros k; split; intros []].
      - exists (key_of show e :: ks). split; [|split].
        + constructor; [|exact N]. intros I1. apply K in I1. apply in_map_iff in I1. destruct I1 as [x [Ex Ix]].
          apply filter_In in Ix. destruct Ix as [_ Ix]. unfold similar in Ix. rewrite Ex, String.eqb_refl in Ix. discriminate.
        + cbn. now rewrite L.
        + intros k. cbn [map In]. split.
          * intros [E|I1]; [left; exact E|]. apply K in I1. apply in_map_iff in I1. destruct I1 as [x [Ex Ix]].
            apply filter_In in Ix. right. apply in_map_iff. exists x. split; [exact Ex | exact (proj1 Ix)].
          * intros [E|I1]; [left; exact E|].
            destruct (String.string_dec (key_of show e) k) as [E|E]; [left; exact E|].
            right. apply K. apply in_map_iff in I1. destruct I1 as [x [Ex Ix]]. apply in_map_iff. exists x.
            split; [exact Ex|]. apply filter_In. split; [exact Ix|]. unfold similar.
            destruct (String.eqb (key_of show e) (key_of show x)) eqn:Q; [|reflexivity].
            apply String.eqb_eq in Q. congruence. }
    destruct (N l out H) as [ks [Nk [L K]]]. rewrite <- L.
    apply Nat.le_antisymm; apply NoDup_incl_length; try assumption; try apply NoDup_nodup.
    + intros k I1. apply nodup_In, K, I1.
    + intros k I1. apply K. apply nodup_In in I1. exact I1.
  - intros e ->. inversion H as [|? ? out' R]; subst. cbn in R. inversion R; subst. reflexivity.
Qed.
Print Assumptions C119_report_once.

Lemma chain_causes : forall e ps last, caused e ps last ->
  exists ds, length ds = length ps /\ exists p, chain e = combine ps ds ++ [(p, last)].
Proof.
  intros e ps last H. induction H as [p d|p d s ps last H [ds [L [q C]]]].
  - exists []. split; [reflexivity|]. exists p. reflexivity.
  - exists (d :: ds). split; [cbn; now rewrite L|]. exists q. cbn. now rewrite C.
Qed.

Lemma append_assoc : forall a b c : string, ((a ++ b) ++ c = a ++ b ++ c)%string.
Proof. induction a; cbn; intros; [reflexivity | now rewrite IHa]. Qed.

Lemma summary_all : forall ps ds p last i total,
  length ds = length ps -> total = i + length ps + 1 ->
  summary_from total i (combine ps ds ++ [(p, last)]) =
  (String.concat "
Caused by:
" (ps ++ [last]) ++ "
")%string.
Proof.
  induction ps as [|a ps IH]; intros ds p last i total L T; destruct ds as [|d ds]; try discriminate.
  - cbn in T. cbn [combine app summary_from]. replace (i =? total - 1) with true by (symmetry; apply Nat.eqb_eq; lia).
    cbn. rewrite append_assoc. reflexivity.
  - cbn in L, T. cbn [combine app summary_from]. replace (i =? total - 1) with false by (symmetry; apply Nat.eqb_neq; lia).
    rewrite (IH ds p last (S i) total) by lia.
    assert (C : forall sep x y l, String.concat sep (x :: y :: l) = (x ++ sep ++ String.concat sep (y :: l))%string) by reflexivity.
    destruct (ps ++ [last])%list as [|y r] eqn:E; [destruct ps; discriminate|].
    rewrite C, !append_assoc. reflexivity.
Qed.

(* The summary of an error of a template has every cause once, outermost first, and the details of the last one. *)
Theorem C119_summary : forall e,
  exists ps last, caused e ps last /\
  error_summary e = (String.concat "
Caused by:
" (ps ++ [last]) ++ "
")%string.
Proof.
  intros e. assert (C : exists ps last, caused e ps last).
  { revert e. fix IH 1. intros [p d [s|]].
    - destruct (IH s) as [ps [last H]]. exists (p :: ps), last. constructor. exact H.
    - exists [], d. constructor. }
  destruct C as [ps [last C]]. exists ps, last. split; [exact C|].
  destruct (chain_causes e ps last C) as [ds [L [p E]]]. unfold error_summary. rewrite E.
  apply summary_all; [exact L|]. rewrite app_length, combine_length, L, Nat.min_id. reflexivity.
Qed.
Print Assumptions C119_summary.

(* Not every elementary error has a message of its own: the errors of a definition file come to the resolver as one
   collection, which it wraps; and the program wraps what comes from the resolver. *)
Theorem C119_hidden_refuted :
  ~ (forall e, map elementary (messages e) = map (fun x => [x]) (elementary e)).
Proof.
  intros H.
  specialize (H (Wrap KResolver (Many KSemconv [Single KSemconv None "a" None; Single KSemconv None "b" None]))).
  discriminate.
Qed.
Print Assumptions C119_hidden_refuted.
Theorem C119_hidden_program_refuted :
  ~ (forall l, length (messages (Wrap KEngine (Many KResolver l))) = length (flat_map elementary l)).
Proof.
  intros H. specialize (H [Single KResolver None "a" None; Single KResolver None "b" None]). discriminate.
Qed.
Print Assumptions C119_hidden_program_refuted.

(* Warnings alone may make the command fail: a collection that is wrapped has no severity. *)
Theorem C119_warning_refuted :
  ~ (forall e, has_error (diagnostics false e) = true -> exists x, In x (elementary e) /\ failure x).
Proof.
  intros H.
  destruct (H (Wrap KResolver (Many KSemconv [Single KSemconv (Some SevWarning) "a" None; Single KSemconv (Some SevWarning) "b" None])) eq_refl)
    as [x [[<- |[<- |[]]] F]]; exact F.
Qed.
Print Assumptions C119_warning_refuted.

Fixpoint has_b (s : string) : bool :=
  match s with EmptyString => false | String c r => (Ascii.eqb c "b"%char || has_b r)%bool end.
(* Of two templates that fail with the same message only the first is shown. *)
Theorem C119_similar_refuted :
  ~ (forall show k l x t i s, In x l -> x = Single KForge s t (Some i) ->
       exists p line q, In line (print_dedup show (Many k l)) /\ line = (p ++ t ++ q)%string).
Proof.
  intros H.
  destruct (H (fun _ => ""%string) KForge
    [Single KForge None "in a.j2"%string (Some "undefined value"%string); Single KForge None "in b.j2"%string (Some "undefined value"%string)]
    _ "in b.j2"%string "undefined value"%string None (or_intror (or_introl eq_refl)) eq_refl) as [p [ln [q [I1 E]]]].
  cbn in I1. destruct I1 as [<- | []].
  assert (G : forall p q s, s = (p ++ "in b.j2" ++ q)%string -> has_b s = true).
  { clear. induction p as [|c p IH]; intros q s ->; [reflexivity|].
    change (has_b (String c p ++ "in b.j2" ++ q)) with (Ascii.eqb c "b"%char || has_b (p ++ "in b.j2" ++ q))%bool.
    rewrite (IH q _ eq_refl). apply orb_true_r. }
  apply G in E. vm_compute in E. discriminate.
Qed.
Print Assumptions C119_similar_refuted.

(* Errors of three crates: a warning of the definitions, wrapped by the resolver, an error of the resolver, and two
   failures of templates gathered before. *)
Definition warned := Single KSemconv (Some SevWarning) "unstable file format" None.
Definition missing := Single KResolver None "unresolved reference" None.
Definition failed (file : string) := Single KForge None file (Some "undefined value"%string).
Example C119_case :
  let inner := Many KForge [failed "a.j2"; failed "b.j2"; failed "c.j2"] in
  let r := Many KResolver [Wrap KResolver warned; missing] in
  handle_errors KForge [inner; Single KForge None "no such target" None] =
    Some (Many KForge [failed "a.j2"; failed "b.j2"; failed "c.j2"; Single KForge None "no such target" None]) /\
  messages (Wrap KGen r) = [Wrap KResolver warned; missing] /\
  no_wrapped_collection (Wrap KGen r) /\ keeps_severity (Wrap KGen r) /\
  map dm_severity (diagnostics false (Wrap KGen r)) = [Some SevWarning; None] /\
  print_dedup (fun e => match e with Single _ _ t _ => t | _ => ""%string end)
    (Many KForge [failed "a.j2"; missing; failed "b.j2"; failed "c.j2"]) =
  ["a.j2

Found 2 similar errors"; "unresolved reference"]%string /\
  error_summary (JError "could not render" "x" (Some (JError "undefined value" "undefined value (in a.j2:3)" None))) =
  "could not render
Caused by:
undefined value (in a.j2:3)
"%string /\ flat inner.
Proof.
  cbn. repeat match goal with |- _ /\ _ => split end; try reflexivity.
  - apply nw_gen, nw_many. repeat constructor.
  - apply ks_gen, ks_many. repeat constructor.
  - repeat constructor.
Qed.

(* An error that is not a collection is printed as it is. *)
Theorem C119_printed_alone : forall show e, is_collection e = false -> print_dedup show e = [show e].
Proof. intros show [k s t i|k l|k e] H; [reflexivity | discriminate | reflexivity]. Qed.
Print Assumptions C119_printed_alone.
