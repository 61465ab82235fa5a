(* The search command (C98). *)
From Coq Require Import String Ascii Bool Arith ZArith Lia List.
Import ListNotations.
From Verif Require Import Base BaseProofs Json SemTypes Resolved BrowseModel BrowseSpec.
Local Open Scope string_scope.

Lemma filter_picks {A} (f : A -> bool) (P : A -> Prop) (H : forall a, f a = true <-> P a) l : picks P l (filter f l).
Proof.
  induction l as [|a l IH]; cbn [filter]; [constructor|]. destruct (f a) eqn:E.
  - constructor; [apply H, E|exact IH].
  - constructor; [|exact IH]. intros X. apply H in X. congruence.
Qed.
Lemma picks_fun {A} (P : A -> Prop) l m m' : picks P l m -> picks P l m' -> m = m'.
Proof.
  intros H. revert m'. induction H as [|a l m N _ IH|a l m N _ IH]; intros m' H'; inversion H'; subst; try contradiction; auto.
  f_equal. auto.
Qed.
Lemma picks_length {A} (P : A -> Prop) l m : picks P l m -> List.length m <= List.length l.
Proof. induction 1; cbn; lia. Qed.

Section Proofs.
  Context {T : Type}.
  Variable input : T -> key_event -> T * bool.
  Variable lines : T -> list string.
  Variable checked : bool.
  Variable cat : list attribute.
  Variable empty : T.
  Notation run := (run_ui input lines checked cat).
  Notation results := (result_set lines cat).
  Notation go := (process input lines checked cat).
  Lemma results_listed a : listed lines cat a (results a).
  Proof.
    exists (search_string lines a). split; [reflexivity|]. apply filter_picks. intros x. apply contains_spec.
  Qed.
  Lemma listed_is a l : listed lines cat a l -> l = results a.
  Proof.
    intros (w & -> & H). destruct (results_listed a) as (w' & -> & H'). eapply picks_fun; eassumption.
  Qed.
  Hypothesis Hh : honest input lines.
  Hypothesis Hb : bounded cat.
  Definition count (a : app T) : Z := Z.of_nat (List.length (results a)).
  Lemma count_small a : (0 <= count a < 2 ^ 31)%Z.
  Proof.
    unfold count. destruct (results_listed a) as (w & _ & P). apply picks_length in P. unfold bounded in Hb. lia.
  Qed.
  Definition inv (a : app T) : Prop :=
    forall i, ap_selected a = Some i -> (0 <= i < 2 ^ 31)%Z /\ ((0 < count a)%Z -> (i < count a)%Z).
  Lemma as_i32_small z : (- 2 ^ 31 <= z < 2 ^ 31)%Z -> as_i32 z = z.
  Proof. intros H. unfold as_i32. rewrite Z.mod_small; lia. Qed.
  Lemma as_i32_range z : (- 2 ^ 31 <= as_i32 z < 2 ^ 31)%Z.
  Proof. unfold as_i32. pose proof (Z.mod_pos_bound (z + 2 ^ 31) (2 ^ 32)). lia. Qed.
  Lemma move_some amt a i : (amt = 1 \/ amt = -1)%Z -> inv a -> ap_selected a = Some i -> (0 < count a)%Z ->
    move_index lines checked cat amt a = Some {| ap_area := ap_area a; ap_selected := Some (Z.min (Z.max 0 (i + amt)) (count a - 1)) |}.
  Proof.
    intros Ha I S1 C. unfold move_index. rewrite S1. fold (count a). destruct (I i S1) as [I1 I2]. specialize (I2 C). pose proof (count_small a) as Cs.
    rewrite (as_i32_small i) by lia. unfold add_i32, sub_usize. rewrite (as_i32_small (i + amt)) by lia.
    rewrite Z.eqb_refl, andb_false_r. destruct (Z.ltb_spec (count a) 1); [lia|]. rewrite andb_false_r. rewrite Z.mod_small by lia. reflexivity.
  Qed.
  Lemma move_inv amt a a' : (amt = 1 \/ amt = -1)%Z -> inv a -> move_index lines checked cat amt a = Some a' -> inv a'.
  Proof.
    intros Ha I H. destruct (ap_selected a) as [i|] eqn:S1.
    - destruct (Z.ltb_spec 0 (count a)) as [C|C].
      + rewrite (move_some amt a i Ha I S1 C) in H. injection H as <-. intros j J. cbn in J. injection J as <-.
        pose proof (count_small a). assert (count {| ap_area := ap_area a; ap_selected := Some (Z.min (Z.max 0 (i + amt)) (count a - 1)) |} = count a) as -> by reflexivity. lia.
      + unfold move_index in H. rewrite S1 in H. fold (count a) in H. unfold add_i32 in H.
        destruct (checked && negb (as_i32 (as_i32 i + amt) =? as_i32 i + amt))%Z; [discriminate|].
        destruct (sub_usize checked (count a) 1) as [last|] eqn:L; [|discriminate]. injection H as <-. intros j J. cbn in J. injection J as <-.
        assert (count {| ap_area := ap_area a; ap_selected := Some (Z.min (Z.max 0 (as_i32 (as_i32 i + amt))) last) |} = count a) as -> by reflexivity.
        split; [|lia]. pose proof (as_i32_range (as_i32 i + amt)). unfold sub_usize in L. destruct (checked && (count a <? 1)%Z); [discriminate|].
        injection L as <-. pose proof (Z.mod_pos_bound (count a - 1) (2 ^ 64)). lia.
    - unfold move_index in H. rewrite S1 in H. injection H as <-. intros j J. injection J as <-. split; [lia|]. intros C. exact C.
  Qed.
  Lemma type_inv a k a' : inv a -> type_key input a k = Going a' -> inv a'.
  Proof.
    unfold type_key. intros I H. destruct (input (ap_area a) k) as [t m] eqn:E. injection H as <-. destruct m; intros i J; cbn in J; [discriminate|].
    specialize (I i J). assert (count {| ap_area := t; ap_selected := ap_selected a |} = count a) as ->; [|exact I].
    unfold count, result_set, search_string. cbn [ap_area]. rewrite (Hh _ _ _ E). reflexivity.
  Qed.
  Lemma go_inv a e a' : inv a -> go a e = Going a' -> inv a'.
  Proof.
    intros I H. destruct e as [[c ctl pr]|]; cbn [process ke_code ke_press ke_control] in H; [|injection H as <-; exact I].
    assert (M : forall amt, (amt = 1 \/ amt = -1)%Z -> (if pr then of_move (move_index lines checked cat amt a) else type_key input a {| ke_code := c; ke_control := ctl; ke_press := pr |}) = Going a' -> inv a').
    { intros amt Ha X. destruct pr; [|exact (type_inv _ _ _ I X)]. destruct (move_index lines checked cat amt a) as [b|] eqn:E; [|discriminate].
      injection X as <-. exact (move_inv amt a b Ha I E). }
    destruct c as [| | |ch|n].
    - exact (M (-1)%Z (or_intror eq_refl) H).
    - exact (M 1%Z (or_introl eq_refl) H).
    - discriminate.
    - destruct ch as [[] [] [] [] [] [] [] []]; try exact (type_inv _ _ _ I H). destruct ctl; [discriminate|exact (type_inv _ _ _ I H)].
    - exact (type_inv _ _ _ I H).
  Qed.
  Lemma run_inv es : forall a a', inv a -> run a es = Going a' -> inv a'.
  Proof.
    induction es as [|e es IH]; intros a a' I H; cbn [run_ui] in H; [injection H as <-; exact I|].
    destruct (go a e) as [b| |] eqn:E; [|discriminate|discriminate]. exact (IH b a' (go_inv a e b I E) H).
  Qed.
  Lemma new_inv : inv (new_app empty).
  Proof. intros i J. discriminate J. Qed.
  Lemma run_app a es1 es2 : run a (List.app es1 es2) = match run a es1 with Going b => run b es2 | x => x end.
  Proof.
    revert a. induction es1 as [|e es1 IH]; intros a; cbn [run_ui List.app]; [reflexivity|]. destruct (go a e); [apply IH|reflexivity|reflexivity].
  Qed.
  Lemma crash_step a e : inv a -> (go a e = Crashed <-> checked = true /\ moves e /\ ap_selected a <> None /\ results a = []).
  Proof.
    intros I. assert (M : forall amt, (amt = 1 \/ amt = -1)%Z -> (move_index lines checked cat amt a = None <-> checked = true /\ ap_selected a <> None /\ results a = [])).
    { intros amt Ha. destruct (ap_selected a) as [i|] eqn:S1.
      - destruct (Z.ltb_spec 0 (count a)) as [C|C].
        + rewrite (move_some amt a i Ha I S1 C). split; [discriminate|]. intros (_ & _ & R). unfold count in C. rewrite R in C. cbn in C. lia.
        + assert (R : results a = []) by (destruct (results a) eqn:R; [reflexivity|unfold count in C; rewrite R in C; cbn [List.length] in C; lia]).
          unfold move_index. rewrite S1. fold (count a). unfold sub_usize. assert (Z.ltb (count a) 1 = true) as -> by (apply Z.ltb_lt; lia).
          rewrite andb_true_r. destruct checked.
          * split; [intros _; repeat split; [discriminate|exact R]|]. intros _. destruct (add_i32 true (as_i32 i) amt); reflexivity.
          * cbn [andb]. unfold add_i32. cbn [andb]. split; [discriminate|intros (X & _); discriminate X].
      - unfold move_index. rewrite S1. split; [discriminate|intros (_ & X & _); congruence]. }
    assert (Ty : forall k, type_key input a k <> Crashed) by (intros k; unfold type_key; destruct (input (ap_area a) k); discriminate).
    assert (Mv : forall amt, (amt = 1 \/ amt = -1)%Z -> of_move (move_index lines checked cat amt a) = Crashed <-> move_index lines checked cat amt a = None).
    { intros amt _. destruct (move_index lines checked cat amt a); cbn; split; congruence. }
    split.
    - intros H. destruct e as [[c ctl pr]|]; cbn [process ke_code ke_press ke_control] in H; [|discriminate].
      destruct c as [| | |ch|n].
      + destruct pr; [|exfalso; exact (Ty _ H)]. apply (Mv (-1)%Z (or_intror eq_refl)), (M (-1)%Z (or_intror eq_refl)) in H.
        destruct H as (H1 & H2). split; [exact H1|]. split; [left; exists ctl; reflexivity|exact H2].
      + destruct pr; [|exfalso; exact (Ty _ H)]. apply (Mv 1%Z (or_introl eq_refl)), (M 1%Z (or_introl eq_refl)) in H.
        destruct H as (H1 & H2). split; [exact H1|]. split; [right; exists ctl; reflexivity|exact H2].
      + discriminate.
      + exfalso. destruct ch as [[] [] [] [] [] [] [] []]; try exact (Ty _ H). destruct ctl; [discriminate|exact (Ty _ H)].
      + exfalso. exact (Ty _ H).
    - intros (H1 & [[ctl ->]|[ctl ->]] & H2); cbn [process ke_code ke_press]; apply Mv; auto; apply M; auto.
  Qed.
End Proofs.

(* What is listed are the attributes whose name contains what was typed, in catalog order. *)
Theorem C98_listed : forall T (lines : T -> list string) cat a, listed lines cat a (result_set lines cat a).
Proof. intros. apply results_listed. Qed.
Print Assumptions C98_listed.

(* Whatever the user does: as long as something is listed and selected, the selection is one of the
   listed attributes, and it is the one shown. *)
Theorem C98_selected_partial : forall T (input : T -> key_event -> T * bool) lines checked cat empty es a i l,
  honest input lines -> bounded cat -> run_ui input lines checked cat (new_app empty) es = Going a ->
  ap_selected a = Some i -> listed lines cat a l -> l <> [] ->
  (0 <= i < Z.of_nat (List.length l))%Z /\ exists x, result lines cat a = Some x /\ nth_error l (Z.to_nat i) = Some x.
Proof.
  intros T input lines checked cat empty es a i l Hh Hb H S1 L N. apply listed_is in L. subst l.
  pose proof (run_inv input lines checked cat Hh Hb es _ _ (new_inv lines cat empty) H i S1) as [I1 I2].
  assert (C : (0 < count lines cat a)%Z) by (unfold count; destruct (result_set lines cat a); [congruence|cbn [List.length]; lia]).
  specialize (I2 C). unfold count in I2. split; [lia|]. unfold result. rewrite S1.
  destruct (nth_error (result_set lines cat a) (Z.to_nat i)) as [x|] eqn:E; [eauto|]. apply nth_error_None in E. lia.
Qed.
Print Assumptions C98_selected_partial.
(* Up and Down move the selection by one and stop at the ends; the first of them selects the first. *)
Theorem C98_moves_partial : forall T (input : T -> key_event -> T * bool) lines checked cat empty es a l e,
  honest input lines -> bounded cat -> run_ui input lines checked cat (new_app empty) es = Going a ->
  listed lines cat a l -> l <> [] -> moves e ->
  exists a' j, process input lines checked cat a e = Going a' /\ ap_area a' = ap_area a /\ ap_selected a' = Some j /\
    match ap_selected a with
    | None => j = 0%Z
    | Some i =>
      (pressed e KeyDown -> (i + 1 < Z.of_nat (List.length l) -> j = i + 1) /\ (Z.of_nat (List.length l) <= i + 1 -> j = i))%Z /\
      (pressed e KeyUp -> (0 < i -> j = i - 1) /\ (i = 0 -> j = 0))%Z
    end.
Proof.
  intros T input lines checked cat empty es a l e Hh Hb H L N M. apply listed_is in L. subst l.
  pose proof (run_inv input lines checked cat Hh Hb es _ _ (new_inv lines cat empty) H) as I.
  assert (C : (0 < count lines cat a)%Z) by (unfold count; destruct (result_set lines cat a); [congruence|cbn [List.length]; lia]).
  assert (G : forall amt, (amt = 1 \/ amt = -1)%Z -> exists a' j, of_move (move_index lines checked cat amt a) = Going a' /\ ap_area a' = ap_area a /\ ap_selected a' = Some j /\
    match ap_selected a with None => j = 0%Z | Some i => j = Z.min (Z.max 0 (i + amt)) (count lines cat a - 1) end).
  { intros amt Ha. destruct (ap_selected a) as [i|] eqn:S1.
    - rewrite (move_some lines checked cat Hb amt a i Ha I S1 C). eexists. eexists. repeat split.
    - unfold move_index. rewrite S1. eexists. eexists. repeat split. }
  unfold count in *. destruct M as [[ctl ->]|[ctl ->]]; cbn [process ke_code ke_press].
  - destruct (G (-1)%Z (or_intror eq_refl)) as (a' & j & G1 & G2 & G3 & G4). exists a', j. repeat (split; [assumption|]).
    destruct (ap_selected a) as [i|] eqn:S1; [|exact G4]. destruct (I i S1) as [I1 I2]. specialize (I2 C). unfold count in I2.
    split; [intros (c & X); discriminate X|]. intros _. lia.
  - destruct (G 1%Z (or_introl eq_refl)) as (a' & j & G1 & G2 & G3 & G4). exists a', j. repeat (split; [assumption|]).
    destruct (ap_selected a) as [i|] eqn:S1; [|exact G4]. destruct (I i S1) as [I1 I2]. specialize (I2 C). unfold count in I2.
    split; [|intros (c & X); discriminate X]. intros _. lia.
Qed.
Print Assumptions C98_moves_partial.
(* It crashes exactly when, in a debug build, Up or Down is pressed while nothing is listed and
   something was selected. *)
Theorem C98_crash : forall T (input : T -> key_event -> T * bool) lines checked cat empty es,
  honest input lines -> bounded cat ->
  (run_ui input lines checked cat (new_app empty) es = Crashed <->
   checked = true /\ exists before e after a, es = List.app before (e :: after) /\
     run_ui input lines checked cat (new_app empty) before = Going a /\ moves e /\ ap_selected a <> None /\ listed lines cat a []).
Proof.
  intros T input lines checked cat empty es Hh Hb.
  assert (G : forall es a, inv lines cat a -> run_ui input lines checked cat a es = Crashed <->
    checked = true /\ exists before e after b, es = List.app before (e :: after) /\ run_ui input lines checked cat a before = Going b /\
      moves e /\ ap_selected b <> None /\ result_set lines cat b = []).
  { clear es. induction es as [|e es IH]; intros a I; cbn [run_ui].
    - split; [discriminate|]. intros (_ & [|x before] & e & after & b & X & _); discriminate X.
    - destruct (process input lines checked cat a e) as [b| |] eqn:E.
      + rewrite (IH b (go_inv input lines checked cat Hh Hb a e b I E)). split.
        * intros (H1 & before & e0 & after & b0 & -> & H2 & H3). split; [exact H1|]. exists (e :: before), e0, after, b0. split; [reflexivity|].
          split; [cbn [run_ui]; rewrite E; exact H2|exact H3].
        * intros (H1 & [|x before] & e0 & after & b0 & X & H2 & H3); split; try exact H1.
          -- injection X as -> ->. cbn in H2. injection H2 as ->. rewrite (proj2 (crash_step input lines checked cat Hb b0 e0 I)) in E; [discriminate E|auto].
          -- injection X as -> ->. cbn [run_ui] in H2. rewrite E in H2. exists before, e0, after, b0. auto.
      + split; [discriminate|]. intros (H1 & [|x before] & e0 & after & b0 & X & H2 & H3).
        * injection X as -> ->. cbn in H2. injection H2 as ->. rewrite (proj2 (crash_step input lines checked cat Hb b0 e0 I)) in E; [discriminate E|auto].
        * injection X as -> ->. cbn [run_ui] in H2. rewrite E in H2. discriminate H2.
      + split; [|reflexivity]. intros _. apply (crash_step input lines checked cat Hb a e I) in E. destruct E as (H1 & H2). split; [exact H1|].
        exists [], e, es, a. split; [reflexivity|]. split; [reflexivity|exact H2]. }
  rewrite (G es _ (new_inv lines cat empty)). split; intros (H1 & before & e & after & b & H2 & H3 & H4 & H5 & H6); split; try exact H1; exists before, e, after, b;
    repeat (split; [assumption|]).
  - rewrite <- H6. apply results_listed.
  - apply listed_is in H6. symmetry. exact H6.
Qed.
Print Assumptions C98_crash.
(* It ends at the first Escape or Control-q that it gets to, and at no other key. *)
Theorem C98_leaves : forall T (input : T -> key_event -> T * bool) lines checked cat es a,
  run_ui input lines checked cat a es = Quit <->
  exists before e after b, es = List.app before (e :: after) /\ run_ui input lines checked cat a before = Going b /\ leaves e.
Proof.
  intros T input lines checked cat.
  assert (St : forall a e, process input lines checked cat a e = Quit <-> leaves e).
  { intros a e. assert (Ty : forall k, type_key input a k <> Quit) by (intros k; unfold type_key; destruct (input (ap_area a) k); discriminate).
    assert (Mv : forall amt, of_move (move_index lines checked cat amt a) <> Quit) by (intros amt; destruct (move_index lines checked cat amt a); discriminate).
    unfold leaves. destruct e as [[c ctl pr]|]; cbn [process ke_code ke_press ke_control]; [|split; [discriminate|intros (k & X & _); discriminate X]].
    assert (No : forall x : progress T, x <> Quit -> (c <> KeyEsc) -> (c = KeyChar "q" -> ctl = false) ->
       (x = Quit <-> exists k, EKey {| ke_code := c; ke_control := ctl; ke_press := pr |} = EKey k /\ (ke_code k = KeyEsc \/ ke_code k = KeyChar "q" /\ ke_control k = true))).
    { intros x Nx N1 N2. split; [congruence|]. intros (k & X & Y). injection X as <-. cbn in Y. destruct Y as [Y|[Y1 Y2]]; [congruence|]. rewrite (N2 Y1) in Y2. discriminate. }
    destruct c as [| | |ch|n].
    - apply No; [destruct pr; auto|discriminate|discriminate].
    - apply No; [destruct pr; auto|discriminate|discriminate].
    - split; [|reflexivity]. intros _. eexists. split; [reflexivity|]. left. reflexivity.
    - destruct ch as [[] [] [] [] [] [] [] []]; try (apply No; [apply Ty|discriminate|discriminate]).
      destruct ctl; [|apply No; [apply Ty|discriminate|reflexivity]]. split; [|reflexivity]. intros _. eexists. split; [reflexivity|]. right. split; reflexivity.
    - apply No; [apply Ty|discriminate|discriminate]. }
  induction es as [|e es IH]; intros a; cbn [run_ui].
  - split; [discriminate|]. intros ([|x before] & e & after & b & X & _); discriminate X.
  - destruct (process input lines checked cat a e) as [b| |] eqn:E.
    + rewrite IH. split.
      * intros (before & e0 & after & b0 & -> & H2 & H3). exists (e :: before), e0, after, b0. split; [reflexivity|]. split; [cbn [run_ui]; rewrite E; exact H2|exact H3].
      * intros ([|x before] & e0 & after & b0 & X & H2 & H3).
        -- injection X as -> ->. cbn in H2. injection H2 as ->. apply (St b0) in H3. congruence.
        -- injection X as -> ->. cbn [run_ui] in H2. rewrite E in H2. exists before, e0, after, b0. auto.
    + split; [|reflexivity]. intros _. apply St in E. exists [], e, es, a. auto.
    + split; [discriminate|]. intros ([|x before] & e0 & after & b0 & X & H2 & H3).
      * injection X as -> ->. cbn in H2. injection H2 as ->. apply (St b0) in H3. congruence.
      * injection X as -> ->. cbn [run_ui] in H2. rewrite E in H2. discriminate H2.
Qed.
Print Assumptions C98_leaves.
(* On the command line the matching names are printed, one to a line, in catalog order. *)
Theorem C98_command_line : forall cat pattern, exists l,
  picks (fun x => within pattern (at_name x)) cat l /\
  command_line_search cat pattern = String.concat (String (ascii_of_nat 10) "") (map at_name l).
Proof.
  intros cat pattern. eexists. split; [|reflexivity]. apply filter_picks. intros a. apply contains_spec.
Qed.
Print Assumptions C98_command_line.

(* ---- what does not hold ---- *)
Lemma sample_honest : honest sample_input sample_lines.
Proof. intros t k t' H. unfold sample_input in H. destruct (ke_code k); injection H as <-; try reflexivity; discriminate. Qed.
(* a word that matches nothing, then Down twice: a debug build crashes *)
Theorem C98_no_crash_refuted : exists cat es, honest sample_input sample_lines /\ bounded cat /\ (forall e, In e es -> ~ leaves e) /\
  run_ui sample_input sample_lines true cat (new_app "") es = Crashed.
Proof.
  exists browse_cat, [hit (KeyChar "z"); hit KeyDown; hit KeyDown]. split; [exact sample_honest|]. split; [reflexivity|]. split; [|reflexivity].
  intros e [<-|[<-|[<-|[]]]] (k & X & [Y|[Y _]]); injection X as <-; discriminate Y.
Qed.
(* and a release build goes on with a selection that is not there *)
Theorem C98_selected_refuted : exists cat es a, honest sample_input sample_lines /\ bounded cat /\
  run_ui sample_input sample_lines false cat (new_app "") es = Going a /\ ap_selected a = Some 2%Z /\
  result sample_lines cat a = None /\ listed sample_lines cat a [].
Proof.
  exists browse_cat, [hit (KeyChar "z"); hit KeyDown; hit KeyDown; hit KeyDown]. eexists. split; [exact sample_honest|]. split; [reflexivity|].
  split; [reflexivity|]. split; [reflexivity|]. split; [reflexivity|]. apply results_listed.
Qed.
(* a name that the catalog holds twice, as it does for refined attributes, is printed twice *)
Theorem C98_once_refuted : exists cat, command_line_search cat "host" = "host.id" ++ String (ascii_of_nat 10) "host.id".
Proof. exists [browse_attr "host.id"; browse_attr "host.id"]. reflexivity. Qed.
Print Assumptions C98_no_crash_refuted.
Print Assumptions C98_selected_refuted.
Print Assumptions C98_once_refuted.
Example C98_nonvacuous : exists a, honest sample_input sample_lines /\ bounded browse_cat /\
  run_ui sample_input sample_lines true browse_cat (new_app "") [hit (KeyChar "h"); hit KeyDown; EOther; hit KeyDown; hit KeyDown] = Going a /\
  ap_selected a = Some 1%Z /\ listed sample_lines browse_cat a (map browse_attr ["http.method"; "http.url"]).
Proof.
  eexists. split; [exact sample_honest|]. split; [reflexivity|]. split; [reflexivity|]. split; [reflexivity|]. apply results_listed.
Qed.
