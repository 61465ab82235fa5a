(* C110: the settings of a command: flag, file, default, and the help. *)
From Coq Require Import String Ascii Bool Arith ZArith Lia List.
Import ListNotations.
From Verif Require Import Base BaseProofs BaseProofs2 Str MacroModel MacroSpec.
From Verif Require JqSpec JqProofs PropSearch PropNaming.
Local Open Scope string_scope.

(* ---------- annotations ---------- *)
Lemma parse_acc args : forall a0,
  let step := fun a m => match m with
                        | MDefault s => {| an_default := Some s; an_config_only := an_config_only a; an_path := an_path a; an_optional := an_optional a |}
                        | MPath s => {| an_default := an_default a; an_config_only := an_config_only a; an_path := Some s; an_optional := an_optional a |}
                        | MOptional => {| an_default := an_default a; an_config_only := an_config_only a; an_path := an_path a; an_optional := true |}
                        | MUnknown => a
                        end in
  let r := fold_left step args a0 in
  ((exists s, an_default r = Some s /\ says MDefault args s) \/ (an_default r = an_default a0 /\ silent MDefault args)) /\
  ((exists s, an_path r = Some s /\ says MPath args s) \/ (an_path r = an_path a0 /\ silent MPath args)) /\
  ((an_optional r = true /\ In MOptional args) \/ (an_optional r = an_optional a0 /\ ~ In MOptional args)) /\
  an_config_only r = an_config_only a0.
Proof.
  induction args as [|m args IH]; intros a0; cbn [fold_left].
  - repeat split; right; split; auto; intros x; intros [].
  - specialize (IH (match m with
                        | MDefault s => {| an_default := Some s; an_config_only := an_config_only a0; an_path := an_path a0; an_optional := an_optional a0 |}
                        | MPath s => {| an_default := an_default a0; an_config_only := an_config_only a0; an_path := Some s; an_optional := an_optional a0 |}
                        | MOptional => {| an_default := an_default a0; an_config_only := an_config_only a0; an_path := an_path a0; an_optional := true |}
                        | MUnknown => a0
                        end)). cbv zeta in IH |- *. set (r := fold_left _ args _) in *. destruct IH as (D & P & O & C). split; [|split; [|split]].
    + destruct D as [(s & E & a & b & -> & N)|(E & N)]; [left; exists s; split; [exact E|]; exists (m :: a), b; auto|].
      destruct m as [s|s| |]; cbn in E; [left; exists s; split; [exact E|]; exists [], args; auto|..]; right; (split; [exact E|]); intros x [X|X]; try discriminate; exact (N x X).
    + destruct P as [(s & E & a & b & -> & N)|(E & N)]; [left; exists s; split; [exact E|]; exists (m :: a), b; auto|].
      destruct m as [s|s| |]; cbn in E; [|left; exists s; split; [exact E|]; exists [], args; auto|..]; right; (split; [exact E|]); intros x [X|X]; try discriminate; exact (N x X).
    + destruct O as [(E & N)|(E & N)]; [left; split; [exact E|right; exact N]|].
      destruct m as [s|s| |]; cbn in E; [right|right|left|right]; try (split; [exact E|]; intros [X|X]; [discriminate|exact (N X)]). split; [exact E|left; reflexivity].
    + rewrite C. destruct m; reflexivity.
Qed.
Lemma parse_ok args only : let r := parse_config_annotation args only in
  ((exists s, an_default r = Some s /\ says MDefault args s) \/ (an_default r = None /\ silent MDefault args)) /\
  ((exists s, an_path r = Some s /\ says MPath args s) \/ (an_path r = None /\ silent MPath args)) /\
  ((an_optional r = true /\ In MOptional args) \/ (an_optional r = false /\ ~ In MOptional args)) /\
  an_config_only r = only.
Proof. exact (parse_acc args {| an_default := None; an_config_only := only; an_path := None; an_optional := false |}). Qed.
Lemma says_in mk args s : says mk args s -> In (mk s) args.
Proof. intros (a & b & -> & _). apply in_app_iff. right. left. reflexivity. Qed.
Lemma says_fun mk args s t : (forall x y, mk x = mk y -> x = y) -> says mk args s -> says mk args t -> s = t.
Proof.
  intros I (a & b & -> & N). revert N. induction a as [|x a IH]; intros N (a' & b' & E & N').
  - destruct a' as [|y a']; cbn in E; injection E as E1 E2; [auto|]. subst. destruct (N t). apply in_app_iff. right. left. reflexivity.
  - destruct a' as [|y a']; cbn in E; injection E as E1 E2; subst; [destruct (N' s); apply in_app_iff; right; left; reflexivity|]. apply IH; [exact N|]. exists a', b'. auto.
Qed.
Lemma md_inj x y : MDefault x = MDefault y -> x = y. Proof. congruence. Qed.
Lemma mp_inj x y : MPath x = MPath y -> x = y. Proof. congruence. Qed.
Lemma decided_unique f a b : decided_by f a -> decided_by f b -> a = b.
Proof.
  intros (Da & u & v & E & N) (Db & u' & v' & E' & N'). rewrite E in E'. clear E. revert u' E' N'. induction u as [|x u IH]; intros [|y u'] E' N'; cbn in E'; injection E' as E1 E2; subst; auto.
  - inversion N'; contradiction.
  - inversion N; contradiction.
  - inversion N; inversion N'; subst. eauto.
Qed.
Lemma classify_decided f : match classify (fl_attrs f) with
  | KConfig a => exists args, (decided_by f (FConfig args) /\ a = parse_config_annotation args false) \/ (decided_by f (FConfigOnly args) /\ a = parse_config_annotation args true)
  | KShared k => decided_by f (FShared (Some k))
  | KCliOnly => forall a, ~ decided_by f a
  end.
Proof.
  unfold decided_by. induction (fl_attrs f) as [|x l IH]; cbn [classify].
  - intros a (D & u & v & E & _). destruct u; discriminate.
  - assert (R : ~ decisive x -> forall a, (decisive a /\ exists before after, l = List.app before (a :: after) /\ Forall (fun x => ~ decisive x) before) -> decisive a /\ exists before after, x :: l = List.app before (a :: after) /\ Forall (fun x => ~ decisive x) before).
    { intros N a (D & u & v & -> & F). split; [exact D|]. exists (x :: u), v. split; [reflexivity|constructor; assumption]. }
    assert (R' : ~ decisive x -> forall a, decisive a /\ (exists before after, x :: l = List.app before (a :: after) /\ Forall (fun x => ~ decisive x) before) -> decisive a /\ exists before after, l = List.app before (a :: after) /\ Forall (fun x => ~ decisive x) before).
    { intros N a (D & [|y u] & v & E & F); cbn in E; injection E as E1 E2; subst; [contradiction|]. split; [exact D|]. exists u, v. inversion F. auto. }
    destruct x as [s|[k|]|args|args|]; try (exists args; first [left; split; [split; [exact I|]; exists [], l; auto|reflexivity]|right; split; [split; [exact I|]; exists [], l; auto|reflexivity]]); try (split; [exact I|]; exists [], l; auto);
      (assert (Nd : ~ decisive (FOther)) by (intros []); destruct (classify l) as [k'|a|]; [apply R; [intros []|exact IH]|destruct IH as (args & [(H & E)|(H & E)]); exists args; [left|right]; (split; [apply R; [intros []|exact H]|exact E])|intros a H; apply (IH a), R'; [intros []|exact H]]).
Qed.
Lemma configured_classify f args : configured f args -> exists only, classify (fl_attrs f) = KConfig (parse_config_annotation args only) /\ (only = false <-> decided_by f (FConfig args)).
Proof.
  intros C. pose proof (classify_decided f) as K. destruct (classify (fl_attrs f)) as [k|a|].
  - destruct C as [C|C]; discriminate (decided_unique _ _ _ K C).
  - destruct K as (args' & [(H & E)|(H & E)]); destruct C as [C|C]; try discriminate (decided_unique _ _ _ H C); pose proof (decided_unique _ _ _ H C) as X; injection X as ->.
    + exists false. split; [congruence|]. tauto.
    + exists true. split; [congruence|]. split; [discriminate|]. intros D. discriminate (decided_unique _ _ _ D C).
  - destruct C as [C|C]; destruct (K _ C).
Qed.
Lemma classify_configured f a : classify (fl_attrs f) = KConfig a -> exists args only, configured f args /\ a = parse_config_annotation args only.
Proof. intros E. pose proof (classify_decided f) as K. rewrite E in K. destruct K as (args & [(H & ->)|(H & ->)]); exists args; eexists; (split; [|reflexivity]); [left|right]; exact H. Qed.
Lemma configured_fun f a b : configured f a -> configured f b -> a = b.
Proof. intros [A|A] [B|B]; pose proof (decided_unique _ _ _ A B) as E; congruence. Qed.

(* ---------- paths ---------- *)
Lemma dotted_ok s p : dotted s p <-> p = split_char "." s.
Proof.
  split.
  - intros (N & -> & F). induction F as [|x p H F IH]; [congruence|]. destruct p as [|y p]; [cbn; symmetry; apply (JqProofs.split_dotless _ H)|].
    change (join "." (x :: y :: p)) with (x ++ "." ++ join "." (y :: p)). rewrite (JqProofs.split_dot _ _ H). f_equal. apply IH. discriminate.
  - intros ->. split; [apply PropNaming.split_ne|].
    assert (G : forall n, forall s, String.length s <= n -> s = join "." (split_char "." s) /\ Forall (fun x => forall a b, x <> a ++ "." ++ b) (split_char "." s)).
    { clear. induction n as [|n IH]; intros s L.
      - destruct s; [|cbn in L; lia]. split; [reflexivity|]. repeat constructor. intros [|] b; discriminate.
      - destruct (contains "." s) eqn:C.
        + apply contains_spec in C. apply JqProofs.first_dot in C as (a & b & -> & H). rewrite (JqProofs.split_dot _ _ H). destruct (IH b) as (E & F).
          { assert (X : String.length (a ++ "." ++ b) = String.length a + S (String.length b)) by (clear; induction a; cbn; [reflexivity|f_equal; assumption]). lia. }
          destruct (split_char "." b) as [|y l] eqn:Eb; [destruct (PropNaming.split_ne _ _ Eb)|]. split; [|constructor; assumption]. change (join "." (a :: y :: l)) with (a ++ "." ++ join "." (y :: l)). rewrite <- E. reflexivity.
        + pose proof (proj1 (JqProofs.any_dot s) C) as H. rewrite (JqProofs.split_dotless _ H). split; [reflexivity|repeat constructor; exact H]. }
    apply (G (String.length s)). lia.
Qed.
Lemma stmt_target f : match override_stmt f with
  | Some (p, o) => target f p /\ (forall q, target f q -> q = p) /\ (o = true <-> may_be_unset f)
  | None => forall p, ~ target f p
  end.
Proof.
  unfold override_stmt. pose proof (classify_decided f) as K. destruct (classify (fl_attrs f)) as [k|a|] eqn:Ek.
  - intros p (args & C & _). destruct (configured_classify _ _ C) as (only & E & _). congruence.
  - clear K. destruct (classify_configured f a Ek) as (args & only & C & ->). destruct (parse_ok args only) as (D & P & O & _). cbv zeta in D, P, O.
    assert (T : forall q, target f q -> (exists s, says MPath args s /\ dotted s q) \/ (silent MPath args /\ q = [fl_name f])) by (intros q (args' & C' & H); rewrite (configured_fun _ _ _ C C'); exact H).
    assert (U : may_be_unset f <-> (exists s, says MPath args s /\ In MOptional args) \/ (silent MPath args /\ silent MDefault args)) by (split; [intros (args' & C' & H); rewrite (configured_fun _ _ _ C C'); exact H|intros H; exists args; auto]).
    destruct P as [(s & -> & Sp)|(-> & Np)].
    + split; [exists args; split; [exact C|]; left; exists s; split; [exact Sp|apply dotted_ok; reflexivity]|]. split.
      * intros q Hq. destruct (T q Hq) as [(s' & S' & Dq)|(N & _)]; [|destruct (N s); apply says_in, Sp]. rewrite (says_fun _ _ _ _ mp_inj Sp S'). apply dotted_ok, Dq.
      * rewrite U. destruct O as [(-> & H)|(-> & H)]; split; auto; try discriminate. { intros _. left. eauto. } intros [(s' & _ & X)|(N & _)]; [contradiction|destruct (N s); apply says_in, Sp].
    + destruct D as [(d & -> & Sd)|(-> & Nd)]; (split; [exists args; split; [exact C|]; right; auto|]); (split; [intros q Hq; destruct (T q Hq) as [(s' & S' & _)|(_ & E)]; [destruct (Np s'); apply says_in, S'|exact E]|]); rewrite U; split; auto; try discriminate.
      intros [(s' & S' & _)|(_ & N)]; [destruct (Np s'); apply says_in, S'|destruct (N d); apply says_in, Sd].
  - intros p (args & C & _). destruct (configured_classify _ _ C) as (only & E & _). congruence.
Qed.

(* ---------- setting a value ---------- *)
Lemma lookup_set k w l k' : slookup k' (map (fun kv : string * value => if String.eqb (fst kv) k then (fst kv, w) else kv) l)
  = if String.eqb k' k then match slookup k l with Some _ => Some w | None => None end else slookup k' l.
Proof.
  unfold slookup. induction l as [|[n x] l IH]; [cbn; destruct (String.eqb k' k); reflexivity|]. cbn [map fst]. destruct (String.eqb_spec n k) as [E|N]; cbn [lookup].
  - rewrite E, String.eqb_refl. destruct (String.eqb_spec k' k) as [|M]; [reflexivity|exact IH].
  - rewrite IH. destruct (String.eqb_spec k' n) as [E|M]; [destruct (String.eqb_spec k' k); [congruence|reflexivity]|]. destruct (String.eqb_spec k n) as [E|]; [congruence|reflexivity].
Qed.
Lemma set_ok p : forall x v, (exists w, at_path p v = Some w) -> exists v', set_path p x v = Some v' /\ at_path p v' = Some x /\ (forall q, apart p q -> at_path q v' = at_path q v) /\ forall q, at_path q v <> None -> apart p q \/ (exists r, p = List.app q r) -> at_path q v' <> None.
Proof.
  induction p as [|k p IH]; intros x v (w & E).
  - exists x. split; [reflexivity|]. split; [reflexivity|]. split; [intros q (_ & H); destruct (H q); reflexivity|]. intros q _ [(_ & H)|(r & H)]; [destruct (H q); reflexivity|]. destruct q; [cbn; discriminate|discriminate].
  - cbn [at_path] in E. destruct v as [| | | | | | | | | |l]; try discriminate. destruct (slookup k l) as [u|] eqn:L; [|discriminate]. destruct (IH x u (ex_intro _ w E)) as (u' & S & A & Q & X). cbn [set_path]. rewrite L, S. eexists. split; [reflexivity|]. split; [|split].
    + cbn [at_path]. rewrite lookup_set, String.eqb_refl, L. exact A.
    + intros [|k' q] (H1 & H2); [destruct (H1 (k :: p)); reflexivity|]. cbn [at_path]. rewrite lookup_set. destruct (String.eqb_spec k' k) as [->|N]; [|reflexivity]. rewrite L. apply Q. split; intros r E'; [apply (H1 r)|apply (H2 r)]; cbn; congruence.
    + intros [|k' q] Hn Ha; [cbn; discriminate|]. cbn [at_path] in *. rewrite lookup_set. destruct (String.eqb_spec k' k) as [->|N]; [|exact Hn]. rewrite L in *. apply X; [exact Hn|]. destruct Ha as [(H1 & H2)|(r & E')]; [left; split; intros r E'; [apply (H1 r)|apply (H2 r)]; cbn; congruence|right; exists r; cbn in E'; congruence].
Qed.
Lemma apart_sym p q : apart p q -> apart q p.
Proof. intros (A & B). split; assumption. Qed.

Theorem C110_layers : forall c cli cfg, separate (cm_fields c) ->
  (forall f p, In f (cm_fields c) -> target f p -> at_path p cfg <> None) ->
  exists cfg', apply_overrides c cli cfg = Some cfg' /\
    (forall f p, In f (cm_fields c) -> target f p ->
       match cli (fl_name f) with
       | Some v => (may_be_unset f -> at_path p cfg' = Some (VSome v)) /\ (~ may_be_unset f -> at_path p cfg' = Some v)
       | None => at_path p cfg' = at_path p cfg
       end) /\
    (forall p, (forall f q, In f (cm_fields c) -> target f q -> apart p q) -> at_path p cfg' = at_path p cfg).
Proof.
  intros c cli cfg S. unfold apply_overrides. unfold separate in S. revert cfg. induction S as [|f fs Hf S IH]; intros cfg P; cbn [fold_left]; [exists cfg; split; [reflexivity|]; split; [intros f p []|reflexivity]|].
  pose proof (stmt_target f) as T. destruct (override_stmt f) as [[p o]|].
  - destruct T as (Tp & Tu & To). assert (E : exists w, at_path p cfg = Some w) by (destruct (at_path p cfg) eqn:X; [eauto|destruct (P f p (or_introl eq_refl) Tp X)]).
    rewrite Forall_forall in Hf.
    assert (M : exists cfg1, override_if_set p (cli (fl_name f)) o cfg = Some cfg1 /\ at_path p cfg1 = match cli (fl_name f) with Some v => Some (if o then VSome v else v) | None => at_path p cfg end /\ forall q, apart p q -> at_path q cfg1 = at_path q cfg).
    { unfold override_if_set. destruct (cli (fl_name f)) as [v|]; [|exists cfg; auto]. destruct (set_ok p (if o then VSome v else v) cfg E) as (cfg1 & A & B & C & _). eauto. }
    destruct M as (cfg1 & -> & A & Q). destruct (IH cfg1) as (cfg' & E' & F & G).
    { intros g q Hg Tq. rewrite (Q q); [apply P with g; [right; exact Hg|exact Tq]|]. exact (Hf g Hg p q Tp Tq). }
    exists cfg'. split; [exact E'|]. split.
    + intros g q [<-|Hg] Tq.
      * rewrite (Tu q Tq) in *. rewrite (G p), A by (intros g q' Hg Tg; exact (Hf g Hg p q' Tp Tg)). destruct (cli (fl_name f)) as [v|]; [|reflexivity]. destruct o; split; intros H; auto; [destruct H; apply To; reflexivity|apply To in H; discriminate].
      * specialize (F g q Hg Tq). destruct (cli (fl_name g)); [exact F|]. rewrite F. apply Q. exact (Hf g Hg p q Tp Tq).
    + intros q H. rewrite G by (intros g q' Hg Tg; exact (H g q' (or_intror Hg) Tg)). apply Q, apart_sym, (H f p (or_introl eq_refl) Tp).
  - destruct (IH cfg) as (cfg' & E' & F & G); [intros g q Hg; apply P; right; exact Hg|]. exists cfg'. split; [exact E'|]. split.
    + intros g q [<-|Hg] Tq; [destruct (T q Tq)|apply F; assumption].
    + intros q H. apply G. intros g q' Hg. apply H. right. exact Hg.
Qed.
Print Assumptions C110_layers.

(* ---------- help ---------- *)
Lemma rposition_split p l : match rposition p l with
  | Some i => exists a b x, l = List.app a (x :: b) /\ length a = i /\ p x = true /\ Forall (fun y => p y = false) b
  | None => Forall (fun y => p y = false) l
  end.
Proof.
  induction l as [|y l IH]; cbn [rposition]; [constructor|]. destruct (rposition p l) as [i|].
  - destruct IH as (a & b & x & -> & <- & Px & F). exists (y :: a), b, x. auto.
  - destruct (p y) eqn:Py; [exists [], l, y; auto|constructor; assumption].
Qed.
Lemma no_docs l : Forall (fun y => is_doc y = false) l -> flat_map (fun a => match a with FDoc s => [s] | _ => [] end) l = [].
Proof. intros F. induction F as [|[] l H F IH]; cbn; try discriminate; exact IH || reflexivity. Qed.
Lemma insert_docs l s : let pos := match rposition is_doc l with Some i => i + 1 | None => 0 end in
  flat_map (fun a => match a with FDoc s => [s] | _ => [] end) (insert_at pos (FDoc s) l) = List.app (flat_map (fun a => match a with FDoc s => [s] | _ => [] end) l) [s].
Proof.
  cbv zeta. pose proof (rposition_split is_doc l) as H. unfold insert_at. destruct (rposition is_doc l) as [i|].
  - destruct H as (a & b & x & -> & <- & Px & F). replace (length a + 1) with (length (List.app a [x])) by (rewrite app_length; reflexivity).
    replace (List.app a (x :: b)) with (List.app (List.app a [x]) b) by (rewrite <- app_assoc; reflexivity).
    rewrite firstn_app, Nat.sub_diag, firstn_all, firstn_O, app_nil_r, skipn_app, Nat.sub_diag, skipn_all, skipn_O. cbn [List.app]. rewrite !flat_map_app. cbn [flat_map]. rewrite (no_docs b F), !app_nil_r. reflexivity.
  - cbn [firstn skipn List.app flat_map]. rewrite (no_docs l H). reflexivity.
Qed.
Lemma help_default f args : decided_by f (FConfig args) -> field_config_default (fl_attrs f) = an_default (parse_config_annotation args false).
Proof.
  intros (_ & u & v & E & N). rewrite E. clear E. induction N as [|x u H N IH]; [reflexivity|]. cbn [List.app field_config_default]. destruct x; try exact IH. destruct H; exact I.
Qed.
Theorem C110_help : forall f args, decided_by f (FConfig args) ->
  (forall s, says MDefault args s -> help_lines (inject_default_docs f) = List.app (help_lines f) ["[default: " ++ s ++ "]"]) /\
  (silent MDefault args -> help_lines (inject_default_docs f) = help_lines f) /\
  fl_name (inject_default_docs f) = fl_name f /\ fl_type (inject_default_docs f) = fl_type f /\
  (forall p, target (inject_default_docs f) p <-> target f p) /\ (may_be_unset (inject_default_docs f) <-> may_be_unset f).
Proof.
  intros f args D. pose proof (help_default f args D) as H. destruct (parse_ok args false) as (P & _). cbv zeta in P. unfold inject_default_docs. rewrite H.
  assert (Dd : forall (f' : field), (exists x, fl_attrs f' = insert_at (match rposition is_doc (fl_attrs f) with Some i => i + 1 | None => 0 end) (FDoc x) (fl_attrs f)) -> forall a, decided_by f' a <-> decided_by f a).
  { intros f' (x & Ef). assert (K : decided_by f' (FConfig args)).
    { destruct D as (_ & u & v & E & N). split; [exact I|]. rewrite Ef. unfold insert_at. set (pos := match rposition is_doc (fl_attrs f) with Some i => i + 1 | None => 0 end). rewrite E.
      destruct (Nat.leb_spec pos (length u)) as [L|L].
      - rewrite firstn_app, skipn_app. replace (pos - length u) with 0 by lia. cbn [firstn skipn]. rewrite app_nil_r. exists (List.app (firstn pos u) (FDoc x :: skipn pos u)), v. split; [rewrite <- app_assoc; reflexivity|].
        apply Forall_app. rewrite <- (firstn_skipn pos u) in N. apply Forall_app in N as (N1 & N2). split; [exact N1|]. constructor; [intros []|exact N2].
      - rewrite firstn_app. destruct (pos - length u) as [|k] eqn:K; [lia|]. rewrite (firstn_all2 u) by lia. cbn [firstn]. exists u. eexists. rewrite <- app_assoc. split; [reflexivity|exact N]. }
    intros a. split; intros X; [rewrite (decided_unique _ _ _ X K); exact D|rewrite (decided_unique _ _ _ X D); exact K]. }
  assert (Same : forall f', fl_name f' = fl_name f -> (forall a, decided_by f' a <-> decided_by f a) -> (forall p, target f' p <-> target f p) /\ (may_be_unset f' <-> may_be_unset f)).
  { intros f' En Ha. unfold target, may_be_unset, configured. rewrite En. split; [intros p|]; split; intros (ar & C & R); exists ar; (split; [destruct C; [left|right]; apply Ha; assumption|exact R]). }
  destruct P as [(s & E & Sd)|(E & Nd)]; rewrite E.
  - split; [intros s' S'; rewrite (says_fun _ _ _ _ md_inj S' Sd); apply insert_docs|]. split; [intros N; destruct (N s); apply says_in, Sd|]. split; [reflexivity|]. split; [reflexivity|]. apply Same; [reflexivity|]. apply Dd. eexists. reflexivity.
  - split; [intros s' S'; destruct (Nd s'); apply says_in, S'|]. split; [reflexivity|]. split; [reflexivity|]. split; [reflexivity|]. split; reflexivity.
Qed.
Print Assumptions C110_help.

(* ---------- numbers ---------- *)
Lemma digit_ok c d : digit c d <-> digit_of c = Some d.
Proof.
  unfold digit_of. split.
  - intros (n & L & -> & ->). do 10 (destruct n as [|n]; [reflexivity|]). lia.
  - destruct (Nat.leb_spec 48 (nat_of_ascii c)) as [A|A]; cbn [andb]; [|discriminate]. destruct (Nat.leb_spec (nat_of_ascii c) 57) as [B|B]; [|discriminate]. intros E. injection E as <-.
    exists (nat_of_ascii c - 48). split; [lia|]. split; [|reflexivity]. replace (48 + (nat_of_ascii c - 48)) with (nat_of_ascii c) by lia. symmetry. apply ascii_nat_embedding.
Qed.
Lemma digits_parse s z : digits s z -> forall t, parse_digits 0 (s ++ t) = parse_digits z t.
Proof.
  intros H. induction H as [c d D|s z c d H IH D]; intros t.
  - apply digit_ok in D. cbn [append parse_digits]. rewrite D. replace (10 * 0 + d)%Z with d by lia. reflexivity.
  - apply digit_ok in D. rewrite str_app_assoc. rewrite IH. cbn [append parse_digits]. rewrite D. reflexivity.
Qed.
Lemma digits_ne s z : digits s z -> s <> "".
Proof. intros H. destruct H as [c d D|s z c d H D]; [discriminate|]. destruct s; discriminate. Qed.
Lemma parse_digits_acc t : forall s z y, digits s z -> parse_digits z t = Some y -> digits (s ++ t) y.
Proof.
  induction t as [|c t IH]; intros s z y D; cbn [parse_digits].
  - intros E. injection E as <-. rewrite str_app_nil_r. exact D.
  - destruct (digit_of c) as [d|] eqn:E; [|discriminate]. intros P. replace (s ++ String c t) with ((s ++ String c "") ++ t) by (rewrite str_app_assoc; reflexivity).
    eapply IH; [|exact P]. constructor; [exact D|apply digit_ok, E].
Qed.
Lemma parse_number_ok s z : parse_number s = Some z <-> digits s z.
Proof.
  split.
  - destruct s as [|c s]; [discriminate|]. cbn [parse_number parse_digits]. destruct (digit_of c) as [d|] eqn:E; [|discriminate]. intros P. apply (parse_digits_acc s (String c "") (10 * 0 + d)%Z); [|exact P]. replace (10 * 0 + d)%Z with d by lia. constructor. apply digit_ok, E.
  - intros D. pose proof (digits_parse s z D "") as P. rewrite str_app_nil_r in P. pose proof (digits_ne _ _ D). destruct s; [congruence|exact P].
Qed.
Lemma digits_head c r z : digits (String c r) z -> c <> "+"%char /\ c <> "-"%char.
Proof.
  intros D. apply parse_number_ok in D. cbn [parse_number parse_digits] in D. split; intros ->; cbn in D; discriminate.
Qed.
Lemma parse_int_ok signed lo hi s z : (signed = false <-> lo = 0%Z) ->
  parse_int signed lo hi s = Some z <-> (lo <= z <= hi)%Z /\ numeral s z /\ (lo = 0%Z -> forall r, s <> "-" ++ r).
Proof.
  intros Hs. unfold parse_int. set (n := match s with String c r => _ | EmptyString => None end).
  assert (N : n = Some z <-> numeral s z /\ (signed = false -> forall r, s <> "-" ++ r)).
  { unfold n, numeral. destruct s as [|c r].
    - split; [discriminate|]. intros ([D|[(r & E & _)|(r & y & E & _)]] & _); try discriminate. destruct (digits_ne _ _ D). reflexivity.
    - destruct (Ascii.eqb_spec c "+") as [->|Np].
      + rewrite parse_number_ok. split; [intros D; split; [right; left; exists r; auto|intros _ r'; discriminate]|]. intros ([D|[(r' & E & D)|(r' & y & E & _)]] & _); [destruct (digits_head _ _ _ D); congruence|injection E as ->; exact D|discriminate].
      + destruct (Ascii.eqb_spec c "-") as [->|Nm].
        * destruct signed.
          -- split.
             ++ destruct (parse_number r) as [y|] eqn:P; [|discriminate]. cbn. intros E. injection E as <-. split; [right; right; exists r, y; split; [reflexivity|]; split; [apply parse_number_ok, P|reflexivity]|discriminate].
             ++ intros ([D|[(r' & E & D)|(r' & y & E & D & ->)]] & _); [destruct (digits_head _ _ _ D); congruence|discriminate|]. injection E as ->. apply parse_number_ok in D. rewrite D. reflexivity.
          -- split; [discriminate|]. intros (_ & H). destruct (H eq_refl r). reflexivity.
        * rewrite parse_number_ok. split; [intros D; split; [left; exact D|intros _ r' E; injection E as E _; congruence]|]. intros ([D|[(r' & E & _)|(r' & y & E & _)]] & _); [exact D|injection E as E _; congruence|injection E as E _; congruence]. }
  rewrite <- Hs. destruct n as [x|].
  - destruct ((lo <=? x)%Z && (x <=? hi)%Z) eqn:B.
    + apply andb_true_iff in B as (B1 & B2). apply Z.leb_le in B1, B2. split; [intros E; injection E as ->; split; [lia|apply N; reflexivity]|]. intros (_ & H). apply N, H.
    + split; [discriminate|]. intros (L & H). apply N in H. injection H as ->. apply andb_false_iff in B as [B|B]; apply Z.leb_gt in B; lia.
  - split; [discriminate|]. intros (_ & H). apply N in H. discriminate.
Qed.
Lemma int_type_ok n lo hi : int_range n lo hi -> exists signed, int_type n = Some (signed, lo, hi) /\ (signed = false <-> lo = 0%Z).
Proof. intros H; destruct H; eexists; (split; [reflexivity|]); split; intros X; try reflexivity; try discriminate. Qed.
Lemma int_type_inv n signed lo hi : int_type n = Some (signed, lo, hi) -> int_range n lo hi.
Proof.
  unfold int_type. repeat (match goal with |- context [String.eqb n ?k] => destruct (String.eqb_spec n k) as [->|] end; [intros E; injection E as _ <- <-; constructor|]). discriminate.
Qed.
Lemma reads_parse n s lo hi signed z : int_type n = Some (signed, lo, hi) -> parse_int signed lo hi s = Some z <-> reads_int n s z.
Proof.
  intros E. pose proof (int_type_inv _ _ _ _ E) as R. destruct (int_type_ok _ _ _ R) as (sg & E' & H). rewrite E in E'. injection E' as <-. rewrite (parse_int_ok signed lo hi s z H). split.
  - intros X. exists lo, hi. auto.
  - intros (lo' & hi' & R' & X). destruct (int_type_ok _ _ _ R') as (sg & E' & _). rewrite E in E'. injection E' as _ <- <-. exact X.
Qed.

(* ---------- defaults ---------- *)
Lemma default_reads addr_ok fp n s v : reads addr_ok fp n s v -> default_value addr_ok fp (TName n) (Some s) = Some v.
Proof.
  unfold default_value. cbn [last_type_segment]. destruct v as [x|x|x|b|t z|t x|x| | | |]; cbn [reads]; try contradiction.
  - intros (-> & ->). reflexivity.
  - intros (-> & ->). reflexivity.
  - intros (-> & -> & A). cbn. rewrite A. reflexivity.
  - intros (-> & ->). destruct b; reflexivity.
  - intros (-> & R). assert (R' := R). destruct R' as (lo & hi & Ir & _). destruct (int_type_ok _ _ _ Ir) as (sg & Et & _). apply (reads_parse _ _ _ _ _ _ Et) in R.
    destruct (String.eqb_spec n "String") as [->|]; [discriminate Et|]. destruct (String.eqb_spec n "PathBuf") as [->|]; [discriminate Et|]. destruct (String.eqb_spec n "SocketAddr") as [->|]; [discriminate Et|]. destruct (String.eqb_spec n "bool") as [->|]; [discriminate Et|]. rewrite Et, R. reflexivity.
  - intros (-> & [-> | ->] & E); cbn; rewrite E; reflexivity.
  - intros (-> & N). assert (K : forall k, In k named_types -> String.eqb n k = false) by (intros k Hk; destruct (String.eqb_spec n k) as [->|]; [contradiction|reflexivity]).
    unfold int_type. rewrite !K by (unfold named_types; cbn; tauto). reflexivity.
Qed.
Lemma default_fields_lookup addr_ok fp l d n t a : default_fields addr_ok fp l = Some d -> NoDup (map (fun x => fst (fst x)) l) -> In (n, t, a) l ->
  exists v, slookup n d = Some v /\ default_value addr_ok fp (option_inner t) (an_default a) = Some v.
Proof.
  revert d. induction l as [|[[n' t'] a'] l IH]; intros d; cbn [default_fields]; [intros _ _ []|]. destruct (default_value addr_ok fp (option_inner t') (an_default a')) as [v|] eqn:E; [|discriminate]. destruct (default_fields addr_ok fp l) as [vs|]; [|discriminate]. intros X. injection X as <-. cbn [map fst]. intros N. inversion N as [|? ? Hn N']; subst. unfold slookup. cbn [lookup]. intros [Y|Y].
  - injection Y as -> -> ->. rewrite String.eqb_refl. exists v. auto.
  - destruct (IH vs eq_refl N' Y) as (w & L & D). destruct (String.eqb_spec n n') as [->|]; [destruct Hn; apply in_map_iff; exists (n', t, a); auto|]. exists w. auto.
Qed.
Lemma config_fields_in fs n t a : In (n, t, a) (config_fields fs) <-> exists f, In f fs /\ fl_name f = n /\ fl_type f = t /\ classify (fl_attrs f) = KConfig a /\ an_path a = None.
Proof.
  induction fs as [|g fs IH]; cbn [config_fields In]; [split; [intros []|intros (f & [] & _)]|].
  assert (R : (exists f, (g = f \/ In f fs) /\ fl_name f = n /\ fl_type f = t /\ classify (fl_attrs f) = KConfig a /\ an_path a = None) <-> (fl_name g = n /\ fl_type g = t /\ classify (fl_attrs g) = KConfig a /\ an_path a = None) \/ In (n, t, a) (config_fields fs)).
  { rewrite IH. split; [intros (f & [->|H] & X); [left; exact X|right; exists f; auto]|intros [X|(f & H & X)]; [exists g; auto|exists f; auto]]. }
  rewrite R. destruct (classify (fl_attrs g)) as [k|b|]; try (split; [auto|intros [(_ & _ & X & _)|X]; [discriminate|exact X]]).
  destruct (an_path b) as [p|] eqn:E; cbn [In]; split; auto.
  - intros [(_ & _ & X & Y)|X]; [injection X as ->; congruence|exact X].
  - intros [X|X]; [left; injection X as -> -> ->; auto|auto].
  - intros [(<- & <- & X & _)|X]; [left; injection X as ->; reflexivity|auto].
Qed.
Lemma config_fields_nodup fs : NoDup (map fl_name fs) -> NoDup (map (fun x => fst (fst x)) (config_fields fs)).
Proof.
  induction fs as [|g fs IH]; cbn [config_fields map]; [constructor|]. intros N. inversion N as [|? ? Hn N']; subst. specialize (IH N'). destruct (classify (fl_attrs g)) as [k|a|]; try exact IH. destruct (an_path a); [exact IH|]. cbn [map fst]. constructor; [|exact IH].
  intros X. apply in_map_iff in X as ([[n t] b] & E & X). cbn in E. subst n. apply config_fields_in in X as (f & Hf & En & _). apply Hn. rewrite <- En. apply in_map, Hf.
Qed.
Lemma configured_in f fs args : In f fs -> configured f args -> silent MPath args -> exists only, In (fl_name f, fl_type f, parse_config_annotation args only) (config_fields fs).
Proof.
  intros H C N. destruct (configured_classify _ _ C) as (only & E & _). exists only. apply config_fields_in. exists f. repeat split; auto. destruct (parse_ok args only) as (_ & [(s & _ & S)|(P & _)] & _); [destruct (N s); apply says_in, S|exact P].
Qed.
Theorem C110_defaults : forall addr_ok float_parse c, cm_external c = None -> NoDup (map fl_name (cm_fields c)) ->
  (forall f args s, In f (cm_fields c) -> configured f args -> silent MPath args -> says MDefault args s ->
     exists n v, fl_type f = TOption (TName n) /\ reads addr_ok float_parse n s v) ->
  exists d, default_config addr_ok float_parse c = Some d /\
    forall f args, In f (cm_fields c) -> configured f args -> silent MPath args ->
      (silent MDefault args -> at_path [fl_name f] d = Some VNone) /\
      (forall s n v, says MDefault args s -> fl_type f = TOption (TName n) -> reads addr_ok float_parse n s v -> at_path [fl_name f] d = Some v).
Proof.
  intros addr_ok fp c X N R. unfold default_config. rewrite X.
  assert (E : exists l, default_fields addr_ok fp (config_fields (cm_fields c)) = Some l).
  { assert (G : forall n t a, In (n, t, a) (config_fields (cm_fields c)) -> exists v, default_value addr_ok fp (option_inner t) (an_default a) = Some v).
    { intros n t a H. apply config_fields_in in H as (f & Hf & _ & <- & K & P). destruct (classify_configured _ _ K) as (args & only & C & ->). destruct (parse_ok args only) as ([(s & -> & S)|(-> & _)] & [(s' & P' & _)|(_ & Np)] & _); try congruence; [|eexists; reflexivity].
      destruct (R f args s Hf C Np S) as (m & v & -> & Rd). exists v. apply default_reads, Rd. }
    induction (config_fields (cm_fields c)) as [|[[n t] a] l IH]; [exists []; reflexivity|]. destruct IH as (vs & Ev); [intros; eapply G; right; eassumption|]. destruct (G n t a (or_introl eq_refl)) as (v & Ed). cbn [default_fields]. rewrite Ed, Ev. eauto. }
  destruct E as (l & E). rewrite E. eexists. split; [reflexivity|]. intros f args Hf C Np. destruct (configured_in f _ args Hf C Np) as (only & I). destruct (default_fields_lookup _ _ _ _ _ _ _ E (config_fields_nodup _ N) I) as (v & L & D). cbn [at_path]. rewrite L. destruct (parse_ok args only) as (P & _). split.
  - intros Nd. destruct P as [(s & _ & S)|(Pd & _)]; [destruct (Nd s); apply says_in, S|]. rewrite Pd in D. injection D as <-. reflexivity.
  - intros s n w S Et Rd. destruct P as [(s' & Pd & S')|(_ & Nd)]; [|destruct (Nd s); apply says_in, S]. rewrite (says_fun _ _ _ _ md_inj S S') in Rd. rewrite Pd, Et in D. cbn [option_inner extract_option_inner] in D. rewrite (default_reads _ _ _ _ _ Rd) in D. congruence.
Qed.
Print Assumptions C110_defaults.

(* a default that is not of the type of its setting is shown in the help, and zero is used *)
Theorem C110_help_refuted : forall addr_ok float_parse n lo hi s, int_range n lo hi -> (forall z, ~ reads_int n s z) ->
  let f := cfg_default "port" n s in
  default_config addr_ok float_parse (cmd "x" true [f]) = Some (VStruct [("port", VInt n 0)]) /\
  help_lines (inject_default_docs f) = ["port"; "[default: " ++ s ++ "]"].
Proof.
  intros addr_ok fp n lo hi s R N. split; [|reflexivity]. destruct (int_type_ok _ _ _ R) as (sg & Et & _).
  assert (P : parse_int sg lo hi s = None). { destruct (parse_int sg lo hi s) as [z|] eqn:P; [|reflexivity]. apply (reads_parse _ _ _ _ _ _ Et) in P. destruct (N z P). }
  unfold default_config. cbn [cmd cm_external cm_fields config_fields classify cfg_default fl_attrs fld parse_config_annotation fold_left an_path an_default fl_name fl_type opt default_fields option_inner extract_option_inner]. unfold default_value. cbn [last_type_segment].
  assert (K : forall k, int_type k = None -> String.eqb n k = false) by (intros k Hk; destruct (String.eqb_spec n k) as [->|]; [congruence|reflexivity]).
  rewrite !K by reflexivity. rewrite Et, P. reflexivity.
Qed.
Print Assumptions C110_help_refuted.

(* ---------- types ---------- *)
Lemma default_typed addr_ok fp n s v : In n named_types -> default_value addr_ok fp (TName n) (Some s) = Some v -> typed (TName n) v.
Proof.
  intros H. unfold default_value. cbn [last_type_segment typed].
  destruct (String.eqb_spec n "String") as [->|N1]; [intros E; injection E as <-; reflexivity|].
  destruct (String.eqb_spec n "PathBuf") as [->|N2]; [intros E; injection E as <-; reflexivity|].
  destruct (String.eqb_spec n "SocketAddr") as [->|N3]; [destruct (addr_ok s); [|discriminate]; intros E; injection E as <-; reflexivity|].
  destruct (String.eqb_spec n "bool") as [->|N4]; [intros E; injection E as <-; reflexivity|].
  destruct (int_type n) as [[[sg lo] hi]|] eqn:Et.
  - intros E. injection E as <-. split; [reflexivity|]. pose proof (int_type_inv _ _ _ _ Et) as R. exists lo, hi. split; [exact R|]. destruct (parse_int sg lo hi s) as [z|] eqn:P.
    + destruct (int_type_ok _ _ _ R) as (sg' & Et' & Hs). rewrite Et in Et'. injection Et' as <-. apply (parse_int_ok sg lo hi s z Hs) in P. apply P.
    + destruct R; lia.
  - destruct (String.eqb_spec n "f32") as [->|N5]; [intros E; injection E as <-; auto|]. destruct (String.eqb_spec n "f64") as [->|N6]; [intros E; injection E as <-; auto|].
    exfalso. unfold named_types in H. cbn [In] in H. repeat (destruct H as [<-|H]; [congruence || discriminate|]). exact H.
Qed.
Lemma struct_set s k t x l : In (k, t) s -> NoDup (map fst s) -> typed t x -> struct_typed s (VStruct l) -> exists v', set_path [k] x (VStruct l) = Some v' /\ struct_typed s v'.
Proof.
  intros I N T (l' & E & F). injection E as <-. cbn [set_path].
  assert (L : exists w, slookup k l = Some w).
  { clear N T. induction F as [|[a ta] [b vb] s l (Ea & _) F IH]; [destruct I|]. cbn in Ea. subst b. unfold slookup. cbn [lookup]. destruct (String.eqb_spec k a); [eauto|]. destruct I as [I|I]; [congruence|apply IH, I]. }
  destruct L as (w & ->). eexists. split; [reflexivity|]. eexists. split; [reflexivity|]. clear w. induction F as [|[a ta] [b vb] s l (Ea & Tb) F IH]; [constructor|]. cbn in Ea, Tb, N. subst b. inversion N as [|? ? Hn N']; subst. cbn [map fst]. constructor.
  - cbn [fst snd]. destruct (String.eqb_spec a k) as [->|Ne]; cbn [fst snd]; split; auto. destruct I as [I|I]; [injection I as ->; exact T|]. destruct Hn. apply in_map_iff. exists (k, t). auto.
  - destruct I as [I|I]; [|apply IH; assumption]. injection I as -> ->. clear IH N'. induction F as [|[a' ta'] [b' vb'] s l (Ea & Tb') F IH]; [constructor|]. cbn [map fst] in *. constructor.
    + cbn in Ea. subst b'. cbn [fst snd]. destruct (String.eqb_spec a' k) as [->|]; [destruct Hn; left; reflexivity|]. cbn. auto.
    + apply IH; [|intros X; apply Hn; right; exact X]. constructor; [intros X; apply Hn; right; exact X|]. inversion N as [|? ? _ N2]; inversion N2; assumption.
Qed.
Theorem C110_types : forall addr_ok float_parse c, cm_external c = None -> NoDup (map fl_name (cm_fields c)) ->
  (forall f args, In f (cm_fields c) -> configured f args -> silent MPath args /\ exists n, In n named_types /\ fl_type f = TOption (TName n)) ->
  let s := generated_struct (cm_fields c) in
  (forall f n args, In f (cm_fields c) -> configured f args -> fl_type f = TOption (TName n) ->
     (silent MDefault args -> In (fl_name f, TOption (TName n)) s) /\ (forall d, says MDefault args d -> In (fl_name f, TName n) s)) /\
  (forall d, default_config addr_ok float_parse c = Some d -> struct_typed s d) /\
  (forall cli cfg, struct_typed s cfg ->
     (forall f n v, In f (cm_fields c) -> cli (fl_name f) = Some v -> fl_type f = TOption (TName n) -> typed (TName n) v) ->
     exists cfg', apply_overrides c cli cfg = Some cfg' /\ struct_typed s cfg').
Proof.
  intros addr_ok fp c X N R. cbv zeta. unfold generated_struct. set (fs := cm_fields c) in *.
  assert (K : forall f only args, In f fs -> configured f args -> classify (fl_attrs f) = KConfig (parse_config_annotation args only) -> In (fl_name f, config_field_type (fl_type f) (parse_config_annotation args only)) (map (fun x => match x with (n, t, a) => (n, config_field_type t a) end) (config_fields fs))).
  { intros f only args Hf C E. destruct (R f args Hf C) as (Np & _). apply in_map_iff. exists (fl_name f, fl_type f, parse_config_annotation args only). split; [reflexivity|]. apply config_fields_in. exists f. repeat split; auto. destruct (parse_ok args only) as (_ & [(s & _ & S)|(P & _)] & _); [destruct (Np s); apply says_in, S|exact P]. }
  assert (Nd : NoDup (map fst (map (fun x => match x with (n, t, a) => (n, config_field_type t a) end) (config_fields fs)))).
  { rewrite map_map. erewrite map_ext; [apply config_fields_nodup, N|]. intros [[n t] a]. reflexivity. }
  split; [|split].
  - intros f n args Hf C Et. destruct (configured_classify _ _ C) as (only & E & _). specialize (K f only args Hf C E). destruct (parse_ok args only) as (P & _). unfold config_field_type in K. rewrite Et in K. split.
    + intros S. destruct P as [(s & _ & S')|(P & _)]; [destruct (S s); apply says_in, S'|]. rewrite P in K. exact K.
    + intros d S. destruct P as [(s & P & _)|(_ & S')]; [|destruct (S' d); apply says_in, S]. rewrite P in K. exact K.
  - intros d. unfold default_config. rewrite X. fold fs. destruct (default_fields addr_ok fp (config_fields fs)) as [l|] eqn:E; [|discriminate]. intros Y. injection Y as <-. exists l. split; [reflexivity|].
    assert (G : forall n t a, In (n, t, a) (config_fields fs) -> exists m, In m named_types /\ t = TOption (TName m)).
    { intros n t a H. apply config_fields_in in H as (f & Hf & _ & <- & Kf & _). destruct (classify_configured _ _ Kf) as (args & only & C & _). apply (R f args Hf C). }
    clear - E G. revert l E. induction (config_fields fs) as [|[[n t] a] cf IH]; intros l; cbn [default_fields map]; [intros E; injection E as <-; constructor|]. destruct (default_value addr_ok fp (option_inner t) (an_default a)) as [v|] eqn:D; [|discriminate]. destruct (default_fields addr_ok fp cf) as [vs|]; [|discriminate]. intros E. injection E as <-. constructor; [|apply IH; [intros; eapply G; right; eassumption|reflexivity]].
    cbn [fst snd]. split; [reflexivity|]. destruct (G n t a (or_introl eq_refl)) as (m & Hm & ->). unfold config_field_type. cbn [option_inner extract_option_inner] in *. destruct (an_default a) as [s|]; [eapply default_typed; eassumption|]. injection D as <-. exact I.
  - intros cli cfg T V. unfold apply_overrides. fold fs. assert (Sub : forall f, In f fs -> In f fs) by auto. revert cfg T Sub. generalize fs at 2 4 as gs. induction gs as [|f gs IH]; intros cfg T Sub; cbn [fold_left]; [eauto|].
    assert (Step : exists cfg1, (match override_stmt f with Some (p, optional) => override_if_set p (cli (fl_name f)) optional cfg | None => Some cfg end) = Some cfg1 /\ struct_typed (map (fun x => match x with (n, t, a) => (n, config_field_type t a) end) (config_fields fs)) cfg1).
    { pose proof (Sub f (or_introl eq_refl)) as Hf. unfold override_stmt. destruct (classify (fl_attrs f)) as [k|a|] eqn:Ek; try (exists cfg; auto; fail).
      destruct (classify_configured _ _ Ek) as (args & only & C & ->). destruct (R f args Hf C) as (Np & n & Hn & Et). specialize (K f only args Hf C Ek). destruct (parse_ok args only) as (_ & [(s & _ & S)|(P & _)] & _); [destruct (Np s); apply says_in, S|]. rewrite P. unfold config_field_type in K. rewrite Et in K. cbn [option_inner extract_option_inner] in K.
      unfold override_if_set. destruct (an_default (parse_config_annotation args only)) as [d|]; (destruct (cli (fl_name f)) as [v|] eqn:Ec; [|eauto]); specialize (V f n v Hf Ec Et); destruct T as (l & -> & T).
      - eapply struct_set; [exact K|exact Nd|exact V|]. exists l. auto.
      - eapply struct_set; [exact K|exact Nd|exact V|]. exists l. auto. }
    destruct Step as (cfg1 & E1 & T1). destruct (override_stmt f) as [[p o]|]; [rewrite E1|injection E1 as <-]; apply IH; auto; intros g Hg; apply Sub; right; exact Hg.
Qed.
Print Assumptions C110_types.

(* ---------- shared settings ---------- *)
Theorem C110_shared : forall k c,
  (forall f, In f (cm_fields c) -> decided_by f (FShared (Some k)) -> (forall g, In g (cm_fields c) -> decided_by g (FShared (Some k)) -> g = f) -> shared_method k c = Some (fl_name f)) /\
  ((forall f, In f (cm_fields c) -> ~ decided_by f (FShared (Some k))) -> shared_method k c = None).
Proof.
  intros k c. unfold shared_method. set (step := fun acc f => _).
  assert (St : forall acc f, step acc f = Some (fl_name f) /\ decided_by f (FShared (Some k)) \/ step acc f = acc /\ ~ decided_by f (FShared (Some k))).
  { intros acc f. unfold step. pose proof (classify_decided f) as K. destruct (classify (fl_attrs f)) as [k'|a|].
    - assert (D : k' = k \/ k' <> k) by (destruct k', k; auto; right; discriminate). destruct D as [->|D]; [left; split; [destruct k; reflexivity|exact K]|right; split; [destruct k', k; congruence || reflexivity|]]. intros Y. pose proof (decided_unique _ _ _ K Y). congruence.
    - right. split; [reflexivity|]. intros Y. destruct K as (args & [(H & _)|(H & _)]); discriminate (decided_unique _ _ _ H Y).
    - right. split; [reflexivity|apply K]. }
  assert (G : forall fs acc, (forall f, In f fs -> ~ decided_by f (FShared (Some k))) -> fold_left step fs acc = acc).
  { induction fs as [|f fs IH]; intros acc H; [reflexivity|]. cbn [fold_left]. destruct (St acc f) as [(_ & D)|(-> & _)]; [destruct (H f (or_introl eq_refl) D)|]. apply IH. intros g Hg. apply H. right. exact Hg. }
  split; [|intros H; apply G, H].
  intros f Hf D U. assert (W : forall fs acc, (forall g, In g fs -> decided_by g (FShared (Some k)) -> g = f) -> In f fs \/ acc = Some (fl_name f) -> fold_left step fs acc = Some (fl_name f)).
  { induction fs as [|g fs IH]; intros acc Ug H; cbn [fold_left]; [destruct H as [[]|H]; exact H|]. apply IH; [intros h Hh; apply Ug; right; exact Hh|].
    destruct (St acc g) as [(E & Dg)|(E & Dg)]; rewrite E; [rewrite (Ug g (or_introl eq_refl) Dg); auto|]. destruct H as [[<-|H]|H]; [contradiction|auto|auto]. }
  apply W; auto.
Qed.
Print Assumptions C110_shared.

(* ---------- the commands as they are ---------- *)
Fixpoint prefixb (p q : list string) : bool :=
  match p, q with
  | [], _ => true
  | x :: p', y :: q' => String.eqb x y && prefixb p' q'
  | _ :: _, [] => false
  end.
Lemma prefixb_ok p : forall q, prefixb p q = true <-> exists r, q = List.app p r.
Proof.
  induction p as [|x p IH]; intros q; cbn [prefixb]; [split; [intros _; exists q; reflexivity|reflexivity]|]. destruct q as [|y q]; [split; [discriminate|intros (r & E); discriminate]|]. rewrite andb_true_iff, IH, String.eqb_eq. split.
  - intros (-> & r & ->). exists r. reflexivity.
  - intros (r & E). cbn in E. injection E as -> ->. split; [reflexivity|eauto].
Qed.
Definition apartb (f g : field) : bool :=
  match override_stmt f, override_stmt g with
  | Some (p, _), Some (q, _) => negb (prefixb p q) && negb (prefixb q p)
  | _, _ => true
  end.
Fixpoint separateb (fs : list field) : bool := match fs with [] => true | f :: r => forallb (apartb f) r && separateb r end.
Lemma separateb_ok fs : separateb fs = true -> separate fs.
Proof.
  unfold separate. induction fs as [|f fs IH]; cbn [separateb]; [constructor|]. rewrite andb_true_iff. intros (A & B). constructor; [|auto]. apply Forall_forall. intros g Hg p q Tp Tq. rewrite forallb_forall in A. specialize (A g Hg). unfold apartb in A. pose proof (stmt_target f) as Sf. pose proof (stmt_target g) as Sg.
  destruct (override_stmt f) as [[p' o]|]; [|destruct (Sf p Tp)]. destruct (override_stmt g) as [[q' o']|]; [|destruct (Sg q Tq)]. destruct Sf as (_ & Uf & _). destruct Sg as (_ & Ug & _). rewrite (Uf p Tp), (Ug q Tq). apply andb_true_iff in A as (A1 & A2). apply negb_true_iff in A1, A2.
  split; intros r E; [assert (X : prefixb q' p' = true) by (apply prefixb_ok; eauto); congruence|assert (X : prefixb p' q' = true) by (apply prefixb_ok; eauto); congruence].
Qed.
Theorem C110_commands : forall addr_ok float_parse c, addr_ok "127.0.0.1:8080" = true -> In c commands ->
  separate (cm_fields c) /\ NoDup (map fl_name (cm_fields c)) /\
  (uses_policy c = true <-> exists f, In f (cm_fields c) /\ decided_by f (FShared (Some SPolicy))) /\
  exists d, default_config addr_ok float_parse c = Some d /\
    (forall f p, In f (cm_fields c) -> target f p -> at_path p d <> None) /\
    (forall f args s, In f (cm_fields c) -> configured f args -> says MDefault args s ->
       exists n v p, fl_type f = TOption (TName n) /\ target f p /\ at_path p d = Some v /\ reads addr_ok float_parse n s v).
Proof.
  intros addr_ok fp c A Hc.
  assert (T : forall f p d, target f p -> (match override_stmt f with Some (q, _) => at_path q d <> None | None => False end) -> at_path p d <> None).
  { intros f p d Tp. pose proof (stmt_target f) as S. destruct (override_stmt f) as [[q o]|]; [|contradiction]. destruct S as (_ & U & _). rewrite (U p Tp). auto. }
  assert (P : forall f, (classify (fl_attrs f) = KShared SPolicy) <-> decided_by f (FShared (Some SPolicy))).
  { intros f. pose proof (classify_decided f) as K. split; [intros E; rewrite E in K; exact K|]. intros D. destruct (classify (fl_attrs f)) as [k|a|]; [pose proof (decided_unique _ _ _ K D); congruence|destruct K as (args & [(H & _)|(H & _)]); discriminate (decided_unique _ _ _ H D)|destruct (K _ D)]. }
  assert (Df : forall f args s (d : value), configured f args -> says MDefault args s ->
     (match classify (fl_attrs f) with
      | KConfig a => match an_default a, override_stmt f with
                     | Some s', Some (q, _) => exists n v, fl_type f = TOption (TName n) /\ at_path q d = Some v /\ reads addr_ok fp n s' v
                     | None, _ => True
                     | _, None => False
                     end
      | _ => True
      end) -> exists n v p, fl_type f = TOption (TName n) /\ target f p /\ at_path p d = Some v /\ reads addr_ok fp n s v).
  { intros f args s d C S. destruct (configured_classify _ _ C) as (only & -> & _). destruct (parse_ok args only) as ([(s' & -> & S')|(_ & N)] & _); [|destruct (N s); apply says_in, S]. rewrite (says_fun _ _ _ _ md_inj S S'). pose proof (stmt_target f) as Sf. destruct (override_stmt f) as [[q o]|]; [|contradiction]. destruct Sf as (Tq & _). intros (n & v & E1 & E2 & E3). exists n, v, q. auto. }
  assert (Num : forall n lo hi s z sg, int_type n = Some (sg, lo, hi) -> parse_int sg lo hi s = Some z -> reads_int n s z) by (intros n lo hi s z sg E Q; apply (reads_parse _ _ _ _ _ _ E), Q).
  unfold commands in Hc. cbn [In] in Hc.
  repeat (destruct Hc as [<-|Hc]; [
    split; [apply separateb_ok; vm_compute; reflexivity|];
    split; [vm_compute; repeat (constructor; [cbn [In]; intros Q; repeat (destruct Q as [Q|Q]; [discriminate Q|]); exact Q|]); constructor|];
    split; [cbn; split; [first [discriminate|intros _; first [exists shared_policy; split; [cbn; tauto|apply P; reflexivity]]]|first [reflexivity|intros (f & Hf & D); apply P in D; cbn [In cm_fields] in Hf; repeat (destruct Hf as [<-|Hf]; [discriminate D|]); destruct Hf]]|];
    eexists; split; [unfold default_config; cbn; rewrite ?A; reflexivity|];
    split; [intros f p Hf Tp; eapply T; [exact Tp|]; pose proof (stmt_target f) as S; cbn [In cm_fields cmd] in Hf; repeat (destruct Hf as [<-|Hf]; [cbn in S |- *; first [discriminate|destruct (S p Tp)]|]); destruct Hf
           |intros f args s Hf C S; apply (Df f args s _ C S); cbn [In cm_fields cmd] in Hf;
            repeat (destruct Hf as [<-|Hf]; [cbn; first [exact I|eexists; eexists; split; [reflexivity|]; split; [reflexivity|]; cbn; first [split; [reflexivity|reflexivity]|split; [reflexivity|split; [reflexivity|exact A]]|split; [reflexivity|eapply Num; reflexivity]|split; [reflexivity|cbn; intros Q; repeat (destruct Q as [Q|Q]; [discriminate Q|]); exact Q]]]|]); destruct Hf]
  |]). destruct Hc.
Qed.
Print Assumptions C110_commands.

(* so: of every command of weaver, a flag decides its setting, and without it the file, or the
   default the help shows *)
Theorem C110_weaver : forall addr_ok float_parse c, addr_ok "127.0.0.1:8080" = true -> In c commands ->
  exists d, default_config addr_ok float_parse c = Some d /\
  forall cli, exists cfg, apply_overrides c cli d = Some cfg /\
    forall f args s, In f (cm_fields c) -> decided_by f (FConfig args) -> says MDefault args s ->
      exists p n, target f p /\ fl_type f = TOption (TName n) /\
        match cli (fl_name f) with
        | Some v => at_path p cfg = Some v
        | None => In ("[default: " ++ s ++ "]") (help_lines (inject_default_docs f)) /\ exists v, at_path p cfg = Some v /\ reads addr_ok float_parse n s v
        end.
Proof.
  intros addr_ok fp c A Hc. destruct (C110_commands addr_ok fp c A Hc) as (S & _ & _ & d & E & Pr & Df). exists d. split; [exact E|]. intros cli. destruct (C110_layers c cli d S Pr) as (cfg & Ec & L & _). exists cfg. split; [exact Ec|].
  intros f args s Hf D Sd. destruct (Df f args s Hf (or_introl D) Sd) as (n & v & p & Et & Tp & Ap & Rd). exists p, n. split; [exact Tp|]. split; [exact Et|]. specialize (L f p Hf Tp). destruct (cli (fl_name f)) as [w|].
  - apply L. intros (args' & C & H). rewrite (configured_fun f args' args C (or_introl D)) in H. destruct H as [(s' & Sp & Op)|(_ & N)]; [|destruct (N s); apply says_in, Sd].
    assert (X : Forall (fun f => match classify (fl_attrs f) with KConfig a => an_optional a = false | _ => True end) (cm_fields c)).
    { unfold commands in Hc. cbn [In] in Hc. repeat (destruct Hc as [<-|Hc]; [repeat (constructor; [cbn; first [exact I|reflexivity]|]); constructor|]). destruct Hc. }
    rewrite Forall_forall in X. specialize (X f Hf). destruct (configured_classify f args (or_introl D)) as (only & Ek & _). rewrite Ek in X. destruct (parse_ok args only) as (_ & _ & [(Q & _)|(_ & Q)] & _); [congruence|contradiction].
  - split; [|exists v; rewrite L; auto]. destruct (C110_help f args D) as (H & _). rewrite (H s Sd). apply in_app_iff. right. left. reflexivity.
Qed.
Print Assumptions C110_weaver.

(* two flags about one setting: the one declared later decides *)
Theorem C110_twice_refuted : forall v w,
  let cli := fun n => if String.eqb n "port" then Some v else if String.eqb n "other_port" then Some w else None in
  exists cfg, apply_overrides twice_command cli (VStruct [("a", VStruct [("port", VInt "u16" 1)])]) = Some cfg /\ at_path ["a"; "port"] cfg = Some w.
Proof. intros v w. eexists. split; reflexivity. Qed.
Print Assumptions C110_twice_refuted.

(* ---------- cases ---------- *)
Example C110_case_infer :
  apply_overrides infer_command (fun n => if String.eqb n "grpc_port" then Some (VInt "u16" 9999) else None)
    (VStruct [("output", VPath "here"); ("grpc_address", VText "0.0.0.0"); ("grpc_port", VInt "u16" 4317); ("admin_port", VInt "u16" 1); ("inactivity_timeout", VInt "u64" 60)])
  = Some (VStruct [("output", VPath "here"); ("grpc_address", VText "0.0.0.0"); ("grpc_port", VInt "u16" 9999); ("admin_port", VInt "u16" 1); ("inactivity_timeout", VInt "u64" 60)]).
Proof. reflexivity. Qed.
Example C110_case_nested :
  option_map (at_path ["otlp"; "admin_port"]) (apply_overrides live_check_command (fun n => if String.eqb n "admin_port" then Some (VInt "u16" 7) else None) live_check_default)
  = Some (Some (VInt "u16" 7)).
Proof. reflexivity. Qed.
Example C110_case_odd : default_config (fun _ => true) (fun _ _ => None) odd_command = Some (VStruct [("port", VInt "u16" 0); ("verbose", VBool false)])
  /\ (forall z, ~ reads_int "u16" "70000" z).
Proof.
  split; [reflexivity|]. intros z H. assert (P : parse_int false 0 65535 "70000" = Some z) by (apply (reads_parse "u16" "70000" 0 65535 false z eq_refl); exact H). discriminate P.
Qed.
