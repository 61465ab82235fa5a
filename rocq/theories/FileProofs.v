From Coq Require Import String Ascii Bool Arith Lia Permutation Sorted NArith List.
From Verif Require Import Base BaseProofs BaseProofs2 SemTypes ResultModel ResolveModel
  Str StrProofs LoadModel LoadSpec.
Import ListNotations.
Local Open Scope string_scope.

Lemma hidden_spec n : hidden n = true <-> starts_with_dot n.
Proof. apply starts_with_spec. Qed.

Definition nodot (s : string) : Prop := forall a b, s <> a ++ String "."%char b.

Lemma cons_app_inv c s a d b : String c s = a ++ String d b ->
  (c = d /\ s = b) \/ exists a', s = a' ++ String d b.
Proof.
  destruct a as [|x a]; cbn; intros E; inversion E; [left; split; reflexivity|]. right. exists a. reflexivity.
Qed.
Lemma last_dot_none s : last_dot s = None <-> nodot s.
Proof.
  induction s as [|c s IH]; cbn.
  - split; [|reflexivity]. intros _ a b H. destruct a; discriminate.
  - destruct (last_dot s) as [e|].
    + split; [discriminate|]. intros H. exfalso.
      assert (nodot s) as K by (intros a b E; apply (H (String c a) b); cbn; congruence).
      apply IH in K. discriminate.
    + destruct (Ascii.eqb_spec c "."%char) as [->|N].
      * split; [discriminate|]. intros H. destruct (H "" s eq_refl).
      * split; [|reflexivity]. intros _ a b E. apply cons_app_inv in E as [[E _]|[a' E]]; [congruence|].
        exact (proj1 IH eq_refl a' b E).
Qed.
Lemma last_dot_some s e : last_dot s = Some e <-> nodot e /\ exists a, s = a ++ String "."%char e.
Proof.
  induction s as [|c s IH]; cbn.
  - split; [discriminate|]. intros [_ [a H]]. destruct a; discriminate.
  - destruct (last_dot s) as [e'|] eqn:L.
    + split.
      * intros H. injection H as ->. destruct (proj1 IH eq_refl) as [A [a ->]]. split; [exact A|]. exists (String c a). reflexivity.
      * intros [Hn [a E]]. apply IH. split; [exact Hn|]. apply cons_app_inv in E as [[_ E]|[a' E]]; [|eauto].
        exfalso. subst s. apply last_dot_none in Hn. congruence.
    + assert (nodot s) as Hs by (apply last_dot_none, L).
      destruct (Ascii.eqb_spec c "."%char) as [->|N].
      * split.
        -- intros H. injection H as <-. split; [exact Hs|]. exists "". reflexivity.
        -- intros [Hn [a E]]. apply cons_app_inv in E as [[_ E]|[a' E]]; [congruence|].
           destruct (Hs a' e E).
      * split; [discriminate|]. intros [Hn [a E]]. apply cons_app_inv in E as [[E _]|[a' E]]; [congruence|].
        destruct (Hs a' e E).
Qed.

Lemma extension_is n e : e <> "" -> nodot e ->
  (extension n = e <-> exists stem, stem <> "" /\ n = stem ++ String "."%char e).
Proof.
  intros Ne Nd. destruct n as [|c n]; cbn.
  - split; [congruence|]. intros (stem & H & E). destruct stem; discriminate.
  - split.
    + intros H. destruct (last_dot n) as [e'|] eqn:L; cbn in H; [|congruence]. subst e'.
      apply last_dot_some in L as [_ [a ->]]. exists (String c a). split; [discriminate|reflexivity].
    + intros (stem & H & E). destruct stem as [|x stem]; [congruence|]. cbn in E. injection E as -> ->.
      assert (last_dot (stem ++ String "."%char e) = Some e) as -> by (apply last_dot_some; eauto). reflexivity.
Qed.
Lemma nodot_yaml : nodot "yaml".
Proof. apply last_dot_none. reflexivity. Qed.
Lemma nodot_yml : nodot "yml".
Proof. apply last_dot_none. reflexivity. Qed.

Lemma semconv_name_spec n : is_semconv_name n = true <-> definition_name n.
Proof.
  unfold is_semconv_name, definition_name. rewrite !andb_true_iff, orb_true_iff, !negb_true_iff, !String.eqb_eq, !String.eqb_neq.
  rewrite (extension_is n "yaml" ltac:(discriminate) nodot_yaml), (extension_is n "yml" ltac:(discriminate) nodot_yml).
  split.
  - intros [[[H A] B] C]. split; [|auto]. destruct H as [(s & H & E)|(s & H & E)]; exists s; auto.
  - intros [(s & H & [E|E]) (A & B & C)]; repeat split; trivial; [left|right]; eauto.
Qed.

(* the path of a file below [p] *)
Definition path_below (p : string) (ds : list string) (n : string) : string :=
  join_path (fold_left join_path ds p) n.

Definition walk_all (p : string) (cs : list entry) : list string :=
  flat_map (fun c => walk (join_path p (entry_name c)) c) cs.

Lemma walk_sound e : forall p x, In x (walk p e) -> ~ starts_with_dot (entry_name e) /\
  match e with
  | EFile n => definition_name n /\ x = p
  | EDir _ cs => exists ds n, lies_in cs ds n /\ (forall d, In d ds -> ~ starts_with_dot d) /\ ~ starts_with_dot n /\
                   definition_name n /\ x = path_below p ds n
  end.
Proof.
  revert e. fix IH 1. intros e p x. destruct e as [n|n cs]; cbn [walk entry_name]; destruct (hidden n) eqn:H; try (intros []).
  - destruct (is_semconv_name n) eqn:S; [|intros []]. intros [<-|[]]. split.
    + intros D. apply hidden_spec in D. congruence.
    + split; [apply semconv_name_spec, S|reflexivity].
  - intros Hx. split; [intros D; apply hidden_spec in D; congruence|]. clear H.
    induction cs as [|c cs IHc]; cbn [flat_map] in Hx; [destruct Hx|].
    apply in_app_or in Hx as [Hx|Hx].
    + specialize (IH c _ _ Hx). destruct c as [m|m sub]; cbn [entry_name] in *.
      * destruct IH as (V & Dn & ->). exists [], m. split; [constructor; left; reflexivity|]. split; [intros d []|]. auto.
      * destruct IH as (V & ds & k & L & Vd & Vn & Dn & ->). exists (m :: ds), k.
        split; [apply li_dir with sub; [left; reflexivity|exact L]|].
        split; [intros d [<-|I]; auto|]. auto.
    + destruct (IHc Hx) as (ds & k & L & R). exists ds, k. split; [|exact R].
      clear - L. destruct L; [apply li_file; right; assumption|apply li_dir with sub; [right|]; assumption].
Qed.
Lemma walk_complete cs ds n : lies_in cs ds n -> (forall d, In d ds -> ~ starts_with_dot d) -> ~ starts_with_dot n ->
  definition_name n -> forall p, In (path_below p ds n) (walk_all p cs).
Proof.
  induction 1 as [cs n I|cs d sub ds n I L IH]; intros Vd Vn Dn p; unfold walk_all; apply in_flat_map.
  - exists (EFile n). split; [exact I|]. cbn [walk entry_name].
    destruct (hidden n) eqn:H; [apply hidden_spec in H; contradiction|].
    apply semconv_name_spec in Dn. rewrite Dn. left. reflexivity.
  - exists (EDir d sub). split; [exact I|]. cbn [walk entry_name].
    destruct (hidden d) eqn:H; [apply hidden_spec in H; destruct (Vd d (or_introl eq_refl) H)|].
    apply (IH (fun x Hx => Vd x (or_intror Hx)) Vn Dn (join_path p d)).
Qed.

Lemma ends_slash_app a b : b <> "" -> ends_slash (a ++ b) = ends_slash b.
Proof.
  intros Hb. induction a as [|c a IH]; [reflexivity|]. cbn [append ends_slash].
  destruct (a ++ b) as [|y t] eqn:E; [destruct a; [cbn in E; congruence|discriminate]|].
  rewrite IH. reflexivity.
Qed.
Lemma plain_no_slash n : plain_name n -> ends_slash n = false.
Proof.
  intros [Hn Hs]. destruct (str_last n) as [->|(a & c & ->)]; [congruence|].
  rewrite ends_slash_app by discriminate. cbn. unfold is_slash.
  destruct (Ascii.eqb_spec c "/"%char) as [->|]; [|reflexivity].
  destruct (Hs a ""). reflexivity.
Qed.
Lemma join_path_plain p n : p <> "" -> n <> "" -> join_path p n = (if ends_slash p then p else p ++ "/") ++ n.
Proof.
  intros Hp _. unfold join_path. destruct (String.eqb_spec p "") as [->|_]; [congruence|].
  destruct (ends_slash p); [reflexivity|]. rewrite str_app_assoc. reflexivity.
Qed.
Lemma path_below_spec ds : forall p n, p <> "" -> Forall plain_name (app ds [n]) ->
  path_below p ds n = (if ends_slash p then p else p ++ "/") ++ join "/" (app ds [n]).
Proof.
  induction ds as [|d ds IH]; intros p n Hp Hf; inversion Hf as [|? ? Pd Pr]; subst; cbn [app] in *.
  - unfold path_below. cbn [fold_left join]. apply join_path_plain; [exact Hp|exact (proj1 Pd)].
  - change (path_below p (d :: ds) n) with (path_below (join_path p d) ds n).
    rewrite join_path_plain; [|exact Hp|exact (proj1 Pd)].
    set (q := (if ends_slash p then p else p ++ "/") ++ d).
    assert (q <> "") as Hq. { unfold q. intros E. destruct Pd as [Pd _]. apply Pd.
      destruct (ends_slash p); [destruct p; [congruence|discriminate]|]. destruct p; discriminate. }
    rewrite (IH q n Hq Pr).
    assert (ends_slash q = false) as ->. { unfold q. rewrite ends_slash_app by exact (proj1 Pd). apply plain_no_slash, Pd. }
    unfold q. rewrite !str_app_assoc. f_equal.
    cbn [join]. destruct (app ds [n]) as [|y r] eqn:E; [destruct ds; discriminate|]. reflexivity.
Qed.

Lemma lies_in_plain cs ds n : lies_in cs ds n -> Forall plain_entry cs -> Forall plain_name (app ds [n]).
Proof.
  induction 1 as [cs n I|cs d sub ds n I L IH]; intros F; rewrite Forall_forall in F; specialize (F _ I); inversion F; subst.
  - constructor; [assumption|constructor].
  - cbn. constructor; auto.
Qed.

Lemma provenance_of repr local rel : local <> "" -> rel <> "" ->
  (ends_slash repr = ends_slash local) ->
  provenance_path repr local ((if ends_slash local then local else local ++ "/") ++ rel) =
  Some ((if ends_slash repr then repr else repr ++ "/") ++ rel).
Proof.
  intros Hl Hr E. unfold provenance_path. rewrite E. destruct (ends_slash local).
  - rewrite slice_from_app. reflexivity.
  - assert (S (String.length local) = String.length (local ++ "/")) as -> by (rewrite str_length_app; cbn; lia).
    rewrite slice_from_app. f_equal. rewrite !str_app_assoc. reflexivity.
Qed.

Lemma gather_ok {S E} (rs : list (wresult S E)) : (forall e, ~ In (WFatal e) rs) ->
  gather rs = inl (flat_map (fun r => match r with WOk t | WOkNfe t _ => [t] | WFatal _ => [] end) rs,
                   flat_map (fun r => match r with WOkNfe _ n => n | _ => [] end) rs).
Proof.
  induction rs as [|r rs IH]; intros H; [reflexivity|].
  assert (forall e, ~ In (WFatal e) rs) as H' by (intros e I; apply (H e); right; exact I).
  destruct r as [t|t n|e]; cbn [gather flat_map]; [| |destruct (H e); left; reflexivity]; rewrite (IH H'); reflexivity.
Qed.
Lemma gather_bad {S E} (rs : list (wresult S E)) e : In (WFatal e) rs -> exists e', gather rs = inr e' /\ In (WFatal e') rs.
Proof.
  induction rs as [|r rs IH]; intros H; [destruct H|].
  destruct r as [t|t n|x]; cbn [gather].
  - destruct H as [H|H]; [discriminate|]. destruct (IH H) as (e' & -> & I). exists e'. split; [reflexivity|right; exact I].
  - destruct H as [H|H]; [discriminate|]. destruct (IH H) as (e' & -> & I). exists e'. split; [reflexivity|right; exact I].
  - exists x. split; [reflexivity|left; reflexivity].
Qed.
