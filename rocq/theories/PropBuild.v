(* C123: the build scripts. *)
From Coq Require Import String Ascii Bool Arith Lia Permutation List.
Import ListNotations.
From Verif Require Import Base BaseProofs SemTypes Str StrProofs CodeModel CodeSpec CodeProofs DownModel DownProofs BuildModel BuildSpec.
Local Open Scope string_scope.
Local Open Scope list_scope.

(* ------------------------------------------------------------------ *)
(* The text of one file *)

Lemma contains_spec n s : contains n s = true <-> exists a b, s = (a ++ n ++ b)%string.
Proof.
  induction s as [|c s IH].
  - cbn [contains]. rewrite orb_false_r. rewrite starts_with_spec. split.
    + intros [r E]. exists "", r. exact E.
    + intros (a & b & E). destruct a; [|discriminate]. exists b. exact E.
  - cbn [contains]. rewrite orb_true_iff, starts_with_spec, IH. split.
    + intros [[r E]|(a & b & E)]; [exists "", r; exact E|]. exists (String c a), b. cbn. rewrite E. reflexivity.
    + intros (a & b & E). destruct a as [|d a]; [left; exists b; exact E|].
      right. cbn in E. injection E as _ E. exists a, b. exact E.
Qed.

Lemma taken_wanted f : taken f = true <-> wanted f.
Proof.
  unfold taken, wanted. rewrite !andb_true_iff, contains_spec.
  destruct (fi_extension f) as [e|].
  - destruct (String.eqb_spec e "rs") as [->|He]; destruct (String.eqb_spec (fi_stem f) "generated"); cbn;
      intuition congruence.
  - intuition congruence.
Qed.

Lemma replace_doc : forall s, undoc s (replace_from 0 "//!" "//" s).
Proof.
  assert (G : forall n s, String.length s <= n -> undoc s (replace_from 0 "//!" "//" s)).
  { induction n as [|n IH]; intros s Hs.
    - destruct s; [constructor|cbn in Hs; lia].
    - destruct s as [|c s]; [constructor|]. cbn in Hs.
      destruct (starts_with "//!" (String c s)) eqn:E.
      + apply starts_with_spec in E. destruct E as [r E]. rewrite E.
        replace (replace_from 0 "//!" "//" ("//!" ++ r)%string) with ("//" ++ replace_from 0 "//!" "//" r)%string.
        * apply undoc_doc, IH. apply (f_equal String.length) in E. cbn in E. lia.
        * destruct r; reflexivity.
      + change (replace_from 0 "//!" "//" (String c s)) with
          (if starts_with "//!" (String c s) then "//" ++ replace_from 2 "//!" "//" s else String c (replace_from 0 "//!" "//" s))%string.
        rewrite E. apply undoc_other; [|apply IH; lia].
        intros r Er. rewrite Er in E. assert (K : starts_with "//!" ("//!" ++ r)%string = true) by (apply starts_with_spec; eauto).
        congruence. }
  intros s. apply (G (String.length s)). lia.
Qed.

Lemma drop_lines ls : without_declarations ls (filter (fun l => negb (starts_with "pub mod" l)) ls).
Proof.
  induction ls as [|l ls IH]; cbn [filter]; [constructor|].
  destruct (starts_with "pub mod" l) eqn:E; cbn [negb].
  - apply wd_drop; [|exact IH]. apply starts_with_spec in E. exact E.
  - apply wd_keep; [|exact IH]. intros D. apply starts_with_spec in D. congruence.
Qed.

Lemma contributes text : contribution text (nested_text text).
Proof.
  unfold contribution, nested_text. eexists _, _, _.
  split; [apply replace_doc|]. split; [apply lines_read|]. split; [apply drop_lines|reflexivity].
Qed.

(* ------------------------------------------------------------------ *)
(* The tree *)

Fixpoint content_at (m : module) (path : list string) : option string :=
  match m, path with
  | Mod c _, [] => Some c
  | Mod _ subs, p :: ps => match lookup String.eqb p subs with Some s => content_at s ps | None => None end
  end.

Definition own_path (f : file) : list string :=
  fi_parents f ++ (if String.eqb (fi_stem f) "mod" || String.eqb (fi_stem f) "lib" then [] else [fi_stem f]).

Lemma own_path_ok f path : stands_for f path <-> path = own_path f.
Proof.
  unfold stands_for, own_path, speaks_for_directory.
  destruct (String.eqb_spec (fi_stem f) "mod"); [|destruct (String.eqb_spec (fi_stem f) "lib")]; cbn;
    rewrite ?app_nil_r; intuition congruence.
Qed.

Lemma add_self : forall parents m name content,
  content_at (add_modules m parents name content)
    (parents ++ (if String.eqb name "mod" || String.eqb name "lib" then [] else [name])) = Some content.
Proof.
  induction parents as [|p ps IH]; intros [c subs] name content; cbn [add_modules app].
  - destruct (String.eqb name "mod" || String.eqb name "lib"); cbn; [reflexivity|].
    rewrite (lookup_insert_eq String.eqb String.eqb_eq). reflexivity.
  - cbn. rewrite (lookup_insert_eq String.eqb String.eqb_eq). apply IH.
Qed.

Lemma add_keeps : forall parents m name content q x,
  content_at m q = Some x ->
  q <> parents ++ (if String.eqb name "mod" || String.eqb name "lib" then [] else [name]) ->
  (String.eqb name "mod" || String.eqb name "lib" = false -> forall r, q <> (parents ++ [name]) ++ r) ->
  content_at (add_modules m parents name content) q = Some x.
Proof.
  induction parents as [|p ps IH]; intros [c subs] name content q x H Hn Hl; cbn [add_modules app] in *.
  - destruct (String.eqb name "mod" || String.eqb name "lib").
    + destruct q as [|y q]; [congruence|]. cbn in *. exact H.
    + destruct q as [|y q]; cbn in *; [exact H|].
      destruct (string_dec y name) as [->|Hy]; [exfalso; exact (Hl eq_refl q eq_refl)|].
      rewrite (lookup_insert_ne String.eqb String.eqb_eq) by exact Hy. exact H.
  - destruct q as [|y q]; cbn in *; [exact H|].
    destruct (string_dec y p) as [->|Hy].
    + rewrite (lookup_insert_eq String.eqb String.eqb_eq).
      destruct (lookup String.eqb p subs) as [s|]; [|discriminate].
      apply IH; [exact H|congruence|]. intros Hs r E. apply (Hl Hs r). rewrite E. reflexivity.
    + rewrite (lookup_insert_ne String.eqb String.eqb_eq) by exact Hy. exact H.
Qed.

Lemma tree_app a b : module_tree (a ++ b) =
  fold_left (fun m f => if taken f then add_modules m (fi_parents f) (fi_stem f) (nested_text (fi_text f)) else m) b (module_tree a).
Proof. unfold module_tree. apply fold_left_app. Qed.

Lemma tree_keeps before f after :
  wanted f ->
  (forall g, In g after -> wanted g -> forall path, stands_for g path ->
     ~ stands_for f path /\ (~ speaks_for_directory g -> forall r, ~ stands_for f (path ++ r))) ->
  content_at (module_tree (before ++ f :: after)) (own_path f) = Some (nested_text (fi_text f)).
Proof.
  intros Hw H. rewrite tree_app. cbn [fold_left]. rewrite (proj2 (taken_wanted f) Hw).
  pose proof (add_self (fi_parents f) (module_tree before) (fi_stem f) (nested_text (fi_text f))) as H0.
  fold (own_path f) in H0. revert H0.
  generalize (add_modules (module_tree before) (fi_parents f) (fi_stem f) (nested_text (fi_text f))) as m.
  induction after as [|g after IH]; intros m H0; [exact H0|]. cbn [fold_left].
  apply IH; [intros x Hx; apply H; right; exact Hx|].
  destruct (taken g) eqn:Eg; [|exact H0]. apply taken_wanted in Eg.
  destruct (H g (or_introl eq_refl) Eg (own_path g) (proj2 (own_path_ok g _) eq_refl)) as [K1 K2].
  apply add_keeps; [exact H0| |].
  - fold (own_path g). intros E. apply K1. apply own_path_ok. congruence.
  - intros Hs r E.
    assert (Hd : ~ speaks_for_directory g).
    { unfold speaks_for_directory. apply orb_false_iff in Hs as [S1 S2]. apply String.eqb_neq in S1, S2. tauto. }
    apply (K2 Hd r). apply own_path_ok. unfold own_path at 1. rewrite Hs. congruence.
Qed.

Lemma concat_piece x l : In x l -> exists a b, String.concat "" l = (a ++ x ++ b)%string.
Proof.
  induction l as [|y l IH]; [intros []|]. intros [->|H].
  - destruct l as [|z l]; cbn; [exists "", ""; cbn; rewrite str_app_nil_r; reflexivity|].
    exists "". eexists. reflexivity.
  - destruct (IH H) as (a & b & E). destruct l as [|z l]; [destruct H|].
    exists (y ++ a)%string, b.
    change (String.concat "" (y :: z :: l)) with (y ++ "" ++ String.concat "" (z :: l))%string.
    rewrite E. cbn [append]. rewrite ?str_app_assoc. reflexivity.
Qed.

Lemma combine_in {A B} (R : A -> B -> Prop) l l' x : Forall2 R l l' -> In x l -> exists y, In (x, y) (combine l l') /\ R x y.
Proof.
  intros F. induction F as [|a b l l' Hab F IH]; [intros []|]. intros [->|H].
  - exists b. split; [left; reflexivity|exact Hab].
  - destruct (IH H) as (y & Hy & Ry). exists y. split; [right; exact Hy|exact Ry].
Qed.

Lemma generated_content : forall path m text c, generates m text -> content_at m path = Some c -> wrapped path c text.
Proof.
  induction path as [|p ps IH]; intros m text c Hg Hc; inversion Hg as [c0 subs subs' texts Hp Hf]; subst; cbn in Hc.
  - injection Hc as <-. cbn. eauto.
  - destruct (lookup String.eqb p subs) as [s|] eqn:El; [|discriminate].
    apply (lookup_in String.eqb String.eqb_eq) in El. apply (Permutation_in _ Hp) in El.
    destruct (combine_in _ _ _ _ Hf El) as (t & Ht & Gt). cbn in Gt.
    destruct (concat_piece (sub_text p t) (map (fun q => sub_text (fst (fst q)) (snd q)) (combine subs' texts))) as (a & b & E).
    { apply in_map_iff. exists ((p, s), t). split; [reflexivity|exact Ht]. }
    cbn [wrapped]. exists (c0 ++ a ++ "/// Generated module" ++ String newline "")%string, t, (String newline "" ++ b)%string.
    split; [|exact (IH _ _ _ Gt Hc)]. rewrite E. unfold sub_text.
    rewrite ?str_app_assoc. cbn [append]. rewrite ?str_app_assoc. cbn [append]. reflexivity.
Qed.

(* The text of every generated file is in the combined file, inside the nested modules its
   place asks for and at their start, unless a file visited after it stands for the same
   module or, being no mod.rs, for one around it. *)
Theorem C123_generated :
  forall (files before after : list file) (f : file) (path : list string) (text : string),
    generates (module_tree files) text ->
    files = before ++ f :: after -> wanted f -> stands_for f path ->
    (forall g, In g after -> wanted g -> forall p, stands_for g p ->
       ~ stands_for f p /\ (~ speaks_for_directory g -> forall r, ~ stands_for f (p ++ r))) ->
    exists c, contribution (fi_text f) c /\ wrapped path c text.
Proof.
  intros files before after f path text Hg -> Hw Hs H. exists (nested_text (fi_text f)).
  split; [apply contributes|]. apply own_path_ok in Hs. subst path.
  eapply generated_content; [exact Hg|]. apply tree_keeps; assumption.
Qed.

(* Files that are not Weaver's leave no trace: the same text can come out without them. *)
Theorem C123_others_ignored :
  forall files f text, ~ wanted f -> forall before after, files = before ++ f :: after ->
    generates (module_tree files) text <-> generates (module_tree (before ++ after)) text.
Proof.
  intros files f text Hw before after ->. rewrite !tree_app. cbn [fold_left].
  destruct (taken f) eqn:E; [apply taken_wanted in E; contradiction|]. reflexivity.
Qed.

(* Without files of Weaver's the text is empty. *)
Theorem C123_nothing :
  forall files text, (forall f, In f files -> ~ wanted f) -> generates (module_tree files) text -> text = "".
Proof.
  intros files text H Hg. assert (Em : Mod "" [] = module_tree files).
  2: { rewrite <- Em in Hg. inversion Hg as [c subs subs' texts Hp Hf]; subst. apply Permutation_nil in Hp. subst. reflexivity. }
  unfold module_tree. clear Hg. revert H. generalize (Mod "" []) as m. induction files as [|f files IH]; intros m H; [reflexivity|].
    cbn [fold_left]. destruct (taken f) eqn:E; [apply taken_wanted in E; exfalso; exact (H f (or_introl eq_refl) E)|].
    apply IH. intros g Hg'. apply H. right. exact Hg'.
Qed.

Definition gen_mark : string := "// DO NOT EDIT, THIS FILE HAS BEEN GENERATED BY WEAVER".
Definition rs (parents : list string) (stem text : string) : file :=
  mk_file parents stem (Some "rs") (gen_mark ++ String lf text)%string.

Lemma leaf_generates c : generates (Mod c []) c.
Proof.
  pose proof (generates_mod c [] [] [] (Permutation_refl _) (Forall2_nil _)) as H. cbn in H.
  rewrite str_app_nil_r in H. exact H.
Qed.

Example C123_case :
  module_tree [rs [] "lib" ("pub mod metrics;" ++ String lf "//! Docs")%string; rs ["metrics"] "mod" "pub mod http;"; rs ["metrics"] "http" "fn f() {}";
               mk_file [] "generated" (Some "rs") gen_mark; mk_file [] "notes" (Some "md") gen_mark; mk_file [] "own" (Some "rs") "fn g() {}"]
  = Mod (gen_mark ++ String lf "// Docs") [("metrics", Mod gen_mark [("http", Mod (gen_mark ++ String lf "fn f() {}") [])])].
Proof. reflexivity. Qed.

(* A file beside the directory of its sub-modules hides them when it is visited after them. *)
Theorem C123_beside_refuted :
  ~ (forall files f path text, generates (module_tree files) text -> In f files -> wanted f -> stands_for f path ->
       NoDup (map own_path files) ->
       exists c, contribution (fi_text f) c /\ wrapped path c text).
Proof.
  intros H.
  pose (f := rs ["a"] "b" "fn f() {}").
  assert (Hg : generates (module_tree [f; rs [] "a" ""])
     (sub_text "a" gen_mark)).
  { change (module_tree [f; rs [] "a" ""]) with (Mod "" [("a", Mod gen_mark [])]).
    apply (generates_mod "" [("a", Mod gen_mark [])] [("a", Mod gen_mark [])] [gen_mark]); [reflexivity|].
    constructor; [apply leaf_generates|constructor]. }
  destruct (H [f; rs [] "a" ""] f ["a"; "b"] _ Hg) as (c & Hc & Hwr).
  - left. reflexivity.
  - apply taken_wanted. reflexivity.
  - apply own_path_ok. reflexivity.
  - repeat constructor; cbn; intuition discriminate.
  - cbn [wrapped] in Hwr. destruct Hwr as (a & i & b & E & a' & i' & b' & E' & _).
    assert (K : contains "pub mod b {" (sub_text "a" gen_mark) = true).
    { apply contains_spec. subst i. exists (a ++ "pub mod " ++ "a" ++ " {" ++ String newline a')%string.
      eexists. rewrite E. rewrite !str_app_assoc. cbn [append]. rewrite ?str_app_assoc. cbn [append]. reflexivity. }
    vm_compute in K. discriminate.
Qed.

(* Comments for the enclosing module may remain: what is left of `//!!` is one. *)
Theorem C123_doc_refuted :
  ~ (forall text c, contribution text c -> forall a b, c <> (a ++ "//!" ++ b)%string).
Proof. intros H. exact (H "//!!" "//!" (contributes "//!!") "" "" eq_refl). Qed.

(* ------------------------------------------------------------------ *)
(* The user interface *)

Lemma newer_ok last l : ~ In None l ->
  exists b, newer_source last l = Ok b /\ (b = true <-> exists t, last < t /\ In (Some t) l).
Proof.
  induction l as [|[t|] l IH]; intros H; cbn [newer_source].
  - exists false. split; [reflexivity|]. split; [discriminate|]. intros (t & _ & []).
  - destruct (Nat.ltb_spec last t).
    + exists true. split; [reflexivity|]. split; [|reflexivity]. intros _. exists t. split; [assumption|left; reflexivity].
    + destruct IH as (b & E & Hb); [intros K; apply H; right; exact K|]. exists b. split; [exact E|].
      rewrite Hb. split; intros (x & Hx & Hi); exists x; (split; [exact Hx|]).
      * right. exact Hi.
      * destruct Hi as [Hi|Hi]; [injection Hi as ->; lia|exact Hi].
  - exfalso. apply H. left. reflexivity.
Qed.

Theorem C123_ui :
  forall d, readable d ->
    (check_ui d = Ok (Some RunBuild) <-> outdated d) /\
    (check_ui d = Ok (Some RunInstall) <-> ~ outdated d /\ lock_outdated d) /\
    (check_ui d = Ok None <-> ~ outdated d /\ ~ lock_outdated d).
Proof.
  intros d (H1 & H2 & H3 & H4). unfold check_ui, is_ui_stale, is_package_lock_stale, outdated, lock_outdated.
  destruct (ui_index d) as [ix|]; [|congruence]. destruct (ui_lock d) as [lk|]; [|congruence].
  destruct (ui_package d) as [pk|]; [|congruence].
  destruct (newer_ok ix (ui_sources d) H4) as (b & E & Hb).
  assert (L : (exists lock package, Some lk = Some lock /\ Some pk = Some package /\ lock < package) <-> lk < pk).
  { split; [intros (x & y & Ex & Ey & Hl); injection Ex as <-; injection Ey as <-; exact Hl|].
    intros Hl. exists lk, pk. auto. }
  rewrite L. clear L.
  assert (O : (exists built t, Some ix = Some built /\ built < t /\ (Some lk = Some t \/ In (Some t) (ui_sources d))) <->
     ix < lk \/ b = true).
  { rewrite Hb. split.
    - intros (x & t & Ex & Hl & [Et|Ht]); injection Ex as <-; [injection Et as <-; auto|right; eauto].
    - intros [Hl|(t & Hl & Ht)]; [exists ix, lk; auto|exists ix, t; auto]. }
  rewrite O. clear O.
  destruct (ui_dist d), (ui_modules d); cbn [negb];
    try (split; [|split]; intuition congruence).
  destruct (Nat.ltb_spec ix lk); [split; [|split]; intuition (congruence || lia)|].
  rewrite E. destruct b; [split; [|split]; intuition congruence|].
  destruct (Nat.ltb_spec lk pk); split; [|split| |split]; intuition (congruence || lia).
Qed.

Example C123_ui_case :
  readable (mk_ui true true (Some 5) (Some 4) (Some 3) [Some 1; Some 5]) /\
  check_ui (mk_ui true true (Some 5) (Some 4) (Some 3) [Some 1; Some 5]) = Ok None /\
  check_ui (mk_ui true true (Some 5) (Some 4) (Some 3) [Some 1; Some 6]) = Ok (Some RunBuild) /\
  check_ui (mk_ui true true (Some 5) (Some 4) (Some 5) []) = Ok (Some RunInstall).
Proof.
  split; [|repeat split; reflexivity].
  split; [discriminate|]. split; [discriminate|]. split; [discriminate|]. cbn. intuition discriminate.
Qed.

(* The check is meant to warn, but a build of the interface that was broken off, with its
   directory there and no page in it, fails the build of the program. *)
Theorem C123_warns_refuted : ~ (forall d, exists w, check_ui d = Ok w).
Proof. intros H. destruct (H (mk_ui true true None (Some 4) (Some 3) [])) as [w E]. discriminate. Qed.

Print Assumptions C123_generated.
Print Assumptions C123_others_ignored.
Print Assumptions C123_nothing.
Print Assumptions C123_beside_refuted.
Print Assumptions C123_doc_refuted.
Print Assumptions C123_ui.
Print Assumptions C123_warns_refuted.
