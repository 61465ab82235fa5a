(* Lemmas about the task for the downstream repositories. *)
From Coq Require Import String Ascii Bool Arith Lia List.
Import ListNotations.
From Verif Require Import Base BaseProofs Str StrProofs DownModel DownSpec.
From Verif Require SearchModel SearchProofs.
Local Open Scope string_scope.

Lemma contains_char c s : contains (String c "") s = any_char (fun d => Ascii.eqb d c) s.
Proof.
  induction s as [|d s IH]; [reflexivity|]. cbn [contains any_char starts_with]. rewrite IH, (Ascii.eqb_sym d c).
  destruct (Ascii.eqb c d); reflexivity.
Qed.
Lemma no_char c s : contains (String c "") s = false -> all_chars (fun d => negb (Ascii.eqb d c)) s = true.
Proof. rewrite contains_char, any_all. intros H. apply negb_false_iff in H. exact H. Qed.

(* ---- addresses ---- *)
Lemma split_written s u g : written s u g -> split_ref s = (u, g).
Proof.
  intros [E N|x E (N1 & N2)]; subst s; unfold split_ref.
  - destruct (rfind_char "@"%char u) as [i|] eqn:R; [|reflexivity]. apply rfind_char_spec in R as (a & b & E & L & _).
    assert (C : contains "/" b = true) by (apply (N a b); rewrite E; reflexivity).
    subst u. rewrite <- L, str_drop_app. cbn [any_char]. rewrite contains_char in C. change (any_char is_slash b) with (any_char (fun d => Ascii.eqb d "/"%char) b).
    rewrite C, orb_true_r. reflexivity.
  - change ("@" ++ x) with (String "@" x). rewrite (rfind_char_app "@"%char u x (no_char _ _ N2)).
    rewrite str_drop_app. cbn [any_char]. change (any_char is_slash x) with (any_char (fun d => Ascii.eqb d "/"%char) x).
    rewrite contains_char in N1. rewrite N1. cbn [is_slash Ascii.eqb Bool.eqb orb]. rewrite str_take_app. f_equal. f_equal.
    change (String "@" x) with ("@" ++ x). rewrite <- str_app_assoc. replace (S (String.length u)) with (String.length (u ++ "@")) by (rewrite str_length_app; cbn; lia).
    apply str_drop_app.
Qed.
Lemma written_one s u g u' g' : written s u g -> written s u' g' -> u = u' /\ g = g'.
Proof. intros A B. apply split_written in A, B. rewrite A in B. injection B as -> ->. auto. Qed.

Lemma trim_start_str_id p s : forall n, starts_with p s = false -> trim_start_str n p s = s.
Proof. intros [|n] H; [reflexivity|]. cbn [trim_start_str]. apply strip_prefix_none in H. rewrite H. reflexivity. Qed.
Lemma trim_start_str_once p s n : p <> "" -> starts_with p s = false -> String.length (p ++ s) <= n -> trim_start_str n p (p ++ s) = s.
Proof.
  intros Np H L. destruct n as [|n]; [rewrite str_length_app in L; destruct p; [congruence|cbn in L; lia]|]. cbn [trim_start_str].
  assert (E : strip_prefix p (p ++ s) = Some s) by (apply strip_prefix_spec; reflexivity). rewrite E. apply trim_start_str_id, H.
Qed.
Lemma ends_slash s : (forall t, s <> t ++ "/") -> trim_end is_slash s = s.
Proof.
  intros H. destruct (str_last s) as [->|(a & c & ->)]; [reflexivity|]. apply trim_end_id. unfold is_slash. destruct (Ascii.eqb_spec c "/"%char) as [->|]; [|reflexivity].
  exfalso. exact (H a eq_refl).
Qed.
Lemma trim_end_str_id p s : p <> "" -> (forall t, s <> t ++ p) -> trim_end_str p s = s.
Proof.
  intros Np H. unfold trim_end_str. destruct (String.length s); [reflexivity|]. cbn [SearchModel.trim_end_matches].
  destruct (SearchModel.strip_suffix p s) as [t|] eqn:E; [|reflexivity]. apply SearchProofs.strip_suffix_spec in E. exfalso. exact (H t E).
Qed.
Lemma trim_end_str_once p s : p <> "" -> (forall t, s <> t ++ p) -> trim_end_str p (s ++ p) = s.
Proof.
  intros Np H. unfold trim_end_str. rewrite str_length_app. destruct p as [|c p]; [congruence|]. cbn [String.length]. rewrite Nat.add_succ_r. cbn [SearchModel.trim_end_matches].
  assert (E : SearchModel.strip_suffix (String c p) (s ++ String c p) = Some s) by (apply SearchProofs.strip_suffix_spec; reflexivity). rewrite E.
  destruct (_ + _)%nat; [reflexivity|]. cbn [SearchModel.trim_end_matches].
  destruct (SearchModel.strip_suffix (String c p) s) as [t|] eqn:F; [|reflexivity]. apply SearchProofs.strip_suffix_spec in F. exfalso. exact (H t F).
Qed.
Lemma git_ne : ".git" <> "". Proof. discriminate. Qed.
Lemma https_ne : "https://" <> "". Proof. discriminate. Qed.
Lemma http_ne : "http://" <> "". Proof. discriminate. Qed.
Lemma last_char_ne a b c d : c <> d -> a ++ String c "" <> b ++ String d "".
Proof.
  revert b. induction a as [|x a IH]; intros [|y b] N E; cbn in E.
  - injection E as E. congruence.
  - injection E as _ E. destruct b; discriminate E.
  - injection E as _ E. destruct a; discriminate E.
  - injection E as _ E. exact (IH b N E).
Qed.
Lemma normalize_end core e : plain core -> In e [""; "/"; ".git"; ".git/"] ->
  trim_end is_slash (trim_end_str ".git" (trim_end is_slash (core ++ e))) = core.
Proof.
  intros (_ & _ & P1 & P2) [<-|[<-|[<-|[<-|[]]]]].
  - rewrite str_app_nil_r, (ends_slash _ P1), (trim_end_str_id _ _ git_ne P2). apply ends_slash, P1.
  - rewrite (trim_end_app is_slash core "/" eq_refl), (ends_slash _ P1), (trim_end_str_id _ _ git_ne P2). apply ends_slash, P1.
  - assert (Q : forall t, core ++ ".git" <> t ++ "/").
    { intros t E. change ".git" with (".gi" ++ String "t" "") in E. rewrite <- str_app_assoc in E. revert E. apply last_char_ne. discriminate. }
    rewrite (ends_slash _ Q), (trim_end_str_once _ _ git_ne P2). apply ends_slash, P1.
  - assert (Q : forall t, core ++ ".git" <> t ++ "/").
    { intros t E. change ".git" with (".gi" ++ String "t" "") in E. rewrite <- str_app_assoc in E. revert E. apply last_char_ne. discriminate. }
    change ".git/" with (".git" ++ "/"). rewrite <- str_app_assoc, (trim_end_app is_slash _ "/" eq_refl).
    rewrite (ends_slash _ Q), (trim_end_str_once _ _ git_ne P2). apply ends_slash, P1.
Qed.
Ltac peel core H :=
  destruct core as [|? core]; [|cbn [append starts_with] in H; match type of H with (if Ascii.eqb ?a ?b then _ else _) = true => destruct (Ascii.eqb_spec a b); [subst b|discriminate H] end].
Lemma no_scheme core e p : plain core -> In e [""; "/"; ".git"; ".git/"] -> In p ["https://"; "http://"] -> starts_with p (core ++ e) = false.
Proof.
  intros (S1 & S2 & P1 & _) He Hp. destruct (starts_with p (core ++ e)) eqn:H; [|reflexivity]. exfalso.
  destruct Hp as [<-|[<-|[]]].
  - do 7 (peel core H; [destruct He as [<-|[<-|[<-|[<-|[]]]]]; vm_compute in H; discriminate H|]).
    peel core H; [|exact (S1 core eq_refl)].
    destruct He as [<-|[<-|[<-|[<-|[]]]]]; try (vm_compute in H; discriminate H); exact (P1 "https:" eq_refl).
  - do 6 (peel core H; [destruct He as [<-|[<-|[<-|[<-|[]]]]]; vm_compute in H; discriminate H|]).
    peel core H; [|exact (S2 core eq_refl)].
    destruct He as [<-|[<-|[<-|[<-|[]]]]]; try (vm_compute in H; discriminate H); exact (P1 "http:" eq_refl).
Qed.
Lemma normalize_spelled u core : spells u core -> normalize_url u = core.
Proof.
  intros (P & p & e & Hp & He & ->). unfold normalize_url.
  assert (A : starts_with "https://" (core ++ e) = false) by (apply no_scheme; auto; left; reflexivity).
  assert (B : starts_with "http://" (core ++ e) = false) by (apply no_scheme; auto; right; left; reflexivity).
  destruct Hp as [<-|[<-|[<-|[]]]].
  - cbn [append]. rewrite (trim_start_str_id _ _ _ A), (trim_start_str_id _ _ _ B). apply normalize_end; assumption.
  - rewrite (trim_start_str_once "https://" _ _ https_ne A (Nat.le_refl _)), (trim_start_str_id _ _ _ B). apply normalize_end; assumption.
  - rewrite (trim_start_str_id "https://"); [|reflexivity]. rewrite (trim_start_str_once "http://" _ _ http_ne B (Nat.le_refl _)). apply normalize_end; assumption.
Qed.
Lemma spells_one u a b : spells u a -> spells u b -> a = b.
Proof. intros A B. apply normalize_spelled in A, B. congruence. Qed.

(* ---- selection ---- *)
Lemma clone_written r u g : written (rp_url r) u g -> clone_url r = u /\ git_ref r = ref_or g "main".
Proof. intros H. unfold clone_url, git_ref. rewrite (split_written _ _ _ H). split; [reflexivity|]. destruct g; reflexivity. Qed.
Lemma find_first {A} (f : A -> bool) l x : find f l = Some x <-> exists a b, l = app a (x :: b) /\ f x = true /\ forall y, In y a -> f y = false.
Proof.
  induction l as [|y l IH]; cbn [find].
  - split; [discriminate|]. intros (a & b & E & _). destruct a; discriminate E.
  - destruct (f y) eqn:F.
    + split; [intros H; injection H as <-; exists [], l; repeat split; auto; intros ? []|].
      intros (a & b & E & Fx & N). destruct a as [|z a]; cbn in E; injection E as <- E; [reflexivity|]. rewrite (N y (or_introl eq_refl)) in F. discriminate F.
    + rewrite IH. split.
      * intros (a & b & -> & Fx & N). exists (y :: a), b. repeat split; auto. intros z [<-|Hz]; auto.
      * intros (a & b & E & Fx & N). destruct a as [|z a]; cbn in E; injection E as <- E; [congruence|]. exists a, b. repeat split; auto. intros z Hz. apply N. right. exact Hz.
Qed.
Lemma select_designates cfg arg u g core : configured cfg -> written arg u g -> spells u core ->
  forall s, select cfg arg = Some s <-> designates cfg arg s.
Proof.
  intros Cf Wa Sp s. unfold select. rewrite (split_written _ _ _ Wa), (normalize_spelled _ _ Sp).
  set (f := fun r : repo => String.eqb (normalize_url (clone_url r)) core).
  assert (F : forall r, In r cfg -> forall v h, written (rp_url r) v h -> (f r = true <-> spells v core)).
  { intros r Hr v h Wv. destruct (Cf r Hr) as (v' & h' & c' & W' & S'). destruct (written_one _ _ _ _ _ Wv W') as [-> ->].
    unfold f. rewrite (proj1 (clone_written _ _ _ W')), (normalize_spelled _ _ S'). rewrite String.eqb_eq. split; [intros <-; exact S'|intros S; apply (spells_one _ _ _ S' S)]. }
  assert (D : (exists r, find f cfg = Some r /\ s = {| se_repo := r; se_ref := match g with Some x => x | None => git_ref r end |}) <-> designates cfg arg s).
  { split.
    - intros (r & H & ->). apply find_first in H as (a & b & E & Fr & N).
      assert (Hr : In r cfg) by (rewrite E; apply in_or_app; right; left; reflexivity).
      destruct (Cf r Hr) as (v & h & c' & W' & S'). exists u, g, core, a, b, v, h. cbn [se_repo se_ref].
      repeat (split; [first [exact Wa|exact Sp|exact E|exact W'|apply (F r Hr v h W'); exact Fr|idtac]|]).
      + intros r' v' h' Hr' Wv S. assert (Hc : In r' cfg) by (rewrite E; apply in_or_app; left; exact Hr').
        apply (F r' Hc v' h' Wv) in S. rewrite (N r' Hr') in S. discriminate S.
      + rewrite (proj2 (clone_written _ _ _ W')). destruct g; reflexivity.
    - intros (ua & ga & core' & a & b & v & h & Wa' & Sa' & E & Wv & Sv & N & R).
      destruct (written_one _ _ _ _ _ Wa' Wa) as [-> ->]. rewrite (spells_one _ _ _ Sa' Sp) in *.
      exists (se_repo s). split.
      + apply find_first. exists a, b. split; [exact E|]. assert (Hr : In (se_repo s) cfg) by (rewrite E; apply in_or_app; right; left; reflexivity).
        split; [apply (F _ Hr v h Wv); exact Sv|]. intros y Hy. assert (Hc : In y cfg) by (rewrite E; apply in_or_app; left; exact Hy).
        destruct (f y) eqn:Fy; [|reflexivity]. destruct (Cf y Hc) as (v' & h' & c' & W' & S'). exfalso. apply (N y v' h' Hy W'). apply (F y Hc v' h' W'). exact Fy.
      + rewrite (proj2 (clone_written _ _ _ Wv)). destruct s as [r0 q]. cbn [se_repo se_ref] in *. rewrite R. destruct g; reflexivity. }
  rewrite <- D. destruct (find f cfg) as [r|].
  - split; [intros H; injection H as <-; exists r; auto|]. intros (r' & H & ->). injection H as <-. reflexivity.
  - split; [discriminate|]. intros (r & H & _). discriminate H.
Qed.
Lemma selected_chosen cfg args : configured cfg -> (forall a, In a args -> exists u g core, written a u g /\ spells u core) ->
  forall l, selected cfg args = Some l <-> chosen cfg args l.
Proof.
  intros Cf Ca l. unfold selected, chosen. destruct args as [|a args].
  - split.
    + intros H. injection H as <-. left. split; [reflexivity|]. assert (G : forall k, (forall r, In r k -> In r cfg) -> Forall2 configured_at k (map (fun r => {| se_repo := r; se_ref := git_ref r |}) k)).
      { induction k as [|r k IH]; intros I; cbn [map]; constructor; [|apply IH; intros; apply I; right; assumption]. split; [reflexivity|].
        destruct (Cf r (I r (or_introl eq_refl))) as (u & g & c & W & _). exists u, g. split; [exact W|]. exact (proj2 (clone_written _ _ _ W)). }
      apply G. auto.
    + intros [(_ & F)|(N & _)]; [|congruence]. f_equal. clear Cf Ca. induction F as [|r s k l (E & u & g & W & R) _ IH]; [reflexivity|]. cbn [map]. rewrite IH. f_equal.
      destruct s as [r0 q]. cbn [se_repo se_ref] in *. subst r0 q. rewrite (proj2 (clone_written _ _ _ W)). reflexivity.
  - transitivity (Forall2 (designates cfg) (a :: args) l); [|split; [intros F; right; split; [discriminate|exact F]|intros [(E & _)|(_ & F)]; [discriminate E|exact F]]].
    generalize dependent l. generalize dependent (a :: args). clear a args. intros k. induction k as [|a k IH]; intros Ca l; cbn [select_all].
    + split; [intros H; injection H as <-; constructor|]. intros F. inversion F. reflexivity.
    + destruct (Ca a (or_introl eq_refl)) as (u & g & c & W & S). pose proof (select_designates cfg a u g c Cf W S) as D.
      specialize (IH (fun b Hb => Ca b (or_intror Hb))). destruct (select cfg a) as [s|].
      * destruct (select_all cfg k) as [m|].
        -- cbn [option_map]. split.
           ++ intros H. injection H as <-. constructor; [apply D; reflexivity|apply IH; reflexivity].
           ++ intros F. inversion F as [|? s' ? m' Ds Dm]; subst. apply D in Ds. injection Ds as <-. apply IH in Dm. injection Dm as <-. reflexivity.
        -- cbn [option_map]. split; [discriminate|]. intros F. inversion F as [|? s' ? m' Ds Dm]; subst. apply IH in Dm. discriminate Dm.
      * split; [discriminate|]. intros F. inversion F as [|? s' ? m' Ds Dm]; subst. apply D in Ds. discriminate Ds.
Qed.
Lemma image_kind r u g core : written (rp_url r) u g -> spells u core -> (uses_image r = true <-> image_repo r).
Proof.
  intros W S. unfold uses_image, image_only_repos. cbn [existsb]. rewrite orb_false_r, (proj1 (clone_written _ _ _ W)), (normalize_spelled _ _ S).
  replace (normalize_url "github.com/open-telemetry/semantic-conventions") with "github.com/open-telemetry/semantic-conventions" by (vm_compute; reflexivity).
  rewrite String.eqb_eq. split.
  - intros <-. exists u. split; [exists g; exact W|exact S].
  - intros (v & (h & W') & S'). destruct (written_one _ _ _ _ _ W W') as [-> _]. apply (spells_one _ _ _ S' S).
Qed.

(* ---- what sh reads ---- *)
Lemma sh_read_app q a b : sh_read q (a ++ b) =
  let '(q1, m) := sh_read q a in let '(q2, n) := sh_read q1 b in (q2, app m n).
Proof.
  revert q. induction a as [|c a IH]; intros q; cbn [append sh_read].
  - destruct (sh_read q b). reflexivity.
  - destruct (sh_step q c) as [q1 m]. rewrite IH. destruct (sh_read q1 a) as [q2 n]. destruct (sh_read q2 b) as [q3 k]. rewrite app_assoc. reflexivity.
Qed.
Lemma sh_quoted v : exists l, sh_read Out (shell_quote v) = (Out, l) /\ literally v l.
Proof.
  assert (G : forall v, exists l, sh_read Single (escape_quotes v) = (Single, l) /\
             filter (fun m => match m with Opened => false | _ => true end) l = map Quoted (list_ascii_of_string v)).
  { clear v. induction v as [|c v (l & E & F)]; [exists []; split; reflexivity|]. cbn [escape_quotes]. destruct (Ascii.eqb_spec c "'"%char) as [->|N].
    - rewrite sh_read_app. replace (sh_read Single "'\''") with (Single, [Quoted "'"%char; Opened]) by (vm_compute; reflexivity). rewrite E.
      eexists. split; [reflexivity|]. cbn [app filter list_ascii_of_string map]. rewrite F. reflexivity.
    - cbn [sh_read sh_step]. apply Ascii.eqb_neq in N. rewrite N, E. eexists. split; [reflexivity|]. cbn [app filter list_ascii_of_string map]. rewrite F. reflexivity. }
  destruct (G v) as (l & E & F). unfold shell_quote. rewrite sh_read_app. replace (sh_read Out "'") with (Single, [Opened]) by (vm_compute; reflexivity).
  rewrite sh_read_app, E. replace (sh_read Single "'") with (Out, @nil mark) by (vm_compute; reflexivity).
  eexists. split; [reflexivity|]. split; [left; reflexivity|]. rewrite app_nil_r. cbn [app filter]. exact F.
Qed.

(* ---- expansion ---- *)
Lemma starts_longer p x y : String.length p <= String.length x -> starts_with p (x ++ y) = true -> starts_with p x = true.
Proof.
  revert x. induction p as [|c p IH]; intros x L H; [reflexivity|]. destruct x as [|d x]; [cbn in L; lia|]. cbn [append starts_with] in *.
  destruct (Ascii.eqb c d); [|discriminate H]. apply IH; [cbn in L; lia|exact H].
Qed.
Lemma replace_skip pat w a b : replace_from (String.length a) pat w (a ++ b) = replace_from 0 pat w b.
Proof. induction a as [|c a IH]; [reflexivity|]. cbn [String.length append replace_from]. exact IH. Qed.
Lemma replace_expands w t c : expands w t c -> replace_from 0 "{weaver}" w t = c.
Proof.
  induction 1 as [t N|p t c N _ IH].
  - induction t as [|c t IH]; [reflexivity|]. cbn [contains] in N. apply orb_false_iff in N as [N1 N2].
    change (replace_from 0 "{weaver}" w (String c t)) with (if starts_with "{weaver}" (String c t) then w ++ replace_from 7 "{weaver}" w t else String c (replace_from 0 "{weaver}" w t)).
    rewrite N1, (IH N2). reflexivity.
  - induction p as [|d p IHp].
    + assert (X := replace_skip "{weaver}" w "weaver}" t). cbn [String.length] in X. cbn [append]. cbn [append] in X.
      change (w ++ replace_from 7 "{weaver}" w ("weaver}" ++ t) = w ++ c). cbn [append]. rewrite X, IH. reflexivity.
    + change (String d p ++ "{weaver}" ++ t) with (String d (p ++ "{weaver}" ++ t)).
      change (replace_from 0 "{weaver}" w (String d (p ++ "{weaver}" ++ t))) with
        (if starts_with "{weaver}" (String d (p ++ "{weaver}" ++ t)) then w ++ replace_from 7 "{weaver}" w (p ++ "{weaver}" ++ t) else String d (replace_from 0 "{weaver}" w (p ++ "{weaver}" ++ t))).
      change (contains "{weaver}" (String d p ++ "{weaver")) with (starts_with "{weaver}" (String d (p ++ "{weaver")) || contains "{weaver}" (p ++ "{weaver")) in N.
      apply orb_false_iff in N as [N1 N2].
      destruct (starts_with "{weaver}" (String d (p ++ "{weaver}" ++ t))) eqn:S.
      * exfalso. change ("{weaver}" ++ t) with ("{weaver" ++ ("}" ++ t)) in S. rewrite <- str_app_assoc in S.
        change (String d ((p ++ "{weaver") ++ "}" ++ t)) with (String d (p ++ "{weaver") ++ ("}" ++ t)) in S.
        apply starts_longer in S; [congruence|]. cbn [String.length]. rewrite str_length_app. cbn. lia.
      * rewrite (IHp N2). reflexivity.
Qed.
Lemma first_weaver t : contains "{weaver}" t = true -> exists p r, t = p ++ "{weaver}" ++ r /\ contains "{weaver}" (p ++ "{weaver") = false.
Proof.
  induction t as [|c t IH]; [discriminate|]. intros H. destruct (starts_with "{weaver}" (String c t)) eqn:S.
  - apply starts_with_spec in S as (r & E). exists "", r. split; [exact E|reflexivity].
  - cbn [contains] in H. rewrite S in H. cbn [orb] in H. destruct (IH H) as (p & r & -> & N). exists (String c p), r. split; [reflexivity|].
    change (String c p ++ "{weaver") with (String c (p ++ "{weaver")). cbn [contains]. rewrite N, orb_false_r.
    destruct (starts_with "{weaver}" (String c (p ++ "{weaver"))) eqn:S2; [|reflexivity].
    assert (X : starts_with "{weaver}" (String c (p ++ "{weaver}" ++ r)) = true); [|congruence].
    apply starts_with_spec in S2 as (k & E). apply starts_with_spec. change ("{weaver}" ++ r) with ("{weaver" ++ ("}" ++ r)). rewrite <- str_app_assoc.
    exists (k ++ ("}" ++ r)). change (String c ((p ++ "{weaver") ++ "}" ++ r)) with (String c (p ++ "{weaver") ++ ("}" ++ r)). rewrite E, str_app_assoc. reflexivity.
Qed.
Lemma expands_all w : forall n t, String.length t <= n -> exists c, expands w t c.
Proof.
  induction n as [|n IH]; intros t L.
  - exists t. constructor. destruct t; [reflexivity|cbn in L; lia].
  - destruct (contains "{weaver}" t) eqn:C; [|exists t; constructor; exact C]. destruct (first_weaver t C) as (p & r & -> & N).
    destruct (IH r) as (c & E); [rewrite !str_length_app in L; cbn in L; lia|]. exists (p ++ w ++ c). constructor; assumption.
Qed.
Lemma command_ok w tree weaver bin c : passes_check w tree weaver bin c <-> wo_run w tree (ck_dir c) (command_of weaver c) bin = Exited 0.
Proof.
  unfold passes_check, command_of. split.
  - intros H. destruct (expands_all (shell_quote weaver) _ (ck_run c) (Nat.le_refl _)) as (x & E). rewrite (replace_expands _ _ _ E). apply H, E.
  - intros H x E. rewrite (replace_expands _ _ _ E) in H. exact H.
Qed.

(* ---- checkouts ---- *)
Lemma suffix_segment x b t g : contains "/" g = false -> x ++ "/" ++ b = t ++ g -> exists t', b = t' ++ g.
Proof.
  intros N. revert t. induction x as [|c x IH]; intros t E.
  - destruct t as [|d t]; cbn in E.
    + subst g. rewrite contains_char in N. cbn in N. discriminate N.
    + injection E as _ E. exists t. exact E.
  - destruct t as [|d t]; cbn in E.
    + subst g. exfalso. rewrite contains_char in N. cbn [any_char] in N. apply orb_false_iff in N as [_ N]. rewrite any_char_app in N. cbn in N. rewrite orb_true_r in N. discriminate N.
    + injection E as _ E. exact (IH t E).
Qed.
Lemma split_char_app c x y : split_char c (x ++ String c y) = app (split_char c x) (split_char c y).
Proof.
  induction x as [|d x IH]; cbn [append split_char].
  - rewrite Ascii.eqb_refl. reflexivity.
  - rewrite IH. destruct (Ascii.eqb d c); [reflexivity|]. pose proof (split_char_ne c x). destruct (split_char c x); [congruence|reflexivity].
Qed.
Lemma split_char_one c x : contains (String c "") x = false -> split_char c x = [x].
Proof.
  rewrite contains_char. induction x as [|d x IH]; [reflexivity|]. cbn [any_char split_char]. intros H. apply orb_false_iff in H as [H1 H2]. rewrite H1, (IH H2). reflexivity.
Qed.
Lemma dir_of s g u a b : written (rp_url (se_repo s)) u g -> ends_in u a b -> dir_name s = a ++ "_" ++ b.
Proof.
  intros W (p & e & E & He & Na & Nb & _ & Ng). unfold dir_name. rewrite (proj1 (clone_written _ _ _ W)).
  assert (X : forall t, p ++ "/" ++ a ++ "/" ++ b <> t ++ ".git").
  { intros t Q. replace (p ++ "/" ++ a ++ "/" ++ b) with ((p ++ "/" ++ a) ++ "/" ++ b) in Q by (rewrite !str_app_assoc; reflexivity).
    apply suffix_segment in Q as (t' & Q); [exact (Ng t' Q)|reflexivity]. }
  assert (T : trim_end_str ".git" u = p ++ "/" ++ a ++ "/" ++ b).
  { destruct He as [<-|[<-|[]]].
    - rewrite str_app_nil_r in E. rewrite E. apply trim_end_str_id; [apply git_ne|exact X].
    - replace u with ((p ++ "/" ++ a ++ "/" ++ b) ++ ".git") by (rewrite E, !str_app_assoc; reflexivity). apply trim_end_str_once; [apply git_ne|exact X]. }
  rewrite T. change (p ++ "/" ++ a ++ "/" ++ b) with (p ++ String "/" (a ++ String "/" b)). rewrite !split_char_app, (split_char_one _ a Na), (split_char_one _ b Nb).
  rewrite !rev_app_distr. cbn [rev app]. cbn [firstn]. cbn [rev app join]. reflexivity.
Qed.
Lemma underscore_one a b a' b' : contains "_" a = false -> contains "_" a' = false -> a ++ "_" ++ b = a' ++ "_" ++ b' -> a = a' /\ b = b'.
Proof.
  rewrite !contains_char. revert a'. induction a as [|c a IH]; intros [|c' a'] N N' E; cbn in E.
  - injection E as ->. auto.
  - injection E as <- _. discriminate N'.
  - injection E as -> _. discriminate N.
  - injection E as -> E. cbn [any_char] in N, N'. apply orb_false_iff in N as [_ N]. apply orb_false_iff in N' as [_ N']. destruct (IH a' N N' E) as [-> ->]. auto.
Qed.

Definition stored (at_ : string -> string -> option string) (d : disk) : Prop :=
  forall n u, slookup n d = Some u -> exists a b, n = a ++ "_" ++ b /\ contains "_" a = false /\ at_ a b = Some u.
Definition placed (at_ : string -> string -> option string) (s : selection) : Prop :=
  exists u g a b, written (rp_url (se_repo s)) u g /\ ends_in u a b /\ contains "_" a = false /\ at_ a b = Some u.
Lemma checkout_right at_ w d s : stored at_ d -> placed at_ s ->
  exists d', checkout w d s = (d', wo_remote w (clone_url (se_repo s)) (se_ref s)) /\ stored at_ d'.
Proof.
  intros St (u & g & a & b & W & En & Na & A). pose proof (dir_of _ _ _ _ _ W En) as D. pose proof (proj1 (clone_written _ _ _ W)) as U.
  unfold checkout. destruct (slookup (dir_name s) d) as [o|] eqn:L.
  - exists d. split; [|exact St]. destruct (St _ _ L) as (a' & b' & E & Na' & A'). rewrite D in E. destruct (underscore_one _ _ _ _ Na Na' E) as [<- <-].
    rewrite A in A'. injection A' as <-. rewrite U. reflexivity.
  - eexists. split; [reflexivity|]. intros n v Hn. destruct (String.eqb_spec n (dir_name s)) as [->|Ne].
    + unfold slookup, sinsert in Hn. rewrite (lookup_insert_eq String.eqb string_eqb_spec) in Hn. injection Hn as <-. rewrite U. exists a, b. auto.
    + unfold slookup, sinsert in Hn. rewrite (lookup_insert_ne String.eqb string_eqb_spec) in Hn by congruence. exact (St n v Hn).
Qed.
Definition good (w : world) (bin image : option string) (s : selection) : Prop :=
  exists tree weaver, wo_remote w (clone_url (se_repo s)) (se_ref s) = Some tree /\
    (if uses_image (se_repo s) then image else bin) = Some weaver /\
    forall c, In c (rp_checks (se_repo s)) -> wo_run w tree (ck_dir c) (command_of weaver c) (if uses_image (se_repo s) then None else bin) = Exited 0.
Lemma run_all_good at_ w bin image l : forall d, stored at_ d -> (forall s, In s l -> placed at_ s) ->
  ((exists os, run_all w bin image d l = Some os /\ existsb (fun o => negb (oc_ok o)) os = false) <-> Forall (good w bin image) l).
Proof.
  induction l as [|s l IH]; intros d St Pl; cbn [run_all].
  - split; [constructor|]. intros _. exists []. split; reflexivity.
  - destruct (checkout_right at_ w d s St (Pl s (or_introl eq_refl))) as (d' & E & St'). rewrite E.
    specialize (IH d' St' (fun x Hx => Pl x (or_intror Hx))).
    destruct (wo_remote w (clone_url (se_repo s)) (se_ref s)) as [tree|] eqn:R.
    + destruct (if uses_image (se_repo s) then image else bin) as [weaver|] eqn:K.
      * assert (C : existsb (fun o => negb (oc_ok o)) (map (fun c => run_check w tree s c (command_of weaver c) (if uses_image (se_repo s) then None else bin)) (rp_checks (se_repo s))) = false
                   <-> forall c, In c (rp_checks (se_repo s)) -> wo_run w tree (ck_dir c) (command_of weaver c) (if uses_image (se_repo s) then None else bin) = Exited 0).
        { generalize (rp_checks (se_repo s)). intros cs. induction cs as [|c cs IHc]; cbn [map existsb]; [split; [intros _ ? []|reflexivity]|].
          rewrite orb_false_iff, IHc. unfold run_check. cbn [oc_ok]. split.
          - intros (A & B) x [<-|Hx]; [|apply B, Hx]. destruct (wo_run w tree (ck_dir c) (command_of weaver c) _) as [[|n]| | |]; try discriminate A. reflexivity.
          - intros A. split; [rewrite (A c (or_introl eq_refl)); reflexivity|]. intros x Hx. apply A. right. exact Hx. }
        split.
        -- intros (os & H & X). destruct (run_all w bin image d' l) as [os'|]; [|discriminate H]. cbn [option_map] in H. injection H as <-.
           rewrite existsb_app in X. apply orb_false_iff in X as [X1 X2]. constructor.
           ++ exists tree, weaver. split; [exact R|]. split; [exact K|]. apply C, X1.
           ++ apply IH. exists os'. auto.
        -- intros F. inversion F as [|? ? G F']; subst. apply IH in F' as (os' & -> & X). cbn [option_map]. eexists. split; [reflexivity|].
           rewrite existsb_app, X, orb_false_r. apply C. destruct G as (t' & w' & R' & K' & G). rewrite R in R'. injection R' as <-. rewrite K in K'. injection K' as <-. exact G.
      * split; [intros (os & H & _); discriminate H|]. intros F. inversion F as [|? ? (t' & w' & _ & K' & _) _]; subst. congruence.
    + split.
      * intros (os & H & X). destruct (run_all w bin image d' l); [|discriminate H]. cbn [option_map] in H. injection H as <-. discriminate X.
      * intros F. inversion F as [|? ? (t' & w' & R' & _) _]; subst. congruence.
Qed.

(* ---- deciding, for concrete addresses ---- *)
Lemma plain_by core : starts_with "https://" core = false -> starts_with "http://" core = false ->
  SearchModel.strip_suffix "/" core = None -> SearchModel.strip_suffix ".git" core = None -> plain core.
Proof.
  intros A B C D. repeat split; intros t E.
  - rewrite E, starts_with_app in A. discriminate A.
  - rewrite E, starts_with_app in B. discriminate B.
  - apply SearchProofs.strip_suffix_spec in E. congruence.
  - apply SearchProofs.strip_suffix_spec in E. congruence.
Qed.
Lemma no_ref_by u : contains "@" u = false -> no_ref u.
Proof. intros N a b E. exfalso. assert (C : contains "@" u = true) by (apply contains_spec; exists a, b; exact E). congruence. Qed.
Lemma suffix_by b suf : SearchModel.strip_suffix suf b = None -> forall t, b <> t ++ suf.
Proof. intros N t E. apply SearchProofs.strip_suffix_spec in E. congruence. Qed.
