(* C111: the task for the downstream repositories passes exactly when every check of every repository
   selected passes, on the tree of that repository, with the weaver under test. *)
From Coq Require Import String Ascii Bool Arith Lia List.
Import ListNotations.
From Verif Require Import Base BaseProofs Str StrProofs DownModel DownSpec DownProofs.
Local Open Scope string_scope.

(* Whatever its characters, the weaver under test is read by sh as it is, where {weaver} stands outside
   quotes: nothing in it splits a word or is expanded, and what stands around it is read as before. *)
Theorem C111_word_partial : forall v pre post m q n, sh_read Out pre = (Out, m) -> sh_read Out post = (q, n) ->
  exists l, literally v l /\ sh_read Out (pre ++ shell_quote v ++ post) = (q, app m (app l n)).
Proof.
  intros v pre post m q n A B. destruct (sh_quoted v) as (l & E & L). exists l. split; [exact L|].
  rewrite sh_read_app, A, sh_read_app, E, B. reflexivity.
Qed.
Print Assumptions C111_word_partial.
(* Within double quotes the quotes added become part of the word. *)
Theorem C111_quoted_refuted : ~ (forall v pre post q m q' n, sh_read Out pre = (q, m) -> sh_read q post = (q', n) ->
  exists l, filter (fun x => match x with Opened => false | _ => true end) l = map Quoted (list_ascii_of_string v) /\
    sh_read Out (pre ++ shell_quote v ++ post) = (q', app m (app l n))).
Proof.
  intros H. destruct (H "w" (String dquote "") (String dquote "") Double [Opened] Out [] eq_refl eq_refl) as (l & F & E).
  rewrite app_nil_r in E. apply (f_equal snd) in E. apply (f_equal (@tl mark)) in E. cbn [snd tl app] in E. rewrite <- E in F. vm_compute in F. discriminate F.
Qed.
Print Assumptions C111_quoted_refuted.

(* An argument selects the first repository with its address, at its ref, else the configured one, else main. *)
Theorem C111_select_partial : forall cfg arg u g core, configured cfg -> written arg u g -> spells u core ->
  forall s, select cfg arg = Some s <-> designates cfg arg s.
Proof. exact select_designates. Qed.
Print Assumptions C111_select_partial.
Lemma one_written u : contains "@" u = false -> written (rp_url (sample_repo u)) u None.
Proof. intros N. constructor; [reflexivity|apply no_ref_by, N]. Qed.
Lemma https_spells core : starts_with "https://" core = false -> starts_with "http://" core = false ->
  SearchModel.strip_suffix "/" core = None -> SearchModel.strip_suffix ".git" core = None -> spells ("https://" ++ core) core.
Proof. intros A B C D. split; [apply plain_by; assumption|]. exists "https://", "". rewrite str_app_nil_r. cbn. auto. Qed.
(* A ref with a '/', such as a branch feature/x, is not seen as one: the repository is reported as unknown. *)
Theorem C111_slash_refuted : ~ (forall cfg r u g core ref, configured cfg -> In r cfg -> written (rp_url r) u g -> spells u core ->
  exists s, select cfg (u ++ "@" ++ ref) = Some s).
Proof.
  intros H. set (r := sample_repo "https://github.com/o/r").
  assert (W : written (rp_url r) "https://github.com/o/r" None) by (apply one_written; reflexivity).
  assert (S : spells "https://github.com/o/r" "github.com/o/r") by (apply (https_spells "github.com/o/r"); reflexivity).
  destruct (H [r] r "https://github.com/o/r" None "github.com/o/r" "feature/x") as (s & E); auto.
  - intros x [<-|[]]. eauto.
  - left. reflexivity.
  - vm_compute in E. discriminate E.
Qed.
Print Assumptions C111_slash_refuted.

Lemma chosen_from cfg args l : chosen cfg args l -> forall s, In s l -> In (se_repo s) cfg.
Proof.
  intros [(_ & F)|(_ & F)] s Hs.
  - clear -F Hs. induction F as [|r x k l (E & _) _ IH]; [destruct Hs|]. destruct Hs as [<-|Hs]; [left; symmetry; exact E|right; apply IH, Hs].
  - clear -F Hs. induction F as [|a x k l D _ IH]; [destruct Hs|]. destruct Hs as [<-|Hs]; [|apply IH, Hs].
    destruct D as (ua & ga & core & a' & b & u & g & _ & _ & -> & _). apply in_or_app. right. left. reflexivity.
Qed.
Lemma good_passes w bin image s u g core : written (rp_url (se_repo s)) u g -> spells u core ->
  (uses_image (se_repo s) = false -> bin = wo_binary w) -> (uses_image (se_repo s) = true -> image = wo_image w) ->
  (good w bin image s <-> passes_repo w s).
Proof.
  intros W S Kb Ki. pose proof (image_kind _ _ _ _ W S) as I. pose proof (proj1 (clone_written _ _ _ W)) as U. unfold good, passes_repo. rewrite U. split.
  - intros (tree & weaver & R & K & C). exists u, tree, weaver, (if uses_image (se_repo s) then None else bin). split; [exists g; exact W|]. split; [exact R|]. split.
    + destruct (uses_image (se_repo s)); [left|right].
      * split; [apply I; reflexivity|]. split; [rewrite <- Ki by reflexivity; exact K|reflexivity].
      * split; [intros X; apply I in X; discriminate X|]. split; [rewrite <- Kb by reflexivity; exact K|exact K].
    + intros c Hc. apply command_ok, C, Hc.
  - intros (v & tree & weaver & b & (h & W') & R & T & C). destruct (written_one _ _ _ _ _ W' W) as [-> _]. exists tree, weaver. split; [exact R|].
    destruct T as [(X & Wi & ->)|(X & Wb & ->)].
    + apply I in X. rewrite X in *. split; [rewrite Ki by reflexivity; exact Wi|]. intros c Hc. apply command_ok, C, Hc.
    + destruct (uses_image (se_repo s)) eqn:E; [exfalso; apply X, I; reflexivity|]. rewrite Kb by reflexivity. split; [exact Wb|]. rewrite Wb. intros c Hc. apply command_ok, C, Hc.
Qed.
Theorem C111_pass_partial : forall w d cfg args, configured cfg ->
  (forall a, In a args -> exists u g core, written a u g /\ spells u core) ->
  (forall l, chosen cfg args l -> told_apart d l) ->
  ((exists os, run w d cfg args = Passed os) <-> exists l, chosen cfg args l /\ Forall (passes_repo w) l).
Proof.
  intros w d cfg args Cf Ca Ap. pose proof (selected_chosen cfg args Cf Ca) as Sc. unfold run.
  destruct (selected cfg args) as [l|] eqn:Sl.
  2:{ split; [intros (os & H); discriminate H|]. intros (l & Ch & _). apply Sc in Ch. discriminate Ch. }
  assert (Ch : chosen cfg args l) by (apply Sc; reflexivity).
  assert (Un : (exists l', chosen cfg args l' /\ Forall (passes_repo w) l') <-> Forall (passes_repo w) l).
  { split; [|intros F; exists l; auto]. intros (l' & C' & F). apply Sc in C'. injection C' as <-. exact F. }
  rewrite Un. clear Un. destruct (Ap l Ch) as (at_ & P1 & P2).
  assert (St : stored at_ d). { intros n u L. apply P2. unfold slookup in L. apply (lookup_in String.eqb string_eqb_spec) in L. exact L. }
  assert (Wr : forall s, In s l -> exists u g core, written (rp_url (se_repo s)) u g /\ spells u core) by (intros s Hs; apply Cf; eapply chosen_from; eassumption).
  assert (Pl : forall s, In s l -> placed at_ s).
  { intros s Hs. destruct (Wr s Hs) as (u & g & core & W & _). destruct (P1 s u Hs) as (a & b & En & N & A); [exists g; exact W|]. exists u, g, a, b. auto. }
  set (nb := existsb (fun s => negb (uses_image (se_repo s))) l). set (ni := existsb (fun s => uses_image (se_repo s)) l).
  assert (Gp : forall bin image, (nb = true -> bin = wo_binary w) -> (ni = true -> image = wo_image w) -> (Forall (good w bin image) l <-> Forall (passes_repo w) l)).
  { intros bin image Hb Hi. rewrite !Forall_forall. split; intros F s Hs; destruct (Wr s Hs) as (u & g & core & W & S);
      apply (good_passes w bin image s u g core W S); try apply F, Hs; intros E; first [apply Hb; apply existsb_exists; exists s; split; [exact Hs|rewrite E; reflexivity]|apply Hi; apply existsb_exists; exists s; auto]. }
  assert (Ru : forall bin image, (exists os, match run_all w bin image d l with None => Internal | Some os => if existsb (fun o => negb (oc_ok o)) os then SomeFailed os else Passed os end = Passed os)
             <-> Forall (good w bin image) l).
  { intros bin image. rewrite <- (run_all_good at_ w bin image l d St Pl). destruct (run_all w bin image d l) as [os|].
    - destruct (existsb (fun o => negb (oc_ok o)) os) eqn:E; split; intros (x & H).
      + discriminate H.
      + destruct H as [H X]. injection H as <-. congruence.
      + exists os. auto.
      + exists os. reflexivity.
    - split; [intros (x & H); discriminate H|intros (x & H & _); discriminate H]. }
  assert (Nb : Forall (passes_repo w) l -> nb = true -> exists b, wo_binary w = Some b).
  { intros F E. apply existsb_exists in E as (s & Hs & E). rewrite Forall_forall in F. destruct (Wr s Hs) as (u & g & core & W & S). apply negb_true_iff in E.
    destruct (F s Hs) as (v & tree & weaver & bin & _ & _ & [(X & _)|(_ & B & _)] & _); [|eauto]. apply (image_kind _ _ _ _ W S) in X. congruence. }
  assert (Ni : Forall (passes_repo w) l -> ni = true -> exists b, wo_image w = Some b).
  { intros F E. apply existsb_exists in E as (s & Hs & E). rewrite Forall_forall in F. destruct (Wr s Hs) as (u & g & core & W & S).
    destruct (F s Hs) as (v & tree & weaver & bin & _ & _ & [(_ & B & _)|(X & _)] & _); [eauto|]. exfalso. apply X, (image_kind _ _ _ _ W S), E. }
  fold nb ni. destruct nb eqn:Eb.
  - destruct (wo_binary w) as [b|] eqn:Wb; cbn [option_map].
    2:{ split; [intros (os & H); discriminate H|]. intros F. destruct (Nb F eq_refl) as (x & X). discriminate X. }
    destruct ni eqn:Ei.
    + destruct (wo_image w) as [i|] eqn:Wi; cbn [option_map]; [rewrite Ru; apply Gp; auto|].
      split; [intros (os & H); discriminate H|]. intros F. destruct (Ni F eq_refl) as (x & X). discriminate X.
    + rewrite Ru. apply Gp; auto. discriminate.
  - destruct ni eqn:Ei.
    + destruct (wo_image w) as [i|] eqn:Wi; cbn [option_map]; [rewrite Ru; apply Gp; auto; discriminate|].
      split; [intros (os & H); discriminate H|]. intros F. destruct (Ni F eq_refl) as (x & X). discriminate X.
    + rewrite Ru. apply Gp; discriminate.
Qed.
Print Assumptions C111_pass_partial.
(* The directory of a checkout keeps only the last two segments of the address.  Two repositories with the
   same ones share it, and the checks of the second run on the tree of the first: the task passes although
   the second repository, whose checks fail, was never looked at. *)
Definition two_hosts : list repo := [sample_repo "https://github.com/o/r"; sample_repo "https://gitlab.com/o/r"].
Lemma two_hosts_configured : configured two_hosts.
Proof.
  intros r [<-|[<-|[]]].
  - exists "https://github.com/o/r", None, "github.com/o/r". split; [apply one_written; reflexivity|apply (https_spells "github.com/o/r"); reflexivity].
  - exists "https://gitlab.com/o/r", None, "gitlab.com/o/r". split; [apply one_written; reflexivity|apply (https_spells "gitlab.com/o/r"); reflexivity].
Qed.
Theorem C111_shared_refuted : ~ (forall w cfg args, configured cfg ->
  (forall a, In a args -> exists u g core, written a u g /\ spells u core) ->
  (exists os, run w [] cfg args = Passed os) -> exists l, chosen cfg args l /\ Forall (passes_repo w) l).
Proof.
  intros H. destruct (H (sample_world ["https://github.com/"]) two_hosts [] two_hosts_configured) as (l & Ch & F).
  - intros a [].
  - eexists. vm_compute. reflexivity.
  - apply (selected_chosen two_hosts [] two_hosts_configured (fun a (X : In a []) => match X with end)) in Ch. cbn [selected] in Ch. injection Ch as <-.
    inversion F as [|? ? _ F2]; subst. inversion F2 as [|? ? P _]; subst. cbn [map] in P.
    destruct P as (u & tree & weaver & bin & (g & W) & R & T & C). cbn [se_repo se_ref] in *.
    destruct (written_one _ _ _ _ _ W (one_written "https://gitlab.com/o/r" eq_refl)) as [-> _].
    cbn [wo_remote sample_world] in R. assert (E : tree = "https://gitlab.com/o/r at main") by (vm_compute in R; congruence). subst tree.
    specialize (C _ (or_introl eq_refl)). apply command_ok in C. cbn [wo_run sample_world ck_dir sample_check] in C. vm_compute in C. discriminate C.
Qed.
Print Assumptions C111_shared_refuted.

(* ---- which weaver a check runs ---- *)
(* A check that calls a bare weaver gets the binary under test, where that is an absolute path of a file
   called weaver. *)
Theorem C111_path_partial : forall (files : string -> Prop) cwd dir inherited l,
  directories inherited l -> contains ":" dir = false -> starts_with "/" dir = true -> files (dir ++ "/weaver") ->
  exists dirs, directories (search_path (Some (dir ++ "/weaver")) inherited) dirs /\ finds files cwd "weaver" dirs (dir ++ "/weaver").
Proof.
  intros files cwd dir inherited l (E & Ne & D) N A F.
  assert (P : parent (dir ++ "/weaver") = Some dir).
  { unfold parent. change (dir ++ "/weaver") with (dir ++ String "/" "weaver"). rewrite (rfind_char_app "/"%char dir "weaver" eq_refl), str_take_app.
    destruct dir as [|c dir]; [discriminate A|]. reflexivity. }
  unfold search_path. rewrite P. exists (dir :: l). split.
  - split; [destruct l as [|x l]; [congruence|]; rewrite E; reflexivity|]. split; [discriminate|]. intros x [<-|Hx]; [exact N|apply D, Hx].
  - assert (L : located cwd dir "weaver" = dir ++ "/weaver").
    { destruct dir as [|c dir]; [discriminate A|]. cbn [starts_with] in A. destruct (Ascii.eqb_spec "/" c) as [<-|]; [|discriminate A]. reflexivity. }
    rewrite <- L. constructor. rewrite L. exact F.
Qed.
Print Assumptions C111_path_partial.
(* WEAVER_BIN is taken as it is.  A path that is not absolute, or a file of another name, and a released
   weaver on the search path is checked in its place. *)
Theorem C111_fallback_refuted : ~ (forall (files : string -> Prop) cwd bin inherited dirs f, files bin ->
  directories (search_path (Some bin) inherited) dirs -> finds files cwd "weaver" dirs f -> f = bin).
Proof.
  intros H. assert (X : "/usr/bin/weaver" = "/opt/weaver-dev").
  { apply (H (fun f => f = "/usr/bin/weaver" \/ f = "/opt/weaver-dev") "/r" "/opt/weaver-dev" "/usr/bin" ["/opt"; "/usr/bin"]).
    - right. reflexivity.
    - split; [reflexivity|]. split; [discriminate|]. intros d [<-|[<-|[]]]; reflexivity.
    - apply fi_later; [intros [E|E]; discriminate E|]. apply (fi_here _ "/r" "weaver" "/usr/bin"). left. reflexivity. }
  discriminate X.
Qed.
Theorem C111_relative_refuted : ~ (forall (files : string -> Prop) root cwd dir inherited dirs f, files (located root dir "weaver") ->
  directories (search_path (Some (dir ++ "/weaver")) inherited) dirs -> finds files cwd "weaver" dirs f -> f = located root dir "weaver").
Proof.
  intros H. assert (X : "/usr/bin/weaver" = "/w/target/release/weaver").
  { apply (H (fun f => f = "/usr/bin/weaver" \/ f = "/w/target/release/weaver") "/w" "/w/target/downstream/o_r" "target/release" "/usr/bin" ["target/release"; "/usr/bin"]).
    - right. reflexivity.
    - split; [reflexivity|]. split; [discriminate|]. intros d [<-|[<-|[]]]; reflexivity.
    - apply fi_later; [intros [E|E]; discriminate E|]. apply (fi_here _ "/w/target/downstream/o_r" "weaver" "/usr/bin"). left. reflexivity. }
  discriminate X.
Qed.
Print Assumptions C111_fallback_refuted.
Print Assumptions C111_relative_refuted.

(* ---- waiting ---- *)
Lemma wait_spec look clock finish deadline : forall fuel k b, wait_from look clock finish deadline fuel k = Some b ->
  exists j, k <= j /\ (forall i, k <= i < j -> clock i < deadline) /\
    (b = true -> exists t, finish = Some t /\ t <= look j) /\
    (b = false -> deadline <= clock j /\ forall t, finish = Some t -> look j < t).
Proof.
  induction fuel as [|n IH]; intros k b H; [discriminate H|]. cbn [wait_from] in H.
  destruct (match finish with Some t => Nat.leb t (look k) | None => false end) eqn:F.
  - injection H as <-. exists k. split; [lia|]. split; [intros i Hi; lia|]. split; [|discriminate]. intros _. destruct finish as [t|]; [|discriminate F]. exists t. split; [reflexivity|apply Nat.leb_le, F].
  - destruct (Nat.leb deadline (clock k)) eqn:D.
    + injection H as <-. exists k. split; [lia|]. split; [intros i Hi; lia|]. split; [discriminate|]. intros _. split; [apply Nat.leb_le, D|]. intros t ->. apply Nat.leb_gt in F. exact F.
    + apply Nat.leb_gt in D. destruct (IH (S k) b H) as (j & L & C & A). exists j. split; [lia|]. split; [|exact A]. intros i Hi. destruct (Nat.eq_dec i k) as [->|]; [exact D|apply C; lia].
Qed.
(* The wait ends; a check that is killed had its time, one that was not has ended, at most one interval
   late, and one that is seen to have ended before the deadline was passed is not killed. *)
Theorem C111_wait_partial : forall look clock finish deadline gap, clockwork look clock -> look 0 <= deadline ->
  (forall k, look (S k) <= clock k + gap) -> (forall t, exists k, t <= clock k) ->
  exists fuel b, wait_from look clock finish deadline fuel 0 = Some b /\
    (b = true -> exists t, finish = Some t /\ t <= deadline + gap) /\
    (b = false -> exists k, deadline <= clock k /\ forall t, finish = Some t -> look k < t) /\
    (forall t k, finish = Some t -> t <= look k -> (forall i, i < k -> clock i < deadline) -> b = true).
Proof.
  intros look clock finish deadline gap Ck L0 Gap Prog.
  assert (Ends : exists fuel b, wait_from look clock finish deadline fuel 0 = Some b).
  { destruct (Prog deadline) as (K & HK). assert (G : forall n k, k <= K -> n = S K - k -> exists b, wait_from look clock finish deadline n k = Some b).
    { induction n as [|n IHn]; intros k Hk En; [lia|]. cbn [wait_from]. destruct (match finish with Some t => Nat.leb t (look k) | None => false end); [eauto|].
      destruct (Nat.leb deadline (clock k)) eqn:D; [eauto|]. apply Nat.leb_gt in D. destruct (Nat.eq_dec k K) as [->|]; [lia|]. apply IHn; lia. }
    destruct (G (S K) 0) as (b & H); [lia|lia|]. eauto. }
  destruct Ends as (fuel & b & H). exists fuel, b. split; [exact H|]. destruct (wait_spec _ _ _ _ _ _ _ H) as (j & _ & C & T & F). split.
  - intros E. destruct (T E) as (t & Ef & Lt). exists t. split; [exact Ef|]. destruct j as [|j]; [lia|]. specialize (C j ltac:(lia)). specialize (Gap j). lia.
  - split; [intros E; destruct (F E) as (D & Ft); exists j; auto|]. intros t k Ef Lt Ek. destruct b; [reflexivity|].
    destruct (F eq_refl) as (D & Ft). specialize (Ft t Ef).
    assert (Mono : forall a b, a <= b -> look a <= look b). { induction 1 as [|m Hm IH]; [lia|]. destruct (Ck m). lia. }
    destruct (Nat.lt_ge_cases j k) as [G|G]; [specialize (Ek j G); lia|]. specialize (Mono k j G). lia.
Qed.
Print Assumptions C111_wait_partial.
(* A check that ends in time may still be reported as timed out: it ends between the look at the process and
   the look at the clock, and its exit status is then dropped. *)
Theorem C111_timeout_refuted : ~ (forall look clock t deadline fuel, clockwork look clock -> look 0 <= deadline -> t <= deadline ->
  wait_from look clock (Some t) deadline fuel 0 <> Some false).
Proof.
  intros H. apply (H (fun k => 2 * k) (fun k => 2 * k + 1) 1 1 1); [intros k; lia|cbn; lia|lia|reflexivity].
Qed.
Print Assumptions C111_timeout_refuted.

(* ---- a concrete case ---- *)
Definition two_repos : list repo := [sample_repo "https://github.com/o/r.git@v1"; sample_repo "https://github.com/o/s"].
Example C111_case : configured two_repos /\ (forall a, In a ["github.com/o/r"] -> exists u g core, written a u g /\ spells u core) /\
  (forall l, chosen two_repos ["github.com/o/r"] l -> told_apart [("o_s", "https://github.com/o/s")] l) /\
  exists os, run (sample_world ["https://github.com/o/r.git at v1"]) [("o_s", "https://github.com/o/s")] two_repos ["github.com/o/r"] = Passed os /\ length os = 1.
Proof.
  assert (W1 : written "https://github.com/o/r.git@v1" "https://github.com/o/r.git" (Some "v1")) by (constructor 2; [reflexivity|split; reflexivity]).
  assert (S1 : spells "https://github.com/o/r.git" "github.com/o/r") by (split; [apply plain_by; reflexivity|exists "https://", ".git"; cbn; auto 6]).
  assert (Cf : configured two_repos).
  { intros r [<-|[<-|[]]]; [exists "https://github.com/o/r.git", (Some "v1"), "github.com/o/r"; auto|].
    exists "https://github.com/o/s", None, "github.com/o/s". split; [apply one_written; reflexivity|apply (https_spells "github.com/o/s"); reflexivity]. }
  assert (Ca : forall a, In a ["github.com/o/r"] -> exists u g core, written a u g /\ spells u core).
  { intros a [<-|[]]. exists "github.com/o/r", None, "github.com/o/r". split; [constructor; [reflexivity|apply no_ref_by; reflexivity]|]. split; [apply plain_by; reflexivity|exists "", ""; cbn; auto]. }
  split; [exact Cf|]. split; [exact Ca|]. split.
  - intros l Ch. apply (selected_chosen _ _ Cf Ca) in Ch. vm_compute in Ch. injection Ch as <-.
    exists (fun a b => if String.eqb b "s" then Some "https://github.com/o/s" else Some "https://github.com/o/r.git"). split.
    + intros s u [<-|[]] (g & W). destruct (written_one _ _ _ _ _ W W1) as [-> _]. exists "o", "r". split; [|split; reflexivity].
      exists "https://github.com", ".git". repeat split; try reflexivity; [right; left; reflexivity|discriminate|apply suffix_by; reflexivity].
    + intros n u [E|[]]. injection E as <- <-. exists "o", "s". repeat split; reflexivity.
  - eexists. split; vm_compute; reflexivity.
Qed.
