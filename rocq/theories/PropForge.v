(* C26, C27, C57-C61: template configuration, loading and artifact generation. *)
From Coq Require Import String Ascii Bool Arith Lia Permutation List.
Import ListNotations.
From Verif Require Import Base BaseProofs BaseProofs2 Json SemTypes Str OtelModel VdirModel VdirSpec VdirProofs ForgeModel ForgeSpec.
Local Open Scope string_scope.
Local Open Scope list_scope.

(* ** C26: merging configuration files *)

Lemma over_last {A} (l : list (option A)) o : last_set l o -> forall x, last_set (l ++ [x]) (over o x).
Proof.
  intros H x. destruct x as [a|]; cbn.
  - apply (last_some l a []). constructor.
  - destruct H as [l H|b a af H].
    + apply last_none. apply Forall_app. split; [exact H|repeat constructor].
    + rewrite <- app_assoc. cbn. apply last_some. apply Forall_app. split; [exact H|repeat constructor].
Qed.

Lemma last_single {A} (o : option A) : last_set [o] o.
Proof. destruct o; [apply (last_some [] a []); constructor|apply last_none; repeat constructor]. Qed.

(* an overriding list of configurations, left to right *)
Lemma fields_last {A} (f : fconf -> option A)
  (Hf : forall s c, f (override_with s c) = over (f s) (f c)) cs :
  forall base l, last_set l (f base) -> last_set (l ++ map f cs) (f (fold_left override_with cs base)).
Proof.
  induction cs as [|c cs IH]; intros base l H; cbn [map fold_left]; [rewrite app_nil_r; exact H|].
  change (f c :: map f cs) with ([f c] ++ map f cs). rewrite app_assoc. apply IH. rewrite Hf. apply over_last, H.
Qed.

Lemma slookup_remove k k' m : slookup k' (p_remove k m) = if String.eqb k' k then None else slookup k' m.
Proof.
  unfold slookup, p_remove. induction m as [|[a v] m IH]; cbn; [destruct (String.eqb k' k); reflexivity|].
  destruct (String.eqb_spec a k) as [->|N]; cbn.
  - rewrite IH. destruct (String.eqb_spec k' k); reflexivity.
  - destruct (String.eqb_spec k' a) as [->|N2]; [|exact IH].
    destruct (String.eqb_spec a k); [congruence|reflexivity].
Qed.

Definition plookup (k : string) (p : option params) : option json := slookup k (opt_get p []).

Definition non_null (v : json) : option json := match v with JNull => None | _ => Some v end.

Lemma override_param_lookup p k v k' :
  plookup k' (override_param p (k, v)) = if String.eqb k' k then non_null v else plookup k' p.
Proof.
  unfold plookup, override_param. destruct v; try (cbn [opt_get]; apply bt_insert_lookup).
  destruct p as [m|]; cbn [opt_get non_null]; [apply slookup_remove|]. destruct (String.eqb k' k); reflexivity.
Qed.

Lemma override_params_lookup ps : is_map ps -> forall p k,
  plookup k (fold_left override_param ps p) =
  match slookup k ps with Some v => non_null v | None => plookup k p end.
Proof.
  unfold is_map. induction ps as [|[k0 v0] ps IH]; intros Hm p k; [reflexivity|]. cbn [map fst] in Hm.
  inversion Hm as [|x y Hn Hd]; subst. cbn [fold_left]. rewrite IH by exact Hd. rewrite override_param_lookup.
  unfold slookup. cbn [lookup]. destruct (String.eqb_spec k k0) as [->|N]; [|reflexivity].
  fold (slookup k0 ps). destruct (slookup k0 ps) as [v|] eqn:E; [|reflexivity].
  exfalso. apply Hn. apply (lookup_in _ string_eqb_spec) in E. apply (in_map fst) in E. exact E.
Qed.

Lemma params_final k cs : Forall map_params cs -> forall base l, final_param l (plookup k (fc_params base)) ->
  final_param (l ++ mentions k cs) (plookup k (fc_params (fold_left override_with cs base))).
Proof.
  intros H. induction H as [|c cs Hc H IH]; intros base l F; cbn [fold_left]; [rewrite app_nil_r; exact F|].
  unfold mentions. cbn [flat_map]. fold (mentions k cs). rewrite app_assoc. apply IH. cbn [override_with fc_params].
  unfold override_params. unfold map_params in Hc. destruct (fc_params c) as [ps|]; [|rewrite app_nil_r; exact F].
  rewrite override_params_lookup by exact Hc. destruct (slookup k ps) as [v|]; [|rewrite app_nil_r; exact F].
  destruct v; cbn [non_null]; try (apply fp_value; discriminate). apply fp_null.
Qed.

Lemma resolve_into_ok parse contents : forall config c, resolve_into parse config contents = Ok c ->
  exists children, Forall2 (fun t ch => parse t = Ok ch) contents children /\ c = fold_left override_with children config.
Proof.
  induction contents as [|t r IH]; intros config c H; cbn in H.
  - injection H as <-. exists []. split; [constructor|reflexivity].
  - destruct (parse t) as [ch|e] eqn:E; [|discriminate H]. destruct (IH _ _ H) as (l & F & ->).
    exists (ch :: l). split; [constructor; assumption|reflexivity].
Qed.

Lemma resolve_into_err parse contents : forall config e, resolve_into parse config contents = Err e ->
  exists t, In t contents /\ parse t = Err e.
Proof.
  induction contents as [|t r IH]; intros config e H; cbn in H; [discriminate H|].
  destruct (parse t) as [ch|e'] eqn:E.
  - destruct (IH _ _ H) as (t' & Hin & He). exists t'. cbn. auto.
  - injection H as ->. exists t. cbn. auto.
Qed.

(* The configuration resolved from a list of files: every setting is the last one set, the
   built-in value counting as the first; a parameter has the last value given, and none if that
   is null; and if any file is not valid the resolution fails. *)
Theorem C26_merge : forall parse contents,
  (forall t c, parse t = Ok c -> map_params c) ->
  match resolve_from parse contents with
  | Ok c =>
    exists children, Forall2 (fun t ch => parse t = Ok ch) contents children /\
    let all := fconf_default :: children in
    last_set (map fc_type_mapping all) (fc_type_mapping c) /\
    last_set (map fc_text_maps all) (fc_text_maps c) /\
    last_set (map fc_comment_formats all) (fc_comment_formats c) /\
    last_set (map fc_default_comment all) (fc_default_comment c) /\
    last_set (map fc_templates all) (fc_templates c) /\
    last_set (map fc_acronyms all) (fc_acronyms c) /\
    last_set (map (fun x => ts_block_start (fc_syntax x)) all) (ts_block_start (fc_syntax c)) /\
    last_set (map (fun x => ts_block_end (fc_syntax x)) all) (ts_block_end (fc_syntax c)) /\
    last_set (map (fun x => ts_variable_start (fc_syntax x)) all) (ts_variable_start (fc_syntax c)) /\
    last_set (map (fun x => ts_variable_end (fc_syntax x)) all) (ts_variable_end (fc_syntax c)) /\
    last_set (map (fun x => ts_comment_start (fc_syntax x)) all) (ts_comment_start (fc_syntax c)) /\
    last_set (map (fun x => ts_comment_end (fc_syntax x)) all) (ts_comment_end (fc_syntax c)) /\
    last_set (map (fun x => ws_trim_blocks (fc_ws x)) all) (ws_trim_blocks (fc_ws c)) /\
    last_set (map (fun x => ws_lstrip_blocks (fc_ws x)) all) (ws_lstrip_blocks (fc_ws c)) /\
    last_set (map (fun x => ws_keep_newline (fc_ws x)) all) (ws_keep_newline (fc_ws c)) /\
    (forall k, final_param (mentions k children) (match fc_params c with Some m => slookup k m | None => None end))
  | Err e => exists t, In t contents /\ parse t = Err e
  end.
Proof.
  intros parse contents Hp. unfold resolve_from.
  assert (R : match contents with [] => Ok fconf_default | _ => resolve_into parse fconf_default contents end
              = resolve_into parse fconf_default contents) by (destruct contents; reflexivity).
  rewrite R. destruct (resolve_into parse fconf_default contents) as [c|e] eqn:E.
  - destruct (resolve_into_ok _ _ _ _ E) as (children & F & ->). exists children. split; [exact F|].
    assert (M : Forall map_params children).
    { clear - F Hp. induction F as [|t ch l l' H F IH]; constructor; [eapply Hp, H|exact IH]. }
    cbv zeta.
    repeat split; try (apply fields_last with (l := [_]); [reflexivity|apply last_single]).
    + apply (fields_last (fun x => ts_block_start (fc_syntax x)) ltac:(reflexivity) children fconf_default [_]), last_single.
    + apply (fields_last (fun x => ts_block_end (fc_syntax x)) ltac:(reflexivity) children fconf_default [_]), last_single.
    + apply (fields_last (fun x => ts_variable_start (fc_syntax x)) ltac:(reflexivity) children fconf_default [_]), last_single.
    + apply (fields_last (fun x => ts_variable_end (fc_syntax x)) ltac:(reflexivity) children fconf_default [_]), last_single.
    + apply (fields_last (fun x => ts_comment_start (fc_syntax x)) ltac:(reflexivity) children fconf_default [_]), last_single.
    + apply (fields_last (fun x => ts_comment_end (fc_syntax x)) ltac:(reflexivity) children fconf_default [_]), last_single.
    + apply (fields_last (fun x => ws_trim_blocks (fc_ws x)) ltac:(reflexivity) children fconf_default [_]), last_single.
    + apply (fields_last (fun x => ws_lstrip_blocks (fc_ws x)) ltac:(reflexivity) children fconf_default [_]), last_single.
    + apply (fields_last (fun x => ws_keep_newline (fc_ws x)) ltac:(reflexivity) children fconf_default [_]), last_single.
    + intros k. pose proof (params_final k children M fconf_default [] fp_none) as Q. cbn [app] in Q.
      unfold plookup in Q. destruct (fc_params _); exact Q.
  - apply (resolve_into_err _ _ _ _ E).
Qed.
Print Assumptions C26_merge.

(* The files used for a template directory: that of the home directory first, then those of
   every directory from the root down to the template directory, so the nearest one wins. *)
Lemma climb_app read rdir : climb read rdir =
  flat_map (fun n => texts_of (read (app (rev (skipn n rdir)) ["weaver.yaml"]))) (seq 0 (S (length rdir))).
Proof.
  assert (G : forall rdir, climb read rdir =
    texts_of (read (app (rev rdir) ["weaver.yaml"])) ++ match rdir with [] => [] | _ :: p => climb read p end).
  { intros [|x r]; reflexivity. }
  induction rdir as [|x r IH]; [reflexivity|]. rewrite G, IH. cbn [length].
  change (seq 0 (S (S (length r)))) with (0 :: seq 1 (S (length r))). rewrite <- (seq_shift (S (length r)) 0).
  rewrite !flat_map_concat_map. cbn [map concat skipn]. rewrite map_map. reflexivity.
Qed.

Lemma rev_flat_map {A B} (f : A -> list B) l : (forall x, length (f x) <= 1) ->
  rev (flat_map f l) = flat_map f (rev l).
Proof.
  intros H. induction l as [|x l IH]; [reflexivity|]. cbn. rewrite rev_app_distr, IH, flat_map_app. f_equal. cbn.
  rewrite app_nil_r. specialize (H x). destruct (f x) as [|a [|b r]]; cbn in *; try lia; reflexivity.
Qed.

Lemma rev_seq n : rev (seq 0 (S n)) = map (fun i => n - i) (seq 0 (S n)).
Proof.
  apply (nth_ext _ _ 0 0); [rewrite rev_length, map_length; reflexivity|].
  intros i Hi. rewrite rev_length, seq_length in Hi. rewrite rev_nth by (rewrite seq_length; exact Hi).
  rewrite seq_length. rewrite seq_nth by lia.
  rewrite (nth_indep _ 0 (n - 0)) by (rewrite map_length, seq_length; exact Hi).
  rewrite (map_nth (fun i => n - i)). rewrite seq_nth by exact Hi. lia.
Qed.

Theorem C26_files : forall read dir home,
  collect_from_path read dir home =
  match home with Some h => texts_of (read (h ++ [".weaver"; "weaver.yaml"])) | None => [] end ++
  flat_map (fun n => texts_of (read (firstn n dir ++ ["weaver.yaml"]))) (seq 0 (S (length dir))).
Proof.
  intros read dir home. unfold collect_from_path. rewrite rev_app_distr. f_equal.
  - destruct home as [h|]; [|reflexivity]. unfold readable, texts_of. destruct (read _); reflexivity.
  - rewrite climb_app. rewrite rev_flat_map by (intros x; destruct (read _); cbn; lia).
    rewrite rev_length, rev_seq. rewrite !flat_map_concat_map, map_map. f_equal. apply map_ext_in. intros i Hi.
    apply in_seq in Hi. f_equal. f_equal. f_equal. rewrite skipn_rev, rev_involutive. f_equal. lia.
Qed.
Print Assumptions C26_files.

(* Claim: a configuration file that cannot be read is reported.  True for files named on the
   command line, false for the ones found next to the templates: they are ignored. *)
Theorem C26_named_file_reported : forall parse read files f,
  In f files -> (forall t, read f <> FText t) -> exists e, try_from_config_files parse read files = Err e.
Proof.
  intros parse read files f Hin Hf. unfold try_from_config_files.
  assert (H : exists e, read_all read files = Err e).
  { induction files as [|g files IH]; [destruct Hin|]. cbn [read_all]. destruct Hin as [->|Hin].
    - destruct (read f) eqn:E; [eexists; reflexivity|eexists; reflexivity|]. exfalso. apply (Hf s). reflexivity.
    - destruct (IH Hin) as (e & He). rewrite He. destruct (read g); eexists; reflexivity. }
  destruct H as (e & ->). eexists. reflexivity.
Qed.
Theorem C26_unreadable_file_refuted : forall parse read dir home f,
  read f = FBad ->
  try_from_path parse read dir home =
  try_from_path parse (fun g => if list_eq_dec string_dec g f then FMissing else read g) dir home.
Proof.
  intros parse read dir home f Hf. unfold try_from_path. f_equal. rewrite !C26_files.
  assert (H : forall g, texts_of (read g) = texts_of (if list_eq_dec string_dec g f then FMissing else read g)).
  { intros g. destruct (list_eq_dec string_dec g f) as [->|]; [rewrite Hf|]; reflexivity. }
  f_equal; [destruct home; [apply H|reflexivity]|]. apply flat_map_ext. intros n. apply H.
Qed.
Print Assumptions C26_named_file_reported.
Print Assumptions C26_unreadable_file_refuted.

(* Acronyms of the project file *)

Definition lowers (l : list string) : list string := map lower l.

Lemma merge_acronym_lowers l a : lowers (merge_acronym l a) =
  if in_dec string_dec (lower a) (lowers l) then lowers l else lowers l ++ [lower a].
Proof.
  unfold lowers. induction l as [|e l IH]; cbn [merge_acronym map]; [reflexivity|].
  destruct (String.eqb_spec (lower e) (lower a)) as [E|N]; cbn [map].
  - rewrite E. destruct (in_dec string_dec (lower a) (lower a :: map lower l)) as [_|H]; [reflexivity|].
    exfalso. apply H. left. reflexivity.
  - rewrite IH. destruct (in_dec string_dec (lower a) (map lower l)) as [H|H];
      destruct (in_dec string_dec (lower a) (lower e :: map lower l)) as [H'|H']; try reflexivity.
    + exfalso. apply H'. right. exact H.
    + exfalso. destruct H' as [H'|H']; congruence.
Qed.

Lemma acronym_map_snoc l a k : slookup k (acronym_map (l ++ [a])) =
  if String.eqb k (lower a) then Some a else slookup k (acronym_map l).
Proof.
  unfold acronym_map. rewrite fold_left_app. cbn [fold_left]. unfold slookup, sinsert.
  destruct (String.eqb_spec k (lower a)) as [->|N].
  - apply (lookup_insert_eq _ string_eqb_spec).
  - apply (lookup_insert_ne _ string_eqb_spec). congruence.
Qed.

Lemma acronym_map_cons l : forall m k,
  slookup k (fold_left (fun m a => sinsert (lower a) a m) l m) =
  match slookup k (acronym_map l) with Some v => Some v | None => slookup k m end.
Proof.
  induction l as [|x l IH] using rev_ind; intros m k; [reflexivity|].
  rewrite acronym_map_snoc, fold_left_app. cbn [fold_left].
  assert (S : forall m', slookup k (sinsert (lower x) x m') = if String.eqb k (lower x) then Some x else slookup k m').
  { intros m'. unfold slookup, sinsert. destruct (String.eqb_spec k (lower x)) as [->|N].
    - apply (lookup_insert_eq _ string_eqb_spec).
    - apply (lookup_insert_ne _ string_eqb_spec). congruence. }
  rewrite S. destruct (String.eqb k (lower x)); [reflexivity|]. apply IH.
Qed.

Lemma acronym_map_none l k : ~ In k (lowers l) -> slookup k (acronym_map l) = None.
Proof.
  induction l as [|x l IH] using rev_ind; intros H; [reflexivity|]. rewrite acronym_map_snoc.
  unfold lowers in *. rewrite map_app, in_app_iff in H. cbn in H.
  destruct (String.eqb_spec k (lower x)) as [->|N]; [exfalso; apply H; right; left; reflexivity|].
  apply IH. tauto.
Qed.

Lemma merge_acronym_map l a k : NoDup (lowers l) ->
  slookup k (acronym_map (merge_acronym l a)) = slookup k (acronym_map (l ++ [a])).
Proof.
  rewrite acronym_map_snoc. unfold lowers. induction l as [|e l IH]; intros H; [reflexivity|].
  cbn [map] in H. inversion H as [|x y Hn Hd]; subst. cbn [merge_acronym].
  assert (C : forall e l, slookup k (acronym_map (e :: l)) =
      match slookup k (acronym_map l) with Some v => Some v | None => if String.eqb k (lower e) then Some e else None end).
  { intros e0 l0. unfold acronym_map at 1. cbn [fold_left]. rewrite acronym_map_cons.
    destruct (slookup k (acronym_map l0)); reflexivity. }
  destruct (String.eqb_spec (lower e) (lower a)) as [E|N].
  - rewrite !C. rewrite E. destruct (String.eqb_spec k (lower a)) as [Ek|N]; [|reflexivity].
    rewrite acronym_map_none; [reflexivity|]. unfold lowers. rewrite Ek, <- E. exact Hn.
  - rewrite !C, IH by exact Hd. destruct (String.eqb_spec k (lower a)) as [Ek|N2]; reflexivity.
Qed.

Lemma merge_acronym_nodup l a : NoDup (lowers l) -> NoDup (lowers (merge_acronym l a)).
Proof.
  intros H. rewrite merge_acronym_lowers. destruct (in_dec _ _ _) as [_|N]; [exact H|].
  apply (Permutation_NoDup (l := lower a :: lowers l)); [apply Permutation_cons_append|constructor; assumption].
Qed.

(* Merging the acronyms of the project file gives the same rewriting as appending them, so the
   project file wins, and adds no acronym twice; the list must not itself contain an acronym
   twice. *)
Theorem C26_acronyms_partial : forall self incoming,
  NoDup (map lower (opt_get self [])) ->
  NoDup (map lower (opt_get (merge_acronyms self incoming) [])) /\
  forall input, acronym (opt_get (merge_acronyms self incoming) []) input =
                acronym (opt_get self [] ++ opt_get incoming []) input.
Proof.
  intros self incoming H. destruct incoming as [l|]; cbn [merge_acronyms opt_get]; [|rewrite app_nil_r; auto].
  assert (G : forall l m, NoDup (lowers m) -> NoDup (lowers (fold_left merge_acronym l m)) /\
     forall k, slookup k (acronym_map (fold_left merge_acronym l m)) = slookup k (acronym_map (m ++ l))).
  { induction l0 as [|a l0 IH]; intros m Hm; cbn [fold_left]; [rewrite app_nil_r; auto|].
    destruct (IH (merge_acronym m a) (merge_acronym_nodup _ _ Hm)) as [I1 I2]. split; [exact I1|].
    intros k. rewrite I2. change (a :: l0) with ([a] ++ l0). rewrite app_assoc.
    assert (A : forall x y, slookup k (acronym_map (x ++ y)) =
       match slookup k (acronym_map y) with Some v => Some v | None => slookup k (acronym_map x) end).
    { intros x y. unfold acronym_map at 1. rewrite fold_left_app. apply acronym_map_cons. }
    rewrite !A. rewrite <- (A m [a]). rewrite merge_acronym_map by exact Hm. reflexivity. }
  destruct (G l _ H) as [G1 G2]. split; [exact G1|]. intros input. unfold acronym. f_equal. apply map_ext. intros t.
  rewrite G2. reflexivity.
Qed.
Print Assumptions C26_acronyms_partial.

(* When the template package itself spells an acronym twice, only the first spelling is
   replaced, and the second one is used instead of that of the project file. *)
Theorem C26_acronyms_refuted :
  acronym (opt_get (merge_acronyms (Some ["API"; "Api"]) (Some ["api"])) []) "API" = "Api".
Proof. reflexivity. Qed.
Print Assumptions C26_acronyms_refuted.

Lemma sinsert_fold {V} (l : list (string * V)) : NoDup (map fst l) -> forall m k,
  slookup k (fold_left (fun m e => sinsert (fst e) (snd e) m) l m) = orelse (slookup k l) (slookup k m).
Proof.
  induction l as [|[a v] l IH]; intros H m k; [reflexivity|]. cbn [map fst] in H. inversion H as [|x y Hn Hd]; subst.
  cbn [fold_left fst snd]. rewrite IH by exact Hd. unfold slookup at 3. cbn [lookup].
  assert (S : slookup k (sinsert a v m) = if String.eqb k a then Some v else slookup k m).
  { unfold slookup, sinsert. destruct (String.eqb_spec k a) as [->|N].
    - apply (lookup_insert_eq _ string_eqb_spec).
    - apply (lookup_insert_ne _ string_eqb_spec). congruence. }
  rewrite S. destruct (String.eqb_spec k a) as [->|N]; [|reflexivity].
  destruct (slookup a l) as [w|] eqn:E; [|reflexivity]. exfalso. apply Hn.
  apply (lookup_in _ string_eqb_spec) in E. apply (in_map fst) in E. exact E.
Qed.

(* Text maps of the project file replace those of the same name, all others are kept. *)
Theorem C26_text_maps : forall self incoming name,
  is_map (opt_get incoming []) ->
  slookup name (opt_get (merge_text_maps self incoming) []) =
  orelse (slookup name (opt_get incoming [])) (slookup name (opt_get self [])).
Proof.
  intros self [l|] name H; cbn [merge_text_maps opt_get]; [apply sinsert_fold, H|].
  destruct (slookup name (opt_get self [])); reflexivity.
Qed.
Print Assumptions C26_text_maps.

Example C26_ex :
  let c1 := {| fc_type_mapping := None; fc_text_maps := None; fc_syntax := fc_syntax fconf_default; fc_ws := fc_ws fconf_default;
               fc_comment_formats := None; fc_default_comment := Some "a"; fc_params := Some [("x", JBool true); ("y", JStr "1")];
               fc_templates := None; fc_acronyms := Some ["API"] |} in
  let c2 := {| fc_type_mapping := None; fc_text_maps := None; fc_syntax := fc_syntax fconf_default; fc_ws := fc_ws fconf_default;
               fc_comment_formats := None; fc_default_comment := None; fc_params := Some [("x", JNull); ("z", JStr "2")];
               fc_templates := None; fc_acronyms := Some ["URL"] |} in
  let parse t := if String.eqb t "1" then Ok c1 else if String.eqb t "2" then Ok c2 else Err "bad" in
  match resolve_from parse ["1"; "2"] with
  | Ok c => fc_params c = Some [("y", JStr "1"); ("z", JStr "2")] /\ fc_default_comment c = Some "a" /\ fc_acronyms c = Some ["URL"]
  | Err _ => False
  end /\ resolve_from parse ["1"; "3"] = Err "bad".
Proof. repeat split. Qed.

(* ** C27: the file loader *)

Lemma path_prefix_spec root p : path_prefix root p = true <-> exists rest, p = root ++ rest.
Proof.
  revert p. induction root as [|a r IH]; intros p; cbn; [split; [eauto|reflexivity]|].
  destruct p as [|b q]; [split; [discriminate|intros (x & H); discriminate H]|].
  rewrite andb_true_iff, IH. split.
  - intros [E (x & ->)]. apply String.eqb_eq in E. subst b. exists x. reflexivity.
  - intros (x & H). cbn in H. injection H as -> ->. split; [apply String.eqb_refl|eauto].
Qed.

(* Whatever is requested, and whatever links exist, the only files whose contents are returned
   are those below the canonical root; and every such file can be read. *)
Theorem C27_inside_root : forall canonicalize read_file root file,
  (forall p c, load_file canonicalize read_file root file = Ok (Some (p, c)) ->
     exists r rest, canonicalize root = Some r /\ p = r ++ rest /\ read_file p = FText c) /\
  (forall r rest c, canonicalize root = Some r -> canonicalize (push root file) = Some (r ++ rest) ->
     read_file (r ++ rest) = FText c -> load_file canonicalize read_file root file = Ok (Some (r ++ rest, c))) /\
  (forall e, load_file canonicalize read_file root file = Err e ->
     exists r rest, canonicalize root = Some r /\ canonicalize (push root file) = Some (r ++ rest) /\ read_file (r ++ rest) = FBad).
Proof.
  intros can rd root file. unfold load_file, safe_join. split; [|split].
  - intros p c H. destruct (can root) as [r|]; [|discriminate H]. destruct (can (push root file)) as [q|]; [|discriminate H].
    destruct (path_prefix r q) eqn:E; [|discriminate H]. apply path_prefix_spec in E as (rest & ->).
    destruct (rd (r ++ rest)) eqn:Er; try discriminate H. injection H as <- <-. exists r, rest. auto.
  - intros r rest c -> -> Hr. assert (E : path_prefix r (r ++ rest) = true) by (apply path_prefix_spec; eauto).
    rewrite E, Hr. reflexivity.
  - intros e H. destruct (can root) as [r|]; [|discriminate H]. destruct (can (push root file)) as [q|]; [|discriminate H].
    destruct (path_prefix r q) eqn:E; [|discriminate H]. apply path_prefix_spec in E as (rest & ->).
    destruct (rd (r ++ rest)) eqn:Er; try discriminate H. exists r, rest. auto.
Qed.
Print Assumptions C27_inside_root.

Example C27_ex :
  let can p := if String.eqb p "/t" then Some ["t"] else if String.eqb p "/t/a.j2" then Some ["t"; "a.j2"]
               else if String.eqb p "/t/../x" then Some ["x"] else if String.eqb p "/t2" then Some ["t2"] else None in
  load_file can (fun _ => FText "c") "/t" "a.j2" = Ok (Some (["t"; "a.j2"], "c")) /\
  load_file can (fun _ => FText "c") "/t" "../x" = Ok None /\
  load_file can (fun _ => FText "c") "/t" "/t2" = Ok None.
Proof. repeat split. Qed.

(* ** C57: parameters *)

Lemma bt_fold_over (l : params) : NoDup (map fst l) -> forall m k,
  slookup k (fold_left (fun m e => bt_insert (fst e) (snd e) m) l m) = orelse (slookup k l) (slookup k m).
Proof.
  induction l as [|[a v] l IH]; intros H m k; [reflexivity|]. cbn [map fst] in H. inversion H as [|x y Hn Hd]; subst.
  cbn [fold_left fst snd]. rewrite IH by exact Hd. rewrite bt_insert_lookup. unfold slookup at 3. cbn [lookup].
  destruct (String.eqb_spec k a) as [->|N]; [|reflexivity].
  destruct (slookup a l) as [w|] eqn:E; [|reflexivity]. exfalso. apply Hn.
  apply (lookup_in _ string_eqb_spec) in E. apply (in_map fst) in E. exact E.
Qed.

Lemma bt_fold_under (l : params) : forall m k,
  slookup k (fold_left (fun m e => if has_key String.eqb (fst e) m then m else bt_insert (fst e) (snd e) m) l m)
  = orelse (slookup k m) (slookup k l).
Proof.
  induction l as [|[a v] l IH]; intros m k; [cbn [fold_left]; destruct (slookup k m); reflexivity|].
  cbn [fold_left fst snd]. rewrite IH. unfold has_key. fold (slookup a m).
  change (slookup k ((a, v) :: l)) with (if String.eqb k a then Some v else slookup k l).
  destruct (slookup a m) as [w|] eqn:E; cbn [is_some].
  - destruct (String.eqb_spec k a) as [->|N]; [rewrite E; reflexivity|reflexivity].
  - rewrite bt_insert_lookup. destruct (String.eqb_spec k a) as [->|N]; [rewrite E; reflexivity|reflexivity].
Qed.

(* A parameter has the value of the command line, else that of the template, else that of the
   configuration file; in a snippet that of the command line, else that of the file. *)
Theorem C57_precedence : forall cli file_level own k,
  is_map cli ->
  slookup k (template_params cli file_level own) =
    orelse (slookup k cli) (orelse (slookup k (opt_get own [])) (slookup k (opt_get file_level []))) /\
  slookup k (snippet_params cli file_level) = orelse (slookup k cli) (slookup k (opt_get file_level [])).
Proof.
  intros cli fl own k H. split.
  - unfold template_params. destruct fl as [top|]; cbn [opt_get].
    + rewrite bt_fold_under, bt_fold_over by exact H. destruct (slookup k cli); reflexivity.
    + rewrite bt_fold_over by exact H. destruct (slookup k cli); [reflexivity|]. destruct (slookup k (opt_get own [])); reflexivity.
  - unfold snippet_params. apply bt_fold_over, H.
Qed.
Print Assumptions C57_precedence.

(* On the command line the last definition of a parameter wins, over the parameter file. *)
Theorem C57_command_line : forall file direct k,
  slookup k (generate_params file direct) =
  match filter (fun e => String.eqb k (fst e)) (opt_get direct []) with
  | [] => slookup k file
  | l => Some (snd (last l ("", JNull)))
  end.
Proof.
  intros file [l|] k; cbn [generate_params opt_get]; [|reflexivity].
  induction l as [|[a v] l IH] using rev_ind; [reflexivity|]. rewrite fold_left_app, filter_app. cbn [fold_left filter fst snd].
  assert (S : forall m, slookup k (sinsert a v m) = if String.eqb k a then Some v else slookup k m).
  { intros m. unfold slookup, sinsert. destruct (String.eqb_spec k a) as [->|N].
    - apply (lookup_insert_eq _ string_eqb_spec).
    - apply (lookup_insert_ne _ string_eqb_spec). congruence. }
  rewrite S. destruct (String.eqb k a).
  - destruct (filter _ l ++ [(a, v)]) eqn:E; [destruct (filter _ l); discriminate E|]. rewrite <- E, last_last. reflexivity.
  - rewrite app_nil_r. exact IH.
Qed.
Print Assumptions C57_command_line.

(* key=value is read at the first equals sign *)
Theorem C57_key_value : forall yaml k v j,
  (forall a b, k <> (a ++ "=" ++ b)%string) -> yaml v = Ok j ->
  parse_key_val yaml (k ++ "=" ++ v)%string = Ok (k, j).
Proof.
  intros yaml k v j Hk Hy. unfold parse_key_val.
  assert (E : split_once "=" (k ++ "=" ++ v)%string = Some (k, v)).
  { clear Hy. induction k as [|c k IH]; [reflexivity|]. cbn [append split_once].
    destruct (Ascii.eqb_spec c "="%char) as [->|N].
    - exfalso. apply (Hk "" k). reflexivity.
    - cbn [append] in IH. rewrite IH; [reflexivity|]. intros a b E. apply (Hk (String c a) b). cbn. f_equal. exact E. }
  rewrite E, Hy. reflexivity.
Qed.
Print Assumptions C57_key_value.

(* All parameters are passed on, together with one named params that holds all of them; a
   parameter of that name is rejected. *)
Theorem C57_reserved : forall p,
  (forall q, init_params p = Ok q <-> slookup "params" p = None /\ q = bt_insert "params" (JObj p) p) /\
  (forall q k, init_params p = Ok q -> slookup k q = if String.eqb k "params" then Some (JObj p) else slookup k p).
Proof.
  intros p. unfold init_params, has_key. fold (slookup "params" p). split.
  - intros q. destruct (slookup "params" p); cbn; split; intros H; try discriminate H.
    + destruct H; discriminate.
    + injection H as <-. auto.
    + destruct H as [_ ->]. reflexivity.
  - intros q k. destruct (slookup "params" p); cbn; intros H; [discriminate H|]. injection H as <-. apply bt_insert_lookup.
Qed.
Print Assumptions C57_reserved.

Example C57_ex : template_params [("a", JStr "cli")] (Some [("a", JStr "file"); ("c", JStr "file")]) (Some [("b", JStr "tpl"); ("c", JStr "tpl")])
  = [("a", JStr "cli"); ("b", JStr "tpl"); ("c", JStr "tpl")] /\
  generate_params [("a", JStr "1")] (Some [("a", JStr "2"); ("a", JStr "3")]) = [("a", JStr "3")].
Proof. split; reflexivity. Qed.

(* ** C58: generation *)

Lemma execute_app st ws : forall errs,
  fold_left (fun acc w => match w with
      | Write p c => (write (fst acc) (p, c), snd acc)
      | Fail e => (fst acc, app (snd acc) [e]) end) ws (st, errs) =
  (fold_left (fun st w => match w with Write p c => write st (p, c) | Fail _ => st end) ws st,
   errs ++ flat_map (fun w => match w with Fail e => [e] | _ => [] end) ws).
Proof.
  revert st. induction ws as [|w ws IH]; intros st errs; cbn [fold_left flat_map]; [rewrite app_nil_r; reflexivity|].
  destruct w as [p c|e]; cbn [fst snd]; rewrite IH; [reflexivity|]. rewrite <- app_assoc. reflexivity.
Qed.

Lemma write_lookup st p c q : slookup q (write st (p, c)) = if String.eqb q p then Some c else slookup q st.
Proof.
  unfold slookup, write, sinsert. cbn [fst snd]. destruct (String.eqb_spec q p) as [->|N].
  - apply (lookup_insert_eq _ string_eqb_spec).
  - apply (lookup_insert_ne _ string_eqb_spec). congruence.
Qed.

Lemma writes_lookup ws : forall st q,
  no_conflict ws ->
  (forall c, In (Write q c) ws ->
     slookup q (fold_left (fun st w => match w with Write p c => write st (p, c) | Fail _ => st end) ws st) = Some c) /\
  ((forall c, ~ In (Write q c) ws) ->
     slookup q (fold_left (fun st w => match w with Write p c => write st (p, c) | Fail _ => st end) ws st) = slookup q st).
Proof.
  induction ws as [|w ws IH] using rev_ind; intros st q H; [split; [intros c []|reflexivity]|].
  rewrite fold_left_app. cbn [fold_left].
  assert (H' : no_conflict ws) by (intros p c c' H1 H2; apply (H p); apply in_or_app; auto).
  destruct (IH st q H') as [I1 I2]. split.
  - intros c Hc. destruct w as [p c0|e].
    + rewrite write_lookup. destruct (String.eqb_spec q p) as [->|N].
      * f_equal. apply (H p); [apply in_or_app; right; left; reflexivity|exact Hc].
      * apply I1. apply in_app_or in Hc as [Hc|[Hc|[]]]; [exact Hc|congruence].
    + apply I1. apply in_app_or in Hc as [Hc|[Hc|[]]]; [exact Hc|discriminate Hc].
  - intros Hn. destruct w as [p c0|e].
    + rewrite write_lookup. destruct (String.eqb_spec q p) as [->|N].
      * exfalso. apply (Hn c0). apply in_or_app. right. left. reflexivity.
      * apply I2. intros c Hc. apply (Hn c). apply in_or_app. auto.
    + apply I2. intros c Hc. apply (Hn c). apply in_or_app. auto.
Qed.

(* Whatever the order in which the pieces of work run, if no two of them write different
   contents to one path: every written file has the content of the piece that writes it, every
   other file is untouched, and the run succeeds exactly when no piece fails. *)
Theorem C58_schedule_independent_partial : forall jq render matches out ctx files ts sched st,
  Permutation sched (all_work jq render matches out ctx files ts) ->
  let ws := all_work jq render matches out ctx files ts in
  no_conflict ws ->
  let r := execute sched st in
  (forall p c, In (Write p c) ws -> slookup p (fst r) = Some c) /\
  (forall p, (forall c, ~ In (Write p c) ws) -> slookup p (fst r) = slookup p st) /\
  Permutation (snd r) (flat_map (fun w => match w with Fail e => [e] | _ => [] end) ws) /\
  (succeeded r = true <-> forall e, ~ In (Fail e) ws).
Proof.
  intros jq render matches out ctx files ts sched st Hp ws Hc r. unfold r, execute. rewrite execute_app. cbn [fst snd app].
  assert (Hs : no_conflict sched).
  { intros p c c' H1 H2. apply (Hc p); eapply Permutation_in; eauto. }
  assert (Hin : forall w, In w sched <-> In w ws).
  { intros w. split; apply Permutation_in; [exact Hp|symmetry; exact Hp]. }
  split; [|split; [|split]].
  - intros p c H. apply (writes_lookup sched st p Hs). apply Hin. exact H.
  - intros p H. apply (writes_lookup sched st p Hs). intros c Hc'. apply (H c). apply Hin. exact Hc'.
  - apply Permutation_flat_map. exact Hp.
  - unfold succeeded. cbn [snd]. split.
    + intros H e He. apply Hin in He. destruct (flat_map _ sched) eqn:E; [|discriminate H].
      assert (X : In e (flat_map (fun w => match w with Fail e => [e] | _ => [] end) sched)).
      { apply in_flat_map. exists (Fail e). split; [exact He|left; reflexivity]. }
      rewrite E in X. destruct X.
    + intros H. destruct (flat_map _ sched) as [|e l] eqn:E; [reflexivity|]. exfalso. apply (H e). apply Hin.
      assert (X : In e (flat_map (fun w => match w with Fail e => [e] | _ => [] end) sched)) by (rewrite E; left; reflexivity).
      apply in_flat_map in X as (w & Hw & Hx). destruct w; [destruct Hx|destruct Hx as [->|[]]; exact Hw].
Qed.
Print Assumptions C58_schedule_independent_partial.

(* Full claim (without the condition): false.  Two items that get the same file name overwrite
   each other, and which one remains depends on the schedule. *)
Theorem C58_same_name_refuted : forall st,
  exists jq render matches ctx files ts s1 s2,
    let ws := all_work jq render matches "out" ctx files ts in
    Permutation s1 ws /\ Permutation s2 ws /\
    succeeded (execute s1 st) = true /\ succeeded (execute s2 st) = true /\
    slookup "out/a.md" (fst (execute s1 st)) <> slookup "out/a.md" (fst (execute s2 st)).
Proof.
  intros st. set (render := fun item (_ : params) (_ : string) (_ : option string) (_ : string) =>
    match item with JStr s => Ok (s, "a.md") | _ => Err "e" end).
  set (t := {| tc_template := "a.md.j2"; tc_filter := ".groups"; tc_mode := Each; tc_params := None;
               tc_file_name := None; tc_escape := "none"; tc_when := None |}).
  exists (fun _ _ _ => Ok [JArr [JStr "1"; JStr "2"]]), render, String.eqb, JNull, ["a.md.j2"], [t],
         [Write "out/a.md" "1"; Write "out/a.md" "2"], [Write "out/a.md" "2"; Write "out/a.md" "1"].
  cbv zeta.
  replace (all_work _ render String.eqb "out" JNull ["a.md.j2"] [t]) with [Write "out/a.md" "1"; Write "out/a.md" "2"] by reflexivity.
  split; [apply Permutation_refl|]. split; [apply perm_swap|]. split; [reflexivity|]. split; [reflexivity|].
  unfold execute. cbn [fold_left fst snd]. rewrite !write_lookup. cbn. congruence.
Qed.
Print Assumptions C58_same_name_refuted.

(* Which pieces of work there are: for every template file, every configuration whose pattern
   matches it and whose condition holds, and every result of its filter, the template is
   rendered exactly with that result; nothing else is rendered. *)
Theorem C58_every_result_rendered : forall jq render matches out ctx files ts f t p stream results,
  In f files -> In t ts -> matches (tc_template t) f = true ->
  init_params (opt_get (tc_params t) []) = Ok p ->
  (tc_when t = None \/ exists w, tc_when t = Some w /\ jq ctx w p = Ok [JBool true]) ->
  jq ctx (tc_filter t) p = Ok stream -> applied (tc_mode t) stream results ->
  (forall item, In item results ->
     match render item p f (tc_file_name t) (tc_escape t) with
     | Ok (content, name) => In (Write (push out name) content) (all_work jq render matches out ctx files ts)
     | Err e => In (Fail e) (all_work jq render matches out ctx files ts)
     end).
Proof.
  intros jq render matches out ctx files ts f t p stream results Hf Ht Hm Hp Hw Hs Ha item Hi.
  assert (E : process_template jq render out ctx f t = map (evaluate_template render out t f p) results).
  { unfold process_template. rewrite Hp.
    assert (W : evaluate_when jq t ctx p = Ok true).
    { unfold evaluate_when. destruct Hw as [->|(w & -> & Hw)]; [reflexivity|]. unfold execute_jq. rewrite Hw. reflexivity. }
    rewrite W. unfold execute_jq. rewrite Hs. inversion Ha as [xs E1 E2|vs Hn E1 E2|v Hn1 Hn2 E1 E2|E1 E2|E1 E2|E1 E2|v w vs E1 E2]; subst; cbn [items]; try reflexivity.
    - destruct results as [|v [|w r]]; [reflexivity| |reflexivity]. destruct v; try reflexivity. exfalso. apply (Hn l). reflexivity.
    - destruct v; try reflexivity; [congruence|]. destruct l; [congruence|reflexivity]. }
  assert (G : In (evaluate_template render out t f p item) (all_work jq render matches out ctx files ts)).
  { unfold all_work. apply in_flat_map. exists f. split; [exact Hf|]. apply in_flat_map. exists t. split.
    - apply filter_In. auto.
    - rewrite E. apply in_map. exact Hi. }
  unfold evaluate_template in G. destruct (render item p f (tc_file_name t) (tc_escape t)) as [[content name]|e]; exact G.
Qed.
Print Assumptions C58_every_result_rendered.

(* ... and only those: *)
Theorem C58_nothing_else_rendered : forall jq render matches out ctx files ts w,
  In w (all_work jq render matches out ctx files ts) ->
  exists f t, In f files /\ In t ts /\ matches (tc_template t) f = true /\
    ((exists e, w = Fail e /\ (init_params (opt_get (tc_params t) []) = Err e \/
        exists p, init_params (opt_get (tc_params t) []) = Ok p /\
          ((exists wh, tc_when t = Some wh /\ forall b, jq ctx wh p <> Ok [JBool b]) \/ jq ctx (tc_filter t) p = Err e))) \/
     exists p stream results item,
       init_params (opt_get (tc_params t) []) = Ok p /\
       (tc_when t = None \/ exists wh, tc_when t = Some wh /\ jq ctx wh p = Ok [JBool true]) /\
       jq ctx (tc_filter t) p = Ok stream /\ applied (tc_mode t) stream results /\ In item results /\
       match render item p f (tc_file_name t) (tc_escape t) with
       | Ok (content, name) => w = Write (push out name) content
       | Err e => w = Fail e
       end).
Proof.
  intros jq render matches out ctx files ts w H. unfold all_work in H. apply in_flat_map in H as (f & Hf & H).
  apply in_flat_map in H as (t & Ht & H). apply filter_In in Ht as [Ht Hm]. exists f, t.
  split; [exact Hf|]. split; [exact Ht|]. split; [exact Hm|]. unfold process_template in H.
  destruct (init_params (opt_get (tc_params t) [])) as [p|e] eqn:Ep.
  2: { destruct H as [<-|[]]. left. exists e. auto. }
  assert (W : match evaluate_when jq t ctx p with
    | Ok true => tc_when t = None \/ exists wh, tc_when t = Some wh /\ jq ctx wh p = Ok [JBool true]
    | Ok false => True
    | Err _ => exists wh, tc_when t = Some wh /\ forall b, jq ctx wh p <> Ok [JBool b] end).
  { unfold evaluate_when. destruct (tc_when t) as [wh|]; [|auto]. unfold execute_jq.
    destruct (jq ctx wh p) as [[|v [|v2 l]]|e] eqn:Ej; try (exists wh; split; [reflexivity|congruence]).
    destruct v as [|b| | | |]; try (exists wh; split; [reflexivity|congruence]).
    destruct b; [|exact I]. right. exists wh. auto. }
  destruct (evaluate_when jq t ctx p) as [[]|e] eqn:Ew; [|destruct H|].
  2: { destruct H as [<-|[]]. left. exists e. split; [reflexivity|]. right. exists p. auto. }
  unfold execute_jq in H. destruct (jq ctx (tc_filter t) p) as [stream|e] eqn:Es.
  2: { destruct H as [<-|[]]. left. exists e. split; [reflexivity|]. right. exists p. auto. }
  right. 
  assert (R : exists results, applied (tc_mode t) stream results /\ In w (map (evaluate_template render out t f p) results)).
  { destruct stream as [|v [|v2 l]].
    - destruct (tc_mode t); cbn [items map] in H; [destruct H|]. destruct H.
    - destruct (tc_mode t) eqn:Em; cbn [items] in H.
      + destruct v as [|b|n|s|l|l].
        * destruct H.
        * exists [JBool b]. split; [constructor; discriminate|exact H].
        * exists [JNum n]. split; [constructor; discriminate|exact H].
        * exists [JStr s]. split; [constructor; discriminate|exact H].
        * destruct l; [destruct H|]. exists [JArr (j :: l)]. split; [constructor; discriminate|exact H].
        * exists [JObj l]. split; [constructor; discriminate|exact H].
      + destruct v as [|b|n|s|l|l]; try (eexists; split; [apply ap_each_stream; intros xs E; discriminate E|exact H]).
        exists l. split; [constructor|exact H].
    - destruct (tc_mode t) eqn:Em; cbn [items] in H.
      + exists [JArr (v :: v2 :: l)]. split; [constructor|exact H].
      + exists (v :: v2 :: l). split; [apply ap_each_stream; intros xs E; discriminate E|exact H]. }
  destruct R as (results & Ha & Hin). apply in_map_iff in Hin as (item & Hi & Hin).
  exists p, stream, results, item. repeat (split; [assumption||reflexivity|]). 
  unfold evaluate_template in Hi. destruct (render item p f (tc_file_name t) (tc_escape t)) as [[content name]|e]; auto.
Qed.
Print Assumptions C58_nothing_else_rendered.

(* Full claim "the template is applied to each result of the filter": false.  When the filter
   yields exactly one result and it is an array, the template is applied to its elements. *)
Theorem C58_single_array_result_refuted :
  exists stream results, applied Each stream results /\ stream = [JArr [JStr "a"; JStr "b"]] /\ results <> stream.
Proof. exists [JArr [JStr "a"; JStr "b"]], [JStr "a"; JStr "b"]. split; [constructor|]. split; [reflexivity|discriminate]. Qed.
Print Assumptions C58_single_array_result_refuted.

(* ** C59: where files are written *)

Theorem C59_inside_output_partial : forall render out t f p item path content name,
  evaluate_template render out t f p item = Write path content ->
  render item p f (tc_file_name t) (tc_escape t) = Ok (content, name) ->
  plain_name name -> path = (out ++ "/" ++ name)%string /\ stays_inside (components name).
Proof.
  intros render out t f p item path content name H Hr [Hroot Hpar]. unfold evaluate_template in H. rewrite Hr in H.
  injection H as <-. 
  assert (S : forall c r, name = String c r -> c <> "/"%char).
  { intros c r -> ->. apply Hroot. unfold components. 
    destruct (split_slash (String "/" r)) eqn:E; [exfalso; unfold split_slash in E; cbn in E; destruct r; discriminate E|].
    cbn. left. reflexivity. }
  split.
  - unfold push. destruct name as [|c r]; [reflexivity|]. specialize (S c r eq_refl).
    destruct c as [[] [] [] [] [] [] [] []]; try reflexivity. congruence.
  - assert (K : forall c, In c (components name) -> c = CurDir \/ exists n, c = Normal n).
    { intros c Hc. destruct c; [contradiction|left; reflexivity|contradiction|right; eauto]. }
    clear -K. unfold stays_inside. generalize (@nil string). induction (components name) as [|c cs IH]; intros st; [exists st; reflexivity|].
    destruct (K c (or_introl eq_refl)) as [->|(n & ->)]; cbn; apply IH; intros d Hd; apply K; right; exact Hd.
Qed.
Print Assumptions C59_inside_output_partial.

(* Full claim (every name a template or a configuration gives): false. *)
Theorem C59_inside_output_refuted : forall out,
  push out "/etc/passwd" = "/etc/passwd" /\ ~ stays_inside (components "../x") /\ push out "../x" = (out ++ "/" ++ "../x")%string.
Proof. intros out. split; [reflexivity|]. split; [intros (st & H); discriminate H|reflexivity]. Qed.
Print Assumptions C59_inside_output_refuted.

Example C59_ex : plain_name "docs/./http.md".
Proof. split; intros H; repeat (destruct H as [H|H]; [discriminate H|]); destruct H. Qed.

(* ** C60: embedded templates *)

Lemma enode_ind2 (P : enode -> Prop) (HF : forall n c, P (EFile n c))
  (HD : forall n l, Forall P l -> P (EDir n l)) : forall n, P n.
Proof.
  fix IH 1. intros [n c|n l]; [apply HF|]. apply HD. induction l as [|x l IHl]; constructor; [apply IH|exact IHl].
Qed.

Lemma get_file_spec n : forall dir p c,
  (get_file dir n p = Some c -> exists q, p = dir ++ q /\ In (q, c) (files_below n)).
Proof.
  induction n as [name content|name l IH] using enode_ind2; intros dir p c H.
  - cbn in H. destruct (list_eq_dec string_dec (dir ++ [name]) p) as [<-|]; [|discriminate H]. injection H as <-.
    exists [name]. split; [reflexivity|left; reflexivity].
  - cbn in H. 
    assert (G : exists q, p = (dir ++ [name]) ++ q /\ In (q, c) (flat_map files_below l)).
    { induction IH as [|x l IHx IH IHl]; [discriminate H|]. destruct (get_file (dir ++ [name]) x p) as [c'|] eqn:E.
      - injection H as ->. destruct (IHx _ _ _ E) as (q & -> & Hq). exists q. split; [reflexivity|]. cbn. apply in_or_app. auto.
      - destruct (IHl H) as (q & -> & Hq). exists q. split; [reflexivity|]. cbn. apply in_or_app. auto. }
    destruct G as (q & -> & Hq). exists (name :: q). rewrite <- app_assoc. split; [reflexivity|]. cbn.
    apply in_map_iff. exists (q, c). auto.
Qed.

Lemma get_file_complete n : forall dir q c, In (q, c) (files_below n) -> exists c', get_file dir n (dir ++ q) = Some c'.
Proof.
  induction n as [name content|name l IH] using enode_ind2; intros dir q c H.
  - cbn in H. destruct H as [H|[]]. injection H as <- <-. cbn. destruct (list_eq_dec string_dec _ _); [eauto|congruence].
  - cbn in H. apply in_map_iff in H as ((q' & c0) & E & H). cbn in E. injection E as <- <-. cbn.
    change (dir ++ name :: q') with (dir ++ [name] ++ q'). rewrite app_assoc.
    induction IH as [|x l IHx IH IHl]; [destruct H|]. cbn in H. apply in_app_or in H as [H|H].
    + destruct (IHx (dir ++ [name]) _ _ H) as (c' & ->). eauto.
    + destruct (get_file (dir ++ [name]) x ((dir ++ [name]) ++ q')); [eauto|]. apply IHl. exact H.
Qed.

(* A file of an embedded target directory is loaded by its path in the directory. *)
Theorem C60_load : forall target entries,
  NoDup (map fst (flat_map files_below entries)) ->
  forall p c, embedded_load target entries p = Some c <-> In (p, c) (flat_map files_below entries).
Proof.
  intros target entries Hd p c. unfold embedded_load. split.
  - clear Hd. induction entries as [|n l IH]; cbn; [discriminate|]. destruct (get_file target n (target ++ p)) as [c'|] eqn:E.
    + intros H. injection H as ->. apply get_file_spec in E as (q & E & Hq). apply app_inv_head in E as ->. apply in_or_app. auto.
    + intros H. apply in_or_app. right. apply IH. exact H.
  - induction entries as [|n l IH]; cbn [flat_map first_some]; intros H; [destruct H|]. cbn [flat_map] in Hd. rewrite map_app in Hd.
    destruct (get_file target n (target ++ p)) as [c'|] eqn:E.
    + apply get_file_spec in E as (q & E & Hq). apply app_inv_head in E as ->. f_equal.
      assert (H' : In (q, c') (flat_map files_below (n :: l))) by (cbn; apply in_or_app; auto).
      assert (N : NoDup (map fst (flat_map files_below (n :: l)))) by (cbn; rewrite map_app; exact Hd).
      assert (H2 : In (q, c) (flat_map files_below (n :: l))) by (cbn; exact H).
      clear - N H' H2. induction (flat_map files_below (n :: l)) as [|[a b] r IHr]; [destruct H'|]. cbn in N.
      inversion N as [|x y Hn Hd]; subst. destruct H' as [H'|H']; destruct H2 as [H2|H2].
      * congruence.
      * injection H' as -> ->. exfalso. apply Hn. apply (in_map fst) in H2. exact H2.
      * injection H2 as -> ->. exfalso. apply Hn. apply (in_map fst) in H'. exact H'.
      * apply IHr; assumption.
    + apply in_app_or in H as [H|H].
      * exfalso. destruct (get_file_complete n target p c H) as (c' & H'). congruence.
      * apply IH; [|exact H]. clear -Hd. induction (map fst (files_below n)) as [|x r IHr]; [exact Hd|]. inversion Hd; auto.
Qed.
Print Assumptions C60_load.

Lemma strip_path_self d n : strip_path d (d ++ [n]) = Some [n].
Proof. induction d as [|a d IH]; [reflexivity|]. cbn. rewrite String.eqb_refl. exact IH. Qed.

(* In a directory without sub-directories exactly the files are listed. *)
Theorem C60_listing_partial : forall target entries,
  Forall is_file entries -> embedded_all_files target entries = map fst (flat_map files_below entries).
Proof.
  intros target entries H. unfold embedded_all_files. induction H as [|n l (name & c & ->) H IH]; [reflexivity|].
  cbn. rewrite strip_path_self, IH. reflexivity.
Qed.
Print Assumptions C60_listing_partial.

(* Full claim (directories of any depth): false.  A file in a sub-directory is listed by its
   bare name, under which it cannot be loaded, or under which another file is loaded. *)
Theorem C60_listing_refuted : forall target sub name c,
  embedded_all_files target [EDir sub [EFile name c]] = [[name]] /\
  embedded_load target [EDir sub [EFile name c]] [name] = None.
Proof.
  intros target sub name c. split.
  - unfold embedded_all_files. cbn. rewrite strip_path_self. reflexivity.
  - unfold embedded_load. cbn. destruct (list_eq_dec string_dec ((target ++ [sub]) ++ [name]) (target ++ [name])) as [E|_]; [|reflexivity].
    exfalso. apply (f_equal (@length string)) in E. rewrite !app_length in E. cbn in E. lia.
Qed.
Print Assumptions C60_listing_refuted.

(* ** C61: reports *)

Lemma sinsert_lookup' st (p c : string) q : slookup q (sinsert p c st) = if String.eqb q p then Some c else slookup q st.
Proof. exact (write_lookup st p c q). Qed.

(* Reports written to a file: after any number of reports it holds all of them in order and
   nothing of its old content (JSONL: one line each), no other file is changed, and nothing is
   printed.  Without a file, each report is printed on lines of its own and no file is touched. *)
Theorem C61_reports : forall ser fmt prefix tgt st data,
  data <> [] ->
  let st' := fold_left (generate_report ser fmt prefix tgt) data {| os_open := None; os_fs := st; os_printed := "" |} in
  match report_path fmt prefix tgt with
  | Some p =>
    slookup p (os_fs st') = Some (String.concat "" (map (line_of ser fmt) data)) /\
    (forall q, q <> p -> slookup q (os_fs st') = slookup q st) /\ os_printed st' = ""
  | None =>
    os_fs st' = st /\ os_printed st' = String.concat "" (map (fun d => (ser fmt d ++ String "010"%char "")%string) data)
  end.
Proof.
  intros ser fmt prefix tgt st data Hne. cbv zeta.
  assert (CS : forall l x, String.concat "" (l ++ [x]) = (String.concat "" l ++ x)%string).
  { induction l as [|a l IH]; intros x; [reflexivity|]. destruct l as [|b l]; [reflexivity|].
    change ((a :: b :: l) ++ [x]) with (a :: (b :: l) ++ [x]). 
    assert (C : forall a l, String.concat "" (a :: l) = (a ++ String.concat "" l)%string).
    { intros a0 [|b0 l0]; cbn; [rewrite str_app_nil_r; reflexivity|reflexivity]. }
    rewrite !(C a), IH, str_app_assoc. reflexivity. }
  assert (O : forall s d, os_open s = None -> 
     os_open (generate_report ser fmt prefix tgt s d) = report_path fmt prefix tgt /\
     (report_path fmt prefix tgt = None -> os_fs (generate_report ser fmt prefix tgt s d) = os_fs s /\
        os_printed (generate_report ser fmt prefix tgt s d) = (os_printed s ++ ser fmt d ++ String "010"%char "")%string) /\
     (forall p, report_path fmt prefix tgt = Some p ->
        slookup p (os_fs (generate_report ser fmt prefix tgt s d)) = Some (line_of ser fmt d) /\
        (forall q, q <> p -> slookup q (os_fs (generate_report ser fmt prefix tgt s d)) = slookup q (os_fs s)) /\
        os_printed (generate_report ser fmt prefix tgt s d) = os_printed s)).
  { intros s d Ho. unfold generate_report. rewrite Ho. 
    assert (F : forall p : string, let r := {| os_open := Some p; os_fs := sinsert p "" (os_fs s); os_printed := os_printed s |} in
       slookup p (sinsert p (opt_get (slookup p (os_fs r)) "" ++ line_of ser fmt d)%string (os_fs r)) = Some (line_of ser fmt d) /\
       forall q, q <> p -> slookup q (sinsert p (opt_get (slookup p (os_fs r)) "" ++ line_of ser fmt d)%string (os_fs r)) = slookup q (os_fs s)).
    { intros p. cbn [os_fs]. split.
      - rewrite sinsert_lookup', String.eqb_refl, sinsert_lookup', String.eqb_refl. reflexivity.
      - intros q Hq. rewrite !sinsert_lookup'. apply String.eqb_neq in Hq. rewrite Hq. reflexivity. }
    destruct tgt as [| |p|p]; cbn [report_path]; rewrite ?Ho.
    - split; [reflexivity|]. split; [intros _; split; reflexivity|discriminate].
    - split; [reflexivity|]. split; [intros _; split; reflexivity|discriminate].
    - cbn [os_open]. split; [reflexivity|]. split; [discriminate|]. intros p' E. injection E as <-.
      destruct (F p) as [F1 F2]. unfold line_of in F1, F2. destruct fmt; cbn [os_fs os_printed] in *; auto.
    - assert (EX : match fmt with BJson => ".json" | BYaml => ".yaml" | BJsonl => ".jsonl" end = ("." ++ extension fmt)%string)
        by (destruct fmt; reflexivity). rewrite EX.
      cbn [os_open]. split; [reflexivity|]. split; [discriminate|]. intros p' E. injection E as <-.
      destruct (F (push p (prefix ++ "." ++ extension fmt)%string)) as [F1 F2]. unfold line_of in F1, F2. destruct fmt; cbn [os_fs os_printed] in *; auto. }
  assert (N : forall s d p, os_open s = Some p ->
     os_open (generate_report ser fmt prefix tgt s d) = Some p /\
     slookup p (os_fs (generate_report ser fmt prefix tgt s d)) = Some (opt_get (slookup p (os_fs s)) "" ++ line_of ser fmt d)%string /\
     (forall q, q <> p -> slookup q (os_fs (generate_report ser fmt prefix tgt s d)) = slookup q (os_fs s)) /\
     os_printed (generate_report ser fmt prefix tgt s d) = os_printed s).
  { intros s d p Ho. unfold generate_report. rewrite Ho. rewrite Ho. cbn [os_open os_fs os_printed]. split; [reflexivity|].
    unfold line_of. split; [rewrite sinsert_lookup', String.eqb_refl; reflexivity|]. split; [|reflexivity].
    intros q Hq. rewrite sinsert_lookup'. apply String.eqb_neq in Hq. rewrite Hq. reflexivity. }
  set (s0 := {| os_open := None; os_fs := st; os_printed := "" |}).
  destruct (report_path fmt prefix tgt) as [p|] eqn:Er.
  - assert (G : let s := fold_left (generate_report ser fmt prefix tgt) data s0 in
       os_open s = Some p /\ slookup p (os_fs s) = Some (String.concat "" (map (line_of ser fmt) data)) /\
       (forall q, q <> p -> slookup q (os_fs s) = slookup q st) /\ os_printed s = "").
    { induction data as [|d data IH] using rev_ind; [congruence|]. rewrite fold_left_app, map_app. cbn [fold_left map].
      destruct data as [|d0 data].
      - cbn [fold_left map app]. destruct (O s0 d eq_refl) as (O1 & _ & O2). destruct (O2 p eq_refl) as (P1 & P2 & P3).
        split; [exact O1|]. split; [exact P1|]. split; [exact P2|exact P3].
      - destruct IH as (I1 & I2 & I3 & I4); [discriminate|]. 
        destruct (N _ d p I1) as (N1 & N2 & N3 & N4). cbv zeta. split; [exact N1|]. split.
        + rewrite N2, I2, CS. reflexivity.
        + split; [|rewrite N4; exact I4]. intros q Hq. rewrite N3, I3; auto. }
    destruct G as (_ & G). exact G.
  - assert (G : let s := fold_left (generate_report ser fmt prefix tgt) data s0 in
       os_open s = None /\ os_fs s = st /\ os_printed s = String.concat "" (map (fun d => (ser fmt d ++ String "010"%char "")%string) data)).
    { clear Hne. induction data as [|d data IH] using rev_ind; [split; [reflexivity|split; reflexivity]|].
      rewrite fold_left_app, map_app. cbn [fold_left map]. destruct IH as (I1 & I2 & I3).
      destruct (O _ d I1) as (O1 & O2 & _). destruct (O2 eq_refl) as (O3 & O4). cbv zeta. split; [exact O1|].
      split; [rewrite O3; exact I2|]. rewrite O4, I3, CS. reflexivity. }
    destruct G as (_ & G). exact G.
Qed.
Print Assumptions C61_reports.

Example C61_ex :
  let st := fold_left (generate_report (fun _ _ => "{}") BJsonl "live_check" (TDir "out")) [JNull; JNull]
     {| os_open := None; os_fs := [("out/live_check.jsonl", "old")]; os_printed := "" |} in
  slookup "out/live_check.jsonl" (os_fs st) = Some ("{}" ++ String "010"%char ("{}" ++ String "010"%char ""))%string.
Proof. reflexivity. Qed.

(* ** Templates that match nothing *)

(* Exactly the configured templates that match no template file are reported. *)
Theorem C58_unmatched_reported : forall matches files ts t,
  In t (unmatched matches files ts) <-> In t ts /\ forall f, In f files -> matches (tc_template t) f = false.
Proof.
  intros m files ts t. unfold unmatched. rewrite filter_In, negb_true_iff. split; intros [H1 H2]; (split; [exact H1|]).
  - intros f Hf. destruct (m (tc_template t) f) eqn:E; [|reflexivity].
    assert (X : existsb (m (tc_template t)) files = true) by (apply existsb_exists; eauto). congruence.
  - destruct (existsb (m (tc_template t)) files) eqn:E; [|reflexivity]. apply existsb_exists in E as (f & Hf & E).
    rewrite (H2 f Hf) in E. discriminate E.
Qed.
Print Assumptions C58_unmatched_reported.
