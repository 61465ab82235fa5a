(* C116: the maintenance tasks pass exactly when what they guard holds. *)
From Coq Require Import String Ascii Bool Arith NArith Lia List.
From Verif Require Import Base BaseProofs SemTypes Semver TasksModel TasksSpec TasksProofs.
Import ListNotations.
Local Open Scope string_scope.

(* ---- fix-release-permissions ---- *)
(* After a run that succeeds no loose text of the table is left, the remedy of each is there, and the file differs
   from what it was only where loose texts were exchanged for their remedies. *)
Theorem C116_fix_result : forall file r, fix_run (Some file) = (Ok tt, Some r) ->
  edited file r /\ forall loose remedy, In (loose, remedy) remedies -> ~ occurs loose r /\ occurs remedy r.
Proof.
  intros file r H. unfold fix_run in H. destruct (apply_patches file) as [p|e] eqn:E; [|discriminate H].
  assert (X : p = r) by congruence. subst p. unfold apply_patches in E. rewrite patches_remedies in E. split.
  - exact (apply_all_edited remedies (fun x Hx => Hx) remedies_clean _ _ E).
  - destruct (apply_all_spec remedies remedies_clean file) as (_ & _ & K). destruct (K r E) as [K1 _].
    intros l m Hin. exact (K1 (l, m) Hin).
Qed.

(* A second run changes nothing. *)
Theorem C116_fix_again : forall file r, fix_run (Some file) = (Ok tt, Some r) -> fix_run (Some r) = (Ok tt, Some r).
Proof.
  intros file r H. destruct (C116_fix_result file r H) as [_ K].
  assert (E : apply_patches r = Ok r).
  { unfold apply_patches. rewrite patches_remedies. apply apply_all_fixed. intros [l m] Hin. exact (K l m Hin). }
  unfold fix_run. rewrite E. reflexivity.
Qed.

(* The run fails exactly when the file cannot be read or has drifted: neither a loose text nor its remedy is in it. *)
Theorem C116_fix_drift : forall file,
  (exists e, fst (fix_run file) = Err e) <->
  match file with
  | None => True
  | Some c => exists loose remedy, In (loose, remedy) remedies /\ ~ occurs loose c /\ ~ occurs remedy c
  end.
Proof.
  intros [c|].
  2:{ split; [intros _; exact I|intros _; eexists; reflexivity]. }
  unfold fix_run, apply_patches. rewrite patches_remedies.
  destruct (apply_all_spec remedies remedies_clean c) as (K1 & K2 & _).
  assert (D : Forall (fit c) remedies \/ exists x, In x remedies /\ ~ fit c x).
  { clear K1 K2. induction remedies as [|x l IH]; [left; constructor|].
    assert (Dx : fit c x \/ ~ fit c x).
    { unfold fit. destruct (contains (fst x) c) eqn:A; [left; left; apply contains_occurs; exact A|].
      destruct (contains (snd x) c) eqn:B; [left; right; apply contains_occurs; exact B|].
      right. apply contains_not in A, B. tauto. }
    destruct Dx as [Dx | Dx]; [|right; exists x; split; [left; reflexivity|exact Dx]].
    destruct IH as [IH | (y & Hy & Ny)]; [left; constructor; assumption|right; exists y; split; [right; exact Hy|exact Ny]]. }
  split.
  - intros (e & E). destruct D as [D | ([l m] & Hin & N)].
    + destruct (K1 D) as (r & R). rewrite R in E. discriminate E.
    + exists l, m. unfold fit in N. cbn [fst snd] in N. tauto.
  - intros (l & m & Hin & N1 & N2). destruct (K2 (l, m) Hin) as (e & E).
    + intros [X | X]; cbn [fst snd] in X; auto.
    + rewrite E. exists e. reflexivity.
Qed.

(* A run that fails leaves the file as it was. *)
Theorem C116_fix_untouched : forall file e, fst (fix_run file) = Err e -> snd (fix_run file) = file.
Proof.
  intros [c|] e H; [|reflexivity]. unfold fix_run in *. destruct (apply_patches c); [discriminate H|reflexivity].
Qed.

(* It is not so that nothing is piped to a shell after a run that succeeds: one remedied installation makes the task
   pass over another that was written for a newer version. *)
Theorem C116_fix_pinned_refuted : ~ forall file r, fix_run (Some file) = (Ok tt, Some r) ->
  ~ occurs "cargo-dist-installer.sh | sh" r.
Proof.
  intros H. apply (H mixed_workflow mixed_workflow); [vm_compute; reflexivity|].
  apply contains_occurs. vm_compute. reflexivity.
Qed.

Example C116_fix_case :
  fix_run (Some fresh_workflow) = (Ok tt, Some fixed_workflow)
  /\ (exists e, fst (fix_run (Some "name: Release")) = Err e)
  /\ occurs dist_piped fresh_workflow /\ ~ occurs dist_piped fixed_workflow.
Proof.
  split; [vm_compute; reflexivity|]. split; [eexists; vm_compute; reflexivity|]. split.
  - apply contains_occurs. vm_compute. reflexivity.
  - apply contains_not. vm_compute. reflexivity.
Qed.

(* ---- validate ---- *)
Ltac msg C := match type of C with Err ?m = Err ?e => replace e with m by congruence end.

(* The task passes exactly when the directory can be read and every crate has the name and the files it must have,
   and a manifest that can be parsed follows the rules. *)
Theorem C116_validate : forall listing, fst (validate_run listing) = true <->
  exists es, listing = Some (map Some es) /\
    forall e, In e es -> is_crate e ->
      (exists r, e_name e = "weaver_" ++ r) /\ In "README.md" (e_has e) /\ In "allowed-external-types.toml" (e_has e)
      /\ In "Cargo.toml" (e_has e) /\ (forall v, e_toml e = Some v -> sound_manifest v).
Proof.
  intros [l|]; cbn [validate_run].
  2:{ split; [discriminate|]. intros (es & X & _). discriminate X. }
  split.
  - destruct (check_entries l) as [errs|] eqn:E; [|discriminate]. destruct (check_entries_spec l errs E) as (es & -> & ->).
    intros H. exists es. split; [reflexivity|]. intros e He. apply check_entry_nil.
    destruct (flat_map check_entry es) as [|m ms] eqn:F; [|discriminate H].
    destruct (check_entry e) as [|x xs] eqn:C; [reflexivity|].
    assert (X : In x (flat_map check_entry es)) by (apply in_flat_map; exists e; rewrite C; split; [exact He|left; reflexivity]).
    rewrite F in X. destruct X.
  - intros (es & X & H). injection X as ->. rewrite check_entries_some.
    replace (flat_map check_entry es) with (@nil string); [reflexivity|]. symmetry.
    destruct (flat_map check_entry es) as [|m ms] eqn:F; [reflexivity|].
    assert (X : In m (flat_map check_entry es)) by (rewrite F; left; reflexivity).
    apply in_flat_map in X as (e & He & Hm). rewrite (proj2 (check_entry_nil e) (H e He)) in Hm. destruct Hm.
Qed.

(* When every Cargo.toml can be parsed, the task passes exactly when every crate is well kept. *)
Theorem C116_validate_partial : forall es, (forall e, In e es -> is_crate e -> In "Cargo.toml" (e_has e) -> e_toml e <> None) ->
  (fst (validate_run (Some (map Some es))) = true <-> forall e, In e es -> is_crate e -> well_kept e).
Proof.
  intros es P. rewrite C116_validate. split.
  - intros (es' & E & H) e He Hc.
    assert (es = es') as <-.
    { injection E as E. clear - E. revert es' E. induction es as [|a es IH]; intros [|b es'] E; try discriminate E; [reflexivity|].
      cbn [map] in E. injection E as -> E. f_equal. auto. }
    destruct (H e He Hc) as (A & B & C & D & F). constructor; try assumption.
    destruct (e_toml e) as [v|] eqn:T; [exists v; auto|]. exfalso. exact (P e He Hc D T).
  - intros H. exists es. split; [reflexivity|]. intros e He Hc. destruct (H e He Hc) as [A B C D (v & E & F)].
    split; [exact A|]. split; [exact B|]. split; [exact C|]. split; [exact D|]. intros v' E'. rewrite E in E'. injection E' as <-. exact F.
Qed.

(* The task does not pass exactly when every crate is well kept: a Cargo.toml that cannot be parsed is printed and
   then forgotten. *)
Theorem C116_validate_refuted : ~ forall es, fst (validate_run (Some (map Some es))) = true ->
  forall e, In e es -> is_crate e -> well_kept e.
Proof.
  intros H. assert (W : well_kept broken_crate).
  { apply (H [good_crate; broken_crate]); [vm_compute; reflexivity|right; left; reflexivity|].
    split; [reflexivity|discriminate]. }
  destruct (wk_manifest _ W) as (v & E & _). discriminate E.
Qed.

(* Each message names the crate it is about, and a crate has messages exactly when it breaks a rule that can be checked. *)
Theorem C116_validate_names : forall es, snd (validate_run (Some (map Some es))) = flat_map check_entry es
  /\ forall e m, In e es -> In m (check_entry e) -> occurs (e_name e) m /\ is_crate e /\ ~ (well_kept e).
Proof.
  intros es. split.
  - cbn [validate_run]. rewrite check_entries_some. destruct (flat_map check_entry es); reflexivity.
  - intros e m He Hm. split.
    + assert (P : forall v, occurs (e_name e) (v ++ manifest_path e)).
      { intros v. unfold manifest_path. exists (v ++ "crates/"), "/Cargo.toml". rewrite !str_app_assoc. reflexivity. }
      assert (P2 : forall v w, occurs (e_name e) (v ++ manifest_path e ++ w)).
      { intros v w. unfold manifest_path. exists (v ++ "crates/"), ("/Cargo.toml" ++ w). rewrite !str_app_assoc. reflexivity. }
      assert (W : forall path full t e', walk (manifest_path e) full path t = Err e' -> occurs (e_name e) e').
      { induction path as [|k path IH]; intros full t e' E; cbn [walk] in E; [discriminate E|].
        destruct (get k t); [exact (IH _ _ _ E)|]. injection E as <-.
        change (occurs (e_name e) ("Missing `" ++ ((if String.eqb full "" then full else full ++ ".") ++ k) ++ "` in " ++ manifest_path e)).
        rewrite <- !str_app_assoc. apply P. }
      assert (T : forall path t e', check_path_is_true (manifest_path e) path t = Err e' -> occurs (e_name e) e').
      { intros path t e' E. unfold check_path_is_true in E. destruct (walk (manifest_path e) "" path t) as [[f w]|e2] eqn:Ew; cbn [rbind fst snd] in E.
        - destruct w as [[]|tt_|]; [discriminate E| | |]; injection E as <-.
          + change (occurs (e_name e) ("`" ++ f ++ "` is not true in " ++ manifest_path e)). rewrite <- !str_app_assoc. apply P.
          + change (occurs (e_name e) ("`" ++ f ++ "` is not a boolean in " ++ manifest_path e)). rewrite <- !str_app_assoc. apply P.
          + change (occurs (e_name e) ("`" ++ f ++ "` is not a boolean in " ++ manifest_path e)). rewrite <- !str_app_assoc. apply P.
        - injection E as <-. exact (W _ _ _ _ Ew). }
      unfold check_entry in Hm. destruct (e_dir e); cbn [negb] in Hm; [|destruct Hm]. destruct (String.eqb (e_name e) "xtask"); [destruct Hm|].
      apply in_app_or in Hm as [Hm | Hm].
      { destruct (starts_with "weaver_" (e_name e)); [destruct Hm|]. destruct Hm as [<- | []]. exists "Crate `". eexists. reflexivity. }
      apply in_app_or in Hm as [Hm | Hm].
      { unfold check_presence_of in Hm. destruct (has e "README.md"); [destruct Hm|]. destruct Hm as [<- | []]. exists "Missing README.md in the `", "` crate". reflexivity. }
      apply in_app_or in Hm as [Hm | Hm].
      { unfold check_presence_of in Hm. destruct (has e "allowed-external-types.toml"); [destruct Hm|]. destruct Hm as [<- | []].
        exists "Missing allowed-external-types.toml in the `", "` crate". reflexivity. }
      apply in_app_or in Hm as [Hm | Hm].
      { destruct (has e "Cargo.toml"); [destruct Hm|]. destruct Hm as [<- | []]. exists "Missing Cargo.toml in the `", "` crate". reflexivity. }
      destruct (e_toml e) as [v|]; [|destruct Hm]. apply in_app_or in Hm as [Hm | Hm].
      * destruct (check_package (manifest_path e) v) as [|e'] eqn:C; cbn [errs_of] in Hm; [destruct Hm|]. destruct Hm as [<- | []].
        unfold check_package in C. destruct (get "package" v) as [p|]; [|msg C; apply P].
        destruct (get "name" p); [|msg C; apply P]. destruct (get "version" p); [|msg C; apply P].
        repeat match type of C with context [rbind (check_path_is_true ?a ?q ?x) _] =>
          let X := fresh in destruct (check_path_is_true a q x) as [[]|] eqn:X; cbn [rbind] in C;
          [clear X|injection C as <-; exact (T _ _ _ X)] end.
        exact (T _ _ _ C).
      * destruct (check_lints_workspace (manifest_path e) v) as [|e'] eqn:C; cbn [errs_of] in Hm; [destruct Hm|]. destruct Hm as [<- | []].
        unfold check_lints_workspace in C. destruct (get "lints" v) as [p|]; [|msg C; apply P2].
        destruct (get "workspace" p) as [[[]|t|]|]; try discriminate C; msg C; apply P2.
    + assert (N : check_entry e <> []) by (intros X; rewrite X in Hm; destruct Hm).
      assert (Hc : is_crate e).
      { unfold check_entry in N. destruct (e_dir e) eqn:D; cbn [negb] in N; [|congruence].
        destruct (String.eqb_spec (e_name e) "xtask") as [X | X]; [congruence|]. split; assumption. }
      split; [exact Hc|]. intros [A B C D (v & E & F)]. apply N. apply check_entry_nil. intros _.
      split; [exact A|]. split; [exact B|]. split; [exact C|]. split; [exact D|]. intros v' E'. rewrite E in E'. injection E' as <-. exact F.
Qed.

Example C116_validate_case :
  well_kept good_crate
  /\ fst (validate_run (Some [Some good_crate; Some xtask_crate; Some readme_entry])) = true
  /\ validate_run (Some [Some {| e_name := "common"; e_dir := true; e_has := ["README.md"; "Cargo.toml"]; e_toml := Some (TTable []) |}])
     = (false, [ "Crate `common` does not start with `weaver_`"; "Missing allowed-external-types.toml in the `common` crate";
                 "Missing `package` section in crates/common/Cargo.toml";
                 "Missing `lints` section in crates/common/Cargo.toml" ++ nl ++ expected_lints ]).
Proof.
  split; [|split; vm_compute; reflexivity].
  assert (X : fst (validate_run (Some (map Some [good_crate]))) = true) by (vm_compute; reflexivity).
  refine (proj1 (C116_validate_partial [good_crate] _) X good_crate _ _).
  - intros e [<- | []] _ _. discriminate.
  - left. reflexivity.
  - split; [reflexivity|discriminate].
Qed.

(* ---- history ---- *)
(* The task passes exactly when its start version can be read, the tags can be listed, and the check succeeds for
   every tag that stands for a version not before the start. *)
Theorem C116_history : forall parse start tags check,
  fst (history_run parse start tags check) = true <->
  exists s v ts, bare (match start with Some x => x | None => "v1.26.0" end) s /\ parse s = Some v /\ tags = Some ts /\
    forall tag s' v', In (Some tag) ts -> bare tag s' -> parse s' = Some v' -> ver_cmp v v' <> Gt -> check tag = CSuccess.
Proof.
  intros parse start tags check. unfold history_run. change start_tag with "v1.26.0".
  set (b := match start with Some x => x | None => "v1.26.0" end).
  split.
  - destruct (parse (trim_alpha b)) as [v|] eqn:P; [|discriminate]. destruct tags as [ts|]; [|discriminate].
    rewrite check_versions_pass. intros [_ H]. exists (trim_alpha b), v, ts.
    split; [apply trim_bare|]. split; [exact P|]. split; [reflexivity|].
    intros tag s' v' Hi B P' V. apply H. apply get_versions_in. split; [exact Hi|]. exists s', v'. auto.
  - intros (s & v & ts & B & P & -> & H). rewrite <- (bare_trim _ _ B), P. apply check_versions_pass. split; [reflexivity|].
    intros tag Ht. apply get_versions_in in Ht as (Hi & s' & v' & B' & P' & V). exact (H tag s' v' Hi B' P' V).
Qed.

(* Every such tag is checked, in the order of the tags, whatever the checks before it gave, as long as their output is text. *)
Theorem C116_history_runs : forall parse start ts check s v,
  bare start s -> parse s = Some v -> (forall t, check t = CSuccess \/ check t = CFailure) ->
  forall tag, In tag (snd (history_run parse (Some start) (Some ts) check)) <->
    In (Some tag) ts /\ exists s' v', bare tag s' /\ parse s' = Some v' /\ ver_cmp v v' <> Gt.
Proof.
  intros parse start ts check s v B P C tag. unfold history_run. rewrite <- (bare_trim _ _ B), P.
  rewrite check_versions_all by (intros; apply C). apply get_versions_in.
Qed.

(* It is not so that a pass means that a version was checked: no tag may be as new as the start. *)
Theorem C116_history_vacuous_refuted : ~ forall parse start tags check,
  fst (history_run parse start tags check) = true -> exists tag, In tag (snd (history_run parse start tags check)).
Proof.
  intros H. destruct (H sample_parse (Some "v99.0.0") (Some [Some "v1.26.0"; Some "v1.30.0"]) (fun _ => CSuccess)) as (t & Ht).
  - vm_compute. reflexivity.
  - vm_compute in Ht. exact Ht.
Qed.
(* It is not so that every tag of the repository from the start on is checked: one whose name has anything but letters
   before the version is passed over. *)
Theorem C116_history_skipped_refuted : ~ forall parse start ts check v number w,
  fst (history_run parse (Some start) (Some ts) check) = true ->
  parse start = Some v -> parse number = Some w -> ver_cmp v w <> Gt ->
  In (Some ("release-" ++ number)) ts -> check ("release-" ++ number) = CSuccess.
Proof.
  intros H.
  assert (X : CFailure = CSuccess).
  { apply (H sample_parse "1.26.0" [Some "release-1.30.0"] (fun _ => CFailure) (sample_version 1 26 0) "1.30.0" (sample_version 1 30 0));
      try reflexivity; [discriminate|left; reflexivity]. }
  discriminate X.
Qed.

Example C116_history_case :
  history_run sample_parse None (Some [Some "v1.25.0"; None; Some "v1.26.0"; Some "v1.30.0"; Some "nightly"])
    (fun t => if String.eqb t "v1.26.0" then CFailure else CSuccess) = (false, ["v1.26.0"; "v1.30.0"])
  /\ history_run sample_parse (Some "v1.30.0") (Some [Some "v1.25.0"; Some "v1.26.0"; Some "v1.30.0"])
    (fun t => if String.eqb t "v1.26.0" then CFailure else CSuccess) = (true, ["v1.30.0"]).
Proof. split; vm_compute; reflexivity. Qed.

(* ---- the tasks ---- *)
(* Each task runs under its name, with the arguments that follow. *)
Theorem C116_dispatch : forall rest a b c h d,
  main_ok ("fix-release-permissions" :: rest) a b c h d = a
  /\ main_ok ("validate" :: rest) a b c h d = b
  /\ main_ok ("schema-compat" :: rest) a b c h d = c
  /\ main_ok ["history"] a b c h d = h None
  /\ (forall s, main_ok ("history" :: s :: rest) a b c h d = h (Some s))
  /\ main_ok ("downstream-check" :: rest) a b c h d = d rest.
Proof. intros rest a b c h d. repeat split; try reflexivity. Qed.
(* It is not so that a name that is no task makes the call fail: the help is printed and the call succeeds. *)
Theorem C116_unknown_refuted : ~ forall t rest a b c h d,
  ~ In t ["fix-release-permissions"; "validate"; "history"; "schema-compat"; "downstream-check"; "help"] ->
  main_ok (t :: rest) a b c h d = false.
Proof.
  intros H. specialize (H "validat" [] false false false (fun _ => false) (fun _ => false)).
  assert (X : main_ok ["validat"] false false false (fun _ => false) (fun _ => false) = false).
  { apply H. cbn. intros [X | [X | [X | [X | [X | [X | []]]]]]]; discriminate X. }
  discriminate X.
Qed.

Print Assumptions C116_fix_result.
Print Assumptions C116_fix_again.
Print Assumptions C116_fix_drift.
Print Assumptions C116_fix_untouched.
Print Assumptions C116_fix_pinned_refuted.
Print Assumptions C116_validate.
Print Assumptions C116_validate_partial.
Print Assumptions C116_validate_refuted.
Print Assumptions C116_validate_names.
Print Assumptions C116_history.
Print Assumptions C116_history_runs.
Print Assumptions C116_history_vacuous_refuted.
Print Assumptions C116_history_skipped_refuted.
Print Assumptions C116_dispatch.
Print Assumptions C116_unknown_refuted.
