(* What the maintenance tasks are said to do, in words of their own. *)
From Coq Require Import String Ascii Bool Arith NArith List.
From Verif Require Import Base SemTypes Semver TasksModel.
Import ListNotations.
Local Open Scope string_scope.

Definition occurs (x s : string) : Prop := exists a b, s = a ++ x ++ b.
Definition lines_ (l : list string) : string := join (String "010"%char "") l.

(* ---- the release workflow ---- *)
Definition top_write := lines_ ["name: Release"; "permissions:"; "  ""contents"": ""write"""].
Definition top_read := lines_ ["name: Release"; "permissions:"; "  ""contents"": ""read"""].
Definition plan_plain := lines_ ["  plan:"; "    runs-on:"].
Definition plan_write := lines_ ["  plan:"; "    permissions:"; "      ""contents"": ""write"""; "    runs-on:"].
Definition host_plain := lines_ ["  host:"; "    needs:"].
Definition host_write := lines_ ["  host:"; "    permissions:"; "      ""contents"": ""write"""; "    needs:"].
Definition dist_url := "https://github.com/axodotdev/cargo-dist/releases/download/v0.32.0/cargo-dist-installer.sh".
Definition dist_piped := lines_
  [ "      - name: Install dist";
    "        # we specify bash to get pipefail; it guards against the `curl` command";
    "        # failing. otherwise `sh` won't catch that `curl` returned non-0";
    "        shell: bash";
    "        run: ""curl --proto '=https' --tlsv1.2 -LsSf " ++ dist_url ++ " | sh""" ].
Definition dist_verified := lines_
  [ "      - name: Install dist";
    "        shell: bash";
    "        run: |";
    "          curl --proto '=https' --tlsv1.2 -LsSf " ++ dist_url ++ " -o /tmp/cargo-dist-installer.sh";
    "          echo ""b657cf8c04a8b7bc28f39d220f7e6dd11bbd2bdb072c552262bd9ccf597261b5  /tmp/cargo-dist-installer.sh"" | sha256sum -c";
    "          sh /tmp/cargo-dist-installer.sh" ].
Definition rustup_piped := "            curl --proto '=https' --tlsv1.2 -sSf https://sh.rustup.rs | sh -s -- -y".
Definition rustup_verified := lines_
  [ "            curl --proto '=https' --tlsv1.2 -sSf https://sh.rustup.rs -o /tmp/rustup-init.sh";
    "            echo ""6c30b75a75b28a96fd913a037c8581b580080b6ee9b8169a3c0feb1af7fe8caf  /tmp/rustup-init.sh"" | sha256sum -c";
    "            sh /tmp/rustup-init.sh -y" ].
Definition attest_tag := "uses: actions/attest@v4".
Definition attest_pinned := "uses: actions/attest@59d89421af93a897026c735860bf21b6eb4f7b26".
(* what is loose, and what takes its place *)
Definition remedies : list (string * string) :=
  [ (top_write, top_read); (plan_plain, plan_write); (host_plain, host_write);
    (dist_piped, dist_verified); (rustup_piped, rustup_verified); (attest_tag, attest_pinned) ].

(* [edited c r]: r is c after loose texts were exchanged for their remedies, each step at one place *)
Inductive edited : string -> string -> Prop :=
| ed_done c : edited c c
| ed_step a from to b r : In (from, to) remedies -> edited (a ++ to ++ b) r -> edited (a ++ from ++ b) r.

(* a workflow as dist writes it, reduced to the places that matter *)
Definition fresh_workflow : string := lines_
  [ top_write; "jobs:"; plan_plain ++ " ubuntu"; dist_piped; rustup_piped; "      - " ++ attest_tag; host_plain ++ " plan" ].
Definition fixed_workflow : string := lines_
  [ top_read; "jobs:"; plan_write ++ " ubuntu"; dist_verified; rustup_verified; "      - " ++ attest_pinned; host_write ++ " plan" ].
(* the same after an earlier fix, with a second installation written for another version *)
Definition second_install : string :=
  "        run: ""curl --proto '=https' --tlsv1.2 -LsSf https://github.com/axodotdev/cargo-dist/releases/download/v0.33.0/cargo-dist-installer.sh | sh""".
Definition mixed_workflow : string := lines_ [ fixed_workflow; second_install ].

(* ---- the rules for crates ---- *)
(* [reaches v path w]: going down the keys of the path from v arrives at w *)
Inductive reaches : toml -> list string -> toml -> Prop :=
| re_here v : reaches v [] v
| re_down t k v path w :
    (exists a b, t = List.app a ((k, v) :: b) /\ ~ In k (map fst a)) ->
    reaches v path w -> reaches (TTable t) (k :: path) w.
Definition is_true_at (v : toml) (path : list string) : Prop := reaches v path (TBool true).
Record sound_manifest (v : toml) : Prop := {
  sm_name : exists w, reaches v ["package"; "name"] w;
  sm_version : exists w, reaches v ["package"; "version"] w;
  sm_shared : Forall (fun k => is_true_at v ["package"; k; "workspace"])
                     ["authors"; "repository"; "license"; "publish"; "edition"; "rust-version"];
  sm_lints : is_true_at v ["lints"; "workspace"] }.
(* an entry is a crate under the rules unless it is a file or the crate of the tasks *)
Definition is_crate (e : entry) : Prop := e_dir e = true /\ e_name e <> "xtask".
Record well_kept (e : entry) : Prop := {
  wk_name : exists r, e_name e = "weaver_" ++ r;
  wk_readme : In "README.md" (e_has e);
  wk_types : In "allowed-external-types.toml" (e_has e);
  wk_cargo : In "Cargo.toml" (e_has e);
  wk_manifest : exists v, e_toml e = Some v /\ sound_manifest v }.
(* what is on disk: only a Cargo.toml that is there can have been parsed *)
Definition consistent (e : entry) : Prop := e_toml e <> None -> In "Cargo.toml" (e_has e).

Definition shared : toml := TTable [("workspace", TBool true)].
Definition good_manifest : toml :=
  TTable [ ("package", TTable [ ("name", TOther); ("version", TOther); ("authors", shared); ("edition", shared);
             ("repository", shared); ("license", shared); ("publish", shared); ("rust-version", shared) ]);
           ("lints", shared) ].
Definition good_crate : entry :=
  {| e_name := "weaver_common"; e_dir := true; e_has := ["Cargo.toml"; "README.md"; "allowed-external-types.toml"; "src"];
     e_toml := Some good_manifest |}.
(* a crate whose Cargo.toml is no TOML *)
Definition broken_crate : entry :=
  {| e_name := "weaver_broken"; e_dir := true; e_has := ["Cargo.toml"; "README.md"; "allowed-external-types.toml"];
     e_toml := None |}.
Definition xtask_crate : entry := {| e_name := "xtask"; e_dir := true; e_has := []; e_toml := None |}.
Definition readme_entry : entry := {| e_name := "README.md"; e_dir := false; e_has := []; e_toml := None |}.

(* ---- the versions of the history ---- *)
(* the version a tag stands for: what follows its leading letters *)
Definition letter (c : ascii) : Prop :=
  let n := nat_of_ascii c in 65 <= n <= 90 \/ 97 <= n <= 122.
Definition bare (tag s : string) : Prop :=
  exists p, tag = p ++ s /\ (forall c, In c (list_ascii_of_string p) -> letter c)
            /\ match s with String c _ => ~ letter c | EmptyString => True end.
(* a reader of versions for the samples *)
Definition sample_version (a b c : N) : version := {| v_major := a; v_minor := b; v_patch := c; v_pre := []; v_build := [] |}.
Definition sample_parse (s : string) : option version :=
  if String.eqb s "1.25.0" then Some (sample_version 1 25 0)
  else if String.eqb s "1.26.0" then Some (sample_version 1 26 0)
  else if String.eqb s "1.30.0" then Some (sample_version 1 30 0)
  else if String.eqb s "99.0.0" then Some (sample_version 99 0 0)
  else None.
