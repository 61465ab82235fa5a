(* The maintenance tasks of the workspace: crates/xtask/src/validate.rs, history.rs, fix_release_permissions.rs
   and the dispatch of crates/xtask/src/main.rs. *)
From Coq Require Import String Ascii Bool Arith NArith List.
From Verif Require Import Base SemTypes Str Semver.
From Verif Require DownModel.
Import ListNotations.
Local Open Scope string_scope.

(* ---- fix_release_permissions.rs ---- *)
Definition nl : string := String "010"%char "".
(* 23-70: the table of (from, to) of apply_patches *)
Definition patches : list (string * string) :=
  [ ("name: Release" ++ nl ++ "permissions:" ++ nl ++ "  ""contents"": ""write""",
     "name: Release" ++ nl ++ "permissions:" ++ nl ++ "  ""contents"": ""read""");
    ("  plan:" ++ nl ++ "    runs-on:",
     "  plan:" ++ nl ++ "    permissions:" ++ nl ++ "      ""contents"": ""write""" ++ nl ++ "    runs-on:");
    ("  host:" ++ nl ++ "    needs:",
     "  host:" ++ nl ++ "    permissions:" ++ nl ++ "      ""contents"": ""write""" ++ nl ++ "    needs:");
    ("      - name: Install dist" ++ nl ++
     "        # we specify bash to get pipefail; it guards against the `curl` command" ++ nl ++
     "        # failing. otherwise `sh` won't catch that `curl` returned non-0" ++ nl ++
     "        shell: bash" ++ nl ++
     "        run: ""curl --proto '=https' --tlsv1.2 -LsSf" ++
     " https://github.com/axodotdev/cargo-dist/releases/download/v0.32.0/cargo-dist-installer.sh | sh""",
     "      - name: Install dist" ++ nl ++
     "        shell: bash" ++ nl ++
     "        run: |" ++ nl ++
     "          curl --proto '=https' --tlsv1.2 -LsSf" ++
     " https://github.com/axodotdev/cargo-dist/releases/download/v0.32.0/cargo-dist-installer.sh" ++
     " -o /tmp/cargo-dist-installer.sh" ++ nl ++
     "          echo ""b657cf8c04a8b7bc28f39d220f7e6dd11bbd2bdb072c552262bd9ccf597261b5" ++
     "  /tmp/cargo-dist-installer.sh"" | sha256sum -c" ++ nl ++
     "          sh /tmp/cargo-dist-installer.sh");
    ("            curl --proto '=https' --tlsv1.2 -sSf https://sh.rustup.rs | sh -s -- -y",
     "            curl --proto '=https' --tlsv1.2 -sSf https://sh.rustup.rs -o /tmp/rustup-init.sh" ++ nl ++
     "            echo ""6c30b75a75b28a96fd913a037c8581b580080b6ee9b8169a3c0feb1af7fe8caf" ++
     "  /tmp/rustup-init.sh"" | sha256sum -c" ++ nl ++
     "            sh /tmp/rustup-init.sh -y");
    ("uses: actions/attest@v4", "uses: actions/attest@59d89421af93a897026c735860bf21b6eb4f7b26") ].

(* 72-80: the loop of apply_patches; the Debug text of the string that was expected is left as it is *)
Fixpoint apply_all (ps : list (string * string)) (result : string) : res string :=
  match ps with
  | [] => Ok result
  | (from, to) :: rest =>
    if contains from result then apply_all rest (DownModel.replace_from 0 from to result)
    else if contains to result then apply_all rest result
    else Err (".github/workflows/release.yml does not contain expected string: " ++ from)
  end.
(* 23-82: apply_patches *)
Definition apply_patches (content : string) : res string := apply_all patches content.

(* 11-21: run; the workflow file is [None] when it cannot be read.  The result is the outcome of the task and
   the file after it.  Writing is taken to succeed. *)
Definition fix_run (file : option string) : res unit * option string :=
  match file with
  | None => (Err "failed to read .github/workflows/release.yml", None)
  | Some content =>
    match apply_patches content with
    | Ok patched => (Ok tt, Some patched)
    | Err e => (Err e, file)
    end
  end.

(* ---- validate.rs ---- *)
(* toml::Value; what is neither a boolean nor a table is only told apart by not being one *)
Inductive toml := TBool (b : bool) | TTable (t : list (string * toml)) | TOther.
(* toml::Value::get with a text: only tables have keys *)
Fixpoint find_key {A} (k : string) (t : list (string * A)) : option A :=
  match t with [] => None | (k', v) :: r => if String.eqb k k' then Some v else find_key k r end.
Definition get (k : string) (v : toml) : option toml := match v with TTable t => find_key k t | _ => None end.

(* an entry of the directory [crates]: its name, whether it is a directory, the names in it, and its Cargo.toml
   when that can be read and parsed *)
Record entry := { e_name : string; e_dir : bool; e_has : list string; e_toml : option toml }.
Definition has (e : entry) (f : string) : bool := existsb (String.eqb f) (e_has e).
Definition manifest_path (e : entry) : string := "crates/" ++ e_name e ++ "/Cargo.toml".

(* 91-99: check_presence_of *)
Definition check_presence_of (e : entry) (f : string) : list string :=
  if has e f then [] else ["Missing " ++ f ++ " in the `" ++ e_name e ++ "` crate"].

(* 102-137: check_path_is_true; [full] is the path walked so far *)
Fixpoint walk (at_ full : string) (path : list string) (v : toml) : res (string * toml) :=
  match path with
  | [] => Ok (full, v)
  | p :: rest =>
    let full' := (if String.eqb full "" then full else full ++ ".") ++ p in
    match get p v with
    | None => Err ("Missing `" ++ full' ++ "` in " ++ at_)
    | Some v' => walk at_ full' rest v'
    end
  end.
Definition check_path_is_true (at_ : string) (path : list string) (v : toml) : res unit :=
  let* x := walk at_ "" path v in
  match snd x with
  | TBool true => Ok tt
  | TBool false => Err ("`" ++ fst x ++ "` is not true in " ++ at_)
  | _ => Err ("`" ++ fst x ++ "` is not a boolean in " ++ at_)
  end.

(* 141-179: check_package *)
Definition check_package (at_ : string) (v : toml) : res unit :=
  match get "package" v with
  | None => Err ("Missing `package` section in " ++ at_)
  | Some package =>
    match get "name" package with
    | None => Err ("Missing `package.name` in " ++ at_)
    | Some _ =>
      match get "version" package with
      | None => Err ("Missing `package.version` in " ++ at_)
      | Some _ =>
        let* a := check_path_is_true at_ ["authors"; "workspace"] package in
        let* b := check_path_is_true at_ ["repository"; "workspace"] package in
        let* c := check_path_is_true at_ ["license"; "workspace"] package in
        let* d := check_path_is_true at_ ["publish"; "workspace"] package in
        let* e := check_path_is_true at_ ["edition"; "workspace"] package in
        check_path_is_true at_ ["rust-version"; "workspace"] package
      end
    end
  end.

Definition expected_lints : string :=
  "Please add the following to your crate Cargo.toml:" ++ nl ++ "[lints]" ++ nl ++ "workspace = true" ++ nl.
(* 183-221: check_lints_workspace *)
Definition check_lints_workspace (at_ : string) (v : toml) : res unit :=
  match get "lints" v with
  | None => Err ("Missing `lints` section in " ++ at_ ++ nl ++ expected_lints)
  | Some lints =>
    match get "workspace" lints with
    | None => Err ("Missing `lints.workspace` in " ++ at_ ++ nl ++ expected_lints)
    | Some (TBool true) => Ok tt
    | Some (TBool false) => Err ("`lints.workspace` is not true in " ++ at_ ++ nl ++ expected_lints)
    | Some _ => Err ("`lints.workspace` is not a boolean in " ++ at_ ++ nl ++ expected_lints)
    end
  end.

Definition errs_of (r : res unit) : list string := match r with Ok _ => [] | Err e => [e] end.
(* 25-75: what is pushed for one entry; a Cargo.toml that cannot be read or parsed is printed only *)
Definition check_entry (e : entry) : list string :=
  if negb (e_dir e) then []
  else if String.eqb (e_name e) "xtask" then []
  else
    List.app (if starts_with "weaver_" (e_name e) then []
              else ["Crate `" ++ e_name e ++ "` does not start with `weaver_`"])
   (List.app (check_presence_of e "README.md")
   (List.app (check_presence_of e "allowed-external-types.toml")
   (List.app (if has e "Cargo.toml" then [] else ["Missing Cargo.toml in the `" ++ e_name e ++ "` crate"])
      match e_toml e with
      | Some v => List.app (errs_of (check_package (manifest_path e) v))
                           (errs_of (check_lints_workspace (manifest_path e) v))
      | None => []
      end))).
(* 22-89: run; [None] in the listing is an entry that cannot be read (the task stops there), and a listing that
   is [None] a directory that cannot be read.  The second component is what is written to stderr. *)
Fixpoint check_entries (l : list (option entry)) : option (list string) :=
  match l with
  | [] => Some []
  | None :: _ => None
  | Some e :: rest => match check_entries rest with Some errs => Some (List.app (check_entry e) errs) | None => None end
  end.
Definition validate_run (listing : option (list (option entry))) : bool * list string :=
  match listing with
  | None => (false, [])
  | Some l => match check_entries l with
              | None => (false, [])
              | Some [] => (true, [])
              | Some errs => (false, errs)
              end
  end.

(* ---- history.rs ---- *)
Section history.
  (* semver::Version::parse *)
  Variable parse : string -> option version.
  (* char::is_alphabetic on the characters that occur in tags: ASCII letters *)
  Definition is_alpha (c : ascii) : bool :=
    let n := nat_of_ascii c in (Nat.leb 65 n && Nat.leb n 90) || (Nat.leb 97 n && Nat.leb n 122).
  (* str::trim_start_matches(char::is_alphabetic) *)
  Fixpoint trim_alpha (s : string) : string :=
    match s with String c r => if is_alpha c then trim_alpha r else s | EmptyString => "" end.
  (* 41-63: get_versions_from_git; [None] is a reference that cannot be read *)
  Definition keep (start : version) (tag : string) : bool :=
    match parse (trim_alpha tag) with Some v => ver_leb start v | None => false end.
  Definition get_versions (tags : list (option string)) (start : version) : list string :=
    flat_map (fun t => match t with Some tag => if keep start tag then [tag] else [] | None => [] end) tags.
  (* what a run of `weaver registry check` gives: success, a failure whose output is text, a failure whose output
     is no text, or no run at all *)
  Inductive checked := CSuccess | CFailure | CGarbled | CNoRun.
  (* 78-104: the loop; the list holds the versions it has run a check for *)
  Fixpoint check_versions (check : string -> checked) (failed : bool) (vs : list string) : bool * list string :=
    match vs with
    | [] => (negb failed, [])
    | v :: rest =>
      match check v with
      | CSuccess => let r := check_versions check failed rest in (fst r, v :: snd r)
      | CFailure => let r := check_versions check true rest in (fst r, v :: snd r)
      | CGarbled => (false, [v])
      | CNoRun => (false, [v])
      end
    end.
  Definition start_tag : string := "v1.26.0".
  (* 67-109: run; [tags] is [None] when the repository cannot be fetched or its tags cannot be listed *)
  Definition history_run (start : option string) (tags : option (list (option string))) (check : string -> checked)
    : bool * list string :=
    match parse (trim_alpha (match start with Some s => s | None => start_tag end)) with
    | None => (false, [])
    | Some v =>
      match tags with
      | None => (false, [])
      | Some ts => check_versions check false (get_versions ts v)
      end
    end.
End history.

(* ---- main.rs 21-40: which task runs ---- *)
Inductive task := KFix | KValidate | KHistory (start : option string) | KCompat | KDownstream (args : list string) | KHelp.
Definition dispatch (args : list string) : task :=
  match args with
  | [] => KHelp
  | t :: rest =>
    if String.eqb t "fix-release-permissions" then KFix
    else if String.eqb t "validate" then KValidate
    else if String.eqb t "history" then KHistory (nth_error rest 0)
    else if String.eqb t "schema-compat" then KCompat
    else if String.eqb t "downstream-check" then KDownstream rest
    else KHelp
  end.
(* main.rs 21-40, 44-65: the exit code is 0 exactly when the task returns Ok; print_help always does *)
Definition main_ok (args : list string) (fix_ok validate_ok compat_ok : bool) (history_ok : option string -> bool)
    (down_ok : list string -> bool) : bool :=
  match dispatch args with
  | KFix => fix_ok | KValidate => validate_ok | KHistory s => history_ok s
  | KCompat => compat_ok | KDownstream l => down_ok l | KHelp => true
  end.
