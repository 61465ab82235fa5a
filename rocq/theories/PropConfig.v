(* C17 (layered settings) and C52 (finding the configuration file). *)
From Coq Require Import String Ascii Bool Arith Lia List.
Import ListNotations.
From Verif Require Import Base BaseProofs BaseProofs2 SemTypes VdirModel UrlModel ConfigModel ConfigSpec.
Local Open Scope string_scope.
Local Open Scope list_scope.

(* ---------------------------------------------------------------- C17 *)

(* Registry, policy and diagnostic settings: the command line wins over the file,
   which wins over the default; for the registry path and the policies this is said
   for files whose paths are valid. *)
Theorem C17_shared_settings_partial :
  forall url_parse (val raw : Type) (cs : command_spec val raw) (a : cli_args val)
         (cfg : option (weaver_config raw)),
    let l := load_config url_parse cs a cfg in
    let file {A} (get : weaver_config raw -> option A) := from_file cfg get in
    let d := to_effective a cfg in
    er_follow_symlinks (ld_registry l)
      = layered (ca_follow_symlinks a) (file (fun wc => rc_follow_symlinks (wc_registry wc))) false /\
    er_include_unreferenced (ld_registry l)
      = layered (ca_include_unreferenced a)
          (file (fun wc => rc_include_unreferenced (wc_registry wc))) false /\
    er_v2 (ld_registry l) = layered (ca_v2 a) (file (fun wc => rc_v2 (wc_registry wc))) false /\
    ((forall p, file (fun wc => rc_path (wc_registry wc)) = Some p -> valid_path p) ->
     Some (er_registry (ld_registry l))
       = match ca_registry a with
         | Some v => Some v
         | None => parse_vdir (layered None (file (fun wc => rc_path (wc_registry wc))) DEFAULT_REGISTRY)
         end) /\
    (cs_uses_policy cs = true ->
     ep_skip (ld_policy l)
       = layered (ca_skip_policies a) (file (fun wc => pc_skip (wc_policy wc))) false /\
     ep_display (ld_policy l)
       = layered (ca_display a) (file (fun wc => pc_display (wc_policy wc))) false /\
     ((forall ps p, file (fun wc => pc_paths (wc_policy wc)) = Some ps -> In p ps -> valid_path p) ->
      map Some (ep_policies (ld_policy l))
        = match ca_policies a with
          | Some vs => map Some vs
          | None => map parse_vdir (layered None (file (fun wc => pc_paths (wc_policy wc))) [])
          end)) /\
    ed_format d = layered (ca_format a) (file (fun wc => dc_format (wc_diagnostics wc))) "ansi" /\
    ed_template d
      = layered (ca_template a) (file (fun wc => dc_template (wc_diagnostics wc))) "diagnostic_templates" /\
    ed_stdout d = layered (ca_stdout a) (file (fun wc => dc_stdout (wc_diagnostics wc))) false.
Proof.
  intros url_parse val raw cs a cfg. cbv zeta. unfold load_config, to_effective, from_file, layered.
  cbv zeta. cbn [ld_registry ld_policy].
  unfold apply_registry, apply_policy, apply_diagnostic. cbn.
  repeat match goal with
         | |- _ /\ _ => split
         | |- _ = _ => destruct cfg as [wc|]; reflexivity
         end.
  - intros Hv. destruct (ca_registry a) as [v|]; [reflexivity|].
    destruct cfg as [wc|]; [|reflexivity]. cbn. destruct (rc_path (wc_registry wc)) as [p|]; [|reflexivity].
    specialize (Hv p eq_refl). unfold valid_path in Hv. destruct (parse_vdir p); congruence.
  - intros Hu. rewrite Hu. cbn.
    split; [destruct cfg as [wc|]; reflexivity|]. split; [destruct cfg as [wc|]; reflexivity|].
    intros Hv. destruct (ca_policies a) as [vs|]; [reflexivity|].
    destruct cfg as [wc|]; [|reflexivity]. cbn.
    destruct (pc_paths (wc_policy wc)) as [ps|]; [|reflexivity].
    specialize (Hv ps). assert (Hall : forall p, In p ps -> valid_path p) by (intros p; apply Hv; reflexivity).
    clear Hv. induction ps as [|p ps IH]; [reflexivity|]. cbn.
    pose proof (Hall p (or_introl eq_refl)) as Hp. unfold valid_path in Hp.
    destruct (parse_vdir p); [|congruence]. cbn. f_equal. apply IH.
    intros q Hq. apply Hall. right. exact Hq.
Qed.

Lemma decode_ok {val raw} (decode : string -> raw -> option val) defaults section :
  (forall f r, In f (map fst defaults) -> slookup f section = Some r -> decode f r <> None) ->
  decode_section val raw decode defaults section
  = Some (map (fun fd => (fst fd, match slookup (fst fd) section with
                                  | Some r => decode (fst fd) r
                                  | None => snd fd
                                  end)) defaults).
Proof.
  induction defaults as [|[f d] rest IH]; intros H; [reflexivity|]. cbn.
  rewrite IH by (intros g r Hg; apply H; right; exact Hg).
  pose proof (H f) as Hf. destruct (slookup f section) as [r|]; [|reflexivity].
  specialize (Hf r (or_introl eq_refl) eq_refl). destruct (decode f r); [reflexivity|congruence].
Qed.

Lemma slookup_map_same {V} (g : string -> V -> V) (l : list (string * V)) f :
  slookup f (map (fun fd => (fst fd, g (fst fd) (snd fd))) l) = option_map (g f) (slookup f l).
Proof.
  induction l as [|[k v] l IH]; cbn; [reflexivity|].
  destruct (String.eqb_spec f k) as [->|]; [reflexivity|exact IH].
Qed.

(* Settings of a single command, when the values in the file have the right type. *)
Theorem C17_command_settings_partial :
  forall url_parse (val raw : Type) (cs : command_spec val raw) (a : cli_args val)
         (cfg : option (weaver_config raw)) (f : string),
    (forall wc section, cfg = Some wc -> slookup (cs_section cs) (wc_commands wc) = Some section ->
       well_typed_section cs section) ->
    slookup f (ld_config (load_config url_parse cs a cfg))
    = match slookup f (cs_default cs) with
      | None => None
      | Some default =>
        Some (layered (option_map Some (slookup f (ca_command a)))
                      (option_map Some (file_setting cs cfg f)) default)
      end.
Proof.
  intros url_parse val raw cs a cfg f Hwt. unfold load_config. cbv zeta. cbn [ld_config].
  set (base := match cfg with Some wc => command_config cs wc | None => cs_default cs end).
  assert (Hb : base = map (fun fd => (fst fd, match file_setting cs cfg (fst fd) with
                                              | Some v => Some v
                                              | None => snd fd
                                              end)) (cs_default cs)).
  { unfold base, file_setting. destruct cfg as [wc|].
    - unfold command_config. destruct (slookup (cs_section cs) (wc_commands wc)) as [section|] eqn:Es.
      + specialize (Hwt wc section eq_refl Es).
        rewrite (decode_ok (cs_decode cs) (cs_default cs) section Hwt).
        apply map_ext_in. intros [g d] Hin. cbn.
        destruct (slookup g section) as [r|] eqn:Er; [|reflexivity].
        assert (Hg : In g (map fst (cs_default cs))) by (apply in_map_iff; exists (g, d); auto).
        specialize (Hwt g r Hg Er). destruct (cs_decode cs g r); congruence.
      + rewrite <- (map_id (cs_default cs)) at 1. apply map_ext. intros [g d]. reflexivity.
    - rewrite <- (map_id (cs_default cs)) at 1. apply map_ext. intros [g d]. reflexivity. }
  rewrite Hb. unfold apply_overrides. rewrite map_map. cbn [fst].
  transitivity (slookup f (map (fun fd => (fst fd,
      layered (option_map Some (slookup (fst fd) (ca_command a)))
              (option_map Some (file_setting cs cfg (fst fd))) (snd fd))) (cs_default cs))).
  - f_equal. apply map_ext. intros [g d]. cbn.
    destruct (slookup g (ca_command a)); [reflexivity|]. cbn.
    destruct (file_setting cs cfg g); reflexivity.
  - rewrite (slookup_map_same (fun f d => layered (option_map Some (slookup f (ca_command a)))
              (option_map Some (file_setting cs cfg f)) d)).
    destruct (slookup f (cs_default cs)); reflexivity.
Qed.

(* A command that uses no policies ignores every policy setting. *)
Theorem C17_no_policy :
  forall url_parse (val raw : Type) (cs : command_spec val raw) a cfg,
    cs_uses_policy cs = false ->
    ld_policy (load_config url_parse cs a cfg) = mk_eff_policy [] true false.
Proof. intros url_parse val raw cs a cfg H. unfold load_config. rewrite H. reflexivity. Qed.

(* Schema URL overrides: each is in effect exactly as its last valid entry says. *)
Theorem C17_overrides_exact :
  forall url_parse (val raw : Type) (cs : command_spec val raw) a (wc : weaver_config raw) url path,
    slookup url (ld_resolve (load_config url_parse cs a (Some wc))) = Some path <->
    exists before key value after u,
      wc_resolve wc = before ++ (key, value) :: after /\
      schema_url_new url_parse key = Ok u /\ su_url u = url /\ parse_vdir value = Some path /\
      (forall k v u', In (k, v) after -> schema_url_new url_parse k = Ok u' -> su_url u' = url ->
         ~ valid_path v).
Proof.
  intros url_parse val raw cs a wc url path. unfold load_config. cbn [ld_resolve].
  unfold layer_resolve. set (entries := wc_resolve wc). clearbody entries.
  set (stepf := fun (acc : list (string * vdir_path)) (kv : string * string) =>
      match schema_url_new url_parse (fst kv) with
      | Err _ => acc
      | Ok u => match parse_vdir (snd kv) with
                | None => acc
                | Some p => bt_insert (su_url u) p acc
                end
      end).
  induction entries as [|[k v] l IH] using rev_ind.
  - cbn. split; [discriminate|]. intros (b & k & v & c & u & H & _). destruct b; discriminate.
  - rewrite fold_left_app. cbn [fold_left]. unfold stepf at 1. cbn [fst snd].
    assert (Hkeep : forall b key value c, l = b ++ (key, value) :: c ->
              l ++ [(k, v)] = b ++ (key, value) :: (c ++ [(k, v)])).
    { intros b key value c ->. rewrite <- app_assoc. reflexivity. }
    assert (Hinv : forall b key value c, l ++ [(k, v)] = b ++ (key, value) :: c ->
       (c = [] /\ key = k /\ value = v /\ l = b) \/ exists c', c = c' ++ [(k, v)] /\ l = b ++ (key, value) :: c').
    { intros b key value c H. destruct c as [|x c] using rev_ind.
      - left. apply app_inj_tail in H. destruct H as [-> H]. injection H as <- <-. auto.
      - right. clear IHc. exists c. rewrite app_comm_cons, app_assoc in H.
        apply app_inj_tail in H. destruct H as [-> <-]. auto. }
    destruct (schema_url_new url_parse k) as [u|e] eqn:Eu.
    + destruct (parse_vdir v) as [p|] eqn:Ep.
      * rewrite bt_insert_lookup. destruct (String.eqb_spec url (su_url u)) as [->|Hne].
        -- split.
           ++ intros H. injection H as <-. exists l, k, v, [], u.
              repeat split; auto.
           ++ intros (b & key & value & c & u0 & H & H1 & H2 & H3 & H4).
              destruct (Hinv _ _ _ _ H) as [(-> & -> & -> & ->)|(c' & -> & _)].
              ** congruence.
              ** exfalso. apply (H4 k v u); [apply in_or_app; right; left; reflexivity|exact Eu|reflexivity|].
                 unfold valid_path. congruence.
        -- rewrite IH. split.
           ++ intros (b & key & value & c & u0 & -> & H1 & H2 & H3 & H4).
              exists b, key, value, (c ++ [(k, v)]), u0. rewrite <- app_assoc. cbn.
              repeat split; auto. intros k' v' u' Hin Hu' Hurl. apply in_app_iff in Hin.
              destruct Hin as [Hin|[Hin|[]]]; [eapply H4; eauto|]. injection Hin as <- <-.
              congruence.
           ++ intros (b & key & value & c & u0 & H & H1 & H2 & H3 & H4).
              destruct (Hinv _ _ _ _ H) as [(-> & -> & -> & ->)|(c' & -> & ->)]; [congruence|].
              exists b, key, value, c', u0. repeat split; auto.
              intros k' v' u' Hin. apply H4. apply in_or_app. left. exact Hin.
      * rewrite IH. split.
        -- intros (b & key & value & c & u0 & -> & H1 & H2 & H3 & H4).
           exists b, key, value, (c ++ [(k, v)]), u0. rewrite <- app_assoc. cbn.
           repeat split; auto. intros k' v' u' Hin Hu' Hurl. apply in_app_iff in Hin.
           destruct Hin as [Hin|[Hin|[]]]; [eapply H4; eauto|]. injection Hin as <- <-.
           unfold valid_path. congruence.
        -- intros (b & key & value & c & u0 & H & H1 & H2 & H3 & H4).
           destruct (Hinv _ _ _ _ H) as [(-> & -> & -> & ->)|(c' & -> & ->)]; [congruence|].
           exists b, key, value, c', u0. repeat split; auto.
           intros k' v' u' Hin. apply H4. apply in_or_app. left. exact Hin.
    + rewrite IH. split.
      * intros (b & key & value & c & u0 & -> & H1 & H2 & H3 & H4).
        exists b, key, value, (c ++ [(k, v)]), u0. rewrite <- app_assoc. cbn.
        repeat split; auto. intros k' v' u' Hin Hu' Hurl. apply in_app_iff in Hin.
        destruct Hin as [Hin|[Hin|[]]]; [eapply H4; eauto|]. injection Hin as <- <-. congruence.
      * intros (b & key & value & c & u0 & H & H1 & H2 & H3 & H4).
        destruct (Hinv _ _ _ _ H) as [(-> & -> & -> & ->)|(c' & -> & ->)]; [congruence|].
        exists b, key, value, c', u0. repeat split; auto.
        intros k' v' u' Hin. apply H4. apply in_or_app. left. exact Hin.
Qed.

(* The two ways in which a value written in the file is silently not used. *)

(* an unusable registry path: the default registry is checked instead *)
Theorem C17_invalid_path_refuted :
  forall url_parse (val raw : Type) (cs : command_spec val raw) (a : cli_args val) (wc : weaver_config raw),
    ca_registry a = None -> rc_path (wc_registry wc) = Some "" ->
    Some (er_registry (ld_registry (load_config url_parse cs a (Some wc)))) = parse_vdir DEFAULT_REGISTRY.
Proof.
  intros url_parse val raw cs a wc Ha Hp. unfold load_config. cbn [ld_registry].
  unfold apply_registry, layer_registry. rewrite Ha, Hp. reflexivity.
Qed.

(* one mistyped value in a command's section drops every other value of it *)
Theorem C17_malformed_section_refuted :
  exists (cs : command_spec string string) (a : cli_args string) (wc : weaver_config string) f v default,
    file_setting cs (Some wc) f = Some v /\ slookup f (ca_command a) = None /\ v <> default /\
    forall url_parse,
      slookup f (ld_config (load_config url_parse cs a (Some wc))) = Some (Some default).
Proof.
  exists (mk_command_spec "live-check" [("fail_on", Some "violation"); ("format", Some "ansi")]
            (fun f r => if String.eqb f "fail_on"
                        then (if str_mem r ["violation"; "improvement"; "information"; "none"]
                              then Some r else None)
                        else Some r) true),
    (mk_cli_args None None None None None None None None None None []),
    (mk_weaver_config (mk_registry_config None None None None) (mk_policy_config None None None)
       (mk_diagnostics_config None None None) []
       [("live-check", [("fail_on", "warning"); ("format", "json")])]),
    "format", "json", "ansi".
  split; [reflexivity|]. split; [reflexivity|]. split; [discriminate|]. intros. reflexivity.
Qed.

(* ---------------------------------------------------------------- C52 *)

(* Without --config the file used is the one in the nearest directory, from the
   current one upwards, that has one; none is used exactly when none has. *)
Theorem C52_nearest_file :
  forall is_file cwd,
    (forall d, discover is_file cwd = Some d <->
       above d cwd /\ is_file d = true /\
       forall d', above d' cwd -> is_file d' = true -> above d' d) /\
    (discover is_file cwd = None <-> forall d, above d cwd -> is_file d = false).
Proof.
  intros is_file.
  assert (Hanti : forall d d' : list string, above d d' -> above d' d -> d = d').
  { intros d d' (x & ->) (y & H). destruct x as [|n x]; [reflexivity|].
    exfalso. apply (f_equal (@length string)) in H. cbn in H.
    rewrite !app_length in H. cbn in H. rewrite ?app_length in H. lia. }
  assert (Hcons : forall d n p, above d (n :: p) <-> d = n :: p \/ above d p).
  { intros d n p. split.
    - intros (x & H). destruct x as [|m x]; [left; cbn in H; congruence|].
      injection H as _ ->. right. exists x. reflexivity.
    - intros [->|(x & ->)]; [exists []; reflexivity|]. exists (n :: x). reflexivity. }
  assert (Hnil : forall d, above d [] <-> d = []).
  { intros d. split; [intros (x & H); symmetry in H; apply app_eq_nil in H; tauto|].
    intros ->. exists []. reflexivity. }
  assert (Hrefl : forall d : list string, above d d) by (intros d; exists []; reflexivity).
  assert (Hfirst : forall cwd d, is_file cwd = true ->
     (Some cwd = Some d <-> above d cwd /\ is_file d = true /\
       forall d', above d' cwd -> is_file d' = true -> above d' d)).
  { intros cwd d E. split.
    - intros H. injection H as <-. auto.
    - intros (H1 & H2 & H3). f_equal. apply Hanti; auto. }
  induction cwd as [|n p [IH1 IH2]]; cbn [discover].
  - destruct (is_file []) eqn:E; split.
    + intros d. apply Hfirst, E.
    + split; [discriminate|]. intros H. rewrite (H [] (Hrefl [])) in E. discriminate.
    + intros d. split; [discriminate|]. intros (H & Hf & _). apply Hnil in H. congruence.
    + split; [|reflexivity]. intros _ d Hd. apply Hnil in Hd. congruence.
  - destruct (is_file (n :: p)) eqn:E; split.
    + intros d. apply Hfirst, E.
    + split; [discriminate|]. intros H. rewrite (H (n :: p) (Hrefl _)) in E. discriminate.
    + intros d. rewrite IH1. split.
      * intros (H1 & H2 & H3). split; [apply Hcons; auto|]. split; [assumption|].
        intros d' Hd Hf. apply Hcons in Hd. destruct Hd as [->|Hd]; [congruence|]. auto.
      * intros (H1 & H2 & H3). apply Hcons in H1. destruct H1 as [->|H1]; [congruence|].
        split; [assumption|]. split; [assumption|]. intros d' Hd Hf. apply H3; [|assumption].
        apply Hcons. auto.
    + rewrite IH2. split.
      * intros H d Hd. apply Hcons in Hd. destruct Hd as [->|Hd]; auto.
      * intros H d Hd. apply H, Hcons. auto.
Qed.

(* The file given with --config is the only one considered, and a file that cannot
   be read or parsed is an error, never a silent fallback. *)
Theorem C52_explicit_file_and_errors :
  forall (raw : Type) is_file load_explicit load_dir explicit cwd,
    let r := @resolve_weaver_config raw is_file load_explicit load_dir explicit cwd in
    (forall path, explicit = Some path ->
       match load_explicit path with Ok wc => r = Ok (Some wc) | Err e => r = Err e end) /\
    (explicit = None -> r = Ok None -> forall d, above d cwd -> is_file d = false) /\
    (explicit = None -> forall wc, r = Ok (Some wc) ->
       exists d, above d cwd /\ is_file d = true /\ load_dir d = Ok wc).
Proof.
  intros raw is_file load_explicit load_dir explicit cwd. cbv zeta.
  destruct (C52_nearest_file is_file cwd) as [H1 H2]. split; [|split].
  - intros path ->. cbn. destruct (load_explicit path); reflexivity.
  - intros -> H. apply H2. cbn in H. destruct (discover is_file cwd) as [d|]; [|reflexivity].
    destruct (load_dir d); discriminate.
  - intros -> wc H. cbn in H. destruct (discover is_file cwd) as [d|] eqn:E; [|discriminate].
    destruct (proj1 (H1 d) eq_refl) as (A & B & _). exists d.
    destruct (load_dir d); [|discriminate]. injection H as ->. auto.
Qed.

(* ---------------------------------------------------------------- cases *)
Example C17_case :
  let cs := mk_command_spec "generate" [("format", Some "ansi"); ("output", None)]
              (fun _ (r : string) => Some r) true in
  let wc := mk_weaver_config (mk_registry_config (Some "model") None (Some true) None)
              (mk_policy_config (Some ["p1"; "p2"]) (Some true) None)
              (mk_diagnostics_config (Some "json") None None) []
              [("generate", [("format", "md"); ("output", "o"); ("other", "x")])] in
  let a := mk_cli_args None (Some true) (Some false) None None (Some false) None None None None
             [("output", "cli")] in
  well_typed_section cs [("format", "md"); ("output", "o"); ("other", "x")] /\
  forall url_parse,
    load_config url_parse cs a (Some wc)
    = mk_loaded string [("format", Some "md"); ("output", Some "cli")]
        (mk_eff_registry (LocalFolder "model") true false false)
        (mk_eff_policy [LocalFolder "p1"; LocalFolder "p2"] false false) [].
Proof. split; [intros f r _ _; discriminate|]. intros. reflexivity. Qed.

Example C52_case :
  discover (fun d => match d with ["home"] | [] => true | _ => false end) ["src"; "project"; "home"]
  = Some ["home"].
Proof. reflexivity. Qed.

Print Assumptions C17_shared_settings_partial.
Print Assumptions C17_command_settings_partial.
Print Assumptions C17_no_policy.
Print Assumptions C17_overrides_exact.
Print Assumptions C17_invalid_path_refuted.
Print Assumptions C17_malformed_section_refuted.
Print Assumptions C52_nearest_file.
Print Assumptions C52_explicit_file_and_errors.
