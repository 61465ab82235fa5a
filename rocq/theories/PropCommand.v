(* C106: the commands that load a registry show what they gathered, and their exit code tells whether something is wrong. *)
From Coq Require Import String Bool Arith Lia List.
Import ListNotations.
From Verif Require Import Base Json SemTypes ResultModel ResultSpec PropResult PolicyModel PolicySpec PropPolicy CommandModel CommandSpec.
Local Open Scope string_scope.

Lemma serious_dec future m : serious future m \/ ~ serious future m.
Proof.
  unfold serious. destruct future; [left; left; reflexivity|].
  destruct m as [e|t s| | |]; try (left; right; exact I); try (right; intros [H|H]; [discriminate H|exact H]).
  destruct s as [[| |]|]; try (left; right; exact I); right; intros [H|H]; [discriminate H|exact H|discriminate H|exact H].
Qed.
Lemma counts future m : counts_as_error (dnew future m) <-> serious future m.
Proof.
  unfold counts_as_error, dnew, diag_new, serious. cbn [dm_severity]. destruct future.
  - split; [intros _; left; reflexivity|intros _; split; discriminate].
  - split.
    + intros [A B]. right. destruct m as [e|t [[| |]|]| | |]; cbn in A, B; try exact I; try (destruct (A eq_refl)); try (destruct (B eq_refl)).
    + intros [H|H]; [discriminate H|]. destruct m as [e|t [[| |]|]| | |]; cbn; try destruct H; split; discriminate.
Qed.
Lemma error_serious future ms : has_error (map (dnew future) ms) = true <-> exists m, In m ms /\ serious future m.
Proof.
  rewrite C16_has_error_exact. split.
  - intros (d & I & C). apply in_map_iff in I. destruct I as (m & <- & I). exists m. split; [exact I|apply counts; exact C].
  - intros (m & I & C). exists (dnew future m). split; [apply in_map; exact I|apply counts; exact C].
Qed.
Lemma error_fine future ms : has_error (map (dnew future) ms) = false <-> all_fine future ms.
Proof.
  split.
  - intros E m I S. assert (has_error (map (dnew future) ms) = true) by (apply error_serious; exists m; auto). congruence.
  - intros F. destruct (has_error (map (dnew future) ms)) eqn:E; [|reflexivity]. apply error_serious in E.
    destruct E as (m & I & S). destruct (F m I S).
Qed.
Lemma shown_map future ms : map dm_error (map (dnew future) ms) = ms.
Proof. rewrite map_map. cbn. apply map_id. Qed.
Lemma code_err future ms : exit_code (RErr (map (dnew future) ms)) = if has_error (map (dnew future) ms) then 1 else 0.
Proof. unfold exit_code. cbn [process_diagnostics negb]. destruct (has_error _); reflexivity. Qed.
Lemma left_err future ms : none_left (map (dnew future) ms) = match ms with [] => ROk (mk_exit 0 None) | _ => RErr (map (dnew future) ms) end.
Proof. destruct ms; reflexivity. Qed.
Lemma left_shown future ms l w :
  shown (mk_ran (none_left (map (dnew future) ms)) l w) = ms
  /\ code (mk_ran (none_left (map (dnew future) ms)) l w) = if has_error (map (dnew future) ms) then 1 else 0.
Proof.
  unfold shown, code, printed. cbn [ran_result]. rewrite left_err. destruct ms as [|m ms]; [split; reflexivity|].
  split; [apply shown_map|apply code_err].
Qed.
Lemma err_shown future ms l w :
  shown (mk_ran (RErr (map (dnew future) ms)) l w) = ms
  /\ code (mk_ran (RErr (map (dnew future) ms)) l w) = if has_error (map (dnew future) ms) then 1 else 0.
Proof. split; [apply shown_map|apply code_err]. Qed.

Section Runs.
  Variable R : rego.
  Variable future : bool.
  Notation dn := (dnew future).

  Lemma repo_good c g nfes b v (pe : option (engine R)) ds : good c g nfes b v pe ->
    exists load, loading_messages c g b pe load
      /\ load_and_resolve_repo R future c g ds = (ROk (mk_resolved b v (rg_name g) pe), app ds (map dn load)).
  Proof. intros (_ & U & P). apply repo_runs; assumption. Qed.
  Lemma main_good c g nfes b v (pe : option (engine R)) : good c g nfes b v pe ->
    exists load, loading_messages c g b pe load
      /\ load_and_resolve_main R future c g [] = (ROk (mk_resolved b v (rg_name g) pe), map dn (app nfes load)).
  Proof.
    intros G. destruct (repo_good c g nfes b v pe (map dn nfes) G) as (load & L & E). exists load. split; [exact L|].
    unfold load_and_resolve_main. destruct G as (O & _). rewrite O. cbn [app]. rewrite E, map_app. reflexivity.
  Qed.
  Lemma after_good b v name (pe : option (engine R)) ms :
    exists after, stage_messages pe AfterResolution name v [] after
      /\ check_after_resolution R future (mk_resolved b v name pe) (map dn ms) = (ROk tt, map dn (app ms after)).
  Proof.
    destruct (after_runs R future (mk_resolved b v name pe) (map dn ms)) as (after & A & E). exists after.
    split; [exact A|]. rewrite E, map_app. reflexivity.
  Qed.
  Lemma main_stops c g x : stops R c g x -> exists d, load_and_resolve_main R future c g [] = (RErr x, d).
  Proof.
    intros H. unfold load_and_resolve_main. destruct (rg_open g) as [nfes|y] eqn:Eo.
    - destruct (stops_repo R future c g x H (app [] (map dn nfes))) as [E|(n & d & E & Hd)]; [congruence|]. rewrite Hd. eauto.
    - exists []. destruct (stops_repo R future c g x H []) as [E|(n & d & E & Hd)]; [|congruence]. congruence.
  Qed.
  Lemma v2_bundle c g b v : usable c g b v -> st_v2 c = true -> b = BundleV2.
  Proof. intros U E. destruct U; congruence. Qed.
End Runs.

Lemma ready_first o : ready o -> own_first o = ROk tt. Proof. intros H; apply H. Qed.
Lemma ready_next o : ready o -> own_next o = ROk tt. Proof. intros H; apply H. Qed.
Lemma ready_opened o : ready o -> own_opened o = ROk tt. Proof. intros H; apply H. Qed.

(* the two ways such a command ends *)
Lemma ends future ms P k r : (has_error (map (dnew future) ms) = false -> shown r = ms /\ code r = k /\ ran_worked r = true) ->
  (has_error (map (dnew future) ms) = true -> shown r = ms /\ code r = 1 /\ (ran_worked r = true <-> P)) ->
  shown r = ms /\ ((all_fine future ms /\ code r = k /\ ran_worked r = true)
    \/ ((exists m, In m ms /\ serious future m) /\ code r = 1 /\ (ran_worked r = true <-> P))).
Proof.
  intros A B. destruct (has_error (map (dnew future) ms)) eqn:E.
  - destruct (B eq_refl) as (S & C & W). split; [exact S|]. right. split; [apply error_serious; exact E|]. split; [exact C|exact W].
  - destruct (A eq_refl) as (S & C & W). split; [exact S|]. left. split; [apply error_fine; exact E|]. split; [exact C|exact W].
Qed.

(* `resolve`, `emit`, `package`, `update-markdown`, `search` and `live-check` show every message of opening and loading the
   registry, and those that ask the policies about it their findings too, in this order, each once.  They end with the code of
   their work (0, or what --fail-on of a live check says) when none of the messages is an error, and with 1 otherwise.  Packaging,
   and updating in future mode, leave their work undone then; the others do it nevertheless. *)
Theorem C106_shown_partial : forall R future cmd c g nfes b v (pe : option (engine R)) o k,
  shows cmd -> applies future cmd c b -> ready o -> good (settings_of cmd c) g nfes b v pe -> work_ends cmd o v k ->
  exists ms, gathered cmd (settings_of cmd c) g nfes b v pe ms
    /\ shown (run R future cmd c g o) = ms
    /\ ((all_fine future ms /\ code (run R future cmd c g o) = k /\ ran_worked (run R future cmd c g o) = true)
        \/ ((exists m, In m ms /\ serious future m) /\ code (run R future cmd c g o) = 1
            /\ (ran_worked (run R future cmd c g o) = true <-> works_anyway future cmd))).
Proof.
  intros R future cmd c g nfes b v pe o k Sh Ap Re G We.
  assert (N : forall p, (cmd = p -> ~ asks cmd) -> cmd = p -> ~ asks cmd) by auto.
  destruct cmd as [| |h| | |dry files upd|how| | |]; cbn [settings_of applies work_ends works_anyway] in *.
  - (* resolve *)
    destruct We as [-> [n We]]. destruct (main_good R future _ _ _ _ _ _ G) as (load & L & E).
    destruct (after_good R future b v (rg_name g) pe (app nfes load)) as (after & A & E2).
    exists (app nfes (app load after)). split; [exists load, after; split; [exact L|]; split; [reflexivity|left; split; [left; reflexivity|exact A]]|].
    cbn [run]. unfold registry_resolve. rewrite Ap in *. unfold loaded_main. rewrite E, (ready_next _ Re). cbn [and_then].
    unfold checked_after. rewrite E2. cbn [rs_view]. rewrite We. cbn [and_then]. rewrite <- app_assoc.
    unfold done. destruct (left_shown false (app nfes (app load after)) [] true) as [S C].
    apply ends; intros He; rewrite S, C, He; cbn [ran_worked]; tauto.
  - exfalso. destruct Sh as [H|[H|[H|[(? & ? & ? & H)|[(? & H)|H]]]]]; discriminate H.
  - exfalso. destruct Sh as [H|[H|[H|[(? & ? & ? & H)|[(? & H)|H]]]]]; discriminate H.
  - (* emit *)
    destruct We as [-> [n We]]. destruct (main_good R future _ _ _ _ _ _ G) as (load & L & E).
    exists (app nfes load). split; [exists load, []; split; [exact L|]; split; [rewrite app_nil_r; reflexivity|right; split; [|reflexivity]; intros [H|[H|H]]; discriminate H]|].
    cbn [run]. unfold registry_emit, loaded_main. rewrite E. cbn [rs_view]. rewrite We.
    apply ends; intros He; rewrite He; unfold done.
    + split; [apply shown_map|]. split; reflexivity.
    + destruct (err_shown future (app nfes load) [] true) as [S C]. rewrite S, C, He. cbn [ran_worked]. tauto.
  - (* package *)
    destruct We as [-> [n We]]. assert (Eb : b = BundleV2) by (eapply v2_bundle; [apply G|exact Ap]). subst b.
    destruct (repo_good R future _ _ _ _ _ _ (map (dnew future) nfes) G) as (load & L & E).
    destruct (after_good R future BundleV2 v (rg_name g) pe (app nfes load)) as (after & A & E2).
    exists (app nfes (app load after)). split; [exists load, after; split; [exact L|]; split; [reflexivity|left; split; [right; left; reflexivity|exact A]]|].
    cbn [run]. unfold registry_package. rewrite (ready_first _ Re). cbn [and_then]. rewrite Ap. cbn [negb].
    destruct G as (O & _). rewrite O, (ready_opened _ Re). cbn [and_then]. unfold loaded_repo. rewrite E. unfold upgraded. cbn [rs_bundle].
    unfold checked_after. rewrite <- map_app, E2, <- app_assoc. cbn [rs_view]. rewrite We. cbn [and_then].
    apply ends; intros He; rewrite He; unfold done.
    + split; [|split; reflexivity]. unfold shown, printed. cbn [ran_result ed_warnings].
      destruct (app nfes (app load after)) as [|m ms] eqn:Em; [reflexivity|]. cbn [map]. apply (shown_map future (m :: ms)).
    + destruct (err_shown future (app nfes (app load after)) [] false) as [S C]. rewrite S, C, He. cbn [ran_worked].
      split; [reflexivity|]. split; [reflexivity|]. split; [discriminate|intros []].
  - (* update-markdown *)
    destruct We as [-> We]. destruct (main_good R future _ _ _ _ _ _ G) as (load & L & E).
    exists (app nfes load). split; [exists load, []; split; [exact L|]; split; [rewrite app_nil_r; reflexivity|right; split; [|reflexivity]; intros [H|[H|H]]; discriminate H]|].
    cbn [run]. unfold update_markdown. rewrite (ready_first _ Re). cbn [and_then]. unfold loaded_main. rewrite E. cbn [rs_view].
    assert (F : existsb (fun f => is_failure (upd v f)) files = false).
    { destruct (existsb _ files) eqn:Ex; [|reflexivity]. apply existsb_exists in Ex. destruct Ex as (f & I & H). rewrite (We f I) in H. discriminate H. }
    rewrite F. unfold done. destruct (left_shown future (app nfes load) [] true) as [S C].
    destruct (err_shown future (app nfes load) [] false) as [S' C'].
    apply ends; intros He.
    + destruct future; cbn [andb].
      * destruct (app nfes load) as [|m ms] eqn:Em; [cbn [map]; split; [reflexivity|split; reflexivity]|].
        exfalso. apply error_fine in He. apply (He m); [left; reflexivity|left; reflexivity].
      * rewrite S, C, He. cbn [ran_worked]. tauto.
    + destruct future; cbn [andb].
      * destruct (app nfes load) as [|m ms] eqn:Em; [discriminate He|]. cbn [map] in *. rewrite S', C', He. cbn [ran_worked].
        split; [reflexivity|]. split; [reflexivity|]. split; discriminate.
      * rewrite S, C, He. cbn [ran_worked]. tauto.
  - (* search *)
    destruct Ap as [-> Hh]. destruct (main_good R future _ _ _ _ _ _ G) as (load & L & E).
    exists (app nfes load). split; [exists load, []; split; [exact L|]; split; [rewrite app_nil_r; reflexivity|right; split; [|reflexivity]; intros [H|[H|H]]; discriminate H]|].
    cbn [run]. unfold registry_search, loaded_main. unfold skip_all. rewrite E. cbn [rs_bundle rs_view].
    destruct (left_shown future (app nfes load) [] true) as [S C].
    destruct how; [subst k| destruct We as [-> [n We]]; rewrite We; cbn [and_then]|destruct (Hh eq_refl)]; unfold done;
      apply ends; intros He; rewrite S, C, He; cbn [ran_worked]; tauto.
  - exfalso. destruct Sh as [H|[H|[H|[(? & ? & ? & H)|[(? & H)|H]]]]]; discriminate H.
  - exfalso. destruct Sh as [H|[H|[H|[(? & ? & ? & H)|[(? & H)|H]]]]]; discriminate H.
  - (* live-check *)
    destruct (main_good R future _ _ _ _ _ _ G) as (load & L & E).
    destruct (after_good R future b v (rg_name g) pe (app nfes load)) as (after & A & E2).
    exists (app nfes (app load after)). split; [exists load, after; split; [exact L|]; split; [reflexivity|left; split; [right; right; reflexivity|exact A]]|].
    cbn [run]. unfold live_check. rewrite (ready_first _ Re). cbn [and_then]. unfold loaded_main. rewrite E.
    unfold checked_after. rewrite E2, (ready_next _ Re). cbn [and_then rs_view]. rewrite We. cbn [and_then]. rewrite <- app_assoc.
    apply ends; intros He; rewrite He; unfold done.
    + split; [apply shown_map|]. split; reflexivity.
    + destruct (err_shown future (app nfes (app load after)) [] true) as [S C]. rewrite S, C, He. cbn [ran_worked]. tauto.
Qed.

(* `stats` shows the messages only when one of them is an error: then it shows them all, fails and computes nothing. *)
Theorem C106_stats : forall R future c g nfes b v (pe : option (engine R)) o n,
  ready o -> good c g nfes b v pe -> own_work o v = ROk n ->
  exists ms, gathered Stats c g nfes b v pe ms
    /\ let r := run R future Stats c g o in
       (all_fine future ms /\ shown r = [] /\ code r = 0 /\ ran_worked r = true)
       \/ ((exists m, In m ms /\ serious future m) /\ shown r = ms /\ code r = 1 /\ ran_worked r = false).
Proof.
  intros R future c g nfes b v pe o n Re G We. destruct (main_good R future _ _ _ _ _ _ G) as (load & L & E).
  exists (app nfes load). split; [exists load, []; split; [exact L|]; split; [rewrite app_nil_r; reflexivity|right; split; [|reflexivity]; intros [H|[H|H]]; discriminate H]|].
  cbv zeta. cbn [run]. unfold registry_stats, loaded_main. rewrite E.
  destruct (has_error (map (dnew future) (app nfes load))) eqn:He.
  - right. split; [apply error_serious; exact He|]. unfold done. destruct (err_shown future (app nfes load) [] false) as [S C].
    rewrite S, C, He. auto.
  - left. split; [apply error_fine; exact He|]. rewrite (ready_next _ Re). cbn [and_then rs_view]. rewrite We. repeat split.
Qed.

(* `diff` likewise, with the messages of loading both registries; those of opening them are not among them. *)
Theorem C106_diff_partial : forall R future c g nfes b v (pe : option (engine R)) h hn b' v' (pe' : option (engine R)) o n,
  ready o -> good c g nfes b v pe -> good c h hn b' v' pe' -> own_work o v = ROk n ->
  let r := run R future (Diff h) c g o in
  (b <> b' -> shown r = [IncompatibleRegistries] /\ code r = 1 /\ ran_worked r = false)
  /\ (b = b' -> exists load load', loading_messages c g b pe load /\ loading_messages c h b' pe' load'
        /\ let ms := app load load' in
           (all_fine future ms /\ shown r = [] /\ code r = 0 /\ ran_worked r = true)
           \/ ((exists m, In m ms /\ serious future m) /\ shown r = ms /\ code r = 1 /\ ran_worked r = false)).
Proof.
  intros R future c g nfes b v pe h hn b' v' pe' o n Re G H We. cbv zeta.
  destruct (repo_good R future _ _ _ _ _ _ [] G) as (load & L & E).
  destruct (repo_good R future _ _ _ _ _ _ (map (dnew future) load) H) as (load' & L' & E').
  cbn [run]. unfold registry_diff. destruct G as (O & _), H as (O' & _). rewrite O, O'. unfold loaded_repo. rewrite E. cbn [app].
  rewrite E'. unfold same_version. cbn [rs_bundle]. split.
  - intros Nb. destruct b, b'; try (destruct Nb; reflexivity); cbn [negb]; (split; [apply (shown_map future [IncompatibleRegistries])|]; split; [|reflexivity]; destruct future; reflexivity).
  - intros <-. exists load, load'. split; [exact L|]. split; [exact L'|]. rewrite <- map_app.
    replace (negb match b with BundleV1 => match b with BundleV1 => true | BundleV2 => false end | BundleV2 => match b with BundleV1 => false | BundleV2 => true end end)
      with false by (destruct b; reflexivity).
    destruct (has_error (map (dnew future) (app load load'))) eqn:He.
    + right. split; [apply error_serious; exact He|]. unfold done. destruct (err_shown future (app load load') [] false) as [S C].
      rewrite S, C, He. auto.
    + left. split; [apply error_fine; exact He|]. rewrite (ready_next _ Re). cbn [and_then rs_view]. rewrite We. repeat split.
Qed.

(* The servers start whatever the messages are, and end with 0: `serve` logs the messages, `mcp` does not. *)
Theorem C106_servers : forall R future c g nfes b v (pe : option (engine R)) o w n,
  ready o -> good c g nfes b v pe -> (b = BundleV1 -> value_of (own_upgrade o) = Some w) -> (b = BundleV2 -> w = v) ->
  own_work o w = ROk n ->
  exists ms, gathered Serve c g nfes b v pe ms
    /\ (let r := run R future Serve c g o in shown r = [] /\ logged r = ms /\ code r = 0 /\ ran_worked r = true)
    /\ (let r := run R future Mcp c g o in shown r = [] /\ logged r = [] /\ code r = 0 /\ ran_worked r = true).
Proof.
  intros R future c g nfes b v pe o w n Re G U1 U2 We. destruct (main_good R future _ _ _ _ _ _ G) as (load & L & E).
  exists (app nfes load). split; [exists load, []; split; [exact L|]; split; [rewrite app_nil_r; reflexivity|right; split; [|reflexivity]; intros [H|[H|H]]; discriminate H]|].
  cbv zeta. cbn [run]. unfold run_serve, registry_mcp, loaded_main. rewrite E. unfold upgraded. cbn [rs_bundle rs_name rs_engine].
  destruct b.
  - specialize (U1 eq_refl). destruct (own_upgrade o) as [w'|w' es|x]; cbn [value_of] in U1; try discriminate U1;
      injection U1 as ->; rewrite (ready_next _ Re); cbn [and_then rs_view]; rewrite We; cbn [and_then];
      (split; [split; [reflexivity|]; split; [apply shown_map|split; reflexivity]|repeat split]).
  - rewrite (U2 eq_refl) in We. rewrite (ready_next _ Re). cbn [and_then rs_view]. rewrite We. cbn [and_then].
    split; [split; [reflexivity|]; split; [apply shown_map|split; reflexivity]|repeat split].
Qed.

(* A registry that cannot be used stops every command before its work; the error of the step that failed is all that is shown. *)
Theorem C106_stopped : forall R future cmd c g o x,
  ready o -> stops R (settings_of cmd c) g x -> (cmd = Resolve -> future = false) -> (cmd = Package -> st_v2 c = true) ->
  (forall h, cmd = Diff h -> exists hn, rg_open h = ROk hn) ->
  let r := run R future cmd c g o in
  shown r = [x] /\ ran_worked r = false /\ (serious future x -> code r = 1) /\ logged r = [].
Proof.
  intros R future cmd c g o x Re St Hr Hp Hd. cbv zeta.
  assert (F : forall r, r = fail1 future false x -> shown r = [x] /\ ran_worked r = false /\ (serious future x -> code r = 1) /\ logged r = []).
  { intros r ->. unfold fail1, fail. cbn [fst snd]. destruct (err_shown future [x] [] false) as [S C]. split; [exact S|]. split; [reflexivity|].
    split; [|reflexivity]. intros Se. rewrite C. destruct (has_error (map (dnew future) [x])) eqn:He; [reflexivity|].
    apply error_fine in He. destruct (He x (or_introl eq_refl) Se). }
  apply F. destruct (main_stops R future _ _ _ St) as [d E].
  destruct cmd as [| |h| | |dry files upd|how| | |]; cbn [run settings_of] in *.
  - unfold registry_resolve. rewrite (Hr eq_refl) in *. unfold loaded_main. rewrite E. reflexivity.
  - unfold registry_stats, loaded_main. rewrite E. reflexivity.
  - unfold registry_diff. destruct (stops_repo R future c g x St []) as [O|(nf & d' & O & E')]; rewrite O; [reflexivity|].
    destruct (Hd h eq_refl) as [hn Oh]. rewrite Oh. unfold loaded_repo. rewrite E'. reflexivity.
  - unfold registry_emit, loaded_main. rewrite E. reflexivity.
  - unfold registry_package. rewrite (ready_first _ Re). cbn [and_then]. rewrite (Hp eq_refl). cbn [negb].
    destruct (rg_open g) as [nf|y] eqn:O.
    + rewrite (ready_opened _ Re). cbn [and_then]. unfold load_and_resolve_main in E. rewrite O in E. cbn [app] in E. unfold loaded_repo. rewrite E. reflexivity.
    + unfold load_and_resolve_main in E. rewrite O in E. injection E as -> _. reflexivity.
  - unfold update_markdown. rewrite (ready_first _ Re). cbn [and_then]. unfold loaded_main. rewrite E. reflexivity.
  - unfold registry_search, loaded_main. unfold skip_all. rewrite E. reflexivity.
  - unfold registry_mcp, loaded_main. rewrite E. reflexivity.
  - unfold run_serve, loaded_main. rewrite E. reflexivity.
  - unfold live_check. rewrite (ready_first _ Re). cbn [and_then]. unfold loaded_main. rewrite E. reflexivity.
Qed.
Theorem C106_baseline_stopped : forall R future c g nfes b v (pe : option (engine R)) h o x,
  good c g nfes b v pe -> stops R c h x ->
  let r := run R future (Diff h) c g o in
  shown r = [x] /\ ran_worked r = false /\ (serious future x -> code r = 1).
Proof.
  intros R future c g nfes b v pe h o x G St. cbv zeta. cbn [run].
  assert (E : registry_diff R future c g h o = fail1 future false x).
  { unfold registry_diff. destruct (repo_good R future _ _ _ _ _ _ [] G) as (load & _ & E). destruct G as (O & _). rewrite O.
    destruct (stops_repo R future c h x St (app [] (map (dnew future) load))) as [O'|(hn & d & O' & E')]; rewrite O'; [reflexivity|].
    unfold loaded_repo. rewrite E, E'. reflexivity. }
  rewrite E. unfold fail1, fail. cbn [fst snd]. destruct (err_shown future [x] [] false) as [S C]. split; [exact S|]. split; [reflexivity|].
  intros Se. rewrite C. destruct (has_error (map (dnew future) [x])) eqn:He; [reflexivity|].
  apply error_fine in He. destruct (He x (or_introl eq_refl) Se).
Qed.

(* A command that does not apply to the registry fails before its work. *)
Theorem C106_not_applicable : forall R future c g o,
  ready o ->
  (let r := run R true Resolve c g o in shown r = [deprecated] /\ code r = 1 /\ ran_worked r = false)
  /\ (st_v2 c = false -> let r := run R future Package c g o in shown r = [requires_v2] /\ code r = 1 /\ ran_worked r = false)
  /\ (forall how nfes v (pe : option (engine R)), good (settings_of (Search how) c) g nfes BundleV2 v pe ->
        let r := run R future (Search how) c g o in shown r = [v2_incompatible] /\ code r = 1 /\ ran_worked r = false)
  /\ (forall nfes v (pe : option (engine R)), good (settings_of (Search Neither) c) g nfes BundleV1 v pe ->
        let r := run R future (Search Neither) c g o in code r = 1 /\ ran_worked r = false).
Proof.
  intros R future c g o Re. cbv zeta. split; [repeat split|]. split; [|split].
  - intros E. cbn [run]. unfold registry_package. rewrite (ready_first _ Re). cbn [and_then]. rewrite E. destruct future; repeat split.
  - intros how nfes v pe G. destruct (main_good R future _ _ _ _ _ _ G) as (load & _ & E). cbn [settings_of] in E.
    cbn [run]. unfold registry_search, loaded_main, skip_all. rewrite E. cbn [rs_bundle]. destruct future; repeat split.
  - intros nfes v pe G. destruct (main_good R future _ _ _ _ _ _ G) as (load & _ & E). cbn [settings_of] in E.
    cbn [run]. unfold registry_search, loaded_main, skip_all. rewrite E. cbn [rs_bundle]. repeat split.
Qed.

(* Work that fails makes the command fail with the errors of the work; `emit` shows what it gathered after them, the others
   show the errors alone. *)
Theorem C106_work_failed_partial : forall R future cmd c g nfes b v (pe : option (engine R)) o x xs,
  (cmd = Resolve \/ cmd = Stats \/ cmd = Emit \/ cmd = Package \/ cmd = Search Terminal \/ cmd = LiveCheck) ->
  applies future cmd c b -> ready o -> good (settings_of cmd c) g nfes b v pe ->
  own_work o v = RErr (x, xs) ->
  exists ms, gathered cmd (settings_of cmd c) g nfes b v pe ms
    /\ (all_fine future ms \/ works_anyway future cmd ->
        let r := run R future cmd c g o in
        ran_worked r = true /\ shown r = app (x :: xs) (match cmd with Emit => ms | _ => [] end)
        /\ (serious future x -> code r = 1)).
Proof.
  intros R future cmd c g nfes b v pe o x xs Hc Ap Re G We.
  assert (F : forall r ms, r = mk_ran (RErr (map (dnew future) (x :: app xs ms))) [] true ->
     ran_worked r = true /\ shown r = app (x :: xs) ms /\ (serious future x -> code r = 1)).
  { intros r ms ->. destruct (err_shown future (x :: app xs ms) [] true) as [S C]. split; [reflexivity|]. split; [exact S|].
    intros Se. rewrite C. destruct (has_error (map (dnew future) (x :: app xs ms))) eqn:He; [reflexivity|].
    apply error_fine in He. destruct (He x (or_introl eq_refl) Se). }
  assert (F0 : forall r, r = fail future true (x, xs) ->
     ran_worked r = true /\ shown r = app (x :: xs) [] /\ (serious future x -> code r = 1)).
  { intros r ->. apply F. rewrite app_nil_r. reflexivity. }
  destruct Hc as [->|[->|[->|[->|[->| ->]]]]]; cbn [settings_of applies works_anyway] in *.
  - destruct (main_good R future _ _ _ _ _ _ G) as (load & L & E).
    destruct (after_good R future b v (rg_name g) pe (app nfes load)) as (after & A & E2).
    exists (app nfes (app load after)). split; [exists load, after; split; [exact L|]; split; [reflexivity|left; split; [left; reflexivity|exact A]]|].
    intros _. cbv zeta. apply F0.
    cbn [run]. unfold registry_resolve. rewrite Ap in *. unfold loaded_main. rewrite E, (ready_next _ Re). cbn [and_then].
    unfold checked_after. rewrite E2. cbn [rs_view]. rewrite We. reflexivity.
  - destruct (main_good R future _ _ _ _ _ _ G) as (load & L & E).
    exists (app nfes load). split; [exists load, []; split; [exact L|]; split; [rewrite app_nil_r; reflexivity|right; split; [|reflexivity]; intros [H|[H|H]]; discriminate H]|].
    intros [Fi|[]]. cbv zeta. apply F0. cbn [run]. unfold registry_stats, loaded_main. rewrite E.
    apply error_fine in Fi. rewrite Fi, (ready_next _ Re). cbn [and_then rs_view]. rewrite We. reflexivity.
  - destruct (main_good R future _ _ _ _ _ _ G) as (load & L & E).
    exists (app nfes load). split; [exists load, []; split; [exact L|]; split; [rewrite app_nil_r; reflexivity|right; split; [|reflexivity]; intros [H|[H|H]]; discriminate H]|].
    intros _. cbv zeta. apply F. cbn [run]. unfold registry_emit, loaded_main. rewrite E. cbn [rs_view]. rewrite We. cbn [fst snd].
    unfold done. rewrite <- map_app. reflexivity.
  - assert (Eb : b = BundleV2) by (eapply v2_bundle; [apply G|exact Ap]). subst b.
    destruct (repo_good R future _ _ _ _ _ _ (map (dnew future) nfes) G) as (load & L & E).
    destruct (after_good R future BundleV2 v (rg_name g) pe (app nfes load)) as (after & A & E2).
    exists (app nfes (app load after)). split; [exists load, after; split; [exact L|]; split; [reflexivity|left; split; [right; left; reflexivity|exact A]]|].
    intros [Fi|[]]. cbv zeta. apply F0.
    cbn [run]. unfold registry_package. rewrite (ready_first _ Re). cbn [and_then]. rewrite Ap. cbn [negb].
    destruct G as (O & _). rewrite O, (ready_opened _ Re). cbn [and_then]. unfold loaded_repo. rewrite E. unfold upgraded. cbn [rs_bundle].
    unfold checked_after. rewrite <- map_app, E2, <- app_assoc. cbn [rs_view]. apply error_fine in Fi. rewrite Fi, We. reflexivity.
  - destruct Ap as [-> Hh]. destruct (main_good R future _ _ _ _ _ _ G) as (load & L & E).
    exists (app nfes load). split; [exists load, []; split; [exact L|]; split; [rewrite app_nil_r; reflexivity|right; split; [|reflexivity]; intros [H|[H|H]]; discriminate H]|].
    intros _. cbv zeta. apply F0. cbn [run]. unfold registry_search, loaded_main, skip_all. rewrite E. cbn [rs_bundle rs_view]. rewrite We. reflexivity.
  - destruct (main_good R future _ _ _ _ _ _ G) as (load & L & E).
    destruct (after_good R future b v (rg_name g) pe (app nfes load)) as (after & A & E2).
    exists (app nfes (app load after)). split; [exists load, after; split; [exact L|]; split; [reflexivity|left; split; [right; right; reflexivity|exact A]]|].
    intros _. cbv zeta. apply F0. cbn [run]. unfold live_check. rewrite (ready_first _ Re). cbn [and_then]. unfold loaded_main. rewrite E.
    unfold checked_after. rewrite E2, (ready_next _ Re). cbn [and_then rs_view]. rewrite We. reflexivity.
Qed.

(* A markdown file that cannot be updated, or differs in a dry run, makes the command fail. *)
Theorem C106_file_failed : forall R future c g nfes b v (pe : option (engine R)) o dry files update f x,
  ready o -> good c g nfes b v pe -> In f files -> update v f = RErr x ->
  exists ms, gathered (Markdown dry files update) c g nfes b v pe ms
    /\ let r := run R future (Markdown dry files update) c g o in
       code r = 1
       /\ ((future = true /\ ms <> [] /\ shown r = ms /\ ran_worked r = false)
           \/ (~ (future = true /\ ms <> []) /\ shown r = [if dry then not_up_to_date else update_failed] /\ ran_worked r = true)).
Proof.
  intros R future c g nfes b v pe o dry files update f x Re G I Hx. destruct (main_good R future _ _ _ _ _ _ G) as (load & L & E).
  exists (app nfes load). split; [exists load, []; split; [exact L|]; split; [rewrite app_nil_r; reflexivity|right; split; [|reflexivity]; intros [H|[H|H]]; discriminate H]|].
  cbv zeta. cbn [run]. unfold update_markdown. rewrite (ready_first _ Re). cbn [and_then]. unfold loaded_main. rewrite E. cbn [rs_view].
  assert (X : existsb (fun f => is_failure (update v f)) files = true) by (apply existsb_exists; exists f; rewrite Hx; auto).
  rewrite X. unfold done. destruct (err_shown future (app nfes load) [] false) as [S C].
  destruct future; cbn [andb].
  - destruct (app nfes load) as [|m ms] eqn:Em; cbn [map] in *.
    + split; [destruct dry; reflexivity|]. right. split; [intros [_ N]; destruct (N eq_refl)|]. destruct dry; repeat split.
    + split.
      * rewrite C. destruct (has_error _) eqn:He; [reflexivity|]. change (dnew true m :: map (dnew true) ms) with (map (dnew true) (m :: ms)) in He.
        apply error_fine in He. destruct (He m (or_introl eq_refl) (or_introl eq_refl)).
      * left. split; [reflexivity|]. split; [discriminate|]. split; [exact S|reflexivity].
  - split; [destruct dry; reflexivity|]. right. split; [intros [K _]; discriminate K|]. destruct dry; repeat split.
Qed.

(* What a policy finds about the resolved registry is shown by the commands that ask and makes them fail; nothing is packaged. *)
Theorem C106_finding : forall R future cmd c g nfes b i (e : engine R) o k fs f,
  asks cmd -> applies future cmd c b -> ready o -> good c g nfes b (Some i) (Some e) -> work_ends cmd o (Some i) k ->
  in_use e AfterResolution -> findings_in (answer e AfterResolution i []) fs -> In f fs ->
  let r := run R future cmd c g o in
  In (WChecker (PolicyViolation (rg_name g) f)) (shown r) /\ code r = 1 /\ (cmd = Package -> ran_worked r = false).
Proof.
  intros R future cmd c g nfes b i e o k fs f As Ap Re G We U F I. cbv zeta.
  assert (Sc : settings_of cmd c = c) by (destruct As as [->|[->| ->]]; reflexivity).
  assert (Sh : shows cmd) by (unfold shows; destruct As as [->|[->| ->]]; auto 8).
  rewrite <- Sc in G. destruct (C106_shown_partial R future cmd c g nfes b (Some i) (Some e) o k Sh Ap Re G We) as (ms & (load & after & _ & -> & Ha) & S & E).
  assert (J : In (WChecker (PolicyViolation (rg_name g) f)) (app nfes (app load after))).
  { destruct Ha as [[_ Ha]|[N _]]; [|destruct (N As)]. apply in_or_app. right. apply in_or_app. right. eapply messages_exit; eauto. }
  split; [rewrite S; exact J|]. destruct E as [(Fi & _)|(_ & C & W)].
  - destruct (Fi _ J). right. exact Logic.I.
  - split; [exact C|]. intros ->. destruct (ran_worked _); [destruct W as [W _]; destruct (W eq_refl)|reflexivity].
Qed.

(* ---------- what does not hold ---------- *)
Lemma calm_good R nfes : good (R := R) bare (calm nfes BundleV1) nfes BundleV1 (Some JNull) None.
Proof. split; [reflexivity|]. split; [|reflexivity]. eapply usable_v1; reflexivity. Qed.
Lemma calm_good2 R nfes : good (R := R) bare2 (calm nfes BundleV2) nfes BundleV2 (Some JNull) None.
Proof. split; [reflexivity|]. split; [|reflexivity]. eapply usable_v2; reflexivity. Qed.
Lemma easy_ready : ready easy. Proof. repeat split. Qed.

(* The warnings of loading are lost with `stats`, `diff` and the MCP server. *)
Theorem C106_warnings_refuted : forall R,
  let g := calm [hint] BundleV1 in
  good (R := R) bare g [hint] BundleV1 (Some JNull) None
  /\ shown (run R false Emit bare g easy) = [hint]
  /\ shown (run R false Stats bare g easy) = [] /\ shown (run R false (Diff g) bare g easy) = [] /\ shown (run R false Mcp bare g easy) = [].
Proof. intros R. split; [apply calm_good|]. repeat split. Qed.

(* The MCP server and the HTTP server start on a registry with errors and end with 0; the MCP server tells nobody. *)
Theorem C106_servers_refuted : forall R,
  let g := calm [wrong] BundleV1 in
  serious false wrong
  /\ code (run R false Stats bare g easy) = 1
  /\ code (run R false Mcp bare g easy) = 0 /\ shown (run R false Mcp bare g easy) = [] /\ logged (run R false Mcp bare g easy) = []
  /\ code (run R false Serve bare g easy) = 0 /\ ran_worked (run R false Serve bare g easy) = true.
Proof. intros R. split; [right; exact I|]. repeat split. Qed.

(* `diff` drops what opening the registries reports: even what is an error to the other commands. *)
Theorem C106_diff_refuted : forall R,
  let g := calm [hint] BundleV1 in
  serious true hint
  /\ code (run R true Stats bare g easy) = 1 /\ code (run R true Emit bare g easy) = 1
  /\ code (run R true (Diff g) bare g easy) = 0 /\ shown (run R true (Diff g) bare g easy) = [].
Proof. intros R. split; [left; reflexivity|]. repeat split. Qed.

(* A registry with errors is resolved, emitted, searched and used to check samples all the same: only the exit code tells. *)
Theorem C106_output_refuted : forall R cmd,
  cmd = Resolve \/ cmd = Emit \/ cmd = LiveCheck \/ cmd = Search Pattern ->
  let r := run R false cmd bare (calm [wrong] BundleV1) easy in
  serious false wrong /\ ran_worked r = true /\ code r = 1 /\ shown r = [wrong].
Proof. intros R cmd H. split; [right; exact I|]. destruct H as [->|[->|[->| ->]]]; repeat split. Qed.

(* Messages are lost when the command fails of its own: in a markdown file, or without a terminal to search on. *)
Theorem C106_masked_refuted : forall R,
  let g := calm [wrong; hint] BundleV1 in
  shown (run R false (Markdown true ["a.md"] (fun _ _ => RErr hint)) bare g easy) = [not_up_to_date]
  /\ shown (run R false (Search Neither) bare g easy) = [].
Proof. intros R. repeat split. Qed.

(* ---------- non-vacuity ---------- *)
Example package_case : forall R,
  exists ms, gathered (R := R) Package bare2 (calm [hint] BundleV2) [hint] BundleV2 (Some JNull) None ms
    /\ shown (run R false Package bare2 (calm [hint] BundleV2) easy) = ms
    /\ code (run R false Package bare2 (calm [hint] BundleV2) easy) = 0.
Proof.
  intros R. exists [hint]. split; [|split; reflexivity].
  exists [], []. split; [exists []; split; reflexivity|]. split; [reflexivity|]. left. split; [right; left; reflexivity|reflexivity].
Qed.
Example shown_case : forall R, shows Package /\ applies false Package bare2 BundleV2 /\ ready easy
  /\ good (R := R) (settings_of Package bare2) (calm [wrong] BundleV2) [wrong] BundleV2 (Some JNull) None
  /\ work_ends Package easy (Some JNull) 0
  /\ ran_worked (run R false Package bare2 (calm [wrong] BundleV2) easy) = false.
Proof.
  intros R. split; [right; right; left; reflexivity|]. split; [reflexivity|]. split; [exact easy_ready|].
  split; [apply calm_good2|]. split; [split; [reflexivity|exists 0; reflexivity]|reflexivity].
Qed.
Example live_case : forall R,
  let o := mk_own (ROk tt) (ROk tt) (ROk tt) (WOk (Some JNull)) (fun _ => ROk 1) in
  ready o /\ work_ends LiveCheck o (Some JNull) 1
  /\ code (run R false LiveCheck bare (calm [hint] BundleV1) o) = 1 /\ shown (run R false LiveCheck bare (calm [hint] BundleV1) o) = [hint].
Proof. intros R. repeat split. Qed.
Example stopped_case : forall R,
  let g := mk_registry "r" (ROk [hint]) "/r" None (WFatal wrong) (WOk BundleV1) (ROk (Some JNull)) (ROk tt) (WOk (Some JNull)) in
  stops R bare g wrong /\ shown (run R false Emit bare g easy) = [wrong].
Proof. intros R. split; [eapply stops_load; reflexivity|reflexivity]. Qed.
Example failed_case : forall R,
  let o := mk_own (ROk tt) (ROk tt) (ROk tt) (WOk (Some JNull)) (fun _ => RErr (wrong, [hint])) in
  shown (run R false Emit bare (calm [hint] BundleV1) o) = [wrong; hint; hint]
  /\ shown (run R false LiveCheck bare (calm [hint] BundleV1) o) = [wrong; hint].
Proof. intros R. split; reflexivity. Qed.

Print Assumptions C106_shown_partial.
Print Assumptions C106_stats.
Print Assumptions C106_diff_partial.
Print Assumptions C106_servers.
Print Assumptions C106_stopped.
Print Assumptions C106_baseline_stopped.
Print Assumptions C106_not_applicable.
Print Assumptions C106_work_failed_partial.
Print Assumptions C106_file_failed.
Print Assumptions C106_finding.
Print Assumptions C106_warnings_refuted.
Print Assumptions C106_servers_refuted.
Print Assumptions C106_diff_refuted.
Print Assumptions C106_output_refuted.
Print Assumptions C106_masked_refuted.
