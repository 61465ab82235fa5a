(* The commands that load a registry, end to end: src/registry/{resolve,stats,diff,emit,package,update_markdown,search,mcp,
   live_check}.rs, src/serve/mod.rs and the printing of src/main.rs.  `check` and `generate` are in PolicyModel.
   Loading is that of PolicyModel; a command's own steps (arguments, templates, output, servers, samples) are given by their
   outcomes.  The first error of a step and those that go with it are shown together. *)
From Coq Require Import String Bool Arith List.
Import ListNotations.
From Verif Require Import Base Json SemTypes ResultModel PolicyModel.
Local Open Scope string_scope.

(* used by own: resolve.rs 63-117 *)
Definition errs := (werr * list werr)%type.

(* What a command does of its own.  [own_first] before the registry is opened, [own_opened] between opening and loading,
   [own_next] before the work, [own_work] the work on the view of the registry, with the exit code it asks for. *)
(* used by registry_resolve: resolve.rs 63-117 *)
Record own := mk_own {
  own_first : result unit errs;
  own_opened : result unit errs;
  own_next : result unit errs;
  own_upgrade : wresult (option json) werr;   (* weaver.rs 460-486: the view of a V1 registry converted to V2 *)
  own_work : option json -> result nat errs }.

(* search.rs 412-424: what is searched for, or how *)
Inductive search_how := Pattern | Terminal | Neither.

(* used by deprecated: resolve.rs 22-26, search.rs 58-59, registry/mod.rs 64-66 *)
Inductive command :=
| Resolve
| Stats
| Diff (baseline : registry)
| Emit
| Package
| Markdown (dry_run : bool) (files : list string) (update : option json -> string -> result unit werr)
| Search (how : search_how)
| Mcp
| Serve
| LiveCheck.

(* the end of a command: its result, what it logged and whether it came to its work *)
(* used by fail: resolve.rs 22-26, search.rs 58-59, registry/mod.rs 64-66 *)
Record ran := mk_ran { ran_result : result (exit_directives werr) diags; ran_logged : diags; ran_worked : bool }.

(* resolve.rs 22-26; search.rs 58-59; registry/mod.rs 64-66; update_markdown.rs 27-35 *)
Definition deprecated : werr := WOther "The 'weaver registry resolve' command is deprecated" None.
(* as above: resolve.rs 22-26, search.rs 58-59, registry/mod.rs 64-66 *)
Definition v2_incompatible : werr := WOther "The search command is deprecated and not compatible with V2 schema" None.
(* as above: resolve.rs 22-26, search.rs 58-59, registry/mod.rs 64-66 *)
Definition requires_v2 : werr := WOther "Packaging is only supported for v2 registries" None.
(* as above: resolve.rs 22-26, search.rs 58-59, registry/mod.rs 64-66 *)
Definition not_up_to_date : werr := WOther "The update-markdown command found differences in dry-run." None.
(* as above: resolve.rs 22-26, search.rs 58-59, registry/mod.rs 64-66 *)
Definition update_failed : werr := WOther "weaver registry update-markdown failed." None.

Section Commands.
  Variable R : rego.
  Variable future : bool.
  Notation dn := (dnew future).

  (* used by fail1: resolve.rs 22-26, search.rs 58-59, registry/mod.rs 64-66 *)
  Definition fail (worked : bool) (e : errs) : ran := mk_ran (RErr (map dn (fst e :: snd e))) [] worked.
  (* as above: resolve.rs 22-26, search.rs 58-59, registry/mod.rs 64-66 *)
  Definition fail1 (worked : bool) (x : werr) : ran := fail worked (x, []).
  (* as above: resolve.rs 22-26, search.rs 58-59, registry/mod.rs 64-66 *)
  Definition done (worked : bool) (r : result (exit_directives werr) diags) : ran := mk_ran r [] worked.
  (* as above: resolve.rs 22-26, search.rs 58-59, registry/mod.rs 64-66 *)
  Definition and_then {A} (worked : bool) (s : result A errs) (k : A -> ran) : ran :=
    match s with RErr e => fail worked e | ROk a => k a end.
  (* as above: resolve.rs 22-26, search.rs 58-59, registry/mod.rs 64-66 *)
  Definition loaded_main (c : settings) (g : registry) (k : resolved R -> diags -> ran) : ran :=
    match load_and_resolve_main R future c g [] with (RErr x, _) => fail1 false x | (ROk r, ds) => k r ds end.
  (* as above: resolve.rs 22-26, search.rs 58-59, registry/mod.rs 64-66 *)
  Definition loaded_repo (c : settings) (g : registry) (ds : diags) (k : resolved R -> diags -> ran) : ran :=
    match load_and_resolve_repo R future c g ds with (RErr x, _) => fail1 false x | (ROk r, ds) => k r ds end.
  (* as above: resolve.rs 22-26, search.rs 58-59, registry/mod.rs 64-66 *)
  Definition checked_after (r : resolved R) (ds : diags) (k : diags -> ran) : ran :=
    match check_after_resolution R future r ds with (RErr x, _) => fail1 false x | (ROk _, ds) => k ds end.
  (* as above: resolve.rs 22-26, search.rs 58-59, registry/mod.rs 64-66 *)
  Definition none_left (ds : diags) : result (exit_directives werr) diags :=
    match ds with [] => ROk (mk_exit 0 None) | _ => RErr ds end.

  (* resolve.rs 63-117 *)
  Definition registry_resolve (c : settings) (g : registry) (o : own) : ran :=
    if future then fail1 false deprecated
    else loaded_main c g (fun r ds =>
      and_then false (own_next o) (fun _ =>
      checked_after r ds (fun ds =>
      and_then true (own_work o (rs_view r)) (fun _ => done true (none_left ds))))).

  (* stats.rs 64-125 *)
  Definition registry_stats (c : settings) (g : registry) (o : own) : ran :=
    loaded_main c g (fun r ds =>
      if has_error ds then done false (RErr ds)
      else and_then false (own_next o) (fun _ =>
           and_then true (own_work o (rs_view r)) (fun _ => done true (ROk (mk_exit 0 None))))).

  (* diff.rs 60-114; the messages of opening are dropped.  The work gets the view of the registry only: the changes are
     DiffModel's *)
  Definition same_version (r b : resolved R) : bool :=
    match rs_bundle r, rs_bundle b with BundleV1, BundleV1 | BundleV2, BundleV2 => true | _, _ => false end.
  (* as above: diff.rs 60-114 *)
  Definition registry_diff (c : settings) (g h : registry) (o : own) : ran :=
    match rg_open g with
    | RErr x => fail1 false x
    | ROk _ =>
      match rg_open h with
      | RErr x => fail1 false x
      | ROk _ =>
        loaded_repo c g [] (fun r ds =>
        loaded_repo c h ds (fun b ds =>
          if negb (same_version r b) then fail1 false IncompatibleRegistries
          else if has_error ds then done false (RErr ds)
          else and_then false (own_next o) (fun _ =>
               and_then true (own_work o (rs_view r)) (fun _ => done true (ROk (mk_exit 0 None))))))
      end
    end.

  (* emit.rs 50-108; combine_diag_msgs_with (diagnostic.rs) puts the errors of emitting first *)
  Definition registry_emit (c : settings) (g : registry) (o : own) : ran :=
    loaded_main c g (fun r ds =>
      match own_work o (rs_view r) with
      | RErr e => done true (RErr (app (map dn (fst e :: snd e)) ds))
      | ROk _ => if has_error ds then done true (RErr ds) else done true (ROk (mk_exit 0 (Some ds)))
      end).

  (* weaver.rs 460-486: what the view reports is dropped *)
  Definition upgraded (o : own) (r : resolved R) (k : resolved R -> ran) : ran :=
    match rs_bundle r with
    | BundleV2 => k r
    | BundleV1 =>
      match own_upgrade o with
      | WOk v | WOkNfe v _ => k (mk_resolved BundleV2 v (rs_name r) (rs_engine r))
      | WFatal x => fail1 false x
      end
    end.

  (* package.rs 68-158: [own_first] the address, [own_opened] the manifest *)
  Definition registry_package (c : settings) (g : registry) (o : own) : ran :=
    and_then false (own_first o) (fun _ =>
    if negb (st_v2 c) then fail1 false requires_v2
    else match rg_open g with
         | RErr x => fail1 false x
         | ROk nfes =>
           and_then false (own_opened o) (fun _ =>
           loaded_repo c g (map dn nfes) (fun r ds =>
           upgraded o r (fun r =>
           checked_after r ds (fun ds =>
           if has_error ds then done false (RErr ds)
           else and_then true (own_work o (rs_view r)) (fun _ =>
                done true (ROk (mk_exit 0 (match ds with [] => None | _ => Some ds end))))))))
         end).

  (* update_markdown.rs 95-215; a file that fails does not stop the others *)
  Definition is_failure {A} (r : result A werr) : bool := match r with RErr _ => true | ROk _ => false end.
  (* as above: update_markdown.rs 95-215 *)
  Definition update_markdown (c : settings) (g : registry) (dry_run : bool) (files : list string)
      (update : option json -> string -> result unit werr) (o : own) : ran :=
    and_then false (own_first o) (fun _ =>
    loaded_main c g (fun r ds =>
      if future && match ds with [] => false | _ => true end then done false (RErr ds)
      else if existsb (fun f => is_failure (update (rs_view r) f)) files
           then fail1 true (if dry_run then not_up_to_date else update_failed)
           else done true (none_left ds))).

  (* search.rs 376-432; weaver_config: EffectivePolicyConfig::skip_all *)
  Definition skip_all (c : settings) : settings := mk_settings (st_v2 c) true [].
  (* as above: search.rs 376-432 *)
  Definition registry_search (c : settings) (g : registry) (how : search_how) (o : own) : ran :=
    loaded_main (skip_all c) g (fun r ds =>
      match rs_bundle r with
      | BundleV2 => fail1 false v2_incompatible
      | BundleV1 =>
        match how with
        | Pattern => done true (none_left ds)
        | Terminal => and_then true (own_work o (rs_view r)) (fun _ => done true (none_left ds))
        | Neither => done false (ROk (mk_exit 1 None))
        end
      end).

  (* mcp.rs 60-106 *)
  Definition registry_mcp (c : settings) (g : registry) (o : own) : ran :=
    loaded_main c g (fun r _ =>
    upgraded o r (fun r =>
    and_then true (own_work o (rs_view r)) (fun _ => done true (ROk (mk_exit 0 None))))).

  (* serve/mod.rs 67-138: [own_next] writes the statistics *)
  Definition run_serve (c : settings) (g : registry) (o : own) : ran :=
    loaded_main c g (fun r ds =>
    upgraded o r (fun r =>
    and_then false (own_next o) (fun _ =>
      match own_work o (rs_view r) with
      | RErr e => mk_ran (RErr (map dn (fst e :: snd e))) ds true
      | ROk _ => mk_ran (ROk (mk_exit 0 None)) ds true
      end))).

  (* live_check.rs 232-496: [own_first] input, output and templates, [own_next] advisors and ingester, [own_work] the
     samples and the report with the code of --fail-on *)
  Definition live_check (c : settings) (g : registry) (o : own) : ran :=
    and_then false (own_first o) (fun _ =>
    loaded_main c g (fun r ds =>
    checked_after r ds (fun ds =>
    and_then false (own_next o) (fun _ =>
    and_then true (own_work o (rs_view r)) (fun code =>
      if has_error ds then done true (RErr ds) else done true (ROk (mk_exit code (Some ds)))))))).

  (* src/registry/mod.rs and src/main.rs: the dispatch *)
  (* src/main.rs 158-212 *)
  Definition run (cmd : command) (c : settings) (g : registry) (o : own) : ran :=
    match cmd with
    | Resolve => registry_resolve c g o
    | Stats => registry_stats c g o
    | Diff h => registry_diff c g h o
    | Emit => registry_emit c g o
    | Package => registry_package c g o
    | Markdown dry files update => update_markdown c g dry files update o
    | Search how => registry_search c g how o
    | Mcp => registry_mcp c g o
    | Serve => run_serve c g o
    | LiveCheck => live_check c g o
    end.
End Commands.

(* main.rs 229-277: the messages that are printed *)
Definition printed (r : ran) : diags :=
  match ran_result r with
  | RErr ds => ds
  | ROk d => match ed_warnings d with Some ds => ds | None => [] end
  end.
