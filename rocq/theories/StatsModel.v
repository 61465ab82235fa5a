(* Statistics on resolved schemas.
   Models crates/weaver_resolved_schema/src/registry.rs 243-460 (CommonGroupStats,
   GroupStats, Registry::stats), catalog.rs 110-170 (Catalog::stats),
   v2/registry.rs 53-240 (Registry::stats), v2/mod.rs 71, v2/refinements.rs 44 and
   src/registry/stats.rs.  Hash maps and sets are association lists and lists; counts
   are natural numbers (usize cannot overflow on counts of things held in memory). *)
From Coq Require Import String Ascii Bool Arith List.
From Coq Require DecimalString.
Import ListNotations.
From Verif Require Import Base SemTypes Resolved ResultModel.
Local Open Scope string_scope.

(* *map.entry(k).or_insert(0) += 1 *)
(* used by update_stats: registry.rs 316-332 *)
Definition bump {K} (eqb : K -> K -> bool) (k : K) (m : list (K * nat)) : list (K * nat) :=
  insert eqb k (S (match lookup eqb k m with Some n => n | None => 0 end)) m.

(* HashSet::insert *)
(* used by update_entry: registry.rs 400-454 *)
Definition set_add (x : string) (l : list string) : list string :=
  if existsb (String.eqb x) l then l else app l [x].

(* used by update_stats: registry.rs 316-332 *)
Definition stability_eqb (a b : stability) : bool :=
  match a, b with
  | SDeprecated, SDeprecated | SStable, SStable | SDevelopment, SDevelopment
  | SAlpha, SAlpha | SBeta, SBeta | SRc, SRc => true
  | _, _ => false
  end.
(* used by update_entry: registry.rs 400-454 *)
Definition span_kind_eqb (a b : span_kind) : bool :=
  match a, b with
  | SkInternal, SkInternal | SkClient, SkClient | SkServer, SkServer
  | SkProducer, SkProducer | SkConsumer, SkConsumer => true
  | _, _ => false
  end.

(* bool as usize *)
(* used by update_stats: registry.rs 316-332 *)
Definition one_if (b : bool) : nat := if b then 1 else 0.

(* ------------------------------------------------------------------ V1 *)

(* registry.rs 243-260: CommonGroupStats *)
Record common_stats := {
  cs_count : nat; cs_attributes : nat; cs_prefix : nat; cs_note : nat;
  cs_stability : list (stability * nat); cs_deprecated : nat; cs_cards : list (nat * nat)
}.
(* as above: registry.rs 243-260 *)
Definition common_default : common_stats :=
  {| cs_count := 0; cs_attributes := 0; cs_prefix := 0; cs_note := 0;
     cs_stability := []; cs_deprecated := 0; cs_cards := [] |}.

(* registry.rs 263-312: GroupStats; the variants without details are one *)
Inductive group_stats :=
| StPlain (c : common_stats)
| StMetric (c : common_stats) (names : list string) (instruments : list (instrument * nat))
    (units : list (string * nat))
| StSpan (c : common_stats) (kinds : list (span_kind * nat)).

(* registry.rs 316-332: update_stats *)
Definition update_stats (c : common_stats) (g : group) : common_stats :=
  {| cs_count := cs_count c + 1;
     cs_attributes := cs_attributes c + length (g_attributes g);
     cs_prefix := cs_prefix c + one_if (negb (String.eqb (g_prefix g) ""));
     cs_note := cs_note c + one_if (negb (String.eqb (g_note g) ""));
     cs_stability := match g_stability g with
                     | Some s => bump stability_eqb s (cs_stability c)
                     | None => cs_stability c
                     end;
     cs_deprecated := cs_deprecated c + one_if (is_some (g_deprecated g));
     cs_cards := bump Nat.eqb (length (g_attributes g)) (cs_cards c) |}.

(* registry.rs 368-397: the initial entry of a type *)
Definition initial_stats (t : group_type) : group_stats :=
  match t with
  | GMetric => StMetric common_default [] [] []
  | GSpan => StSpan common_default []
  | _ => StPlain common_default
  end.

(* registry.rs 400-454; None is the panic of expect *)
Definition update_entry (e : group_stats) (g : group) : option group_stats :=
  match e with
  | StPlain c => Some (StPlain (update_stats c g))
  | StMetric c names instruments units =>
    match g_metric_name g, g_instrument g, g_unit g with
    | Some n, Some i, Some u =>
      Some (StMetric (update_stats c g) (set_add n names)
              (bump instrument_eqb i instruments) (bump String.eqb u units))
    | _, _, _ => None
    end
  | StSpan c kinds =>
    Some (StSpan (update_stats c g)
            (match g_span_kind g with Some k => bump span_kind_eqb k kinds | None => kinds end))
  end.

(* registry.rs 363-458: the fold of stats *)
Fixpoint group_fold (gs : list group) (acc : list (group_type * group_stats))
  : option (list (group_type * group_stats)) :=
  match gs with
  | [] => Some acc
  | g :: r =>
    let entry := match lookup group_type_eqb (g_type g) acc with
                 | Some e => e
                 | None => initial_stats (g_type g)
                 end in
    match update_entry entry g with
    | Some e => group_fold r (insert group_type_eqb (g_type g) e acc)
    | None => None
    end
  end.

(* registry.rs 358-362: Stats *)
Record registry_stats := {
  rs_url : string; rs_count : nat; rs_breakdown : list (group_type * group_stats)
}.
(* as above: registry.rs 358-362 *)
Definition stats1 (s : schema1) : option registry_stats :=
  match group_fold (s1_groups s) [] with
  | Some m => Some {| rs_url := s1_url s; rs_count := length (s1_groups s); rs_breakdown := m |}
  | None => None
  end.

(* format!("{:03}", n) *)
Definition dec3 (n : nat) : string :=
  let s := DecimalString.NilEmpty.string_of_uint (Nat.to_uint n) in
  match String.length s with
  | 0 => "000" ++ s
  | 1 => "00" ++ s
  | 2 => "0" ++ s
  | _ => s
  end.

(* catalog.rs 115-121: the label of a type; attribute.rs 229-244, 299-313, 370-384 *)
Definition type_label (t : attr_type) : string :=
  match t with
  | TEnum members => "enum(card:" ++ dec3 (length members) ++ ")"
  | TPrim p => prim_str p
  | TTemplate p => "template[" ++ prim_str p ++ "]"
  end.

(* catalog.rs 130-143 *)
Definition level_label (r : req_level) : string :=
  match r with
  | RRequired => "required"
  | RRecommended => "recommended"
  | ROptIn => "opt_in"
  | RRecommendedText _ => "recommended"
  | RConditional _ => "conditionally_required"
  | ROptInText _ => "opt_in"
  end.

(* map(|x| (key, 1)).fold(..., |acc, (k, v)| *acc.entry(k).or_insert(0) += v) *)
(* used by catalog_stats_of: catalog.rs 110-170 *)
Definition tally {A K} (eqb : K -> K -> bool) (key : A -> K) (l : list A) : list (K * nat) :=
  fold_left (fun m a => bump eqb (key a) m) l [].

(* catalog.rs: Stats and stats, 110-170 *)
Record catalog_stats := {
  ks_count : nat; ks_types : list (string * nat); ks_levels : list (string * nat);
  ks_stability : list (stability * nat); ks_deprecated : nat
}.
(* as above: catalog.rs 110-170 *)
Definition catalog_stats_of (l : list attribute) : catalog_stats :=
  {| ks_count := length l;
     ks_types := tally String.eqb (fun a => type_label (at_type a)) l;
     ks_levels := tally String.eqb (fun a => level_label (at_req a)) l;
     ks_stability := tally stability_eqb (fun s => s)
                       (flat_map (fun a => match at_stability a with Some s => [s] | None => [] end) l);
     ks_deprecated := length (filter (fun a => is_some (at_deprecated a)) l) |}.

(* ------------------------------------------------------------------ V2 *)

(* v2/stats.rs: CommonSignalStats *)
(* used by stats2: v2/registry.rs 53-240 *)
Record signal_stats := {
  ss_count : nat; ss_stability : list (stability * nat); ss_deprecated : nat; ss_note : nat
}.
(* used by stats2: v2/registry.rs 53-240 *)
Record attribute_stats2 := {
  a2s_count : nat; a2s_types : list (string * nat); a2s_stability : list (stability * nat);
  a2s_deprecated : nat
}.
(* used by stats2_of: v2/registry.rs 53-240 *)
Record stats2 := {
  t2_attributes : attribute_stats2;
  t2_metrics : signal_stats; t2_metric_names : list string;
  t2_instruments : list (instrument * nat); t2_units : list (string * nat);
  t2_spans : signal_stats; t2_kinds : list (span_kind * nat);
  t2_events : signal_stats; t2_event_names : list string;
  t2_entities : signal_stats; t2_entity_types : list string; t2_identity : list (nat * nat);
  t2_groups : signal_stats
}.

(* the loop that each kind of signal repeats, v2/registry.rs 97-240: the statistics of
   the common fields *)
Definition signal_loop {A} (c : A -> common) (l : list A) : signal_stats :=
  fold_left (fun s a =>
    {| ss_count := ss_count s;
       ss_deprecated := ss_deprecated s + one_if (is_some (c_deprecated (c a)));
       ss_note := ss_note s + one_if (negb (String.eqb (c_note (c a)) ""));
       ss_stability := bump stability_eqb (c_stability (c a)) (ss_stability s) |})
    l {| ss_count := length l; ss_stability := []; ss_deprecated := 0; ss_note := 0 |}.

(* the names collected in a HashSet *)
(* used by stats2_of: v2/registry.rs 53-240 *)
Definition name_set {A} (name : A -> string) (l : list A) : list string :=
  fold_left (fun s a => set_add (name a) s) l [].

(* v2/registry.rs 57-95: the attributes the registry refers to; references that are
   not in the catalog are skipped *)
Definition attributes2 (catalog : list attribute2) (refs : list nat) : attribute_stats2 :=
  let found := flat_map (fun r => match nth_error catalog r with Some a => [a] | None => [] end) refs in
  {| a2s_count := length refs;
     a2s_types := tally String.eqb (fun a => type_label (a2_type a)) found;
     a2s_stability := tally stability_eqb (fun a => c_stability (a2_common a)) found;
     a2s_deprecated := length (filter (fun a => is_some (c_deprecated (a2_common a))) found) |}.

(* v2/mod.rs 71, v2/registry.rs 53-240; the refinements have no statistics *)
Definition stats2_of (s : schema2) : stats2 :=
  let r := s2_registry s in
  {| t2_attributes := attributes2 (s2_catalog s) (r2_attributes r);
     t2_metrics := signal_loop me2_common (r2_metrics r);
     t2_metric_names := name_set me2_name (r2_metrics r);
     t2_instruments := tally instrument_eqb me2_instrument (r2_metrics r);
     t2_units := tally String.eqb me2_unit (r2_metrics r);
     t2_spans := signal_loop sp2_common (r2_spans r);
     t2_kinds := tally span_kind_eqb sp2_kind (r2_spans r);
     t2_events := signal_loop ev2_common (r2_events r);
     t2_event_names := name_set ev2_name (r2_events r);
     t2_entities := signal_loop en2_common (r2_entities r);
     t2_entity_types := name_set en2_type (r2_entities r);
     t2_identity := tally Nat.eqb (fun e => length (en2_identity e)) (r2_entities r);
     t2_groups := {| ss_count := length (r2_attribute_groups r); ss_stability := [];
                     ss_deprecated := 0; ss_note := 0 |} |}.

(* src/registry/stats.rs 64-125: command.  [loaded] is what load_and_resolve_main
   gives, [render] the output processor; the exit code and the warnings it returns *)
Definition stats_command {S E} (loaded : result (S * list (diag E)) (list (diag E)))
    (render : S -> result unit (list (diag E))) : result (nat * list (diag E)) (list (diag E)) :=
  match loaded with
  | RErr ds => RErr ds
  | ROk (s, ds) =>
    if has_error ds then RErr ds
    else match render s with
         | RErr ds' => RErr ds'
         | ROk _ => ROk (0, [])
         end
  end.
