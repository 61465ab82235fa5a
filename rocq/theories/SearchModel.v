(* The search engine: crates/weaver_search/src/lib.rs, types.rs.
   [to_lowercase] is a parameter [lower] (its Unicode tables are not modelled), and the iteration order
   of hash maps a parameter [order]. *)
From Coq Require Import String Ascii Bool Arith List.
Import ListNotations.
From Verif Require Import Base Json SemTypes Str.
Local Open Scope string_scope.

(* ---------- the registry and the index (lib.rs 33-151) ---------- *)
(* types.rs 27-43: SearchType without All *)
Inductive skind := KAttribute | KMetric | KSpan | KEvent | KEntity.
(* as above: types.rs 27-43 *)
Definition skind_eqb (a b : skind) : bool :=
  match a, b with
  | KAttribute, KAttribute | KMetric, KMetric | KSpan, KSpan | KEvent, KEvent | KEntity, KEntity => true
  | _, _ => false
  end.
(* one attribute or signal of the registry: its key, name or type, the fields that are searched or
   filtered by, and the rest of the object, which is handed on as it is *)
(* used by sregistry: lib.rs 79-151 *)
Record entry := {
  en_key : string; en_brief : string; en_note : string; en_stability : stability; en_deprecated : bool;
  en_template : bool; en_rest : json
}.
(* used by from_registry: lib.rs 79-151 *)
Record sregistry := {
  sr_attributes : list entry; sr_metrics : list entry; sr_spans : list entry; sr_events : list entry; sr_entities : list entry
}.
(* lib.rs 56-68: SearchableItem *)
Definition item : Type := (skind * entry)%type.
(* as above: lib.rs 56-68 *)
Record context := {
  cx_items : list item;
  cx_attrs : list (string * entry); cx_templates : list (string * entry); cx_by_length : list (string * entry);
  cx_metrics : list (string * entry); cx_spans : list (string * entry); cx_events : list (string * entry);
  cx_entities : list (string * entry); cx_separator : string
}.
(* as above: lib.rs 56-68 *)
Definition index (l : list entry) : list (string * entry) := fold_left (fun m e => sinsert (en_key e) e m) l [].
(* 79-151: from_registry_with_separator; the two indices of attributes are built in one pass there *)
Definition from_registry (r : sregistry) (separator : string) : context :=
  {| cx_items := app (map (pair KAttribute) (sr_attributes r)) (app (map (pair KMetric) (sr_metrics r))
                 (app (map (pair KSpan) (sr_spans r)) (app (map (pair KEvent) (sr_events r)) (map (pair KEntity) (sr_entities r)))));
     cx_attrs := index (filter (fun e => negb (en_template e)) (sr_attributes r));
     cx_templates := index (filter en_template (sr_attributes r));
     cx_by_length := stable_sort (fun a b => Nat.leb (String.length (fst b)) (String.length (fst a)))
                       (map (fun e => (en_key e, e)) (filter en_template (sr_attributes r)));
     cx_metrics := index (sr_metrics r); cx_spans := index (sr_spans r); cx_events := index (sr_events r);
     cx_entities := index (sr_entities r); cx_separator := separator |}.

(* ---------- scoring (lib.rs 485-574) ---------- *)
(* str::split with a predicate: the pieces between the separating characters, empty ones included *)
(* used by split_by: lib.rs 511-574 *)
Fixpoint split_at (brk : ascii -> bool) (s : string) : string * list string :=
  match s with
  | EmptyString => ("", [])
  | String c r =>
    let (p, ps) := split_at brk r in
    if brk c then ("", p :: ps) else (String c p, ps)
  end.
(* used by base_score: lib.rs 511-574 *)
Definition split_by (brk : ascii -> bool) (s : string) : list string := let (p, ps) := split_at brk s in p :: ps.
(* used by query_break: lib.rs 511-574 *)
Fixpoint has_char (c : ascii) (s : string) : bool :=
  match s with EmptyString => false | String d r => Ascii.eqb c d || has_char c r end.
(* used by query_break: lib.rs 511-574 *)
Definition underscore : ascii := Ascii.ascii_of_nat 95.
(* separators of queries and of ids; white space and separators are ASCII here *)
(* used by base_score: lib.rs 511-574 *)
Definition query_break (sep : string) (c : ascii) : bool := has_char c sep || Ascii.eqb c underscore || is_white c.
(* used by base_score: lib.rs 511-574 *)
Definition id_break (sep : string) (c : ascii) : bool := has_char c sep || Ascii.eqb c underscore.
(* 511-574: score_fields *)
Definition base_score (q id brief note sep : string) : nat :=
  if String.eqb id q then 100
  else if starts_with q id then 80
  else if contains q id then 70
  else
    let query_tokens := filter (fun t => negb (String.eqb t "")) (split_by (query_break sep) q) in
    match query_tokens with
    | [] => if contains q brief then 40 else if contains q note then 20 else 0
    | _ =>
      let id_tokens := split_by (id_break sep) id in
      if forallb (fun qt => existsb (fun it => contains qt it) id_tokens) query_tokens then 60
      else if contains q brief then 40
      else if contains q note then 20
      else if forallb (fun qt => contains qt brief) query_tokens then 35
      else if forallb (fun qt => contains qt note) query_tokens then 15
      else 0
    end.
(* crates/weaver_search/src/lib.rs 510-574 *)
Definition score_fields (q id brief note : string) (deprecated : bool) (sep : string) : nat :=
  let score := base_score q id brief note sep in
  if deprecated && Nat.ltb 0 score then
    let s := Nat.div score 10 in if Nat.eqb s 0 then 1 else s
  else score.
(* 493-509: score_match *)
Definition score_match (lower : string -> string) (q : string) (i : item) (sep : string) : nat :=
  score_fields (lower q) (lower (en_key (snd i))) (lower (en_brief (snd i))) (lower (en_note (snd i))) (en_deprecated (snd i)) sep.

(* ---------- searching (lib.rs 153-214, 342-388) ---------- *)
Definition max_search_limit : nat := 1000.
(* as above: lib.rs 153-214, lib.rs 342-388 *)
Definition page {A} (limit offset : nat) (l : list A) : list A := firstn limit (skipn offset l).
(* 342-377: search_mode_with_total; sort_by_key is stable *)
Definition search_mode (lower : string -> string) (items : list item) (q : string) (limit offset : nat) (sep : string)
  : list (nat * item) * nat :=
  let scored := flat_map (fun i => let s := score_match lower q i sep in if Nat.ltb 0 s then [(s, i)] else []) items in
  let sorted := stable_sort (fun a b => Nat.leb (fst b) (fst a)) scored in
  (page limit offset sorted, length sorted).
(* 380-388: browse_mode *)
Definition browse_mode (items : list item) (limit offset : nat) : list (nat * item) :=
  map (pair 0) (page limit offset items).
(* 166-214: search; no search type stands for All *)
Definition search (lower : string -> string) (cx : context) (query : option string) (kind : option skind)
  (stab : option stability) (hide_deprecated : bool) (limit offset : nat) : list (nat * item) * nat :=
  let limit := Nat.min limit max_search_limit in
  let items := filter (fun i => match kind with None => true | Some k => skind_eqb (fst i) k end) (cx_items cx) in
  let items := match stab with None => items | Some s => filter (fun i => stability_eqb (en_stability (snd i)) s) items end in
  let items := if hide_deprecated then filter (fun i => negb (en_deprecated (snd i))) items else items in
  match query with
  | Some q => if String.eqb q "" then (browse_mode items limit offset, length items)
              else search_mode lower items q limit offset (cx_separator cx)
  | None => (browse_mode items limit offset, length items)
  end.
(* src/serve/handlers.rs 270-294: search_registry: total, count and results *)
Definition search_registry (lower : string -> string) (cx : context) (query : option string) (kind : option skind)
  (stab : option stability) (hide_deprecated : bool) (limit offset : nat) : nat * nat * list (nat * item) :=
  let (results, total) := search lower cx query kind stab hide_deprecated limit offset in
  (total, length results, results).
(* crates/weaver_mcp/src/service.rs 391-411: the search tool: results, count and total *)
Definition mcp_search (lower : string -> string) (cx : context) (query : option string) (kind : option skind)
  (stab : option stability) (limit : nat) : list (nat * item) * nat * nat :=
  let (results, total) := search lower cx query kind stab false (Nat.min limit 100) 0 in
  (results, length results, total).

(* ---------- lookups (lib.rs 220-272) ---------- *)
Definition get_attribute (cx : context) (key : string) : option entry := slookup key (cx_attrs cx).
(* crates/weaver_search/src/lib.rs 228-230 *)
Definition get_template (cx : context) (key : string) : option entry := slookup key (cx_templates cx).
(* as above: lib.rs 220-272 *)
Definition get_metric (cx : context) (name : string) : option entry := slookup name (cx_metrics cx).
(* as above: lib.rs 220-272 *)
Definition get_span (cx : context) (t : string) : option entry := slookup t (cx_spans cx).
(* as above: lib.rs 220-272 *)
Definition get_event (cx : context) (name : string) : option entry := slookup name (cx_events cx).
(* as above: lib.rs 220-272 *)
Definition get_entity (cx : context) (t : string) : option entry := slookup t (cx_entities cx).
(* 235-242: find_template *)
Definition find_template (cx : context) (name : string) : option entry :=
  option_map snd (find (fun kv => starts_with (fst kv) name) (cx_by_length cx)).
(* src/serve/handlers.rs 118-130: an attribute of either sort *)
Definition served_attribute (cx : context) (key : string) : option entry := opt_or (get_attribute cx key) (get_template cx key).

(* ---------- namespaces (lib.rs 278-339) ---------- *)
(* str::find: the text before the first occurrence, and the text after it *)
(* used by count_matches: types.rs 45-83 *)
Fixpoint cut (sep s : string) : option (string * string) :=
  match strip_prefix sep s with
  | Some r => Some ("", r)
  | None => match s with
            | EmptyString => None
            | String c t => option_map (fun p => (String c (fst p), snd p)) (cut sep t)
            end
  end.
(* str::matches(sep).count(), [fuel] at least the length of the text *)
(* used by browse_step: types.rs 45-83 *)
Fixpoint count_matches (fuel : nat) (sep s : string) : nat :=
  match fuel with
  | 0 => 0
  | S f => match cut sep s with Some (_, r) => S (count_matches f sep r) | None => 0 end
  end.
(* str::trim_end_matches *)
(* used by trim_end_matches: lib.rs 279-339 *)
Fixpoint strip_suffix (suf s : string) : option string :=
  if String.eqb s suf then Some ""
  else match s with EmptyString => None | String c r => option_map (String c) (strip_suffix suf r) end.
(* used by browse_namespace: lib.rs 279-339 *)
Fixpoint trim_end_matches (fuel : nat) (sep s : string) : string :=
  match fuel with
  | 0 => s
  | S f => match strip_suffix sep s with Some r => trim_end_matches f sep r | None => s end
  end.
(* BTreeSet insertion *)
(* used by browse_step: types.rs 45-83 *)
Definition set_insert (x : string) (l : list string) : list string := map fst (bt_insert x tt (map (fun y => (y, tt)) l)).
(* types.rs 45-83 *)
Record namespace_info := {
  ni_prefix : string; ni_sub : list string; ni_attrs : list (string * entry); ni_total : nat; ni_depth : nat
}.
(* as above: types.rs 45-83 *)
Definition remainder (prefix sep key : string) : option string :=
  if String.eqb prefix "" then Some key
  else match strip_prefix prefix key with Some rest => strip_prefix sep rest | None => None end.
(* as above: types.rs 45-83 *)
Definition sub_namespace (prefix sep segment : string) : string :=
  if String.eqb prefix "" then segment else prefix ++ sep ++ segment.
(* as above: types.rs 45-83 *)
Definition browse_step (prefix sep : string) (n : namespace_info) (kv : string * entry) : namespace_info :=
  match remainder prefix sep (fst kv) with
  | None => n
  | Some r =>
    let depth := count_matches (String.length r) sep r + 1 in
    let deepest := if Nat.ltb (ni_depth n) depth then depth else ni_depth n in
    match cut sep r with
    | Some (segment, _) =>
      {| ni_prefix := ni_prefix n; ni_sub := set_insert (sub_namespace prefix sep segment) (ni_sub n); ni_attrs := ni_attrs n;
         ni_total := ni_total n + 1; ni_depth := deepest |}
    | None =>
      {| ni_prefix := ni_prefix n; ni_sub := ni_sub n; ni_attrs := app (ni_attrs n) [kv]; ni_total := ni_total n + 1;
         ni_depth := deepest |}
    end
  end.
(* 279-339: browse_namespace; the attribute summaries are taken to be the attributes themselves *)
Definition browse_namespace (order : list (string * entry) -> list (string * entry)) (cx : context) (prefix : option string) : namespace_info :=
  let sep := cx_separator cx in
  let given := opt_get prefix "" in
  let prefix := trim_end_matches (String.length given) sep given in
  let n := fold_left (browse_step prefix sep) (app (order (cx_attrs cx)) (order (cx_templates cx)))
             {| ni_prefix := prefix; ni_sub := []; ni_attrs := []; ni_total := 0; ni_depth := 0 |} in
  {| ni_prefix := ni_prefix n; ni_sub := ni_sub n; ni_attrs := stable_sort (fun a b => str_leb (fst a) (fst b)) (ni_attrs n);
     ni_total := ni_total n; ni_depth := ni_depth n |}.
