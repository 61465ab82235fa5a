(* The naming policy that a live check uses when the user gives none: the preprocessor
   defaults/jq/advice.jq, the policy defaults/policies/live_check_advice/otel.rego, and the
   advisor that runs them (crates/weaver_live_check/src/advice/rego_advisor.rs).
   The two files are programs of jq and rego; what is modelled is what they compute, with the
   builtins they use (`keys`, `reduce`, `split`, `concat`, `numbers.range`, `regex.match`,
   `startswith`).  The interpreters (crates jaq and regorus) are not.  The fields `schema_url`
   and `entities` of the preprocessor, which this policy does not read, are left out. *)
From Coq Require Import String Ascii Bool Arith Lia List.
Import ListNotations.
From Verif Require Import Base Json SemTypes ResultModel Str.
From Verif Require Import LiveModel.
From Verif Require PolicyModel.
Local Open Scope string_scope.

(* ---------- regex.match ---------- *)
(* the regular expressions the policy needs: crate regex, matched by derivatives *)
(* used by nullable: otel.rego 36-44 *)
Inductive rx :=
| Never | Empty | OneOf (p : ascii -> bool) | Seq (a b : rx) | Or (a b : rx) | Many (a : rx).
(* used by derive: otel.rego 36-44 *)
Fixpoint nullable (r : rx) : bool :=
  match r with
  | Never | OneOf _ => false
  | Empty | Many _ => true
  | Seq a b => nullable a && nullable b
  | Or a b => nullable a || nullable b
  end.
(* used by rx_match: otel.rego 36-44 *)
Fixpoint derive (c : ascii) (r : rx) : rx :=
  match r with
  | Never | Empty => Never
  | OneOf p => if p c then Empty else Never
  | Seq a b => if nullable a then Or (Seq (derive c a) b) (derive c b) else Seq (derive c a) b
  | Or a b => Or (derive c a) (derive c b)
  | Many a => Seq (derive c a) (Many a)
  end.
(* an expression between ^ and $ *)
(* used by rule_format: otel.rego 36-44 *)
Fixpoint rx_match (r : rx) (s : string) : bool :=
  match s with
  | EmptyString => nullable r
  | String c t => rx_match (derive c r) t
  end.

(* no counterpart: a range of a regular expression *)
Definition between (a b c : ascii) : bool :=
  Nat.leb (nat_of_ascii a) (nat_of_ascii c) && Nat.leb (nat_of_ascii c) (nat_of_ascii b).
(* otel.rego 14: "^[a-z][a-z0-9]*([._][a-z0-9]+)*$" *)
Definition name_regex : rx :=
  let lower c := between "a" "z" c in
  let alnum c := between "a" "z" c || between "0" "9" c in
  Seq (OneOf lower)
      (Seq (Many (OneOf alnum))
           (Many (Seq (OneOf (fun c => Ascii.eqb c "." || Ascii.eqb c "_"))
                      (Seq (OneOf alnum) (Many (OneOf alnum)))))).

(* ---------- the preprocessor: advice.jq ---------- *)
(* an object used as a set: each key with true *)
(* used by jset_of: advice.jq 55-58 *)
Definition jset := list (string * bool).
(* `reduce .[] as $x ({}; . + {($x): true})` *)
(* used by jq_prefixes: advice.jq 55-58 *)
Definition jset_of (l : list string) : jset := fold_left (fun m k => sinsert k true m) l [].
(* `keys`: sorted *)
(* used by advice_data_of: rego_advisor.rs 25-82, rego_advisor.rs 115-145 *)
Definition jkeys {V} (m : list (string * V)) : list string := stable_sort str_leb (map fst m).
(* the object `. + {..}` of two such objects *)
(* used by advice_data_of: rego_advisor.rs 25-82, rego_advisor.rs 115-145 *)
Definition jset_add (m n : jset) : jset := fold_left (fun m kv => sinsert (fst kv) (snd kv) m) n m.

(* live_checker.rs 47-145: semconv_templates, which LiveModel keeps only as the list sorted by
   length *)
Definition semconv_templates (r : registry) : list (string * vattr) :=
  insert_all (filter (fun p => is_template (vattr_type (snd p))) (reg_attribute_list r)) [].

(* used by advice_data_of: rego_advisor.rs 25-82, rego_advisor.rs 115-145 *)
Record advice_data := {
  ad_attributes : jset;      (* advice.jq 4-7 *)
  ad_deprecated : jset;      (* advice.jq 10-16 *)
  ad_templates : jset;       (* advice.jq 19-22 *)
  ad_namespaces : jset }.    (* advice.jq 50-60 *)

(* advice.jq 55-58: the prefixes of one name, `range(1; length)` *)
Definition jq_prefixes (name : string) : jset :=
  let parts := split_char "." name in
  jset_of (map (fun i => join "." (firstn i parts)) (seq 1 (length parts - 1))).

(* used by naming_advisor: rego_advisor.rs 25-82, rego_advisor.rs 115-145 *)
Definition advice_data_of (c : checker) : advice_data :=
  {| ad_attributes := jset_of (jkeys (lc_attributes c));
     ad_deprecated := jset_of (map fst (filter (fun kv => match vattr_deprecated (snd kv) with
                                                          | Some _ => true | None => false end)
                                               (lc_attributes c)));
     ad_templates := jset_of (jkeys (semconv_templates (lc_registry c)));
     ad_namespaces := fold_left (fun m n => jset_add m (jq_prefixes n)) (jkeys (lc_attributes c)) [] |}.

(* ---------- the policy: otel.rego ---------- *)
(* `set[k]` as a condition *)
(* used by rule_collision: otel.rego 59-77 *)
Definition jin (k : string) (m : jset) : bool := match slookup k m with Some b => b | None => false end.

(* otel.rego 16-23 *)
Definition derive_namespaces (name : string) : list string :=
  let parts := split_char "." name in
  if Nat.ltb 1 (length parts)
  then map (fun i => join "." (firstn i parts)) (seq 1 (length parts - 1))
  else [].
(* otel.rego 123-126 *)
Definition is_template_type (d : advice_data) (name : string) : bool :=
  existsb (fun t => starts_with t name) (map fst (ad_templates d)).

(* otel.rego 104-120: the keys of an object are sorted *)
Definition make_advice (ty level : string) (context : json) (message : string) : json :=
  JObj [("advice_context", context); ("advice_level", JStr level); ("advice_type", JStr ty);
        ("message", JStr message); ("type", JStr "advice")].
(* as above: otel.rego 104-120 *)
Definition make_advice_with_signal_info (ty level : string) (context : json) (sname stype message : string) : json :=
  JObj [("advice_context", context); ("advice_level", JStr level); ("advice_type", JStr ty);
        ("message", JStr message); ("signal_name", JStr sname); ("signal_type", JStr stype);
        ("type", JStr "advice")].

(* otel.rego 26-33 *)
Definition rule_missing (n : string) : list json :=
  if negb (contains "." n) then
    [make_advice "missing_namespace" "improvement" (JObj [("attribute_key", JStr n)])
       ("Attribute key '" ++ n ++ "' must include a namespace (e.g. '{namespace}.{attribute_key}')")]
  else [].
(* otel.rego 36-44 *)
Definition rule_format (d : advice_data) (n : string) : list json :=
  if negb (is_template_type d n) && negb (rx_match name_regex n) then
    [make_advice "invalid_format" "violation" (JObj [("attribute_key", JStr n)])
       ("Attribute key '" ++ n ++ "' does not match name formatting rules.")]
  else [].
(* otel.rego 47-56 *)
Definition rule_metric (n : string) : list json :=
  if negb (rx_match name_regex n) then
    [make_advice_with_signal_info "invalid_format" "violation" (JObj [("metric_name", JStr n)]) n "metric"
       ("Metric name '" ++ n ++ "' does not match name formatting rules.")]
  else [].
(* otel.rego 59-77 *)
Definition rule_collision (d : advice_data) (n : string) : list json :=
  if contains "." n then
    flat_map (fun ns =>
      if jin ns (ad_attributes d) && negb (jin ns (ad_deprecated d)) then
        [make_advice "illegal_namespace" "violation"
           (JObj [("attribute_key", JStr n); ("namespace", JStr ns)])
           ("Namespace '" ++ ns ++ "' collides with existing attribute '" ++ n ++ "'")]
      else []) (derive_namespaces n)
  else [].
(* otel.rego 80-102 *)
Definition rule_extends (d : advice_data) (n : string) : list json :=
  if contains "." n && negb (is_template_type d n) && negb (jin n (ad_attributes d)) then
    let found := filter (fun ns => jin ns (ad_namespaces d)) (derive_namespaces n) in
    match nth_error found (length found - 1) with
    | Some ns =>
      [make_advice "extends_namespace" "information"
         (JObj [("attribute_key", JStr n); ("namespace", JStr ns)])
         ("Attribute key '" ++ n ++ "' collides with existing namespace '" ++ ns ++ "'")]
    | None => []
    end
  else [].

(* the set `deny`.  It is kept as the list of what the rules contribute: PropNaming shows that
   nothing occurs twice in it.  The engine returns the elements of a set in the order of their
   values; no theorem speaks of the order. *)
(* used by naming_advisor: rego_advisor.rs 25-82, rego_advisor.rs 115-145 *)
Definition deny (d : advice_data) (r : sref) : list json :=
  match r with
  | RfAttribute a =>
      List.app (rule_missing (sa_name a))
        (List.app (rule_format d (sa_name a))
           (List.app (rule_collision d (sa_name a)) (rule_extends d (sa_name a))))
  | RfMetric m => rule_metric (sm_name m)
  | _ => []
  end.

(* rego_advisor.rs 131-139 *)
Definition fill (signal : sample) (f : finding) : finding :=
  PolicyModel.mk_finding (f_id f) (f_context f) (f_message f) (f_level f)
    (match f_signal_type f with None => signal_type signal | t => t end)
    (match f_signal_name f with None => signal_name signal | n => n end).

(* rego_advisor.rs 25-82, 115-145 with the defaults: the advisor made for a checker and its
   answer for a sample *)
Definition naming_advisor (c : checker) : advisor :=
  let d := advice_data_of c in
  fun r signal _ _ =>
    match PolicyModel.read_findings (JArr (deny d r)) with
    | ROk fs => Ok (map (fill signal) fs)
    | RErr _ => Err "AdviceError"
    end.
