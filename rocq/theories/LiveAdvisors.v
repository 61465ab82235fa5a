(** Model of the built-in advisors of crates/weaver_live_check/src/advice and of the type
    inference of sample attributes. *)
From Coq Require Import String Ascii Bool Arith Lia ZArith NArith List.
From Verif Require Import Base Json SemTypes LiveModel.
Import ListNotations.
Local Open Scope string_scope.
Local Open Scope list_scope.

(** crates/weaver_semconv/src/attribute.rs 302-319 [PrimitiveOrArrayTypeSpec::is_compatible]. *)
Definition is_compatible (self other : prim) : bool :=
  match self, other with
  | PAny, _ => true
  | _, PAny => true
  | PInt, PDouble => true
  | PInts, PDoubles => true
  | _, _ => prim_eqb self other
  end.

(** sample_attribute.rs 97-148 [SampleAttribute::infer_type]. A serde_json integer always
    fits i64 or u64. *)
Definition infer_type (v : json) : option prim :=
  match v with
  | JNull => None
  | JBool _ => Some PBoolean
  | JNum (NInt _) => Some PInt
  | JNum (NFloat _) => Some PDouble
  | JStr _ => Some PString
  | JArr l =>
      match find (fun v => negb (is_jnull v)) l with
      | Some first =>
          if is_jbool first && forallb (fun v => is_jnull v || is_jbool v) l then Some PBooleans
          else if is_jint first && forallb (fun v => is_jnull v || is_jint v) l then Some PInts
          else if is_jnum first && forallb (fun v => is_jnull v || is_jnum v) l then Some PDoubles
          else if is_jstr first && forallb (fun v => is_jnull v || is_jstr v) l then Some PStrings
          else None
      | None => None
      end
  | JObj _ => None
  end.

(** type_advisor.rs 35-78 [CheckableAttribute]: key, requirement level, type. *)
Record checkable := { ck_key : string; ck_req : req_level; ck_type : attr_type }.
(* as above: type_advisor.rs 35-78 *)
Definition ck_v1 (a : attribute) : checkable :=
  {| ck_key := at_name a; ck_req := at_req a; ck_type := at_type a |}.
(* as above: type_advisor.rs 35-78 *)
Definition ck_v2 (a : v2sig_attr) : checkable :=
  {| ck_key := va_key (vs_base a); ck_req := vs_req a; ck_type := va_type (vs_base a) |}.

(** type_advisor.rs 429-497 [check_attributes]. *)
Definition attr_present (k : checkable) (sample_attrs : list sattr) : bool :=
  if is_template (ck_type k) then existsb (fun a => starts_with (ck_key k) (sa_name a)) sample_attrs
  else str_mem (ck_key k) (map sa_name sample_attrs).

(* used by check_attributes: crates/weaver_live_check/src/advice/type_advisor.rs 429-497 *)
Definition not_present_finding (sig : sample) (k : checkable) : finding :=
  {| f_id := id_of_req (ck_req k);
     f_context := Some (JObj [("attribute_key", JStr (ck_key k))]);
     f_message := word_of_req (ck_req k) ++ " attribute '" ++ ck_key k ++ "' is not present.";
     f_level := level_of_req (ck_req k);
     f_signal_type := signal_type sig; f_signal_name := signal_name sig |}%string.

(* crates/weaver_live_check/src/advice/type_advisor.rs 429-497 *)
Definition check_attributes (defs : list checkable) (sample_attrs : list sattr) (sig : sample)
    : list finding :=
  flat_map (fun k => if attr_present k sample_attrs then [] else [not_present_finding sig k]) defs.

(* used by type_advisor: type_advisor.rs 499-742 *)
Definition metric_defs (g : vsignal) : list checkable :=
  match g with
  | VSGroup g => map ck_v1 (vg_attributes g)
  | VSMetric m => map ck_v2 (vm_attributes m)
  | VSEvent _ => []
  end.
(* as above: type_advisor.rs 429-497 *)
Definition event_defs (g : vsignal) : list checkable :=
  match g with
  | VSGroup g => map ck_v1 (vg_attributes g)
  | VSEvent e => map ck_v2 (ve_attributes e)
  | VSMetric _ => []
  end.

(** type_advisor.rs 509-577: the attribute branch. *)
Definition type_advise_attr (a : sattr) (sig : sample) (ra : option vattr) : list finding :=
  match ra, sa_type a with
  | Some va, Some ty =>
      let mismatch exp :=
        if is_compatible ty exp then []
        else [build "type_mismatch"
                (Some (JObj [("attribute_key", JStr (sa_name a)); ("attribute_type", JStr (prim_str ty));
                             ("expected", JStr (prim_str exp))]))
                ("Attribute '" ++ sa_name a ++ "' has type '" ++ prim_str ty ++ "'. Type should be '"
                 ++ prim_str exp ++ "'.")
                Violation sig]%string in
      match vattr_type va with
      | TPrim p => mismatch p
      | TTemplate p => mismatch p
      | TEnum _ =>
          if negb (prim_eqb ty PString) && negb (prim_eqb ty PInt)
          then [build "type_mismatch"
                  (Some (JObj [("attribute_key", JStr (sa_name a)); ("attribute_type", JStr (prim_str ty))]))
                  ("Enum attribute '" ++ sa_name a ++ "' has type '" ++ prim_str ty
                   ++ "'. Enum value type should be 'string' or 'int'.")
                  Violation sig]%string
          else []
      end
  | _, _ => []
  end.

(** type_advisor.rs 578-618: the instrument of a metric. *)
Definition instrument_findings (m : smetric) (sig : sample) (s : vsignal) : list finding :=
  match sm_instrument m with
  | Unsupported n =>
      [build "unexpected_instrument" (Some (JObj [("instrument"%string, JStr n)]))
         ("Instrument '" ++ n ++ "' is not supported")%string Violation sig]
  | Supported i =>
      match vsig_instrument s with
      | Some e =>
          if instrument_eqb e i then []
          else [build "unexpected_instrument"
                  (Some (JObj [("instrument", JStr (instrument_str i));
                               ("expected", JStr (instrument_str e))]))
                  ("Instrument should be '" ++ instrument_str e ++ "', but found '"
                   ++ instrument_str i ++ "'.")%string Violation sig]
      | None => []
      end
  end.

(** type_advisor.rs 620-634: the unit of a metric. *)
Definition unit_findings (m : smetric) (sig : sample) (s : vsignal) : list finding :=
  match vsig_unit s with
  | Some u =>
      if String.eqb u (sm_unit m) then []
      else [build "unit_mismatch"
              (Some (JObj [("unit", JStr (sm_unit m)); ("expected", JStr u)]))
              ("Unit should be '" ++ u ++ "', but found '" ++ sm_unit m ++ "'.")%string
              Violation sig]
  | None => []
  end.

(* used by type_advisor: type_advisor.rs 499-742 *)
Definition type_advise_metric (m : smetric) (sig : sample) (g : option vsignal) : list finding :=
  match g with
  | None => []
  | Some s => instrument_findings m sig s ++ unit_findings m sig s
  end.

(** type_advisor.rs 499-742 [TypeAdvisor::advise]. Data points of exponential histograms
    fall into the final [_ => Ok(Vec::new())] arm. *)
Definition type_advisor : advisor := fun r sig ra g =>
  Ok match r with
     | RfAttribute a => type_advise_attr a sig ra
     | RfMetric m => type_advise_metric m sig g
     | RfNumberDP p | RfHistogramDP p =>
         match g with Some s => check_attributes (metric_defs s) (dp_attrs p) sig | None => [] end
     | RfLog l =>
         match g with Some s => check_attributes (event_defs s) (lg_attrs l) sig | None => [] end
     | _ => []
     end.

(** crates/weaver_semconv/src/deprecated.rs [Deprecated::note] (also its Display) and
    deprecated_advisor.rs 19-27 [deprecated_to_reason]. *)
Definition dep_note (d : deprecated) : string :=
  match d with
  | DRenamed to None => "Replaced by `" ++ to ++ "`."
  | DRenamed _ (Some n) | DObsoleted n | DUncategorized n | DUnspecified n => n
  end%string.
(* as above: deprecated_advisor.rs 19-27 *)
Definition dep_reason (d : deprecated) : string :=
  match d with
  | DRenamed _ _ => "renamed" | DObsoleted _ => "obsoleted"
  | DUncategorized _ | DUnspecified _ => "uncategorized"
  end%string.

(** deprecated_advisor.rs 30-42 and 60-116. *)
Definition deprecated_finding (kind ctxkey name : string) (sig : sample) (d : deprecated) : finding :=
  build "deprecated"
    (Some (JObj [(ctxkey, JStr name); ("deprecation_reason", JStr (dep_reason d));
                 ("deprecation_note", JStr (dep_note d))]))
    (kind ++ " '" ++ name ++ "' is deprecated; reason = '" ++ dep_reason d ++ "', note = '"
     ++ dep_note d ++ "'.")%string
    Violation sig.

(** deprecated_advisor.rs 47-123. *)
Definition deprecated_advisor : advisor := fun r sig ra g =>
  Ok match r with
     | RfAttribute a =>
         match ra with
         | Some va => map (deprecated_finding "Attribute" "attribute_key" (sa_name a) sig)
                          (opt_list (vattr_deprecated va))
         | None => []
         end
     | RfMetric m =>
         match g with
         | Some s => map (deprecated_finding "Metric" "metric_name" (sm_name m) sig)
                         (opt_list (vsig_deprecated s))
         | None => []
         end
     | RfLog l =>
         match g with
         | Some s => map (deprecated_finding "Event" "event_name" (lg_event l) sig)
                         (opt_list (vsig_deprecated s))
         | None => []
         end
     | _ => []
     end.

(** stability_advisor.rs 34-52. *)
Definition stability_findings (kind ctxkey name : string) (sig : sample) (s : option stability)
    : list finding :=
  match s with
  | Some st => if stability_eqb st SStable then []
               else [build "not_stable"
                       (Some (JObj [(ctxkey, JStr name); ("stability", JStr (stability_str st))]))
                       (kind ++ " '" ++ name ++ "' is not stable; stability = "
                        ++ stability_str st ++ ".")%string Improvement sig]
  | None => []
  end.

(** stability_advisor.rs 21-112. *)
Definition stability_advisor : advisor := fun r sig ra g =>
  Ok match r with
     | RfAttribute a =>
         match ra with
         | Some va => stability_findings "Attribute" "attribute_key" (sa_name a) sig (vattr_stability va)
         | None => []
         end
     | RfMetric m =>
         match g with
         | Some s => stability_findings "Metric" "metric_name" (sm_name m) sig (vsig_stability s)
         | None => []
         end
     | RfLog l =>
         match g with
         | Some s => stability_findings "Event" "event_name" (lg_event l) sig (vsig_stability s)
         | None => []
         end
     | _ => []
     end.

(** serde_json [Value::as_i64]: an integer that fits i64. *)
(* used by member_matches: enum_advisor.rs 40-55 *)
Definition as_i64 (j : json) : option Z :=
  match j with
  | JNum (NInt z) => if (Z.leb (- 2 ^ 63) z && Z.ltb z (2 ^ 63))%Z then Some z else None
  | _ => None
  end.

(** enum_advisor.rs 40-55: does a member match the value? *)
Definition member_matches (ty : prim) (v : json) (m : enum_entry) : bool :=
  match ty with
  | PInt => match as_i64 v, ee_value m with Some z, VInt z' => Z.eqb z z' | _, _ => false end
  | PString => match v, ee_value m with JStr s, VString s' => String.eqb s s' | _, _ => false end
  | _ => false
  end.

(** The JSON text of a value in a message ([Value::to_string]); only its being a function
    of the value matters, so it is a parameter. *)
(* used by enum_advisor: enum_advisor.rs 19-94 *)
Definition json_text := json -> string.

(** enum_advisor.rs 19-94. For a value type other than int and string the advisor returns no
    finding, unless the enum has no member at all (the loop body never runs). *)
Definition enum_advisor (show : json_text) : advisor := fun r sig ra _ =>
  Ok match r with
     | RfAttribute a =>
         match ra, sa_value a, sa_type a with
         | Some va, Some v, Some ty =>
             match vattr_type va with
             | TEnum members =>
                 if negb (prim_eqb ty PInt || prim_eqb ty PString) &&
                    negb (match members with [] => true | _ => false end) then []
                 else if existsb (member_matches ty v) members then []
                 else [build "undefined_enum_variant"
                         (Some (JObj [("attribute_key", JStr (sa_name a)); ("attribute_value", v)]))
                         ("Enum attribute '" ++ sa_name a ++ "' has value '"
                          ++ match v with JStr s => s | _ => show v end
                          ++ "' which is not documented.")%string
                         Information sig]
             | _ => []
             end
         | _, _, _ => []
         end
     | _ => []
     end.

(** src/registry/live_check.rs 198-205 [default_advisors]. *)
Definition default_advisors (show : json_text) : list advisor :=
  [deprecated_advisor; stability_advisor; type_advisor; enum_advisor show].
