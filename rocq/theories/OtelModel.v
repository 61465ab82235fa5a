(* Template filters and tests for semantic conventions.
   Models crates/weaver_forge/src/extensions/otel.rs and parts of util.rs.
   A template value is a JSON value; [None] is minijinja's Undefined. *)
From Coq Require Import String Ascii Bool Arith ZArith NArith List.
Import ListNotations.
From Verif Require Import Base Json SemTypes Str F64.
Local Open Scope string_scope.

(* minijinja Value::get_attr on a defined value: undefined when there is no such key *)
(* crates/weaver_forge/src/extensions/otel.rs 285-293 *)
Definition get_attr (v : json) (k : string) : option json :=
  match v with JObj m => slookup k m | _ => None end.

(* minijinja Value::as_str *)
(* used by required: otel.rs 58-71 *)
Definition as_str (v : option json) : option string :=
  match v with Some (JStr s) => Some s | _ => None end.

(* used by required: otel.rs 58-71 *)
Definition str_opt_eqb (a : option string) (b : string) : bool :=
  match a with Some s => String.eqb s b | None => false end.

(* otel.rs 58-71 *)
Definition required (input : list json) : list json :=
  filter (fun v => str_opt_eqb (as_str (get_attr v "requirement_level")) "required") input.

(* otel.rs 73-86 *)
Definition not_required (input : list json) : list json :=
  filter (fun v => negb (str_opt_eqb (as_str (get_attr v "requirement_level")) "required")) input.

(* otel.rs 309-339: sort_ordinal_for_requirement *)
Definition ordinal (v : json) : res nat :=
  match get_attr v "requirement_level" with
  | None => Ok 0
  | Some level =>
    if is_some (get_attr level "conditionally_required") then Ok 2
    else if is_some (get_attr level "recommended") then Ok 3
    else match as_str (Some level) with
         | Some s =>
           if String.eqb s "required" then Ok 1
           else if String.eqb s "recommended" then Ok 3
           else if String.eqb s "opt_in" then Ok 4
           else Err "Expected requirement level"
         | None => Err "Expected requirement level"
         end
  end.

(* otel.rs 221-227 *)
Definition get_name_or_key (v : json) : option json :=
  match get_attr v "name" with
  | Some n => Some n
  | None => get_attr v "key"
  end.

Section Sort.
  (* comparison of two template values (minijinja, a parameter) *)
  Variable val_cmp : option json -> option json -> comparison.

  (* used by attr_leb: otel.rs 340-354 *)
  Definition ord_of (v : json) : nat := match ordinal v with Ok n => n | Err _ => 0 end.

  (* otel.rs 340-354 for values whose ordinals exist *)
  Definition attr_leb (a b : json) : bool :=
    match Nat.compare (ord_of a) (ord_of b) with
    | Lt => true
    | Gt => false
    | Eq => match val_cmp (get_name_or_key a) (get_name_or_key b) with Gt => false | _ => true end
    end.

  (* used by attribute_sort: otel.rs 357-383 *)
  Definition is_ok {A} (r : res A) : bool := match r with Ok _ => true | Err _ => false end.

  (* otel.rs 357-383.  A comparison sort of two or more elements compares every element at
     least once, so an invalid level is an error exactly when there are two elements. *)
  Definition attribute_sort (input : list json) : res (list json) :=
    if Nat.leb (length input) 1 then Ok input
    else if forallb (fun v => is_ok (ordinal v)) input then Ok (stable_sort attr_leb input)
    else Err "Expected requirement level".
End Sort.

(* otel.rs 388-397 *)
Definition is_stable (v : json) : bool :=
  match as_str (get_attr v "stability") with Some s => String.eqb s "stable" | None => false end.
(* crates/weaver_forge/src/extensions/otel.rs 403-412 *)
Definition is_experimental (v : json) : bool :=
  match as_str (get_attr v "stability") with Some s => negb (String.eqb s "stable") | None => true end.
(* as_object is Some for maps and sequences *)
(* crates/weaver_forge/src/extensions/otel.rs 417-424 *)
Definition is_deprecated (v : json) : bool :=
  match get_attr v "deprecated" with Some (JObj _) | Some (JArr _) => true | _ => false end.

(* used by is_simple_type: otel.rs 520-536 *)
Definition simple_types : list string :=
  ["string"; "string[]"; "int"; "int[]"; "double"; "double[]"; "boolean"; "boolean[]"].

(* otel.rs 520-536 *)
Definition is_simple_type (t : json) : bool :=
  match t with JStr s => str_mem s simple_types | _ => false end.

(* used by template_inner: otel.rs 539-549 *)
Definition template_prefix := "template[".
(* as above: otel.rs 520-536 *)
Definition template_suffix := "]".

(* Rust str::ends_with *)
(* used by is_template_type: otel.rs 539-549 *)
Definition ends_with_str (suf s : string) : bool :=
  Nat.leb (String.length suf) (String.length s) &&
  String.eqb (str_drop (String.length s - String.length suf) s) suf.

(* &s[prefix.len() .. s.len() - suffix.len()]; None is a panic *)
(* used by is_template_type: otel.rs 539-549 *)
Definition template_inner (s : string) : option string :=
  slice (String.length template_prefix) (String.length s - String.length template_suffix) s.

(* otel.rs 539-549.  A panic (None) cannot occur: see the proofs. *)
Definition is_template_type (t : json) : option bool :=
  match t with
  | JStr s =>
    if starts_with template_prefix s && ends_with_str template_suffix s then
      option_map (fun i => is_simple_type (JStr i)) (template_inner s)
    else Some false
  | _ => Some false
  end.

(* otel.rs 552-559 *)
Definition is_enum_type (t : json) : bool := is_some (get_attr t "members").

(* otel.rs 562-569 *)
Definition is_enum (attr : json) : bool :=
  match get_attr attr "type" with Some t => is_enum_type t | None => false end.

(* otel.rs 572-577 *)
Definition is_array (t : json) : bool :=
  match t with JStr s => str_mem s ["string[]"; "int[]"; "double[]"; "boolean[]"] | _ => false end.

Section Enum.
  (* minijinja Value::as_i64 on a float: defined when the float has an integral value *)
  Variable float_is_i64 : N -> bool.

  (* otel.rs 477-517: the type of one member value *)
  Definition member_type (v : option json) : res string :=
    match v with
    | Some (JNum (NInt z)) =>
      if Z.leb (- 2 ^ 63) z && Z.ltb z (2 ^ 63) then Ok "int" else Ok "double"
    | Some (JNum (NFloat b)) => if float_is_i64 b then Ok "int" else Ok "double"
    | Some (JStr _) => Ok "string"
    | _ => Err "Enum values are expected to be int, double, or string"
    end.

  (* otel.rs 477-517 *)
  Fixpoint infer_enum (members : list json) (acc : option string) : res (option string) :=
    match members with
    | [] => Ok acc
    | m :: r =>
      match member_type (get_attr m "value") with
      | Err e => Err e
      | Ok t =>
        infer_enum r (match acc with
                      | Some cur => if String.eqb cur t then Some cur else Some "string"
                      | None => Some t
                      end)
      end
    end.

  (* otel.rs 477-517 *)
  Definition enum_type (t : json) : res string :=
    match get_attr t "members" with
    | Some (JArr members) =>
      match infer_enum members None with
      | Ok (Some s) => Ok s
      | Ok None => Err "Empty enum type"
      | Err e => Err e
      end
    | Some _ => Err "members is not iterable"
    | None => Err "undefined is not iterable"
    end.

  (* otel.rs 427-447 *)
  Definition instantiated_type (t : json) : option (res string) :=
    if is_simple_type t then Some (match t with JStr s => Ok s | _ => Err "" end)
    else match is_template_type t with
         | None => None
         | Some true => match t with
                        | JStr s => option_map Ok (template_inner s)
                        | _ => None
                        end
         | Some false =>
           if is_enum_type t then Some (enum_type t)
           else Some (Err "Expected simple type, template type, or enum type")
         end.
End Enum.

(* ** Serialisation of resolved attributes (serde derive), as templates see them *)

(* crates/weaver_semconv/src/attribute.rs 731-795 *)
Definition ser_level (r : req_level) : json :=
  match r with
  | RRequired => JStr "required"
  | RRecommended => JStr "recommended"
  | ROptIn => JStr "opt_in"
  | RConditional t => JObj [("conditionally_required", JStr t)]
  | RRecommendedText t => JObj [("recommended", JStr t)]
  | ROptInText t => JObj [("opt_in", JStr t)]
  end.

(* attribute.rs 482-492 *)
Definition ser_value (v : value_spec) : json :=
  match v with
  | VInt z => JNum (NInt z)
  | VDouble b => JNum (NFloat b)
  | VString s => JStr s
  | VBool b => JBool b
  end.

(* attribute.rs 393-419; only id and value are kept *)
Definition ser_member (e : enum_entry) : json :=
  JObj [("id", JStr (ee_id e)); ("value", ser_value (ee_value e))].

(* attribute.rs 216-226, 272-296, 339-367 *)
Definition ser_type (t : attr_type) : json :=
  match t with
  | TPrim p => JStr (prim_str p)
  | TTemplate p => JStr ("template[" ++ prim_str p ++ "]")
  | TEnum ms => JObj [("members", JArr (map ser_member ms))]
  end.

(* crates/weaver_semconv/src/deprecated.rs, Serialize: an object with the reason *)
(* used by ser_attr: crates/weaver_resolved_schema/src/attribute.rs 25-100 *)
Definition ser_deprecated_obj (d : deprecated) : json :=
  match d with
  | DRenamed t n => JObj [("reason", JStr "renamed"); ("renamed_to", JStr t); ("note", JStr (opt_get n ""))]
  | DObsoleted n => JObj [("reason", JStr "obsoleted"); ("note", JStr n)]
  | DUncategorized n => JObj [("reason", JStr "uncategorized"); ("note", JStr n)]
  | DUnspecified n => JObj [("reason", JStr "unspecified"); ("note", JStr n)]
  end.

(* used by ser_attr: crates/weaver_resolved_schema/src/attribute.rs 25-100 *)
Definition opt_field (k : string) (v : option json) : list (string * json) :=
  match v with Some j => [(k, j)] | None => [] end.

(* crates/weaver_resolved_schema/src/attribute.rs 25-100: the fields the filters read, and
   [extra] for the others *)
Definition ser_attr (extra : list (string * json)) (a : attribute) : json :=
  JObj (app [("name", JStr (at_name a)); ("type", ser_type (at_type a));
             ("requirement_level", ser_level (at_req a))]
       (app (opt_field "stability" (option_map (fun s => JStr (stability_str s)) (at_stability a)))
       (app (opt_field "deprecated" (option_map ser_deprecated_obj (at_deprecated a))) extra))).

(* crates/weaver_resolved_schema/src/v2/attribute.rs 19-40: a v2 attribute has a key and no
   requirement level *)
Definition ser_attr_v2 (extra : list (string * json)) (a : attribute) : json :=
  JObj (app [("key", JStr (at_name a)); ("type", ser_type (at_type a))]
       (app (opt_field "stability" (option_map (fun s => JStr (stability_str s)) (at_stability a)))
       (app (opt_field "deprecated" (option_map ser_deprecated_obj (at_deprecated a))) extra))).

(* ** Names *)

(* Rust str::split_once *)
(* used by attribute_split: otel.rs 154-170 *)
Fixpoint split_once (c : ascii) (s : string) : option (string * string) :=
  match s with
  | EmptyString => None
  | String d s' =>
    if Ascii.eqb d c then Some ("", s')
    else match split_once c s' with
         | Some (a, b) => Some (String d a, b)
         | None => None
         end
  end.

(* otel.rs 154-170 *)
Definition attribute_split (input : string) : res (string * string) :=
  match input with
  | EmptyString => Err "must not be empty"
  | _ =>
    match split_once "."%char input with
    | Some (_, EmptyString) => Err "id must not be empty"
    | Some (EmptyString, _) => Err "namespace must not be empty"
    | Some parts => Ok parts
    | None => Ok ("other", input)
    end
  end.

(* otel.rs 175-177 *)
Definition attribute_namespace (input : string) : res string :=
  match attribute_split input with Ok (n, _) => Ok n | Err e => Err e end.
(* crates/weaver_forge/src/extensions/otel.rs 182-184 *)
Definition attribute_id (input : string) : res string :=
  match attribute_split input with Ok (_, i) => Ok i | Err e => Err e end.

(* otel.rs 91-100 and 139-148 (with "metric") *)
Definition registry_namespace (kind input : string) : res string :=
  match split_char "."%char input with
  | first :: second :: _ => if String.eqb first kind then Ok second else Err "invalid id"
  | _ => Err "invalid id"
  end.

(* ** Event bodies *)

(* crates/weaver_semconv/src/any_value.rs: a body field has an id and, when it is a map,
   fields *)
(* used by traverse_body_fields: otel.rs 595-635 *)
Inductive body := Body (id : string) (fields : option (list body)).

(* crates/weaver_semconv/src/any_value.rs, AnyValueSpec::id *)
Definition body_id (b : body) : string := match b with Body i _ => i end.

Section Bodies.
  (* order of the sort filter on the chosen attribute of two fields (minijinja, a parameter) *)
  Variable field_leb : body -> body -> bool.

  (* otel.rs 595-635: path, field and depth of every field, parents first.  Simplified: the
     children are traversed and then put in sorted order, instead of sorted and traversed. *)
  Fixpoint traverse_body_fields (v : body) (path : string) (depth : nat) : list (string * body * nat) :=
    match v with
    | Body id fields =>
      let path := match path with EmptyString => id | _ => path ++ "." ++ id end in
      match fields with
      | None => [(path, v, depth)]
      | Some fs =>
        (path, v, depth) ::
        flat_map snd (stable_sort (fun a b => field_leb (fst a) (fst b))
          (map (fun f => (f, traverse_body_fields f path (S depth))) fs))
      end
    end.

  (* otel.rs 590-642 *)
  Definition body_fields (b : option body) : list (string * body * nat) :=
    match b with
    | None => []
    | Some v => traverse_body_fields v "" 0
    end.
End Bodies.

(* ** Acronyms: util.rs 122-163.  Simplified: bytes outside ASCII count as word characters and
   have no case. *)
Inductive char_class := CSpace | CWord | CPunct.
(* as above: util.rs 122-163 *)
Definition class_of (c : ascii) : char_class :=
  if is_white c then CSpace
  else if is_ascii_alnum c || Ascii.eqb c "_"%char || negb (is_ascii c) then CWord else CPunct.
(* as above: util.rs 122-163 *)
Definition class_eqb (a b : char_class) : bool :=
  match a, b with CSpace, CSpace | CWord, CWord | CPunct, CPunct => true | _, _ => false end.

(* the maximal runs matched by the regular expression *)
(* used by acronym: crates/weaver_forge/src/extensions/util.rs 147-165 *)
Fixpoint tokens (s : string) : list string :=
  match s with
  | EmptyString => []
  | String c s' =>
    match tokens s' with
    | String d t :: r =>
      if class_eqb (class_of c) (class_of d) then String c (String d t) :: r
      else String c "" :: String d t :: r
    | r => String c "" :: r
    end
  end.

(* str::to_lowercase on ASCII *)
(* used by lower: crates/weaver_forge/src/extensions/util.rs 147-165 *)
Definition lower_char (c : ascii) : ascii :=
  if is_upper c then ascii_of_nat (nat_of_ascii c + 32) else c.
(* used by acronym_map: crates/weaver_forge/src/extensions/util.rs 147-165 *)
Fixpoint lower (s : string) : string :=
  match s with EmptyString => "" | String c s' => String (lower_char c) (lower s') end.

(* used by acronym: crates/weaver_forge/src/extensions/util.rs 147-165 *)
Definition acronym_map (acronyms : list string) : list (string * string) :=
  fold_left (fun m a => sinsert (lower a) a m) acronyms [].

(* crates/weaver_forge/src/extensions/util.rs 147-165 *)
Definition acronym (acronyms : list string) (input : string) : string :=
  String.concat "" (map (fun t => opt_get (slookup (lower t) (acronym_map acronyms)) t) (tokens input)).
