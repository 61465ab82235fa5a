(* The errors of definition files that do not fit their schema: crates/weaver_semconv/src/json_schema.rs
   and better_error of semconv.rs 276-291.
   The validator (jsonschema) is a parameter: the list of its errors, each with the pointer to the place
   in the document, the pointer into the schema and its message.  The marked YAML document (saphyr) is
   given: a tree with the positions of the nodes in characters; aliases are taken to be resolved.  A text
   is a list of characters, each with its bytes. *)
From Coq Require Import String Ascii Bool Arith NArith DecimalString List.
Import ListNotations.
From Verif Require Import Base Json SemTypes Str.
From Verif Require ServeModel.
Local Open Scope string_scope.

(* ---------- paths (json_schema.rs 15-20, 485-507) ---------- *)
Inductive component := Key (k : string) | Index (n : nat).
(* parse_xpath *)
(* crates/weaver_semconv/src/json_schema.rs 485-507 *)
Definition parse_xpath (xpath : string) : res (list component) :=
  match xpath with
  | String c rest =>
    if Ascii.eqb c "/" then
      Ok (map (fun s => match ServeModel.read_usize s with Ok n => Index n | Err _ => Key s end)
           (filter (fun s => negb (String.eqb s "")) (split_char "/" rest)))
    else Err "XPath must start with '/'"
  | EmptyString => Err "XPath must start with '/'"
  end.

(* ---------- the document (json_schema.rs 346-475) ---------- *)
(* a key of a mapping: a string, or another scalar with the text that stands for it in JSON *)
(* used by ynode: json_schema.rs 413-455 *)
Inductive ykey := YStr (s : string) | YOther (s : string).
(* used by node_span: json_schema.rs 413-455 *)
Inductive ynode :=
| YScalar (start stop : nat)
| YSeq (start stop : nat) (l : list ynode)
| YMap (start stop : nat) (m : list (ykey * ynode)).
(* used by block_position: json_schema.rs 413-455 *)
Definition node_span (n : ynode) : nat * nat :=
  match n with YScalar a b | YSeq a b _ | YMap a b _ => (a, b) end.
(* saphyr: as_mapping_get, as_sequence_get *)
(* used by node_step: json_schema.rs 413-455 *)
Fixpoint mapping_get (k : string) (m : list (ykey * ynode)) : option ynode :=
  match m with
  | [] => None
  | (YStr s, n) :: r => if String.eqb s k then Some n else mapping_get k r
  | (YOther _, _) :: r => mapping_get k r
  end.
(* used by node_at: json_schema.rs 413-455 *)
Definition node_step (n : ynode) (c : component) : option ynode :=
  match c, n with
  | Key k, YMap _ _ m => mapping_get k m
  | Index i, YSeq _ _ l => nth_error l i
  | _, _ => None
  end.
(* used by block_position: json_schema.rs 413-455 *)
Fixpoint node_at (n : ynode) (p : list component) : option ynode :=
  match p with
  | [] => Some n
  | c :: r => match node_step n c with Some m => node_at m r | None => None end
  end.
(* used by char_offsets: json_schema.rs 398-400 *)
Record ydoc := { yd_chars : list string; yd_root : ynode }.
(* json_schema.rs 398-400: the offset of every character, and of the end *)
Fixpoint offsets_from (o : nat) (l : list string) : list nat :=
  match l with [] => [o] | c :: r => o :: offsets_from (o + String.length c) r end.
(* as above: json_schema.rs 398-400 *)
Definition char_offsets (d : ydoc) : list nat := offsets_from 0 (yd_chars d).
(* json_schema.rs 413-455: xpath_to_block_position *)
Definition block_position (d : ydoc) (xpath : string) : res (nat * nat) :=
  match parse_xpath xpath with
  | Err e => Err e
  | Ok p => match node_at (yd_root d) p with Some n => Ok (node_span n) | None => Err "not found in YAML document" end
  end.
(* json_schema.rs 458-474: source_span: offset and length; indexing and the subtraction may panic *)
Inductive located := At (offset len : nat) | Nowhere | LPanic.
(* crates/weaver_semconv/src/json_schema.rs 458-474 *)
Definition source_span (d : ydoc) (xpath : string) : located :=
  match block_position d xpath with
  | Err _ => Nowhere
  | Ok (a, b) =>
    match nth_error (char_offsets d) a, nth_error (char_offsets d) b with
    | Some x, Some y => if Nat.leb x y then At x (y - x) else LPanic
    | _, _ => LPanic
    end
  end.

(* ---------- descriptions (json_schema.rs 252-318) ---------- *)
(* serde_json: Value::get with a key and with an index *)
(* used by get_all: json_schema.rs 252-318 *)
Definition get_key (k : string) (j : json) : option json :=
  match j with JObj m => slookup k m | _ => None end.
(* used by describe: json_schema.rs 252-318 *)
Definition get_index (i : nat) (j : json) : option json :=
  match j with JArr l => nth_error l i | _ => None end.
(* used by description_of: json_schema.rs 252-318 *)
Definition as_str (j : json) : option string := match j with JStr s => Some s | _ => None end.
(* used by ref_definition: json_schema.rs 252-318 *)
Fixpoint get_all (parts : list string) (j : json) : option json :=
  match parts with
  | [] => Some j
  | p :: r => match get_key p j with Some v => get_all r v | None => None end
  end.
(* json_schema.rs 297-318: get_ref_definition *)
Definition ref_definition (schema : json) (path : string) : option json :=
  match split_char "/" path with
  | first :: part :: rest => if String.eqb first "#" then get_all (part :: rest) schema else None
  | _ => None
  end.
(* as above: json_schema.rs 252-318 *)
Definition description_of (j : json) : option string :=
  match get_key "description" j with Some d => as_str d | None => None end.
(* as above: json_schema.rs 252-318 *)
Fixpoint describe (schema current : json) (description : string) (p : list component) : res string :=
  match p with
  | [] => Ok description
  | c :: r =>
    let description := opt_get (description_of current) description in
    match c with
    | Key k =>
      match get_key k current with
      | Some v =>
        if String.eqb k "$ref" then
          match ref_definition schema (opt_get (as_str v) "") with
          | Some d => describe schema d description r
          | None => Err "Invalid $ref path"
          end
        else describe schema v description r
      | None => Err "not found in JSON schema"
      end
    | Index i =>
      match get_index i current with
      | Some v => describe schema v description r
      | None => Err "out of bounds in JSON schema"
      end
    end
  end.
(* as above: json_schema.rs 252-318 *)
Definition build_description (schema : json) (xpath : string) : res string :=
  match parse_xpath xpath with
  | Err e => Err e
  | Ok p => describe schema schema "No description available" p
  end.

(* ---------- messages (json_schema.rs 99-249) ---------- *)
(* an error of the validator: its own text, and for anyOf and oneOf the errors of each variant *)
(* used by message: json_schema.rs 50-96, semconv.rs 276-291 *)
Inductive verror := VOne (text : string) | VMany (text : string) (context : list (list verror)).
(* part of json_schema.rs 99-249 *)
Definition verror_text (e : verror) : string := match e with VOne t | VMany t _ => t end.
(* used by message: json_schema.rs 50-96, semconv.rs 276-291 *)
Definition mapi {A B} (f : nat -> A -> B) : nat -> list A -> list B :=
  fix go (i : nat) (l : list A) : list B := match l with [] => [] | x :: r => f i x :: go (S i) r end.
(* used by message: json_schema.rs 50-96, semconv.rs 276-291 *)
Definition show_nat (n : nat) : string := NilEmpty.string_of_uint (Nat.to_uint n).
(* used by message: json_schema.rs 50-96, semconv.rs 276-291 *)
Definition lf : string := String (ascii_of_nat 10) "".
(* build_error_message and build_variant_error_message *)
(* used by report: json_schema.rs 50-96, semconv.rs 276-291 *)
Fixpoint message (indent : string) (e : verror) : string :=
  match e with
  | VOne t => t
  | VMany t context =>
    t ++ lf ++
    join lf (mapi (fun idx errors =>
      indent ++ "(Variant " ++ show_nat (idx + 1) ++ "):" ++ lf ++
      join lf (map (fun e => indent ++ "- " ++ message (indent ++ "  ") e) errors)) 0 context)
  end.

(* ---------- reporting (json_schema.rs 50-96; semconv.rs 276-291) ---------- *)
Record violation := { vi_error : verror; vi_instance : string; vi_schema : string }.
(* as above: json_schema.rs 50-96, semconv.rs 276-291 *)
Record reported := { re_text : string; re_span : option (nat * nat); re_advice : option string }.
(* as above: json_schema.rs 50-96, semconv.rs 276-291 *)
Inductive outcome :=
| Deserialization (text : string)
| Invalid (errors : list reported)
| OPanicked.
(* as above: json_schema.rs 50-96, semconv.rs 276-291 *)
Definition ok_of {A} (r : res A) : option A := match r with Ok a => Some a | Err _ => None end.
(* as above: json_schema.rs 50-96, semconv.rs 276-291 *)
Fixpoint report (schema : json) (d : ydoc) (l : list violation) : option (list reported) :=
  match l with
  | [] => Some []
  | v :: r =>
    let advice := ok_of (build_description schema (vi_schema v)) in
    match source_span d (vi_instance v), report schema d r with
    | LPanic, _ | _, None => None
    | At o n, Some rs => Some ({| re_text := message "" (vi_error v); re_span := Some (o, n); re_advice := advice |} :: rs)
    | Nowhere, Some rs => Some ({| re_text := message "" (vi_error v); re_span := None; re_advice := advice |} :: rs)
    end
  end.
(* better_error: [jsonable] whether the document has a JSON form, [doc] the document read again, [serde]
   the error it could not be deserialized for.  One error is returned as it is, several as a compound. *)
(* crates/weaver_semconv/src/semconv.rs 277-291 *)
Definition better_error (schema : json) (jsonable : bool) (doc : res ydoc) (violations : list violation) (serde : string) : outcome :=
  if negb jsonable then Deserialization serde
  else match doc with
       | Err e => Deserialization e
       | Ok d =>
         match report schema d violations with
         | None => OPanicked
         | Some [] => Deserialization serde
         | Some rs => Invalid rs
         end
       end.
