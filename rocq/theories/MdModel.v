(* Updating the generated parts of markdown files.
   Models crates/weaver_semconv_gen/src/{lib,parser}.rs and the loop of
   src/registry/update_markdown.rs.
   Simplified: texts are bytes and white space is ASCII white space; the generators of
   snippets (v1.rs, v2.rs) are parameters; a nom parser is a function to the rest of the
   input and a result, and Error and Failure of nom are one case, as no Failure is raised
   below an alternative. *)
From Coq Require Import String Ascii Bool Arith List.
Import ListNotations.
From Verif Require Import Base SemTypes Str CodeModel.
Local Open Scope string_scope.

(* nom *)
(* used by parse_value: parser.rs 83-90 *)
Definition tag (t input : string) : option string := strip_prefix t input.

(* used by multispace0: parser.rs 155-170 *)
Fixpoint span (p : ascii -> bool) (s : string) : string * string :=
  match s with
  | String c r => if p c then let '(a, b) := span p r in (String c a, b) else ("", s)
  | EmptyString => ("", "")
  end.

(* character::complete::multispace0: space, tab, carriage return, line feed *)
(* used by multispace0: parser.rs 155-170 *)
Definition is_multispace (c : ascii) : bool :=
  let n := nat_of_ascii c in Nat.eqb n 32 || Nat.eqb n 9 || Nat.eqb n 13 || Nat.eqb n 10.
(* used by parse_semconv_args: parser.rs 155-170 *)
Definition multispace0 (s : string) : string := snd (span is_multispace s).

(* used by ident_then: crates/weaver_semconv_gen/src/parser.rs 138-144 *)
Definition is_alpha (c : ascii) : bool := is_lower c || is_upper c.
(* used by id_char: parser.rs 134-140 *)
Definition is_one (d : ascii) (c : ascii) : bool := Ascii.eqb c d.

(* alpha1 and then many0_count of alternatives that each take characters of a class *)
(* used by parse_id: crates/weaver_semconv_gen/src/parser.rs 138-144 *)
Definition ident_then (more : ascii -> bool) (s : string) : option (string * string) :=
  let '(a, r) := span is_alpha s in
  match a with
  | EmptyString => None
  | _ => let '(b, r') := span more r in Some (r', a ++ b)
  end.

(* parser.rs 134-140 *)
Definition id_char (c : ascii) : bool :=
  is_ascii_alnum c || is_one "."%char c || is_one "_"%char c || is_one "-"%char c.
(* crates/weaver_semconv_gen/src/parser.rs 138-144 *)
Definition parse_id (s : string) : option (string * string) := ident_then id_char s.

(* parser.rs 325-331 *)
Definition partial_char (c : ascii) : bool := is_ascii_alnum c || is_one "_"%char c || is_one "-"%char c.
(* crates/weaver_semconv_gen/src/parser.rs 338-344 *)
Definition parse_partial_id (s : string) : option (string * string) := ident_then partial_char s.

(* parser.rs 83-90: alpha1 or one underscore first *)
Definition parse_value (s : string) : option (string * string) :=
  match ident_then partial_char s with
  | Some r => Some r
  | None =>
    match tag "_" s with
    | Some r => let '(b, r') := span partial_char r in Some (r', "_" ++ b)
    | None => None
    end
  end.

(* parser.rs 61-70 *)
Inductive mdparam := PTag (v : string) | PFull | PMetricTable | POmit.

(* parser.rs 92-128 *)
Definition parse_param (s : string) : option (string * mdparam) :=
  match tag "full" s with
  | Some r => Some (r, PFull)
  | None =>
    match tag "metric_table" s with
    | Some r => Some (r, PMetricTable)
    | None =>
      match tag "omit_requirement_level" s with
      | Some r => Some (r, POmit)
      | None =>
        match tag "tag=" s with
        | Some r => match parse_value r with Some (r', v) => Some (r', PTag v) | None => None end
        | None => None
        end
      end
    end
  end.

(* nom separated_list0(tag(","), parse_param) after the first element: stops before a comma
   that is not followed by an element.  [n] bounds the number of elements. *)
(* used by params_list: parser.rs 126-132 *)
Fixpoint params_more (n : nat) (s : string) : string * list mdparam :=
  match n with
  | 0 => (s, [])
  | S m =>
    match tag "," s with
    | None => (s, [])
    | Some r =>
      match parse_param r with
      | None => (s, [])
      | Some (r', p) => let '(r'', ps) := params_more m r' in (r'', p :: ps)
      end
    end
  end.
(* used by parse_params: parser.rs 126-132 *)
Definition params_list (s : string) : string * list mdparam :=
  match parse_param s with
  | None => (s, [])
  | Some (r, p) => let '(r', ps) := params_more (String.length s) r in (r', p :: ps)
  end.

(* parser.rs 126-132 *)
Definition parse_params (s : string) : option (string * list mdparam) :=
  match tag "(" s with
  | None => None
  | Some r =>
    let '(r', ps) := params_list r in
    match tag ")" r' with
    | None => None
    | Some r'' => Some (r'', ps)
    end
  end.

(* parser.rs 142-153 *)
Definition parse_html_comment (s : string) : option (string * string) :=
  match tag "<!--" s with
  | None => None
  | Some r =>
    match find_str "-->" r with
    | None => None
    | Some i =>
      match tag "-->" (str_drop i r) with
      | None => None
      | Some rest => Some (rest, str_take i r)
      end
    end
  end.

(* used by is_metric_table: parser.rs 39-43 *)
Record semargs := { sa_id : string; sa_args : list mdparam }.

(* parser.rs 39-43 *)
Definition is_metric_table (a : semargs) : bool :=
  existsb (fun p => match p with PMetricTable => true | _ => false end) (sa_args a).

(* parser.rs 45-54: find_map stops at the first tag *)
Fixpoint find_tag (ps : list mdparam) : option string :=
  match ps with [] => None | PTag v :: _ => Some v | _ :: r => find_tag r end.
(* crates/weaver_semconv_gen/src/parser.rs 46-55 *)
Definition tag_filters (a : semargs) : list string :=
  match find_tag (sa_args a) with Some v => [v] | None => [] end.

(* parser.rs 155-170 *)
Definition parse_semconv_args (s : string) : option (string * semargs) :=
  match tag "semconv" (multispace0 s) with
  | None => None
  | Some r =>
    match parse_id (multispace0 r) with
    | None => None
    | Some (r2, id) =>
      match parse_params r2 with
      | Some (r3, ps) => Some (multispace0 r3, {| sa_id := id; sa_args := ps |})
      | None => Some (multispace0 r2, {| sa_id := id; sa_args := [] |})
      end
    end
  end.

(* used by parse_weaver_args: parser.rs 172-190 *)
Record weavargs := { wa_query : string; wa_template : option string }.

(* parser.rs 192-198 *)
Definition parse_template (s : string) : option (string * string) :=
  match tag "template:" s with None => None | Some r => parse_id r end.

(* parser.rs 172-190: everything that remains is the query *)
Definition parse_weaver_args (s : string) : option weavargs :=
  match tag "weaver" (multispace0 s) with
  | None => None
  | Some r =>
    let r := multispace0 r in
    match parse_template r with
    | Some (r2, t) => Some {| wa_query := trim_ws (multispace0 r2); wa_template := Some t |}
    | None => Some {| wa_query := trim_ws (multispace0 r); wa_template := None |}
    end
  end.

(* used by is_trailer: parser.rs 200-213, parser.rs 243-256, parser.rs 258-266 *)
Definition all_white (s : string) : bool := is_empty (trim_ws s).

(* parser.rs 200-213, 243-256, 258-266: the trailer with the given word *)
Definition is_trailer (word line : string) : bool :=
  match parse_html_comment line with
  | None => false
  | Some (rest, snippet) =>
    match tag word (multispace0 snippet) with
    | None => false
    | Some r => is_empty (multispace0 r) && all_white rest
    end
  end.
(* crates/weaver_semconv_gen/src/parser.rs 262-264 *)
Definition is_semconv_trailer (line : string) : bool := is_trailer "endsemconv" line.
(* crates/weaver_semconv_gen/src/parser.rs 267-269 *)
Definition is_weaver_trailer (line : string) : bool := is_trailer "endweaver" line.

(* parser.rs 229-241, 268-271, 278-286 *)
Definition semconv_directive (line : string) : option semargs :=
  match parse_html_comment line with
  | None => None
  | Some (rest, snippet) =>
    match parse_semconv_args snippet with
    | Some (remains, a) => if is_empty remains && all_white rest then Some a else None
    | None => None
    end
  end.

(* parser.rs 215-227, 273-276, 288-296 *)
Definition weaver_directive (line : string) : option weavargs :=
  match parse_html_comment line with
  | None => None
  | Some (rest, snippet) =>
    match parse_weaver_args snippet with
    | Some a => if all_white rest then Some a else None
    | None => None
    end
  end.

Section Update.
  (* generate_markdown_snippet and generate_weaver_snippet *)
  Variable gen_semconv : semargs -> res string.
  Variable gen_weaver : weavargs -> res string.

  (* lib.rs 105-108 *)
  Inductive stype := KSemconv | KWeaver.

  (* lib.rs 145-191: the loop over the lines *)
  Fixpoint update_lines (ctx : option stype) (result : string) (ls : list string) : res string :=
    match ls with
    | [] => Ok result
    | line :: r =>
      match ctx with
      | Some KSemconv =>
        if is_semconv_trailer line then update_lines None (result ++ line ++ nl) r
        else update_lines ctx result r
      | Some KWeaver =>
        if is_weaver_trailer line then update_lines None (result ++ line ++ nl) r
        else update_lines ctx result r
      | None =>
        let result := result ++ line ++ nl in
        match semconv_directive line with
        | Some arg =>
          match gen_semconv arg with
          | Err e => Err e
          | Ok snippet => update_lines (Some KSemconv) (result ++ snippet) r
          end
        | None =>
          match weaver_directive line with
          | Some arg =>
            match gen_weaver arg with
            | Err e => Err e
            | Ok snippet => update_lines (Some KWeaver) (result ++ snippet) r
            end
          | None => update_lines None result r
          end
        end
      end
    end.

  (* crates/weaver_semconv_gen/src/lib.rs 145-191 *)
  Definition update_markdown_contents (contents : string) : res string :=
    update_lines None "" (lines contents).

  (* str::replace("\r\n", "\n") *)
  (* used by update_markdown: lib.rs 116-138 *)
  Fixpoint crlf_to_lf (s : string) : string :=
    match s with
    | String c (String d r as t) =>
      if Ascii.eqb c cr && Ascii.eqb d lf then String lf (crlf_to_lf r) else String c (crlf_to_lf t)
    | _ => s
    end.

  (* lib.rs 116-138: the new content of the file and the outcome.  None: the file cannot be
     read. *)
  Definition update_markdown (file : option string) (dry_run : bool) : option string * res unit :=
    match file with
    | None => (None, Err "StdIoError")
    | Some text =>
      let original := crlf_to_lf text in
      match update_markdown_contents original with
      | Err e => (file, Err e)
      | Ok updated =>
        if negb dry_run then (Some updated, Ok tt)
        else if negb (String.eqb original updated) then (file, Err "MarkdownIsNotEqual")
        else (file, Ok tt)
      end
    end.

  (* src/registry/update_markdown.rs 178-213: all files of the walk, and whether the command
     succeeds *)
  Fixpoint update_all (files : list (option string)) (dry_run : bool) : list (option string) * bool :=
    match files with
    | [] => ([], true)
    | f :: r =>
      let '(f', res) := update_markdown f dry_run in
      let '(r', ok) := update_all r dry_run in
      (f' :: r', match res with Ok _ => ok | Err _ => false end)
    end.
End Update.

(* parser.rs 310-323 *)
Inductive lookup_kind := LAttribute | LAttributeGroup | LSpan | LMetric | LEvent | LEntity.
(* as above: parser.rs 310-323 *)
Inductive idlookup := LRegistry (k : lookup_kind) (id : string) | LRefinement (k : lookup_kind) (id : string).

(* parser.rs 348-396 *)
Definition parse_registry_lookup (s : string) : option (string * idlookup) :=
  match parse_partial_id s with
  | None => None
  | Some (r, name) =>
    match tag "." r with
    | None => None
    | Some r2 =>
      match parse_id r2 with
      | None => None
      | Some (rest, id) =>
        if String.eqb name "attributes" then Some (rest, LRegistry LAttribute id)
        else if String.eqb name "attribute_groups" then Some (rest, LRegistry LAttributeGroup id)
        else if String.eqb name "spans" then Some (rest, LRegistry LSpan id)
        else if String.eqb name "metrics" then Some (rest, LRegistry LMetric id)
        else if String.eqb name "events" then Some (rest, LRegistry LEvent id)
        else if String.eqb name "entities" then Some (rest, LRegistry LEntity id)
        else None
      end
    end
  end.

(* parser.rs 398-434 *)
Definition parse_refinement_lookup (s : string) : option (string * idlookup) :=
  match parse_partial_id s with
  | None => None
  | Some (r, name) =>
    match tag "." r with
    | None => None
    | Some r2 =>
      match parse_id r2 with
      | None => None
      | Some (rest, id) =>
        if String.eqb name "spans" then Some (rest, LRefinement LSpan id)
        else if String.eqb name "metrics" then Some (rest, LRefinement LMetric id)
        else if String.eqb name "events" then Some (rest, LRefinement LEvent id)
        else if String.eqb name "entities" then Some (rest, LRefinement LEntity id)
        else None
      end
    end
  end.

(* parser.rs 333-346 *)
Definition parse_id_lookup (s : string) : option (string * idlookup) :=
  match parse_partial_id s with
  | None => None
  | Some (r, name) =>
    match tag "." r with
    | None => None
    | Some r2 =>
      if String.eqb name "registry" then parse_registry_lookup r2
      else if String.eqb name "refinements" then parse_refinement_lookup r2
      else None
    end
  end.

(* parser.rs 300-308 *)
Definition parse_id_lookup_v2 (s : string) : option idlookup :=
  match parse_id_lookup s with
  | Some (rest, l) => if all_white rest then Some l else None
  | None => None
  end.
