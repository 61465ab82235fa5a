(* The template filters that turn texts into code comments.
   Models crates/weaver_forge/src/extensions/code.rs (comment, comment_with_prefix,
   type_mapping, map_text).
   Simplified: whitespace is ASCII whitespace; an argument of the wrong type is the
   same as an absent one ([args.get(..).ok()] in the code); the markdown and HTML
   renderers are a parameter. *)
From Coq Require Import String Ascii Bool Arith NArith List.
Import ListNotations.
From Verif Require Import Base SemTypes Str.
Local Open Scope string_scope.

(* used by nl: code.rs 43-54 *)
Definition lf : ascii := "010"%char.
(* used by strip_cr: code.rs 43-54 *)
Definition cr : ascii := "013"%char.
(* used by comment_with_prefix: code.rs 43-54 *)
Definition nl : string := String lf "".

(* one trailing carriage return is removed (Rust str::lines) *)
(* used by lines_of: code.rs 43-54 *)
Fixpoint strip_cr (s : string) : string :=
  match s with
  | EmptyString => EmptyString
  | String c EmptyString => if Ascii.eqb c cr then EmptyString else s
  | String c s' => String c (strip_cr s')
  end.

(* used by lines: code.rs 43-54 *)
Fixpoint lines_of (pieces : list string) : list string :=
  match pieces with
  | [] => []
  | [x] => match x with EmptyString => [] | _ => [x] end
  | x :: r => strip_cr x :: lines_of r
  end.

(* Rust str::lines *)
(* used by comment_with_prefix: code.rs 43-54 *)
Definition lines (s : string) : list string := lines_of (split_char lf s).

(* Rust str::trim_end, str::trim *)
(* used by comment_expand: code.rs 190-208 *)
Definition trim_end_ws (s : string) : string := trim_end is_white s.
(* used by comment_text: code.rs 98-115 *)
Definition trim_ws (s : string) : string := trim_end is_white (trim_start is_white s).

(* Rust str::repeat *)
(* used by comment: code.rs 58-222 *)
Fixpoint repeat_str (n : nat) (s : string) : string :=
  match n with 0 => "" | S m => s ++ repeat_str m s end.

(* used by comment_with_prefix: code.rs 43-54 *)
Definition is_empty (s : string) : bool := match s with EmptyString => true | _ => false end.

(* used by comment_dots: code.rs 127-135 *)
Definition is_dot (c : ascii) : bool := Ascii.eqb c "."%char.

(* Rust str::ends_with(c) *)
(* used by comment_dots: code.rs 127-135 *)
Fixpoint ends_with_char (p : ascii -> bool) (s : string) : bool :=
  match s with
  | EmptyString => false
  | String c EmptyString => p c
  | String _ s' => ends_with_char p s'
  end.

(* code.rs 43-54.  The input is the text of the value. *)
Definition comment_with_prefix (input prefix : string) : string :=
  fold_left (fun comment line =>
    let comment := if is_empty comment then comment else comment ++ nl in
    comment ++ prefix ++ line) (lines input) "".

(* crates/weaver_forge/src/config.rs struct CommentFormat: the fields the filter reads
   itself; the rendering options are part of the renderer. *)
(* crates/weaver_forge/src/config.rs 343-371 *)
Record comment_format := {
  cf_header : option string;
  cf_prefix : option string;
  cf_footer : option string;
  cf_indent_type : string;
  cf_trim : bool;
  cf_remove_dots : bool;
  cf_enforce_dots : bool;
  cf_line_length : option N
}.

(* The keyword arguments of the filter *)
(* used by comment: code.rs 58-222 *)
Record comment_args := {
  ca_format : option string;
  ca_line_length : option N;
  ca_indent : option nat;
  ca_indent_type : option string;
  ca_header : option string;
  ca_prefix : option string;
  ca_footer : option string
}.

(* used by comment_text: code.rs 98-115 *)
Inductive comment_input :=
| CUndefined
| CText (s : string)
| CSeq (l : list string).

(* The outcome of a filter call: a value, an error reported to the template engine,
   or the abort of the process. *)
(* used by comment: code.rs 58-222 *)
Inductive outcome (A : Type) := OOk (a : A) | OErr (e : string) | OPanic.
Arguments OOk {A} a. Arguments OErr {A} e. Arguments OPanic {A}.

(* usize subtraction; [checked] is whether overflow checks are compiled in (debug
   builds), otherwise the result wraps around. *)
(* used by comment: code.rs 58-222 *)
Definition usize_sub (checked : bool) (a b : N) : option N :=
  if N.leb b a then Some (a - b)%N
  else if checked then None else Some (2 ^ 64 + a - b)%N.

(* code.rs 98-115: the text to render *)
Definition comment_text (cf : comment_format) (input : comment_input) : string :=
  let comment := match input with
                 | CUndefined => ""
                 | CText s => s
                 | CSeq l => join nl l
                 end in
  if cf_trim cf then trim_ws comment else comment.

(* code.rs 127-135 *)
Definition comment_dots (cf : comment_format) (comment : string) : string :=
  let comment := if cf_remove_dots cf then trim_end is_dot comment else comment in
  if cf_enforce_dots cf && negb (is_empty comment) && negb (ends_with_char is_dot comment)
  then comment ++ "." else comment.

(* code.rs 190-208: every line of the rendered text with indentation and prefix *)
Definition comment_expand (trim : bool) (header indent prefix : string) (ls : list string) : string :=
  fold_left (fun new_comment line =>
    let new_comment1 := if is_empty new_comment then new_comment else new_comment ++ nl in
    if is_empty header && is_empty new_comment1 then
      new_comment1 ++ (if trim then trim_end_ws (prefix ++ line) else prefix ++ line)
    else
      new_comment1 ++ (if trim then trim_end_ws (indent ++ prefix ++ line)
                       else indent ++ prefix ++ line)) ls "".

(* code.rs 58-222: the filter.  [formats] is the comment_formats map of the configuration,
   [default_name] the default_comment_format, [default_format] CommentFormat::default,
   [render] the renderer configured for the format with the given name. *)
Definition comment (checked : bool) (formats : list (string * comment_format))
  (default_name : option string) (default_format : comment_format)
  (render : string -> string -> option N -> res string)
  (input : comment_input) (args : comment_args) : outcome string :=
  match input with
  | CUndefined => OOk ""
  | _ =>
    let fname := opt_get (ca_format args) (opt_get default_name "default") in
    let cf := opt_get (slookup fname formats) default_format in
    let limit := opt_or (ca_line_length args) (cf_line_length cf) in
    let text := comment_text cf input in
    if cf_remove_dots cf && cf_enforce_dots cf then OErr "dots"
    else
      let text := comment_dots cf text in
      let indent_arg := opt_get (ca_indent args) 0 in
      let indent_type := opt_get (ca_indent_type args) (cf_indent_type cf) in
      match (if String.eqb indent_type "space" then Some (repeat_str indent_arg " ")
             else if String.eqb indent_type "tab" then Some (repeat_str indent_arg (String "009"%char ""))
             else None) with
      | None => OErr "indent type"
      | Some indent =>
        let header := opt_get (ca_header args) (opt_get (cf_header cf) "") in
        let prefix := opt_get (ca_prefix args) (opt_get (cf_prefix cf) "") in
        let footer := opt_get (ca_footer args) (opt_get (cf_footer cf) "") in
        match (match limit with
               | None => Some None
               | Some l => option_map Some (usize_sub checked l
                   (N.of_nat (String.length indent) + N.of_nat (String.length prefix))%N)
               end) with
        | None => OPanic
        | Some actual =>
          match render text fname actual with
          | Err e => OErr e
          | Ok rendered =>
            let comment := comment_expand (cf_trim cf) header indent prefix (lines rendered) in
            let comment := if is_empty header then comment else header ++ nl ++ comment in
            let comment := if is_empty footer then comment
                           else trim_end_ws comment ++ nl ++ indent ++ footer in
            OOk (trim_end_ws comment)
          end
        end
      end
  end.

(* code.rs 232-245; a value that is not a string is passed through *)
Definition type_mapping (m : list (string * string)) (input : string) : string :=
  opt_get (slookup input m) input.

(* code.rs 255-275 *)
Definition map_text (maps : list (string * list (string * string))) (input mapping : string)
  (default : option string) : string :=
  match slookup mapping maps with
  | Some m => match slookup input m with
              | Some t => t
              | None => opt_get default input
              end
  | None => opt_get default input
  end.
