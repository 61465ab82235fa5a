(* The renderers of the comment filter: crates/weaver_forge/src/formats/mod.rs (word wrap),
   markdown.rs and html.rs.
   Simplified: whitespace is ASCII whitespace, lengths are bytes (as in the code: [str::len]); writing
   to a String never fails; usize is nat.  The Markdown parser ([markdown::to_mdast] with its default
   options) is a parameter; the tree it gives is modelled below.  The Jinja snippets of the HTML
   renderer are parameters. *)
From Coq Require Import String Ascii Bool Arith DecimalString List.
Import ListNotations.
From Verif Require Import Base SemTypes Str CodeModel.
Local Open Scope string_scope.

(* ---------- words ---------- *)
(* the loop of textwrap::WordSeparator::AsciiSpace and of mod.rs 45-71: a piece ends where white space
   is followed by something else *)
Fixpoint cut_words (sp : ascii -> bool) (in_ws : bool) (acc : string) (s : string) : list string :=
  match s with
  | EmptyString => if is_empty acc then [] else [acc]
  | String c r =>
    if in_ws && negb (sp c) then acc :: cut_words sp (sp c) (String c "") r
    else cut_words sp (sp c) (acc ++ String c "") r
  end.
(* as above: mod.rs 45-71 *)
Definition is_space (c : ascii) : bool := Ascii.eqb c " ".
(* 41-43: is_ascii_space_or_newline *)
Definition is_space_or_newline (c : ascii) : bool := Ascii.eqb c " " || Ascii.eqb c cr || Ascii.eqb c lf.
(* textwrap: a Word is its piece without the spaces at the end *)
(* used by find_words: mod.rs 91-97 *)
Definition words_space (s : string) : list string := map (trim_end is_space) (cut_words is_space false "" s).
(* 45-71: find_words_ascii_space_and_newline *)
Definition words_newline (s : string) : list string :=
  map (fun p => trim_end is_space (trim_end is_white p)) (cut_words is_space_or_newline false "" s).
(* 91-97 *)
Definition find_words (ignore_newlines : bool) (s : string) : list string :=
  if ignore_newlines then words_newline s else words_space s.

(* 14-26: WordWrapConfig *)
Record wrap_config := { wc_length : option nat; wc_ignore : bool }.
(* 30-38: with_line_length_override *)
Definition with_override (c : wrap_config) (o : option nat) : wrap_config :=
  match o with Some n => {| wc_length := Some n; wc_ignore := wc_ignore c |} | None => c end.
(* 73-89: WordWrapContext *)
Record wrap := { w_max : option nat; w_ignore : bool; w_cur : nat; w_left : bool }.
(* as above: mod.rs 73-89 *)
Definition new_wrap (c : wrap_config) : wrap :=
  {| w_max := wc_length c; w_ignore := wc_ignore c; w_cur := 0; w_left := false |}.
(* as above: mod.rs 73-89 *)
Definition set_wrap (w : wrap) (cur : nat) (left : bool) : wrap :=
  {| w_max := w_max w; w_ignore := w_ignore w; w_cur := cur; w_left := left |}.
(* as above: mod.rs 73-89 *)
Definition too_long (w : wrap) (len : nat) : bool :=
  match w_max w with Some m => Nat.ltb m (w_cur w + len) | None => false end.
(* 110-131: write_unbroken *)
Definition write_unbroken (w : wrap) (out input indent : string) : wrap * string :=
  if too_long w (String.length input)
  then (set_wrap w (String.length indent + String.length input) false, out ++ nl ++ indent ++ input)
  else if w_left w
  then (set_wrap w (w_cur w + 1 + String.length input) false, out ++ " " ++ input)
  else (set_wrap w (w_cur w + String.length input) false, out ++ input).
(* 132-137: write_ln *)
Definition write_ln (w : wrap) (out indent : string) : wrap * string :=
  (set_wrap w (String.length indent) false, out ++ nl ++ indent).
(* 151-177: one turn of the loop of write_words *)
Definition write_word (indent : string) (st : wrap * string * bool) (word : string) : wrap * string * bool :=
  let '(w, out, first) := st in
  let newline := too_long w (String.length word) in
  let '(cur, out) :=
    if newline then (String.length indent, out ++ nl ++ indent)
    else if w_left w || negb first then (w_cur w + 1, out ++ " ")
    else (w_cur w, out) in
  let text := if first && newline then trim_start is_white word else word in
  (set_wrap w (cur + String.length text) false, out ++ text, false).
(* 138-186: write_words *)
Definition write_words (w : wrap) (out input indent : string) : wrap * string :=
  match w_max w with
  | None => (set_wrap w (w_cur w + String.length input) (w_left w), out ++ input)
  | Some _ =>
    let '(w', out', _) := fold_left (write_word indent) (find_words (w_ignore w) input) (w, out, true) in
    (set_wrap w' (w_cur w')
       (ends_with_char is_space input || (w_ignore w && ends_with_char (Ascii.eqb lf) input)), out')
  end.
(* 188-197: write_unbroken_ln *)
Definition write_unbroken_ln (w : wrap) (out input indent : string) : wrap * string :=
  let '(w, out) := write_unbroken w out input indent in write_ln w out indent.

(* ---------- the tree: markdown::mdast::Node ---------- *)
(* used by is_list: markdown.rs 348-356 *)
Inductive node :=
| NRoot (children : list node)
| NText (s : string)
| NParagraph (children : list node)
| NList (ordered : bool) (children : list node)
| NItem (children : list node)
| NHtml (s : string)
| NInlineCode (s : string)
| NCode (lang : option string) (s : string)
| NQuote (children : list node)
| NLink (url : string) (children : list node)
| NStrong (children : list node)
| NEmphasis (children : list node)
| NDelete (children : list node)
| NHeading (depth : nat) (children : list node)
(* the kinds of markdown.rs 510-529 and html.rs 389-408, for which nothing is written *)
| NOther (kind : string) (children : list node).

(* ---------- markdown.rs ---------- *)
(* 15-40: MarkdownRenderOptions *)
Record md_options := {
  mo_backslashes : bool;
  mo_brackets : bool;
  mo_indent_first : bool;
  mo_shortcut : bool;
  mo_language : option string;
  mo_go_indent : bool
}.
(* 52-75: RenderContext *)
Record ctx := {
  cx_md : string; cx_level : nat; cx_number : nat; cx_links : list (string * string);
  cx_leftover : nat; cx_prefix : string; cx_skip : bool; cx_wrap : wrap; cx_buffer : option string
}.
(* 78-90 *)
Definition new_ctx (c : wrap_config) : ctx :=
  {| cx_md := ""; cx_level := 0; cx_number := 0; cx_links := []; cx_leftover := 0; cx_prefix := "";
     cx_skip := false; cx_wrap := new_wrap c; cx_buffer := None |}.
(* as above: markdown.rs 78-90 *)
Definition set_out (c : ctx) (o : wrap * string) : ctx :=
  {| cx_md := snd o; cx_level := cx_level c; cx_number := cx_number c; cx_links := cx_links c;
     cx_leftover := cx_leftover c; cx_prefix := cx_prefix c; cx_skip := cx_skip c; cx_wrap := fst o; cx_buffer := cx_buffer c |}.
(* as above: markdown.rs 78-90 *)
Definition set_buffer (c : ctx) (b : option string) : ctx :=
  {| cx_md := cx_md c; cx_level := cx_level c; cx_number := cx_number c; cx_links := cx_links c;
     cx_leftover := cx_leftover c; cx_prefix := cx_prefix c; cx_skip := cx_skip c; cx_wrap := cx_wrap c; cx_buffer := b |}.
(* as above: markdown.rs 78-90 *)
Definition set_leftover (c : ctx) (n : nat) : ctx :=
  {| cx_md := cx_md c; cx_level := cx_level c; cx_number := cx_number c; cx_links := cx_links c;
     cx_leftover := n; cx_prefix := cx_prefix c; cx_skip := cx_skip c; cx_wrap := cx_wrap c; cx_buffer := cx_buffer c |}.
(* as above: markdown.rs 78-90 *)
Definition set_prefix (c : ctx) (p : string) (skip : bool) : ctx :=
  {| cx_md := cx_md c; cx_level := cx_level c; cx_number := cx_number c; cx_links := cx_links c;
     cx_leftover := cx_leftover c; cx_prefix := p; cx_skip := skip; cx_wrap := cx_wrap c; cx_buffer := cx_buffer c |}.
(* as above: markdown.rs 78-90 *)
Definition set_list (c : ctx) (level number : nat) : ctx :=
  {| cx_md := cx_md c; cx_level := level; cx_number := number; cx_links := cx_links c;
     cx_leftover := cx_leftover c; cx_prefix := cx_prefix c; cx_skip := cx_skip c; cx_wrap := cx_wrap c; cx_buffer := cx_buffer c |}.
(* as above: markdown.rs 78-90 *)
Definition add_link (c : ctx) (label url : string) : ctx :=
  {| cx_md := cx_md c; cx_level := cx_level c; cx_number := cx_number c; cx_links := List.app (cx_links c) [(label, url)];
     cx_leftover := cx_leftover c; cx_prefix := cx_prefix c; cx_skip := cx_skip c; cx_wrap := cx_wrap c; cx_buffer := cx_buffer c |}.
(* 115-119: add_blank_line *)
Definition add_blank_line (c : ctx) : ctx := set_out c (write_ln (cx_wrap c) (cx_md c) (cx_prefix c)).
(* as above: markdown.rs 115-119 *)
Fixpoint add_blank_lines (n : nat) (c : ctx) : ctx :=
  match n with 0 => c | S m => add_blank_lines m (add_blank_line c) end.
(* Rust str::ends_with("\n\n") *)
(* used by add_cond_blank_line: markdown.rs 106-114 *)
Fixpoint ends_with_blank (s : string) : bool :=
  match s with
  | EmptyString => false
  | String c r => String.eqb s (nl ++ nl) || ends_with_blank r
  end.
(* 106-114: add_cond_blank_line *)
Definition add_cond_blank_line (c : ctx) : ctx :=
  if negb (ends_with_blank (cx_md c)) && negb (is_empty (cx_md c)) then add_blank_line c else c.
(* 202-210: add_unbreakable_text *)
Definition add_unbreakable (c : ctx) (text : string) : ctx :=
  match cx_buffer c with
  | Some b => set_buffer c (Some (b ++ text))
  | None => set_out c (write_unbroken (cx_wrap c) (cx_md c) text (cx_prefix c))
  end.
(* 137-152: start_unbreakable_block *)
Definition start_block (c : ctx) (text : string) : ctx :=
  let c := match cx_buffer c with
           | Some b => set_out c (write_unbroken (cx_wrap c) (cx_md c) b (cx_prefix c))
           | None => c
           end in
  match w_max (cx_wrap c) with
  | Some _ => set_buffer c (Some text)
  | None => set_out c (cx_wrap c, cx_md c ++ text)
  end.
(* 153-161: end_unbreakable_block *)
Definition end_block (c : ctx) (text : string) : ctx :=
  let result := match cx_buffer c with Some b => b ++ text | None => text end in
  add_unbreakable (set_buffer c None) result.
(* 163-201: add_text *)
Definition write_line_words (c : ctx) (line : string) : ctx :=
  set_out c (write_words (cx_wrap c) (cx_md c) line (cx_prefix c)).
(* as above: markdown.rs 163-201 *)
Definition push_line (c : ctx) (prefixed : bool) (line : string) : ctx :=
  set_out c (cx_wrap c, cx_md c ++ (if negb (is_empty (cx_prefix c)) && prefixed then cx_prefix c else "") ++ line).
(* crates/weaver_forge/src/formats/markdown.rs 163-201 *)
Definition add_text (c : ctx) (text : string) : ctx :=
  match cx_buffer c with
  | Some b => set_buffer c (Some (b ++ text))
  | None =>
    match w_max (cx_wrap c) with
    | Some _ =>
      let c := if negb (is_empty (cx_prefix c)) && negb (cx_skip c) then add_unbreakable c (cx_prefix c) else c in
      if w_ignore (cx_wrap c) then write_line_words c text
      else match split_char lf text with
           | [] => c
           | l0 :: r => fold_left (fun c l => write_line_words (add_blank_line c) l) r (write_line_words c l0)
           end
    | None =>
      match split_char lf text with
      | [] => c
      | l0 :: r =>
        fold_left (fun c l => push_line (set_out c (cx_wrap c, cx_md c ++ nl)) true l) r (push_line c (negb (cx_skip c)) l0)
      end
    end
  end.
(* 327-346: escape_unescaped_chars *)
Fixpoint escape_unescaped (p : ascii -> bool) (odd : bool) (s : string) : string :=
  match s with
  | EmptyString => EmptyString
  | String c r =>
    if Ascii.eqb c "\" then String c (escape_unescaped p (negb odd) r)
    else if p c && negb odd then String "\" (String c (escape_unescaped p false r))
    else String c (escape_unescaped p false r)
  end.
(* Rust text.replace('\\', "\\\\") *)
(* used by text_out: markdown.rs 348-356 *)
Fixpoint double_backslashes (s : string) : string :=
  match s with
  | EmptyString => EmptyString
  | String c r => if Ascii.eqb c "\" then String c (String c (double_backslashes r)) else String c (double_backslashes r)
  end.
(* used by text_out: markdown.rs 348-356 *)
Definition is_bracket (c : ascii) : bool := Ascii.eqb c "[" || Ascii.eqb c "]".
(* 348-356 *)
Definition text_out (o : md_options) (s : string) : string :=
  let s := if mo_backslashes o then double_backslashes s else s in
  if mo_brackets o then escape_unescaped is_bracket false s else s.
(* as above: markdown.rs 348-356 *)
Definition show_nat (n : nat) : string := NilEmpty.string_of_uint (Nat.to_uint n).
(* as above: markdown.rs 348-356 *)
Definition is_list (n : node) : bool := match n with NList _ _ => true | _ => false end.
(* 310-320: the newlines the previous node left *)
Definition take_leftover (c : ctx) (n : node) : ctx :=
  let c' := set_leftover c 0 in
  if is_list n then c' else add_blank_lines (cx_leftover c) c'.
(* 366-373: the indentation of a list *)
Definition list_indent (o : md_options) (c : ctx) (indent : string) (ordered : bool) : string :=
  if negb (mo_indent_first o) && Nat.eqb (cx_level c) 1 then indent
  else if mo_go_indent o && ordered then indent ++ " " else indent ++ "  ".
(* 376-391: before an item is written *)
Definition begin_item (c : ctx) (indent : string) (ordered : bool) : ctx :=
  let left := cx_leftover c in
  let c := set_leftover c 0 in
  let c := match left with 0 => c | _ => add_blank_lines left (set_prefix c "" (cx_skip c)) end in
  let c := set_list c (cx_level c) (S (cx_number c)) in
  let line_prefix := if ordered then indent ++ show_nat (cx_number c) ++ ". " else indent ++ "- " in
  add_unbreakable (set_prefix c (repeat_str (String.length line_prefix) " ") true) line_prefix.
(* 304-532: write_markdown_to *)
Section Markdown.
  Variable o : md_options.
  (* as above: markdown.rs 304-532 *)
  Fixpoint write_md (c : ctx) (indent : string) (n : node) {struct n} : ctx :=
    let c := take_leftover c n in
    let each := fix each (c : ctx) (indent : string) (l : list node) {struct l} : ctx :=
      match l with [] => c | x :: r => each (write_md c indent x) indent r end in
    (* 401-414 and 437-448: the children of a paragraph are written without it *)
    let flat := fix flat (c : ctx) (l : list node) {struct l} : ctx :=
      match l with
      | [] => c
      | x :: r =>
        flat (match x with
              | NParagraph ps => (fix go (c : ctx) (ps : list node) {struct ps} : ctx :=
                  match ps with [] => c | y :: q => go (write_md c indent y) q end) c ps
              | _ => write_md c indent x
              end) r
      end in
    match n with
    | NRoot l => each c indent l
    | NText s => add_text c (text_out o s)
    | NParagraph l => add_blank_line (each (add_cond_blank_line c) indent l)
    | NList ordered l =>
      let c := set_list c (S (cx_level c)) (cx_number c) in
      let indent := list_indent o c indent ordered in
      let c := add_blank_line c in
      let c := (fix items (c : ctx) (l : list node) {struct l} : ctx :=
        match l with
        | [] => c
        | x :: r =>
          let c := write_md (begin_item c indent ordered) indent x in
          items (set_leftover c (S (cx_leftover c))) r
        end) c l in
      let c := set_prefix (set_list c (pred (cx_level c)) 0) "" false in
      set_leftover c (S (cx_leftover c))
    | NItem l => flat c l
    | NHtml s => add_unbreakable c s
    | NInlineCode s => add_unbreakable c ("`" ++ s ++ "`")
    | NCode lang s =>
      let lang := opt_get (opt_or lang (mo_language o)) "" in
      add_blank_line (add_unbreakable c ("```" ++ lang ++ nl ++ s ++ nl ++ "```"))
    | NQuote l =>
      let c := add_cond_blank_line c in
      let c := flat (set_prefix c "> " (cx_skip c)) l in
      add_blank_line (set_prefix c "" false)
    | NLink url l =>
      let c := start_block c "[" in
      let start := String.length (cx_md c) in
      let c := each c indent l in
      let label := match cx_buffer c with Some b => str_drop 1 b | None => str_drop start (cx_md c) end in
      let c := add_unbreakable c "]" in
      let c := if mo_shortcut o && negb (is_empty url) then add_link c label url
               else add_unbreakable c ("(" ++ url ++ ")") in
      end_block c ""
    | NStrong l => end_block (each (start_block c "**") indent l) "**"
    | NEmphasis l => end_block (each (start_block c "*") indent l) "*"
    | NDelete l => end_block (each (start_block c "~~") indent l) "~~"
    | NHeading depth l =>
      let c := add_cond_blank_line c in
      let c := each (start_block c (indent ++ repeat_str depth "#" ++ " ")) indent l in
      let c := add_blank_line (end_block c "") in
      set_leftover c (S (cx_leftover c))
    | NOther _ _ => c
    end.
  (* 283-301: the part of render after the parser *)
  Definition render_md_tree (cfg : wrap_config) (n : node) : string :=
    let c := write_md (new_ctx cfg) "" n in
    match cx_links c with
    | [] => cx_md c
    | links =>
      fold_left (fun out l => out ++ nl ++ "[" ++ fst l ++ "]: " ++ snd l) links
        (cx_md c ++ repeat_str (cx_leftover c) nl)
    end.
End Markdown.
(* 254-302: render; [formats] are the Markdown formats of the configuration (214-246) *)
Definition render_md (parse : string -> res node) (formats : list (string * (md_options * wrap_config)))
  (text format : string) (override : option nat) : res string :=
  match slookup format formats with
  | None => Err "comment format not found"
  | Some (o, cfg) =>
    match parse text with
    | Err e => Err e
    | Ok n => Ok (render_md_tree o (with_override cfg override) n)
    end
  end.

(* ---------- html.rs ---------- *)
(* 17-32: HtmlRenderOptions; the two snippets are functions below *)
Record html_options := { ho_old_paragraph : bool; ho_omit_li : bool }.
(* 63-81: RenderContext *)
Record hctx := { hx_html : string; hx_newline : bool; hx_old : bool; hx_wrap : wrap }.
(* as above: html.rs 63-81 *)
Definition new_hctx (c : wrap_config) : hctx :=
  {| hx_html := ""; hx_newline := false; hx_old := false; hx_wrap := new_wrap c |}.
(* as above: html.rs 63-81 *)
Definition h_out (c : hctx) (o : wrap * string) : hctx :=
  {| hx_html := snd o; hx_newline := hx_newline c; hx_old := hx_old c; hx_wrap := fst o |}.
(* as above: html.rs 63-81 *)
Definition h_newline (c : hctx) (b : bool) : hctx :=
  {| hx_html := hx_html c; hx_newline := b; hx_old := hx_old c; hx_wrap := hx_wrap c |}.
(* as above: html.rs 63-81 *)
Definition h_old (c : hctx) (b : bool) : hctx :=
  {| hx_html := hx_html c; hx_newline := hx_newline c; hx_old := b; hx_wrap := hx_wrap c |}.
(* 93-110 *)
Definition push_unbroken (c : hctx) (input indent : string) : hctx := h_out c (write_unbroken (hx_wrap c) (hx_html c) input indent).
(* crates/weaver_forge/src/formats/html.rs 97-100 *)
Definition push_unbroken_ln (c : hctx) (input indent : string) : hctx := h_out c (write_unbroken_ln (hx_wrap c) (hx_html c) input indent).
(* as above: html.rs 93-110 *)
Definition push_ln (c : hctx) (indent : string) : hctx := h_out c (write_ln (hx_wrap c) (hx_html c) indent).
(* crates/weaver_forge/src/formats/html.rs 108-110 *)
Definition push_words (c : hctx) (input indent : string) : hctx := h_out c (write_words (hx_wrap c) (hx_html c) input indent).
(* as above: html.rs 93-110 *)
Definition is_paragraph (n : node) : bool := match n with NParagraph _ => true | _ => false end.
(* 256-263: a paragraph whose text starts with @ *)
Definition at_paragraph (n : node) : bool :=
  match n with NParagraph (NText s :: _) => starts_with "@" s | _ => false end.
(* 250-267 *)
Definition before_node (c : hctx) (indent : string) (n : node) : hctx :=
  let c := if hx_newline c then h_newline (push_ln c indent) false else c in
  if hx_old c then
    h_old (if is_paragraph n then push_unbroken_ln c (if at_paragraph n then "" else "<p>") indent else c) false
  else c.
Section Html.
  Variable o : html_options.
  (* 199-240: render_inline_code, render_block_code *)
  Variable inline_code block_code : string -> res string.
  (* 242-411: write_html_to *)
  Fixpoint write_html (c : hctx) (indent : string) (n : node) {struct n} : res hctx :=
    let c := before_node c indent n in
    let each := fix each (c : hctx) (indent : string) (l : list node) {struct l} : res hctx :=
      match l with
      | [] => Ok c
      | x :: r => match write_html c indent x with Ok c => each c indent r | Err e => Err e end
      end in
    let wrapped (open close : string) (l : list node) : res hctx :=
      match each (push_unbroken c open indent) indent l with
      | Ok c => Ok (push_unbroken c close indent)
      | Err e => Err e
      end in
    match n with
    | NRoot l => each c indent l
    | NText s => Ok (push_words c s indent)
    | NParagraph l =>
      let c := if ho_old_paragraph o then c else push_unbroken c "<p>" indent in
      match each c indent l with
      | Err e => Err e
      | Ok c => Ok (h_newline (if ho_old_paragraph o then h_old c true else push_unbroken c "</p>" indent) true)
      end
    | NList ordered l =>
      let tag := if ordered then "ol" else "ul" in
      let c := push_unbroken c ("<" ++ tag ++ ">") indent in
      let li_indent := indent ++ "  " in
      match (fix items (c : hctx) (l : list node) {struct l} : res hctx :=
        match l with
        | [] => Ok c
        | x :: r =>
          match write_html (push_unbroken (push_ln c li_indent) "<li>" li_indent) li_indent x with
          | Err e => Err e
          | Ok c => items (if ho_omit_li o then c else push_unbroken c "</li>" indent) r
          end
        end) c l with
      | Err e => Err e
      | Ok c =>
        let c := h_newline (push_unbroken (push_ln c indent) ("</" ++ tag ++ ">") indent) true in
        Ok (if ho_old_paragraph o then h_old c true else c)
      end
    | NItem l =>
      (fix flat (c : hctx) (l : list node) {struct l} : res hctx :=
        match l with
        | [] => Ok c
        | x :: r =>
          match (match x with
                 | NParagraph ps => (fix go (c : hctx) (ps : list node) {struct ps} : res hctx :=
                     match ps with
                     | [] => Ok c
                     | y :: q => match write_html c indent y with Ok c => go c q | Err e => Err e end
                     end) c ps
                 | _ => write_html c indent x
                 end) with
          | Ok c => flat c r
          | Err e => Err e
          end
        end) c l
    | NHtml s => Ok (h_out c (hx_wrap c, hx_html c ++ s))
    | NInlineCode s => match inline_code s with Ok t => Ok (push_unbroken c t indent) | Err e => Err e end
    | NCode _ s => match block_code s with Ok t => Ok (push_unbroken c t indent) | Err e => Err e end
    | NQuote l =>
      match each (push_unbroken_ln c "<blockquote>" indent) indent l with
      | Err e => Err e
      | Ok c => Ok (h_newline (push_unbroken c "</blockquote>" indent) true)
      end
    | NLink url l => wrapped ("<a href=""" ++ url ++ """>") "</a>" l
    | NStrong l => wrapped "<strong>" "</strong>" l
    | NEmphasis l => wrapped "<em>" "</em>" l
    | NDelete l => wrapped "<s>" "</s>" l
    | NHeading depth l => wrapped ("<h" ++ show_nat depth ++ ">") ("</h" ++ show_nat depth ++ ">" ++ nl) l
    | NOther _ _ => Ok c
    end.
  (* 154-189: the part of render after the parser *)
  Definition render_html_tree (cfg : wrap_config) (n : node) : res string :=
    match write_html (new_hctx cfg) "" n with Ok c => Ok (hx_html c) | Err e => Err e end.
End Html.
