(* Vocabulary of the rendered comments (C99 Markdown, C100 HTML). *)
From Coq Require Import String Ascii Bool Arith DecimalString List.
Import ListNotations.
From Verif Require Import Base SemTypes Str FormatModel.
Local Open Scope string_scope.

(* ---------- characters ---------- *)
Definition blankb (c : ascii) : bool := existsb (Nat.eqb (nat_of_ascii c)) [32; 9; 10; 11; 12; 13].
Definition quoteb (c : ascii) : bool := Ascii.eqb c ">".
(* [s] without the characters in [drop] *)
Fixpoint without (drop : ascii -> bool) (s : string) : string :=
  match s with
  | EmptyString => EmptyString
  | String c r => if drop c then without drop r else String c (without drop r)
  end.
(* the same text up to white space *)
Definition same_ink (a b : string) : Prop := without blankb a = without blankb b.
(* up to white space and the marks of quoted lines *)
Definition same_ink_unquoted (a b : string) : Prop :=
  without (fun c => blankb c || quoteb c) a = without (fun c => blankb c || quoteb c) b.
(* the words of [s]: the longest pieces without white space *)
Inductive words : string -> list string -> Prop :=
| wd_nil : words "" []
| wd_blank c s l : blankb c = true -> words s l -> words (String c s) l
| wd_last w : w <> "" -> all_chars (fun c => negb (blankb c)) w = true -> words w [w]
| wd_word w c s l : w <> "" -> all_chars (fun c => negb (blankb c)) w = true -> blankb c = true -> words s l ->
    words (w ++ String c s) (w :: l).
Definition line_feed : ascii := "010"%char.
(* [l] is one of the lines of [s] *)
Definition line_in (l s : string) : Prop :=
  any_char (Ascii.eqb line_feed) l = false /\
  exists a b, s = a ++ l ++ b /\ (a = "" \/ exists a', a = a' ++ String line_feed "") /\ (b = "" \/ exists b', b = String line_feed b').
Definition decimal (n : nat) : string := NilEmpty.string_of_uint (Nat.to_uint n).

(* ---------- what a document shows ---------- *)
Definition cat (l : list string) : string := String.concat "" l.
Section Shown.
  Variable o : md_options.
  (* how its texts are written *)
  Variable text : string -> string.
  Definition by_reference (url : string) : bool := mo_shortcut o && negb (String.eqb url "").
  Fixpoint shown (n : node) : string :=
    match n with
    | NRoot l | NParagraph l | NItem l | NQuote l => cat (map shown l)
    | NText s => text s
    | NList false l => cat (map (fun i => "-" ++ shown i) l)
    | NList true l =>
      (fix number (k : nat) (l : list node) : string :=
        match l with [] => "" | i :: r => decimal k ++ "." ++ shown i ++ number (S k) r end) 1 l
    | NHtml s => s
    | NInlineCode s => "`" ++ s ++ "`"
    | NCode lang s => "```" ++ match lang with Some g => g | None => match mo_language o with Some g => g | None => "" end end ++ s ++ "```"
    | NLink url l => "[" ++ cat (map shown l) ++ "]" ++ (if by_reference url then "" else "(" ++ url ++ ")")
    | NStrong l => "**" ++ cat (map shown l) ++ "**"
    | NEmphasis l => "*" ++ cat (map shown l) ++ "*"
    | NDelete l => "~~" ++ cat (map shown l) ++ "~~"
    | NHeading d l => cat (repeat "#" d) ++ cat (map shown l)
    | NOther _ _ => ""
    end.
  (* the links that are written by reference: label and target, in their order *)
  Fixpoint references (n : node) : list (string * string) :=
    match n with
    | NRoot l | NParagraph l | NItem l | NQuote l | NList _ l | NStrong l | NEmphasis l | NDelete l | NHeading _ l => flat_map references l
    | NLink url l => List.app (flat_map references l) (if by_reference url then [(cat (map shown l), url)] else [])
    | _ => []
    end.
  Definition definition_line (r : string * string) : string := "[" ++ fst r ++ "]: " ++ snd r.
  Definition document (n : node) : string := shown n ++ cat (map definition_line (references n)).
End Shown.
(* every part of the document satisfies [P]; what has no rendering is not looked into *)
Fixpoint throughout (P : node -> Prop) (n : node) : Prop :=
  P n /\
  match n with
  | NRoot l | NParagraph l | NList _ l | NItem l | NQuote l | NLink _ l | NStrong l | NEmphasis l | NDelete l | NHeading _ l =>
    (fix all (l : list node) : Prop := match l with [] => True | x :: r => throughout P x /\ all r end) l
  | _ => True
  end.
Definition no_list (n : node) : Prop := throughout (fun x => match x with NList _ _ => False | _ => True end) n.
(* ordered lists are neither inside a list nor around one *)
Fixpoint tidy (inside : bool) (n : node) : Prop :=
  match n with
  | NList true l => inside = false /\ (fix all (l : list node) : Prop := match l with [] => True | x :: r => no_list x /\ all r end) l
  | NList false l => (fix all (l : list node) : Prop := match l with [] => True | x :: r => tidy true x /\ all r end) l
  | NRoot l | NParagraph l | NItem l | NQuote l | NLink _ l | NStrong l | NEmphasis l | NDelete l | NHeading _ l =>
    (fix all (l : list node) : Prop := match l with [] => True | x :: r => tidy inside x /\ all r end) l
  | _ => True
  end.
Definition leaf (n : node) : Prop := match n with NText _ | NInlineCode _ | NHtml _ | NOther _ _ => True | _ => False end.
(* the text of a link has no marks of its own *)
Definition plain_link (n : node) : Prop := match n with NLink _ l => Forall leaf l | _ => True end.
Definition plain_links (n : node) : Prop := throughout plain_link n.
Definition no_quote (n : node) : Prop := throughout (fun x => match x with NQuote _ => False | _ => True end) n.

(* ---------- how texts are written ---------- *)
Definition bracket (c : ascii) : Prop := c = "["%char \/ c = "]"%char.
Definition backslash : ascii := "\".
Fixpoint backslashes (n : nat) : string := match n with 0 => "" | S m => String backslash (backslashes m) end.
(* a Markdown reader takes [t] as the text [s]: a backslash before a backslash or a bracket is dropped *)
Inductive reads_as_text : string -> string -> Prop :=
| rt_nil : reads_as_text "" ""
| rt_escaped c t s : c = backslash \/ bracket c -> reads_as_text t s -> reads_as_text (String backslash (String c t)) (String c s)
| rt_plain c t s : c <> backslash -> ~ bracket c -> reads_as_text t s -> reads_as_text (String c t) (String c s).
(* ---------- documents of plain paragraphs ---------- *)
Definition paragraphs (texts : list string) : node := NRoot (map (fun t => NParagraph [NText t]) texts).
Inductive piece := Words (s : string) | Span (s : string).
Definition piece_node (p : piece) : node := match p with Words s => NText s | Span s => NInlineCode s end.
Definition prose (ps : list (list piece)) : node := NRoot (map (fun p => NParagraph (map piece_node p)) ps).
Definition spans (ps : list (list piece)) : list string :=
  flat_map (fun p => match p with Span s => ["`" ++ s ++ "`"] | Words _ => [] end) (concat ps).
Definition one_line_spans (ps : list (list piece)) : Prop :=
  forall s, In s (spans ps) -> any_char (Ascii.eqb line_feed) s = false.

(* ---------- HTML ---------- *)
Section AsHtml.
  Variable inline_code block_code : string -> string.
  Definition tagged (tag : string) (s : string) : string := "<" ++ tag ++ ">" ++ s ++ "</" ++ tag ++ ">".
  Fixpoint as_html (n : node) : string :=
    match n with
    | NRoot l => cat (map as_html l)
    | NText s | NHtml s => s
    | NParagraph l => tagged "p" (cat (map as_html l))
    | NList ordered l => tagged (if ordered then "ol" else "ul") (cat (map (fun i => tagged "li" (as_html i)) l))
    (* the paragraphs of an item are written without their tags *)
    | NItem l => cat (map (fun x => match x with NParagraph ps => cat (map as_html ps) | _ => as_html x end) l)
    | NInlineCode s => inline_code s
    | NCode _ s => block_code s
    | NQuote l => tagged "blockquote" (cat (map as_html l))
    | NLink url l => "<a href=""" ++ url ++ """>" ++ cat (map as_html l) ++ "</a>"
    | NStrong l => tagged "strong" (cat (map as_html l))
    | NEmphasis l => tagged "em" (cat (map as_html l))
    | NDelete l => tagged "s" (cat (map as_html l))
    | NHeading d l => tagged ("h" ++ decimal d) (cat (map as_html l))
    | NOther _ _ => ""
    end.
End AsHtml.

(* the snippets for code work on all the code of the document *)
Definition snippets_work (inline_code block_code : string -> res string) (n : node) : Prop :=
  throughout (fun x => match x with
                       | NInlineCode s => exists t, inline_code s = Ok t
                       | NCode _ s => exists t, block_code s = Ok t
                       | _ => True
                       end) n.

(* ---------- samples ---------- *)
Definition plain_options : md_options :=
  {| mo_backslashes := false; mo_brackets := false; mo_indent_first := true; mo_shortcut := true; mo_language := None; mo_go_indent := false |}.
Definition wrap_at (n : nat) : wrap_config := {| wc_length := Some n; wc_ignore := true |}.
Definition unwrapped : wrap_config := {| wc_length := None; wc_ignore := false |}.
Definition new_line : string := String line_feed "".
(* the second document of test_markdown_renderer_wrap, markdown.rs 802-822 *)
Definition repo_sample : node :=
  NRoot [NParagraph [NText ("Follows" ++ new_line);
                     NLink "https://github.com/opencontainers/image-spec/blob/main/manifest.md" [NText "OCI Image Manifest Specification"];
                     NText ("," ++ new_line ++ "and specifically the" ++ new_line);
                     NLink "https://github.com/opencontainers/image-spec/blob/main/descriptor.md#digests" [NText "Digest property"];
                     NText "."];
         NParagraph [NText ("An example can be found in" ++ new_line);
                     NLink "https://docs.docker.com/registry/spec/manifest-v2-2/#example-image-manifest" [NText "Example Image Manifest"];
                     NText "."]].
(* its expected output *)
Definition repo_sample_out : list string :=
  ["Follows"; "[OCI Image Manifest Specification]"; ", and specifically the"; "[Digest property]."; "";
   "An example can be found in"; "[Example Image Manifest]."; "";
   "[OCI Image Manifest Specification]: https://github.com/opencontainers/image-spec/blob/main/manifest.md";
   "[Digest property]: https://github.com/opencontainers/image-spec/blob/main/descriptor.md#digests";
   "[Example Image Manifest]: https://docs.docker.com/registry/spec/manifest-v2-2/#example-image-manifest"].
Definition bullets (l : list string) : node := NList false (map (fun t => NItem [NParagraph [NText t]]) l).
Definition numbered (l : list node) : node := NList true l.
Definition item (t : string) (more : list node) : node := NItem (NParagraph [NText t] :: more).
