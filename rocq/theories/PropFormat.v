(* C99, C100: what the comment filter makes of a Markdown text. *)
From Coq Require Import String Ascii Bool Arith Lia List.
Import ListNotations.
From Verif Require Import Base BaseProofs SemTypes Str StrProofs CodeModel FormatModel FormatSpec FormatProofs.
Local Open Scope string_scope.

(* ---------- C99: Markdown ---------- *)
(* all that the document shows is written, in its order and once, and nothing else but white space and
   the marks of quoted lines.  _partial: of the documents with nested numbered lists, or with marked up
   text in the label of a link that is written by reference, this is false, see the refutations *)
Theorem C99_all_written_partial : forall o cfg n,
  tidy false n -> (mo_shortcut o = true -> plain_links n) ->
  same_ink_unquoted (render_md_tree o cfg n) (document o (text_out o) n).
Proof.
  intros o cfg n Ht Hl. unfold same_ink_unquoted.
  rewrite (sk_rendered o (fun c => blankb c || quoteb c)); [| |split; [left; reflexivity|exact Hl]].
  - rewrite (proj2 (emit_tidy o n) Ht). reflexivity.
  - intros c H. rewrite white_blank in H. rewrite H. reflexivity.
Qed.
Print Assumptions C99_all_written_partial.
(* without quotes: nothing else but white space *)
Theorem C99_no_quote_partial : forall o cfg n,
  tidy false n -> (mo_shortcut o = true -> plain_links n) -> no_quote n ->
  same_ink (render_md_tree o cfg n) (document o (text_out o) n).
Proof.
  intros o cfg n Ht Hl Hq. unfold same_ink.
  rewrite (sk_rendered o blankb white_is_blank cfg n); [|split; [right; exact Hq|exact Hl]]. rewrite (proj2 (emit_tidy o n) Ht). reflexivity.
Qed.
Print Assumptions C99_no_quote_partial.
Example C99_all_written_case : tidy false repo_sample /\ plain_links repo_sample /\ no_quote repo_sample /\
  split_char line_feed (render_md_tree plain_options (wrap_at 30) repo_sample) = repo_sample_out /\
  tidy false (NRoot [NQuote [NParagraph [NText "a"]]; NList true [item "b" []; item "c" []]; bullets ["d"]; NHeading 2 [NText "e"]]).
Proof. vm_compute. repeat (constructor || reflexivity). Qed.

(* two settings of the line length, the layouts differ in nothing but white space and quote marks;
   this holds of nested lists too *)
Theorem C99_wrap : forall o cfg cfg' n, (mo_shortcut o = true -> plain_links n) ->
  same_ink_unquoted (render_md_tree o cfg n) (render_md_tree o cfg' n) /\
  (no_quote n -> same_ink (render_md_tree o cfg n) (render_md_tree o cfg' n)).
Proof.
  intros o cfg cfg' n Hl.
  assert (Hb : forall c, is_white c = true -> blankb c || quoteb c = true) by (intros c H; rewrite white_blank in H; rewrite H; reflexivity).
  split; [|intros Hq]; unfold same_ink_unquoted, same_ink.
  - rewrite (sk_rendered o _ Hb cfg n), (sk_rendered o _ Hb cfg' n) by (split; [left; reflexivity|exact Hl]). reflexivity.
  - rewrite (sk_rendered o blankb white_is_blank cfg n), (sk_rendered o blankb white_is_blank cfg' n) by (split; [right; exact Hq|exact Hl]). reflexivity.
Qed.
Print Assumptions C99_wrap.
Example C99_wrap_case :
  render_md_tree plain_options (wrap_at 30) repo_sample <> render_md_tree plain_options unwrapped repo_sample.
Proof. vm_compute. discriminate. Qed.

(* paragraphs of text: the words are those of the texts, whatever the line length *)
Theorem C99_words : forall o cfg texts wss,
  Forall2 (fun t ws => words (text_out o t) ws) texts wss ->
  words (render_md_tree o cfg (paragraphs texts)) (concat wss).
Proof.
  intros o cfg texts wss H. assert (E : concat wss = tk (render_md_tree o cfg (paragraphs texts))).
  { rewrite paragraphs_words. induction H as [|t ws texts wss Ht _ IH]; [reflexivity|]. cbn [map concat]. rewrite <- IH, (words_tk _ _ Ht). reflexivity. }
  rewrite E. exact (tok_words (render_md_tree o cfg (paragraphs texts)) "" eq_refl).
Qed.
Print Assumptions C99_words.
(* and there is one way to take a text apart *)
Theorem C99_words_unique : forall s, exists ws, words s ws /\ forall ws', words s ws' -> ws' = ws.
Proof.
  intros s. exists (tk s). split; [exact (tok_words s "" eq_refl)|]. intros ws' H. exact (words_tk s ws' H).
Qed.
Print Assumptions C99_words_unique.
Example C99_words_case :
  words "one two" ["one"; "two"] /\ words "three" ["three"] /\
  split_char line_feed (render_md_tree plain_options (wrap_at 3) (paragraphs ["one two"; "three"])) = ["one"; "two"; ""; ""; "three"; ""].
Proof.
  split; [apply (wd_word "one" " " "two" ["two"]); [discriminate|reflexivity|reflexivity|apply wd_last; [discriminate|reflexivity]]|].
  split; [apply wd_last; [discriminate|reflexivity]|reflexivity].
Qed.
(* with no line length the texts are written as they are, with an empty line between them *)
Theorem C99_unwrapped : forall o cfg texts,
  wc_length cfg = None ->
  Forall (fun t => exists a c, text_out o t = a ++ String c "" /\ c <> line_feed) texts ->
  render_md_tree o cfg (paragraphs texts) = String.concat new_line (map (fun t => text_out o t ++ new_line) texts).
Proof.
  intros o cfg texts Hl F. destruct cfg as [l g]. cbn in Hl. subst l. rewrite unwrapped_exact by exact F. rewrite map_map. clear F.
  induction texts as [|t texts IH]; [reflexivity|]. destruct texts as [|t2 texts]; [reflexivity|]. cbn [map] in *.
  change (join nl (?x :: ?y :: ?r)) with (x ++ nl ++ join nl (y :: r)). rewrite IH. reflexivity.
Qed.
Print Assumptions C99_unwrapped.
Example C99_unwrapped_case : render_md_tree plain_options unwrapped (paragraphs ["one  two"; "three"]) =
  "one  two" ++ new_line ++ new_line ++ "three" ++ new_line.
Proof. reflexivity. Qed.

(* the line length.  _partial: the space before the last word of a line is not counted, see
   C99_limit_refuted; for paragraphs of text and code, of any length *)
Theorem C99_limit_partial : forall o cfg m ps l,
  wc_length cfg = Some m -> one_line_spans ps -> line_in l (render_md_tree o cfg (prose ps)) ->
  String.length l <= m + 1 \/ ~ (exists a b, l = a ++ " " ++ b) \/ In l (spans ps).
Proof.
  intros o cfg m ps l Hm Hs Hl. destruct (prose_limit o cfg m ps l Hm Hs Hl) as [H|[H|H]]; [left; lia| |right; right; exact H].
  right. left. intros (a & b & ->). apply free_app in H. destruct H as [_ H]. discriminate H.
Qed.
Print Assumptions C99_limit_partial.
Example C99_limit_case : one_line_spans [[Words "see "; Span "a b"; Words " there"]] /\
  split_char line_feed (render_md_tree plain_options (wrap_at 5) (prose [[Words "see "; Span "a b"; Words " there"]])) = ["see"; "`a b`"; "there"; ""].
Proof. split; [intros s [<-|[]]; reflexivity|reflexivity]. Qed.
Theorem C99_limit_refuted : exists o cfg m ps l,
  wc_length cfg = Some m /\ one_line_spans ps /\ line_in l (render_md_tree o cfg (prose ps)) /\
  ~ (String.length l <= m \/ ~ (exists a b, l = a ++ " " ++ b) \/ In l (spans ps)).
Proof.
  exists plain_options, (wrap_at 9), 9, [[Words "aaaa bbbbb"]], "aaaa bbbbb". split; [reflexivity|]. split; [intros s []|]. split.
  - split; [reflexivity|]. exists "", new_line. split; [reflexivity|]. split; [left; reflexivity|right; exists ""; reflexivity].
  - intros [H|[H|[]]]; [cbn in H; lia|]. apply H. exists "aaaa", "bbbbb". reflexivity.
Qed.
Print Assumptions C99_limit_refuted.

(* brackets *)
Theorem C99_brackets : forall o s a c b, mo_brackets o = true ->
  text_out o s = a ++ String c b -> bracket c ->
  exists a' k, a = a' ++ backslashes k /\ Nat.odd k = true /\ ~ (exists a'', a' = a'' ++ String backslash "").
Proof.
  intros o s a c b Ho E Hc. unfold text_out in E. rewrite Ho in E. change false with (Nat.odd 0) in E.
  destruct (escape_brackets _ "" 0 (or_introl eq_refl) a c b Hc E) as (q & j & Ea & Oj & Uq). exists q, j. split; [exact Ea|]. split; [exact Oj|].
  intros (q' & Eq). destruct Uq as [->|(x & d & -> & Hd)]; [destruct q'; discriminate Eq|]. apply Hd. clear - Eq. revert q' Eq.
  induction x as [|y x IH]; intros [|z q'] Eq; cbn in Eq.
  - injection Eq as ->. reflexivity.
  - destruct q'; discriminate Eq.
  - destruct x; discriminate Eq.
  - injection Eq as _ Eq. exact (IH q' Eq).
Qed.
Print Assumptions C99_brackets.
Theorem C99_escape : forall o s, mo_brackets o = true -> mo_backslashes o = true -> reads_as_text (text_out o s) s.
Proof. intros o s H1 H2. unfold text_out. rewrite H1, H2. apply escape_reads. Qed.
Print Assumptions C99_escape.
Example C99_escape_case : text_out {| mo_backslashes := true; mo_brackets := true; mo_indent_first := true; mo_shortcut := true; mo_language := None; mo_go_indent := false |} "a [b\c]" = "a \[b\\c\]"
  /\ text_out {| mo_backslashes := false; mo_brackets := true; mo_indent_first := true; mo_shortcut := true; mo_language := None; mo_go_indent := false |} "\[b\\]" = "\[b\\\]".
Proof. split; reflexivity. Qed.
(* the override replaces the line length and nothing else *)
Theorem C99_override : forall parse formats text format o cfg n k,
  slookup format formats = Some (o, cfg) -> parse text = Ok n ->
  render_md parse formats text format None = Ok (render_md_tree o cfg n) /\
  render_md parse formats text format (Some k) = Ok (render_md_tree o {| wc_length := Some k; wc_ignore := wc_ignore cfg |} n).
Proof. intros parse formats text format o cfg n k H1 H2. unfold render_md. rewrite H1, H2. split; reflexivity. Qed.
Print Assumptions C99_override.

(* what goes wrong *)
(* words are split where a link, code or the like ends *)
Theorem C99_words_refuted : exists o cfg cfg' n ws, tidy false n /\ plain_links n /\
  words (render_md_tree o cfg n) ws /\ ~ words (render_md_tree o cfg' n) ws.
Proof.
  exists plain_options, unwrapped, (wrap_at 4), (NRoot [NParagraph [NText "a "; NInlineCode "b"; NText ", d"]]), ["a"; "`b`,"; "d"].
  split; [repeat (constructor || exact I)|]. split; [repeat (constructor || exact I)|]. split.
  - exact (tok_words (render_md_tree plain_options unwrapped (NRoot [NParagraph [NText "a "; NInlineCode "b"; NText ", d"]])) "" eq_refl).
  - intros H. apply words_tk in H. vm_compute in H. discriminate H.
Qed.
Print Assumptions C99_words_refuted.
(* the numbers of nested numbered lists *)
Theorem C99_numbers_refuted :
  let n := NRoot [numbered [item "a" [numbered [item "b" []]]; item "c" []]] in
  ~ same_ink (render_md_tree plain_options unwrapped n) (document plain_options (text_out plain_options) n) /\
  same_ink (render_md_tree plain_options unwrapped n) "1.a2.b1.c".
Proof. split; vm_compute; [discriminate|reflexivity]. Qed.
Print Assumptions C99_numbers_refuted.
(* a nested list is written four columns to the right of the text of its item, where Markdown does not
   read a list *)
Theorem C99_nested_refuted :
  render_md_tree plain_options unwrapped (NRoot [NList false [item "a" [bullets ["b"]]]]) =
  new_line ++ "  - a" ++ new_line ++ "        - b".
Proof. reflexivity. Qed.
Print Assumptions C99_nested_refuted.
(* what has no rendering leaves no space: a hard line break *)
Theorem C99_break_refuted :
  render_md_tree plain_options unwrapped (NRoot [NParagraph [NText "foo"; NOther "break" []; NText "bar"]]) = "foobar" ++ new_line.
Proof. reflexivity. Qed.
Print Assumptions C99_break_refuted.
(* two links with one label *)
Theorem C99_labels_refuted :
  split_char line_feed (render_md_tree plain_options unwrapped
    (NRoot [NParagraph [NLink "u" [NText "here"]; NText " and "; NLink "v" [NText "here"]]])) =
  ["[here] and [here]"; ""; "[here]: u"; "[here]: v"].
Proof. reflexivity. Qed.
Print Assumptions C99_labels_refuted.
(* a link whose label has emphasis, with a line length: the definition does not fit the link *)
Theorem C99_label_refuted :
  let n := NRoot [NParagraph [NLink "u" [NText "a "; NStrong [NText "b"]]]] in
  split_char line_feed (render_md_tree plain_options (wrap_at 80) n) = ["[a **b**]"; ""; "[[a **b**]: u"] /\
  split_char line_feed (render_md_tree plain_options unwrapped n) = ["[a **b**]"; ""; "[a **b**]: u"] /\ tidy false n.
Proof. split; [reflexivity|]. split; [reflexivity|]. repeat (constructor || exact I). Qed.
Print Assumptions C99_label_refuted.
(* a heading is wrapped *)
Theorem C99_heading_refuted :
  split_char line_feed (render_md_tree plain_options (wrap_at 10) (NRoot [NHeading 1 [NText "Title of "; NStrong [NText "the"]; NText " page"]])) =
  [""; "# Title of "; "**the**"; "page"; ""].
Proof. reflexivity. Qed.
Print Assumptions C99_heading_refuted.
(* the mark of a quoted line is written before every text *)
Theorem C99_quote_refuted :
  split_char line_feed (render_md_tree plain_options (wrap_at 80) (NRoot [NQuote [NParagraph [NText "a "; NStrong [NText "b"]; NText " c"]]])) =
  ["> a **b**>  c"; ""].
Proof. reflexivity. Qed.
Print Assumptions C99_quote_refuted.
(* a first word that does not fit leaves an empty line before it *)
Theorem C99_first_word_refuted :
  split_char line_feed (render_md_tree plain_options (wrap_at 5) (paragraphs ["abcdefghij"])) = [""; "abcdefghij"; ""].
Proof. reflexivity. Qed.
Print Assumptions C99_first_word_refuted.
(* after a nested list the text of the outer item is not indented *)
Theorem C99_indent_refuted :
  split_char line_feed (render_md_tree plain_options (wrap_at 20)
    (NRoot [NList false [NItem [NParagraph [NText "a"]; bullets ["b"]; NParagraph [NText "c and d and e and f and g"]]]])) =
  [""; "  - a"; "        - b"; ""; "c and d and e and f"; "and g"].
Proof. reflexivity. Qed.
Print Assumptions C99_indent_refuted.

(* ---------- C100: HTML ---------- *)
(* with the default options and snippets that work: the elements of the document, in their order.
   _partial: the two other options leave tags open on purpose, for them see C100_wrap; and texts are not
   escaped, see C100_escape_refuted *)
Theorem C100_elements_partial : forall inline_code block_code cfg n,
  exists out, render_html_tree {| ho_old_paragraph := false; ho_omit_li := false |} (fun s => Ok (inline_code s)) (fun s => Ok (block_code s)) cfg n = Ok out /\
    same_ink out (as_html inline_code block_code n).
Proof. intros f g cfg n. exact (html_default f g cfg n). Qed.
Print Assumptions C100_elements_partial.
Example C100_elements_case :
  as_html (fun s => s) (fun s => s) (NRoot [NParagraph [NText "a"; NStrong [NText "b"]]; numbered [item "c" []]]) =
  "<p>a<strong>b</strong></p><ol><li>c</li></ol>".
Proof. reflexivity. Qed.
(* the line length moves white space only, for all the options; and it does not decide about failure *)
Theorem C100_wrap : forall o inline_code block_code cfg cfg' n,
  (forall e, render_html_tree o inline_code block_code cfg n = Err e -> render_html_tree o inline_code block_code cfg' n = Err e) /\
  (forall out out', render_html_tree o inline_code block_code cfg n = Ok out -> render_html_tree o inline_code block_code cfg' n = Ok out' -> same_ink out out').
Proof.
  intros o ic bc cfg cfg' n. pose proof (html_wraps o ic bc cfg cfg' n) as H. split.
  - intros e E. rewrite E in H. destruct (render_html_tree o ic bc cfg' n); [contradiction|]. congruence.
  - intros a b Ea Eb. rewrite Ea, Eb in H. exact H.
Qed.
Print Assumptions C100_wrap.
(* it fails when a snippet fails on a piece of code of the document, and not otherwise *)
Theorem C100_fails : forall o inline_code block_code cfg n,
  (exists out, render_html_tree o inline_code block_code cfg n = Ok out) <-> snippets_work inline_code block_code n.
Proof. intros o ic bc cfg n. exact (html_fails o ic bc cfg n). Qed.
Print Assumptions C100_fails.
Example C100_fails_case : snippets_work (fun s => Ok s) (fun _ => Err "bad") repo_sample /\
  ~ snippets_work (fun s => Ok s) (fun _ => Err "bad") (NRoot [NCode None "x"]).
Proof. split; [repeat (constructor || exact I)|]. intros [_ [[[t H] _] _]]. discriminate H. Qed.
Theorem C100_escape_refuted :
  render_html_tree {| ho_old_paragraph := false; ho_omit_li := false |} (fun s => Ok s) (fun s => Ok s) unwrapped
    (NRoot [NParagraph [NText "a <b> c & d"; NLink "x""y" [NText "z"]]]) =
  Ok "<p>a <b> c & d<a href=""x""y"">z</a></p>".
Proof. reflexivity. Qed.
Print Assumptions C100_escape_refuted.
