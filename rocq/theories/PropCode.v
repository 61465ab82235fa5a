(* C21: comment filters keep the text and put every line in the comment. *)
From Coq Require Import String Ascii Bool Arith NArith Lia List.
Import ListNotations.
From Verif Require Import Base BaseProofs SemTypes Str StrProofs CodeModel CodeSpec CodeProofs.
Local Open Scope string_scope.

(* The deprecated filter with an explicit prefix: exactly the lines of the input, each with
   the prefix, in order. *)
Theorem C21_prefix_every_line : forall input prefix ls,
  reads_as input ls -> ls <> [] -> prefix <> "" -> ~ has_newline prefix ->
  text_of (map (fun l => prefix ++ l) ls) (comment_with_prefix input prefix).
Proof.
  intros input prefix ls Hr Hl Hp Hn.
  pose proof (reads_no_newline _ _ Hr) as Hnn. apply reads_as_lines in Hr. unfold comment_with_prefix. rewrite <- Hr.
  destruct ls as [|x ls]; [congruence|]. cbn [fold_left is_empty append]. cbv zeta.
  rewrite cwp_acc; [|apply is_empty_app; destruct prefix; [congruence|reflexivity]].
  change ((prefix ++ x) :: map (fun l => prefix ++ l) ls) with (map (fun l => prefix ++ l) (x :: ls)).
  apply text_of_join; [discriminate|]. apply Forall_forall. intros y Hy. apply in_map_iff in Hy as (l & <- & Hin).
  apply no_newline_app; [exact Hn|]. rewrite Forall_forall in Hnn. apply Hnn, Hin.
Qed.
Print Assumptions C21_prefix_every_line.

(* Every text has exactly one reading as lines, so the hypothesis can always be met. *)
Theorem C21_reading_unique : forall s, reads_as s (lines s) /\ (forall ls, reads_as s ls -> ls = lines s).
Proof. intros s. split; [apply lines_read|intros ls; apply reads_as_lines]. Qed.
Print Assumptions C21_reading_unique.

Example C21_prefix_ex :
  let input := ("first" ++ nl ++ nl ++ "second" ++ String cr nl)%string in
  reads_as input ["first"; ""; "second"] /\
  comment_with_prefix input "// " = ("// first" ++ nl ++ "// " ++ nl ++ "// second")%string.
Proof.
  split; [|reflexivity]. apply (reads_as_join ["first"; ""; String "s" (String "e" (String "c" (String "o" (String "n" (String "d" (String cr ""))))));""]).
  - discriminate.
  - repeat constructor; apply no_newline_any; reflexivity.
Qed.

(* With an empty prefix the claim fails: a leading blank line disappears. *)
Theorem C21_prefix_empty_refuted : exists input ls,
  reads_as input ls /\ ls <> [] /\ ~ text_of (map (fun l => "" ++ l) ls) (comment_with_prefix input "").
Proof.
  exists (nl ++ "a"), ["";"a"]. split; [|split; [discriminate|]].
  - apply (reads_as_join ["";"a"]); [discriminate|]. repeat constructor; apply no_newline_any; reflexivity.
  - intros H. apply text_of_inv in H as (_ & H & _). discriminate H.
Qed.
Print Assumptions C21_prefix_empty_refuted.

(* The configurable filter.  Whatever the format, the arguments and the renderer: the filter
   hands the normalised text to the renderer of the chosen format, with the line width left
   after indentation and prefix, and its output is the header, one prefixed line for each
   rendered line in order, and the footer, up to white space at the end of lines. *)
Theorem C21_comment_layout : forall checked formats dn df render input args out,
  input <> CUndefined ->
  comment checked formats dn df render input args = OOk out ->
  let fname := match ca_format args, dn with
               | Some n, _ => n | None, Some n => n | None, None => "default" end in
  let cf := match slookup fname formats with Some c => c | None => df end in
  let header := chosen (ca_header args) (cf_header cf) in
  let prefix := chosen (ca_prefix args) (cf_prefix cf) in
  let footer := chosen (ca_footer args) (cf_footer cf) in
  let n := match ca_indent args with Some n => n | None => 0 end in
  exists indent width text rendered,
    (match ca_indent_type args with Some t => t | None => cf_indent_type cf end = "space" /\ is_repeat " "%char n indent \/
     match ca_indent_type args with Some t => t | None => cf_indent_type cf end = "tab" /\ is_repeat "009"%char n indent) /\
    normalised (cf_trim cf) (cf_remove_dots cf) (cf_enforce_dots cf)
      (match input with CUndefined => "" | CText s => s | CSeq l => join nl l end) text /\
    (match (match ca_line_length args with Some l => Some l | None => cf_line_length cf end) with
     | None => width = None
     | Some l => exists w, width = Some w /\
         ((N.of_nat n + N.of_nat (String.length prefix) <= l -> w + N.of_nat n + N.of_nat (String.length prefix) = l) /\
          (l < N.of_nat n + N.of_nat (String.length prefix) -> checked = false))%N
     end) /\
    render text fname width = Ok rendered /\
    forall ls hs,
      reads_as rendered ls -> ls <> [] -> text_of hs header ->
      ~ blank prefix -> ~ has_newline prefix ->
      (footer = "" \/ ~ blank footer) -> ~ has_newline footer ->
      exists outl, text_of outl out /\
        Forall2 same_but_end outl (layout header indent prefix footer hs ls).
Proof.
  intros checked formats dn df render input args out Hi H fname cf header prefix footer n.
  unfold comment in H.
  assert (H' : (let fname := opt_get (ca_format args) (opt_get dn "default") in
    let cf := opt_get (slookup fname formats) df in
    let limit := opt_or (ca_line_length args) (cf_line_length cf) in
    let text := comment_text cf input in
    if cf_remove_dots cf && cf_enforce_dots cf then OErr "dots"
    else
      let text := comment_dots cf text in
      let indent_arg := opt_get (ca_indent args) 0 in
      let indent_type := opt_get (ca_indent_type args) (cf_indent_type cf) in
      match (if String.eqb indent_type "space" then Some (repeat_str indent_arg " ")
             else if String.eqb indent_type "tab" then Some (repeat_str indent_arg (String "009"%char ""))
             else None) with
      | None => OErr "indent type"
      | Some indent =>
        let header := opt_get (ca_header args) (opt_get (cf_header cf) "") in
        let prefix := opt_get (ca_prefix args) (opt_get (cf_prefix cf) "") in
        let footer := opt_get (ca_footer args) (opt_get (cf_footer cf) "") in
        match (match limit with
               | None => Some None
               | Some l => option_map Some (usize_sub checked l
                   (N.of_nat (String.length indent) + N.of_nat (String.length prefix))%N)
               end) with
        | None => OPanic
        | Some actual =>
          match render text fname actual with
          | Err e => OErr e
          | Ok rendered =>
            let comment := comment_expand (cf_trim cf) header indent prefix (lines rendered) in
            let comment := if is_empty header then comment else header ++ nl ++ comment in
            let comment := if is_empty footer then comment
                           else trim_end_ws comment ++ nl ++ indent ++ footer in
            OOk (trim_end_ws comment)
          end
        end
      end) = OOk out) by (destruct input; [congruence|exact H|exact H]).
  clear H. cbv zeta in H'.
  assert (Ef : opt_get (ca_format args) (opt_get dn "default") = fname).
  { unfold fname. destruct (ca_format args); [reflexivity|]. destruct dn; reflexivity. }
  rewrite Ef in H'.
  assert (Ec : opt_get (slookup fname formats) df = cf) by (unfold cf; destruct (slookup fname formats); reflexivity).
  rewrite Ec in H'.
  assert (Ech : forall a b, opt_get a (opt_get b "") = chosen a b) by (intros [a|] [b|]; reflexivity).
  rewrite !Ech in H'. fold header prefix footer in H'.
  assert (En : opt_get (ca_indent args) 0 = n) by (unfold n; destruct (ca_indent args); reflexivity).
  rewrite En in H'.
  destruct (cf_remove_dots cf && cf_enforce_dots cf) eqn:Hd; [discriminate H'|].
  set (ity := match ca_indent_type args with Some t => t | None => cf_indent_type cf end).
  assert (Et : opt_get (ca_indent_type args) (cf_indent_type cf) = ity) by (unfold ity; destruct (ca_indent_type args); reflexivity).
  rewrite Et in H'.
  destruct (if String.eqb ity "space" then _ else _) as [indent|] eqn:Hind in H'; [|discriminate H'].
  assert (Hrep : (ity = "space" /\ is_repeat " "%char n indent \/ ity = "tab" /\ is_repeat "009"%char n indent) /\
                 ~ has_newline indent /\ String.length indent = n).
  { destruct (String.eqb_spec ity "space") as [E|_].
    - injection Hind as <-. split; [left; split; [exact E|apply repeat_is]|]. split; [apply repeat_nn; reflexivity|].
      clear. induction n; cbn; congruence.
    - destruct (String.eqb_spec ity "tab") as [E|_]; [|discriminate Hind].
      injection Hind as <-. split; [right; split; [exact E|apply repeat_is]|]. split; [apply repeat_nn; reflexivity|].
      clear. induction n; cbn; congruence. }
  destruct Hrep as (Hrep & Hinn & Hlen).
  rewrite Hlen in H'.
  assert (El : opt_or (ca_line_length args) (cf_line_length cf) =
               match ca_line_length args with Some l => Some l | None => cf_line_length cf end)
    by (destruct (ca_line_length args); reflexivity).
  rewrite El in H'. clear El.
  set (lim := match ca_line_length args with Some l => Some l | None => cf_line_length cf end) in *.
  destruct (match lim with None => Some None | Some l => _ end) as [width|] eqn:Hw in H'; [|discriminate H'].
  destruct (render (comment_dots cf (comment_text cf input)) fname width) as [rendered|e] eqn:Hr; [|discriminate H'].
  exists indent, width, (comment_dots cf (comment_text cf input)), rendered.
  split; [exact Hrep|]. split; [apply text_normalised, Hd|]. split; [|split; [exact Hr|]].
  { destruct lim as [l|]; [|congruence].
    destruct (usize_sub checked l (N.of_nat n + N.of_nat (String.length prefix))%N) as [w|] eqn:Eu;
      [|discriminate Hw].
    cbn [option_map] in Hw. injection Hw as <-. exists w. split; [reflexivity|]. unfold usize_sub in Eu.
    destruct (N.leb_spec (N.of_nat n + N.of_nat (String.length prefix)) l) as [Hle|Hle].
    - injection Eu as <-. split; [intros _; lia|intros; lia].
    - destruct checked; [discriminate Eu|]. split; [intros; lia|reflexivity]. }
  intros ls hs Hls Hne Hhs Hpb Hpn Hfb Hfn.
  assert (Inj : forall A (a b : A), OOk a = OOk b -> a = b) by (intros A a b E; injection E; auto).
  apply Inj in H'. rewrite <- H'. clear H'.
  pose proof (reads_no_newline _ _ Hls) as Hlnn. apply reads_as_lines in Hls. rewrite <- Hls.
  rewrite expand_body by assumption.
  set (b := body (cf_trim cf) header indent prefix ls).
  assert (Hb0 : b <> []) by (apply body_ne, Hne).
  assert (Hbb : Forall (fun p => ~ blank p) b) by (apply body_nb, Hpb).
  assert (Hbn : Forall (fun p => ~ has_newline p) b) by (apply body_nn; assumption).
  assert (Hbs : Forall2 same_but_end b (plain_body header indent prefix ls)) by apply body_same.
  apply text_of_inv in Hhs as (Hh0 & Hhj & Hhn).
  set (head := match header with EmptyString => [] | _ => hs end).
  assert (Hhead : Forall (fun p => ~ has_newline p) head) by (unfold head; destruct header; auto).
  assert (E1 : (if is_empty header then join nl b else header ++ nl ++ join nl b) = join nl (head ++ b)%list).
  { unfold head. destruct header as [|c h] eqn:Eh; [reflexivity|]. cbn [is_empty].
    rewrite join_app by assumption. rewrite <- Hhj. reflexivity. }
  rewrite E1.
  set (foot := match footer with EmptyString => [] | _ => [indent ++ footer] end).
  assert (Hlast : ~ blank (List.last (head ++ b)%list "")).
  { destruct (last_case b Hb0) as (b' & x & Eb). rewrite Eb, app_assoc, last_last.
    rewrite Eb in Hbb. apply Forall_app in Hbb as [_ Hx]. inversion Hx; assumption. }
  assert (Hhb0 : (head ++ b)%list <> []) by (intros E; apply app_eq_nil in E as [_ E]; contradiction).
  assert (Sam : Forall2 same_but_end (head ++ b)%list (head ++ plain_body header indent prefix ls)%list).
  { apply Forall2_app; [|exact Hbs]. clear. induction head; constructor; auto. apply same_refl. }
  assert (Nn : Forall (fun p => ~ has_newline p) (head ++ b)%list) by (apply Forall_app; auto).
  assert (Lay : layout header indent prefix footer hs ls = (head ++ plain_body header indent prefix ls ++ foot)%list)
    by reflexivity.
  rewrite Lay.
  destruct (is_empty footer) eqn:Ef2.
  - assert (Hft : foot = []) by (unfold foot; destruct footer; [reflexivity|discriminate Ef2]).
    rewrite Hft, app_nil_r.
    exists (trim_last (head ++ b)%list). rewrite trim_join by assumption. split.
    + apply text_of_join; [apply trim_last_ne, Hhb0|apply trim_last_no_newline, Nn].
    + apply trim_last_same, Sam.
  - assert (Hft : foot = [indent ++ footer]) by (unfold foot; destruct footer; [discriminate Ef2|reflexivity]).
    destruct Hfb as [->|Hfb]; [discriminate Ef2|].
    rewrite trim_join by assumption.
    set (t := trim_last (head ++ b)%list) in *.
    assert (Ht0 : t <> []) by (apply trim_last_ne, Hhb0).
    assert (E2 : join nl t ++ nl ++ indent ++ footer = join nl (t ++ [(indent ++ footer)%string])%list)
      by (rewrite join_app; [reflexivity|exact Ht0|discriminate]).
    rewrite E2, trim_join.
    + exists (trim_last (t ++ [(indent ++ footer)%string])%list). split.
      * apply text_of_join; [apply trim_last_ne; destruct t; discriminate|apply trim_last_no_newline].
        apply Forall_app. split; [apply trim_last_no_newline, Nn|]. constructor; [|constructor].
        apply no_newline_app; assumption.
      * apply trim_last_same. rewrite app_assoc, Hft. apply Forall2_app; [apply trim_last_same, Sam|].
        constructor; [apply same_refl|constructor].
    + destruct t; discriminate.
    + rewrite last_last. apply not_blank_app_r, Hfb.
Qed.
Print Assumptions C21_comment_layout.

(* Without a header and without visible characters in the prefix, a leading blank line of the
   rendered text is lost: the layout claim fails. *)
Theorem C21_comment_blank_prefix_refuted : exists formats df input args render out,
  comment true formats None df render input args = OOk out /\
  (forall s n w, render s n w = Ok s) /\
  exists ls, reads_as "
a" ls /\ input = CText "
a" /\ chosen (ca_prefix args) (cf_prefix df) = "" /\
    ~ exists outl, text_of outl out /\ Forall2 same_but_end outl (layout "" "" "" "" [""] ls).
Proof.
  exists [], (Build_comment_format None None None "space" false false false None), (CText (nl ++ "a")),
    (Build_comment_args None None None None None None None), (fun s _ _ => Ok s), "a".
  split; [reflexivity|]. split; [reflexivity|].
  exists ["";"a"]. split.
  - apply (reads_as_join ["";"a"]); [discriminate|]. repeat constructor; apply no_newline_any; reflexivity.
  - split; [reflexivity|]. split; [reflexivity|]. intros (outl & Ht & Hf).
    apply text_of_inv in Ht as (Hne & E & _). inversion Hf as [|x y l m Hxy Hl]; subst.
    inversion Hl as [|x' y' l' m' Hxy' Hl']; subst. inversion Hl'; subst.
    cbn in E. destruct x; [discriminate E|]. injection E as _ E. destruct x; discriminate E.
Qed.
Print Assumptions C21_comment_blank_prefix_refuted.

(* A line length smaller than indentation plus prefix aborts the process when overflow checks
   are on; otherwise the width handed to the renderer is astronomically large, so the limit
   is not enforced. *)
Theorem C21_line_limit_refuted : forall df render s,
  cf_remove_dots df = false -> cf_indent_type df = "space" ->
  let args := Build_comment_args None (Some 3%N) None None None (Some "// # ") None in
  comment true [] None df render (CText s) args = OPanic /\
  forall out, comment false [] None df render (CText s) args = OOk out ->
    exists text rendered, render text "default" (Some (2 ^ 64 - 2)%N) = Ok rendered.
Proof.
  intros df render s Hd Hi args. unfold comment. cbn [ca_format ca_line_length ca_indent ca_indent_type ca_header ca_prefix ca_footer args opt_get opt_or slookup lookup].
  unfold slookup. cbn [lookup opt_get]. rewrite Hd, Hi. cbn [andb String.eqb Ascii.eqb Bool.eqb repeat_str String.length].
  split; [reflexivity|]. intros out.
  change (usize_sub false 3 (N.of_nat 0 + N.of_nat 5)) with (Some (2 ^ 64 - 2)%N). cbn [option_map].
  destruct (render _ "default" _) as [r|e] eqn:E; [|discriminate]. intros _. eauto.
Qed.
Print Assumptions C21_line_limit_refuted.

(* A realistic configuration meets the hypotheses of the layout theorem. *)
Example C21_comment_ex :
  let df := Build_comment_format (Some "/**") (Some " * ") (Some " */") "space" true true false None in
  let args := Build_comment_args None None (Some 2) None None None None in
  comment true [("java", df)] (Some "java") df (fun s _ _ => Ok s) (CText ("The user." ++ nl ++ nl ++ "See docs.." ++ nl)) args
  = OOk ("/**" ++ nl ++ "   * The user." ++ nl ++ "   *" ++ nl ++ "   * See docs" ++ nl ++ "   */").
Proof. reflexivity. Qed.

(* type_mapping and map_text replace exactly the mapped texts. *)
Theorem C21_map_text : forall maps input mapping default out,
  map_text maps input mapping default = out ->
  (exists m, lookup String.eqb mapping maps = Some m /\ lookup String.eqb input m = Some out) \/
  (forall m, lookup String.eqb mapping maps = Some m -> lookup String.eqb input m = None) /\
    (default = Some out \/ default = None /\ out = input).
Proof.
  intros maps input mapping default out <-. unfold map_text, slookup.
  destruct (lookup String.eqb mapping maps) as [m|] eqn:E1.
  - destruct (lookup String.eqb input m) as [t|] eqn:E2.
    + left. exists m. auto.
    + right. split; [intros m' [= <-]; exact E2|]. destruct default; auto.
  - right. split; [discriminate|]. destruct default; auto.
Qed.
Print Assumptions C21_map_text.
