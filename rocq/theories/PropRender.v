(* C124: the rendering of templates and the name of what they generate. *)
From Coq Require Import String Ascii Bool Arith Lia List.
Import ListNotations.
From Verif Require Import Base BaseProofs Json SemTypes Str StrProofs ForgeModel RenderModel RenderSpec.
From Verif Require DownProofs.
Local Open Scope string_scope.

(* ------------------------------------------------------------------ *)
(* Names *)

Lemma app_len (a b : string) : String.length (a ++ b) = String.length a + String.length b.
Proof. induction a as [|c a IH]; cbn; [reflexivity|]. rewrite IH. reflexivity. Qed.

Lemma strip_suffix_spec suf : forall s r, strip_suffix suf s = Some r <-> s = r ++ suf.
Proof.
  induction s as [|c s IH]; intros r; cbn [strip_suffix].
  - destruct (String.eqb_spec "" suf) as [<-|Hn].
    + rewrite str_app_nil_r. split; congruence.
    + split; [discriminate|]. intros E. destruct r; [cbn in E; congruence|discriminate].
  - destruct (String.eqb_spec (String c s) suf) as [<-|Hn].
    + split; [intros H; injection H as <-; reflexivity|]. intros E.
      apply (f_equal String.length) in E. rewrite app_len in E. destruct r; [reflexivity|cbn in E; lia].
    + destruct (strip_suffix suf s) as [t|].
      * pose proof (proj1 (IH t) eq_refl) as Et. split.
        -- intros H. injection H as <-. rewrite Et at 1. reflexivity.
        -- intros E. destruct r as [|d r]; [cbn in E; congruence|]. cbn in E. injection E as -> E.
           apply IH in E. congruence.
      * split; [discriminate|]. intros E. destruct r as [|d r]; [cbn in E; congruence|]. cbn in E. injection E as -> E.
        apply IH in E. discriminate.
Qed.

Lemma endings_snoc k : ".j2" ++ endings k = endings k ++ ".j2".
Proof. induction k as [|k IH]; [reflexivity|]. cbn [endings]. rewrite str_app_assoc, <- IH. reflexivity. Qed.

Lemma trim_ok : forall fuel s, String.length s <= fuel -> without_endings s (trim_end_str fuel ".j2" s).
Proof.
  induction fuel as [|k IH]; intros s H; cbn [trim_end_str].
  - destruct s; [|cbn in H; lia]. split; [exists 0; reflexivity|]. intros [|c r]; discriminate.
  - destruct (strip_suffix ".j2" s) as [r|] eqn:E.
    + apply strip_suffix_spec in E. subst s. rewrite app_len in H. cbn in H.
      destruct (IH r) as [[n En] Hn]; [lia|]. split; [|exact Hn]. exists (S n). cbn [endings].
      rewrite endings_snoc, <- str_app_assoc, <- En. reflexivity.
    + split; [exists 0; cbn; rewrite str_app_nil_r; reflexivity|]. intros r Er. apply strip_suffix_spec in Er. congruence.
Qed.

Lemma app_ends (a b x y : string) : String.length x = String.length y -> a ++ x = b ++ y -> a = b /\ x = y.
Proof.
  revert b. induction a as [|c a IH]; intros b Hl E.
  - destruct b as [|d b]; [auto|]. exfalso. apply (f_equal String.length) in E. cbn in E. rewrite app_len in E. lia.
  - destruct b as [|d b].
    + exfalso. apply (f_equal String.length) in E. cbn in E. rewrite app_len in E. lia.
    + cbn in E. injection E as -> E. destruct (IH b Hl E) as [-> ->]. auto.
Qed.

Lemma without_endings_fun b n m : without_endings b n -> without_endings b m -> n = m.
Proof.
  intros [[k Ek] Hn] [[j Ej] Hm]. rewrite Ek in Ej. clear Ek. revert j Ej.
  induction k as [|k IH]; intros [|j] E; cbn [endings] in E.
  - rewrite !str_app_nil_r in E. exact E.
  - rewrite str_app_nil_r, endings_snoc, <- str_app_assoc in E. destruct (Hn _ E).
  - rewrite str_app_nil_r, endings_snoc, <- str_app_assoc in E. symmetry in E. destruct (Hm _ E).
  - rewrite !endings_snoc, <- !str_app_assoc in E. apply app_ends in E as [E _]; [|reflexivity]. exact (IH _ E).
Qed.

Lemma base_exists : forall path, exists b, base_name path b.
Proof.
  induction path as [|c s (b & H1 & H2)].
  - exists "". split; [intros [|x] y; discriminate|left; reflexivity].
  - destruct H2 as [->|[d ->]].
    + destruct (ascii_dec c "/") as [->|Hc].
      * exists b. split; [exact H1|right; exists ""; reflexivity].
      * exists (String c b). split; [|left; reflexivity].
        intros [|d a] y E; cbn in E; [congruence|]. injection E as _ E. exact (H1 a y E).
    + exists b. split; [exact H1|]. right. exists (String c d). reflexivity.
Qed.

Lemma split_whole : forall b, (forall x y, b <> x ++ "/" ++ y) -> split_char "/" b = [b].
Proof.
  induction b as [|c b IH]; intros H; [reflexivity|]. cbn [split_char].
  destruct (Ascii.eqb_spec c "/") as [->|Hc]; [destruct (H "" b eq_refl)|].
  rewrite IH; [reflexivity|]. intros x y ->. exact (H (String c x) y eq_refl).
Qed.

Lemma base_is path b : base_name path b <-> b = last (split_char "/" path) "".
Proof.
  assert (G : forall b, base_name path b -> b = last (split_char "/" path) "").
  { intros x [H [->|[d ->]]]; [rewrite split_whole by exact H; reflexivity|].
    cbn [append]. rewrite DownProofs.split_char_app, (split_whole x H), last_last. reflexivity. }
  split; [apply G|]. intros ->. destruct (base_exists path) as [x Hx]. rewrite <- (G x Hx). exact Hx.
Qed.

Lemma default_name_ok file n : n = default_name file <-> exists b, base_name file b /\ without_endings b n.
Proof.
  unfold default_name. split.
  - intros ->. eexists. split; [apply base_is; reflexivity|]. apply trim_ok. lia.
  - intros (b & Hb & Hn). apply base_is in Hb. subst b. eapply without_endings_fun; [exact Hn|]. apply trim_ok. lia.
Qed.

Lemma calls_ok : forall calls start name,
  run_calls start calls = Ok name <-> exists names, Forall2 sets calls names /\ name = last_of start names.
Proof.
  induction calls as [|c calls IH]; intros start name; cbn [run_calls].
  - split; [intros H; injection H as <-; exists []; split; [constructor|reflexivity]|].
    intros (names & F & ->). inversion F. reflexivity.
  - assert (K : forall n, call_method c = Ok n <-> sets c n).
    { intros n. unfold call_method, sets. destruct (String.eqb_spec (ca_method c) "set_file_name"); [|split; [discriminate|tauto]].
      destruct (ca_args c) as [|[| | |x| |] [|? ?]]; split; try discriminate; try (intros [_ E]; congruence).
      intros H. injection H as ->. auto. }
    destruct (call_method c) as [m|e] eqn:E.
    + rewrite IH. pose proof (proj1 (K m) eq_refl) as Em. clear E. rename Em into E. split.
      * intros (names & F & ->). exists (m :: names). split; [constructor; assumption|reflexivity].
      * intros (names & F & ->). inversion F as [|? n ? names' Hn F']; subst. exists names'. split; [exact F'|].
        destruct E as [_ E], Hn as [_ Hn]. cbn [last_of]. congruence.
    + split; [discriminate|]. intros (names & F & _). inversion F as [|? n ? names' Hn F']; subst. apply K in Hn. congruence.
Qed.

(* A template is rendered to a text and a name exactly when it is there, its own rendering
   succeeds, and all its calls on the template object set a name.  The name is the last one
   set; without one, the configured name as rendered; without that, the name of the template
   file without its endings `.j2`. *)
Theorem C124_rendered :
  forall render_str load run ctx p file cfg escape text name,
    render_template render_str load run ctx p file cfg escape = Ok (text, name) <->
    exists src calls names start,
      load file = Some src /\ run ctx p escape src = (calls, Ok text) /\ Forall2 sets calls names /\
      match cfg with
      | Some c => render_str ctx p escape c = Ok start
      | None => exists b, base_name file b /\ without_endings b start
      end /\
      name = last_of start names.
Proof.
  intros render_str load run ctx p file cfg escape text name. unfold render_template. split.
  - intros H.
    destruct (match cfg with Some c => _ | None => _ end) as [start|e] eqn:Es; [|discriminate].
    destruct (load file) as [src|]; [|discriminate]. destruct (run ctx p escape src) as [calls outcome] eqn:Er.
    destruct (run_calls start calls) as [n|e] eqn:Ec; [|discriminate]. destruct outcome as [t|e]; [|discriminate].
    injection H as <- <-. apply calls_ok in Ec as (names & F & ->). exists src, calls, names, start.
    split; [reflexivity|]. split; [exact Er|]. split; [exact F|]. split; [|reflexivity].
    destruct cfg as [c|]; [destruct (render_str ctx p escape c); congruence|]. apply default_name_ok. congruence.
  - intros (src & calls & names & start & -> & -> & F & Hs & ->).
    replace (match cfg with Some c => _ | None => _ end) with (@Ok string start).
    + rewrite (proj2 (calls_ok calls start (last_of start names))) by eauto. reflexivity.
    + destruct cfg as [c|]; [rewrite Hs; reflexivity|]. apply default_name_ok in Hs. congruence.
Qed.

Example C124_rendered_case :
  let render_str (_ : json) (_ : params) (_ c : string) := if String.eqb c "{{" then Err "syntax" else Ok (c ++ "_r") in
  let run (_ : json) (_ : params) (_ src : string) := ([mk_call "set_file_name" [JStr "a"]; mk_call "set_file_name" [JStr src]], @Ok string "text") in
  let quiet (_ : json) (_ : params) (_ _ : string) := (@nil call, @Ok string "text") in
  let load (f : string) := if String.eqb f "d/x.md.j2" then Some "b" else None in
  render_template render_str load run JNull [] "d/x.md.j2" None "none" = Ok ("text", "b") /\
  render_template render_str load quiet JNull [] "d/x.md.j2" None "none" = Ok ("text", "x.md") /\
  render_template render_str load quiet JNull [] "d/x.md.j2" (Some "y") "none" = Ok ("text", "y_r") /\
  render_template render_str load quiet JNull [] "d/x.md.j2" (Some "{{") "none" = Err "InvalidFilePath" /\
  render_template render_str load quiet JNull [] "x.md.j2" None "none" = Err "InvalidTemplateFile".
Proof. repeat split; reflexivity. Qed.

(* Templates in different directories have the same default name, so one overwrites the
   other. *)
Theorem C124_default_names_refuted :
  ~ (forall f g n b, base_name f b -> without_endings b n -> (exists c, base_name g c /\ without_endings c n) -> f = g).
Proof.
  intros H.
  assert (D : exists b, base_name "java/Attributes.md.j2" b /\ without_endings b "Attributes.md") by (apply default_name_ok; reflexivity).
  assert (E : exists b, base_name "go/Attributes.md.j2" b /\ without_endings b "Attributes.md") by (apply default_name_ok; reflexivity).
  destruct D as (b & D1 & D2). discriminate (H _ _ _ _ D1 D2 E).
Qed.

(* The default name may be empty, and the path is then that of the directory. *)
Theorem C124_no_name_refuted :
  ~ (forall file start b, file <> "" -> base_name file b -> without_endings b start -> start <> "").
Proof.
  intros H. assert (D : exists b, base_name ".j2" b /\ without_endings b "") by (apply default_name_ok; reflexivity).
  destruct D as (b & D1 & D2). exact (H ".j2" "" b ltac:(discriminate) D1 D2 eq_refl).
Qed.

(* ------------------------------------------------------------------ *)
(* One text *)

Fixpoint first_fail (ws : list work) : option string :=
  match ws with [] => None | Fail e :: _ => Some e | Write _ _ :: r => first_fail r end.
Fixpoint texts (ws : list work) : list string :=
  match ws with [] => [] | Write _ c :: r => c :: texts r | Fail _ :: r => texts r end.
Definition outcome (ws : list work) : res (list string) :=
  match first_fail ws with Some e => Err e | None => Ok (texts ws) end.

Lemma outcome_app a b : outcome (app a b) =
  match outcome a with Err e => Err e | Ok l => match outcome b with Err e => Err e | Ok k => Ok (app l k) end end.
Proof.
  unfold outcome. induction a as [|[p c|e] a IH]; cbn.
  - destruct (first_fail b); reflexivity.
  - revert IH. destruct (first_fail (app a b)), (first_fail a), (first_fail b); intros IH; try congruence; injection IH as IH; rewrite IH; reflexivity.
  - reflexivity.
Qed.

Section Text.
  Variable render_str : json -> params -> string -> string -> res string.
  Variable load : string -> option string.
  Variable run : json -> params -> string -> string -> list call * res string.
  Variable jq : json -> string -> params -> res (list json).
  Variable matches : string -> string -> bool.
  Let rt := render_template render_str load run.

  Lemma items_ok out t file p values :
    render_items render_str load run t file p values = outcome (map (evaluate_template rt out (nameless t) file p) values).
  Proof.
    induction values as [|v values IH]; [reflexivity|]. cbn [render_items map].
    change (evaluate_template rt out (nameless t) file p v :: ?l) with (app [evaluate_template rt out (nameless t) file p v] l).
    rewrite (outcome_app [evaluate_template rt out (nameless t) file p v]), <- IH.
    unfold evaluate_template at 1. cbn [nameless tc_file_name tc_escape]. fold rt.
    destruct (rt v p file None (tc_escape t)) as [[text name]|e]; reflexivity.
  Qed.

  Lemma config_ok out ctx file t :
    render_config render_str load run jq ctx file t = outcome (process_template jq rt out ctx file (nameless t)).
  Proof.
    unfold render_config, process_template. cbn [nameless tc_params tc_filter tc_mode].
    destruct (init_params (opt_get (tc_params t) [])) as [p|e]; [|reflexivity].
    change (evaluate_when jq (nameless t) ctx p) with (evaluate_when jq t ctx p).
    destruct (evaluate_when jq t ctx p) as [[]|e]; [|reflexivity|reflexivity].
    destruct (execute_jq jq ctx (tc_filter t) p) as [v|e]; [|reflexivity].
    destruct (tc_mode t).
    - destruct v as [| | | |[|x l]|]; try (apply items_ok); reflexivity.
    - destruct v; apply items_ok.
  Qed.

  Lemma configs_ok out ctx file ts :
    render_configs render_str load run jq matches ctx file ts =
    outcome (flat_map (process_template jq rt out ctx file) (filter (fun t => matches (tc_template t) file) (map nameless ts))).
  Proof.
    induction ts as [|t ts IH]; [reflexivity|]. cbn [render_configs map filter].
    change (tc_template (nameless t)) with (tc_template t). destruct (matches (tc_template t) file); [|exact IH].
    cbn [flat_map]. rewrite outcome_app, <- config_ok, <- IH. reflexivity.
  Qed.

  Lemma files_ok out ctx files ts :
    render_files render_str load run jq matches ctx files ts = outcome (all_work jq rt matches out ctx files (map nameless ts)).
  Proof.
    induction files as [|f files IH]; [reflexivity|]. cbn [render_files]. unfold all_work. cbn [flat_map].
    rewrite outcome_app, <- configs_ok. fold (all_work jq rt matches out ctx files (map nameless ts)). rewrite <- IH. reflexivity.
  Qed.
End Text.

Lemma writes_ok ws l : writes ws l <-> first_fail ws = None /\ texts ws = map snd l /\ ws = map (fun x => Write (fst x) (snd x)) l.
Proof.
  unfold writes. split; [|tauto]. intros ->. split; [|split; [|reflexivity]]; induction l as [|x l IH]; cbn; congruence.
Qed.

Lemma fail_free ws : first_fail ws = None -> exists l, writes ws l.
Proof.
  unfold writes. induction ws as [|[p c|e] ws IH]; cbn; intros H; [exists []; reflexivity| |discriminate].
  destruct (IH H) as [l ->]. exists ((p, c) :: l). reflexivity.
Qed.

Lemma join_concat l : join "" l = String.concat "" l.
Proof. induction l as [|x [|y l] IH]; [reflexivity|reflexivity|]. cbn [join String.concat] in *. rewrite IH. reflexivity. Qed.

(* Generating one text succeeds exactly when generating files without configured names would,
   wherever to, and the text is that of all the files it would write, in the order of the
   template files, of their configurations and of the values; else the error is the first of
   those it would report. *)
Theorem C124_one_text :
  forall render_str load run jq matches ctx files ts out,
    let work := all_work jq (render_template render_str load run) matches out ctx files (map nameless ts) in
    (forall text, generate_to_string render_str load run jq matches ctx files ts = Ok text <->
       exists l, writes work l /\ text = text_of l) /\
    (forall e, generate_to_string render_str load run jq matches ctx files ts = Err e <->
       exists l before after, work = app before (Fail e :: after) /\ writes before l).
Proof.
  intros render_str load run jq matches ctx files ts out work. unfold generate_to_string.
  rewrite (files_ok render_str load run jq matches out). fold work. generalize work as ws. clear. intros ws.
  unfold outcome. split.
  - intros text. destruct (first_fail ws) as [e|] eqn:E.
    + split; [discriminate|]. intros (l & W & _). apply writes_ok in W as (W & _). congruence.
    + split.
      * intros H. injection H as <-. destruct (fail_free ws E) as [l W]. exists l. split; [exact W|].
        apply writes_ok in W as (_ & -> & _). apply join_concat.
      * intros (l & W & ->). apply writes_ok in W as (_ & -> & _). rewrite join_concat. reflexivity.
  - intros e. assert (G : first_fail ws = Some e <-> exists l before after, ws = app before (Fail e :: after) /\ writes before l).
    { split.
      - induction ws as [|[p c|x] ws IH]; cbn; intros H; [discriminate| |].
        + destruct (IH H) as (l & b & a & E & W). unfold writes in W. exists ((p, c) :: l), (Write p c :: b), a.
          split; [cbn; rewrite E; reflexivity|unfold writes; cbn; rewrite W; reflexivity].
        + injection H as ->. exists [], [], ws. split; reflexivity.
      - intros (l & b & a & -> & W). unfold writes in W. rewrite W. clear W. induction l as [|x l IH]; [reflexivity|]. exact IH. }
    rewrite <- G. destruct (first_fail ws) as [x|]; split; congruence.
Qed.

Example C124_one_text_case :
  let run (ctx : json) (_ : params) (_ src : string) :=
    (@nil call, match ctx with JStr s => Ok (src ++ s ++ ";") | _ => Err "not a text" end) in
  let jq (ctx : json) (_ : string) (_ : params) := Ok [ctx] in
  let t m n := {| tc_template := "*"; tc_filter := "."; tc_mode := m; tc_params := None; tc_file_name := n; tc_escape := "none"; tc_when := None |} in
  let gen ctx m n := generate_to_string (fun _ _ _ _ => Err "no name") (fun f => Some (f ++ ":")) run jq (fun _ _ => true) ctx ["a"; "b"] [t m n] in
  gen (JArr [JStr "x"; JStr "y"]) Each None = Ok "a:x;a:y;b:x;b:y;" /\
  gen (JArr [JStr "x"; JStr "y"]) Each (Some "bad") = Ok "a:x;a:y;b:x;b:y;" /\
  gen (JArr [JStr "x"; JNull]) Each None = Err "TemplateEvaluationFailed" /\
  gen (JArr []) Single None = Ok "".
Proof. repeat split; reflexivity. Qed.

(* What is generated as one text need not be generated as files: a name that cannot be
   rendered only fails the latter. *)
Theorem C124_same_success_refuted :
  ~ (forall render_str load run jq matches ctx files ts out text,
       generate_to_string render_str load run jq matches ctx files ts = Ok text ->
       exists l, writes (all_work jq (render_template render_str load run) matches out ctx files ts) l).
Proof.
  intros H.
  destruct (H (fun _ _ _ _ => Err "no name") (fun _ => Some "src") (fun _ _ _ _ => ([], Ok "text")) (fun c _ _ => Ok [c]) (fun _ _ => true)
    (JStr "x") ["a.j2"]
    [{| tc_template := "*"; tc_filter := "."; tc_mode := Single; tc_params := None; tc_file_name := Some "{{"; tc_escape := "none"; tc_when := None |}]
    "out" "text" eq_refl) as [l E].
  cbn in E. destruct l; discriminate.
Qed.

(* ------------------------------------------------------------------ *)
(* Where it goes *)

Definition lines_of (rs : list (res (string * string))) : string :=
  String.concat "" (flat_map (fun r => match r with Ok x => [fst x ++ String "010" ""] | Err _ => [] end) rs).

Lemma concat_nil_cons x l : String.concat "" (x :: l) = x ++ String.concat "" l.
Proof. destruct l; cbn; [rewrite str_app_nil_r; reflexivity|reflexivity]. Qed.

(* Sent to a stream, the texts come out whole, each with a line break, in the order they are
   made, and no file changes; sent to files, nothing is printed and each file holds the last
   text made under its name. *)
Theorem C124_streams :
  forall out rs o,
    deliver_all DStdout out rs o = mk_outputs (ou_files o) (ou_stdout o ++ lines_of rs) (ou_stderr o) /\
    deliver_all DStderr out rs o = mk_outputs (ou_files o) (ou_stdout o) (ou_stderr o ++ lines_of rs) /\
    (ou_stdout (deliver_all DFile out rs o) = ou_stdout o /\ ou_stderr (deliver_all DFile out rs o) = ou_stderr o) /\
    forall before text name after, rs = app before (Ok (text, name) :: after) ->
      (forall t n, In (Ok (t, n)) after -> push out n <> push out name) ->
      slookup (push out name) (ou_files (deliver_all DFile out rs o)) = Some text.
Proof.
  intros out rs o. split; [|split; [|split]].
  - unfold deliver_all, lines_of. revert o. induction rs as [|[[t n]|e] rs IH]; intros [a b c]; cbn [fold_left flat_map app].
    + cbn. rewrite str_app_nil_r. reflexivity.
    + rewrite IH. cbn [deliver ou_files ou_stdout ou_stderr fst]. rewrite concat_nil_cons, !str_app_assoc. reflexivity.
    + rewrite IH. reflexivity.
  - unfold deliver_all, lines_of. revert o. induction rs as [|[[t n]|e] rs IH]; intros [a b c]; cbn [fold_left flat_map app].
    + cbn. rewrite str_app_nil_r. reflexivity.
    + rewrite IH. cbn [deliver ou_files ou_stdout ou_stderr fst]. rewrite concat_nil_cons, !str_app_assoc. reflexivity.
    + rewrite IH. reflexivity.
  - unfold deliver_all. revert o. induction rs as [|[[t n]|e] rs IH]; intros o; cbn [fold_left]; [auto| |apply IH].
    destruct (IH (deliver DFile out (t, n) o)) as [E1 E2]. rewrite E1, E2. auto.
  - intros before text name after -> H. unfold deliver_all. rewrite fold_left_app. cbn [fold_left].
    set (o1 := deliver DFile out (text, name) _).
    assert (E : slookup (push out name) (ou_files o1) = Some text).
    { unfold o1. cbn. apply (lookup_insert_eq String.eqb String.eqb_eq). }
    clearbody o1. revert o1 E. induction after as [|[[t n]|e] after IH]; intros o1 E; cbn [fold_left]; [exact E| |].
    + apply IH; [intros t' n' Hi; apply (H t' n'); right; exact Hi|]. cbn [deliver ou_files fst snd]. unfold write, slookup, sinsert. cbn [fst snd].
      rewrite (lookup_insert_ne String.eqb String.eqb_eq); [exact E|]. intros K. apply (H t n (or_introl eq_refl)). congruence.
    + apply IH; [|exact E]. intros t' n' Hi. apply (H t' n'). right. exact Hi.
Qed.

Print Assumptions C124_rendered.
Print Assumptions C124_default_names_refuted.
Print Assumptions C124_no_name_refuted.
Print Assumptions C124_one_text.
Print Assumptions C124_same_success_refuted.
Print Assumptions C124_streams.
