(* Proofs about the renderers of the comment filter. *)
From Coq Require Import String Ascii Bool Arith Lia DecimalString List.
Import ListNotations.
From Verif Require Import Base BaseProofs SemTypes Str StrProofs CodeModel FormatModel FormatSpec.
Local Open Scope string_scope.

Lemma without_app drop a b : without drop (a ++ b) = without drop a ++ without drop b.
Proof. induction a as [|c a IH]; cbn; [reflexivity|]. destruct (drop c); [exact IH|]. cbn. rewrite IH. reflexivity. Qed.
Lemma cat_cons a l : cat (a :: l) = a ++ cat l.
Proof. unfold cat. destruct l; cbn; [rewrite str_app_nil_r; reflexivity|reflexivity]. Qed.
Lemma cat_app a b : cat (List.app a b) = cat a ++ cat b.
Proof. induction a as [|x a IH]; [reflexivity|]. cbn [List.app]. rewrite !cat_cons, IH, str_app_assoc. reflexivity. Qed.
Lemma white_blank c : is_white c = blankb c.
Proof. destruct c as [[] [] [] [] [] [] [] []]; reflexivity. Qed.
Lemma cut_words_cat sp : forall s b acc, cat (cut_words sp b acc s) = acc ++ s.
Proof.
  induction s as [|c s IH]; intros b acc; cbn [cut_words].
  - destruct acc; [reflexivity|]. cbn [is_empty]. rewrite cat_cons. reflexivity.
  - destruct (b && negb (sp c)).
    + rewrite cat_cons, IH. reflexivity.
    + rewrite IH, str_app_assoc. reflexivity.
Qed.

Section Ink.
  Variable drop : ascii -> bool.
  Hypothesis Hblank : forall c, is_white c = true -> drop c = true.
  Notation sk := (without drop).
  Lemma sk_dropped s : all_chars drop s = true -> sk s = "".
  Proof. induction s as [|c s IH]; [reflexivity|]. cbn. intros H. apply andb_prop in H. destruct H as [-> H]. exact (IH H). Qed.
  Lemma sk_trim_end p s : (forall c, p c = true -> drop c = true) -> sk (trim_end p s) = sk s.
  Proof.
    intros Hp. destruct (trim_end_spec p s) as (t & E & A & _). rewrite E at 2. rewrite without_app.
    rewrite (sk_dropped t), str_app_nil_r; [reflexivity|]. exact (all_chars_imp p drop t Hp A).
  Qed.
  Lemma sk_trim_start s : sk (trim_start is_white s) = sk s.
  Proof. induction s as [|c s IH]; [reflexivity|]. cbn. destruct (is_white c) eqn:E; [|reflexivity]. rewrite (Hblank c E). exact IH. Qed.
  Lemma space_drop c : is_space c = true -> drop c = true.
  Proof. intros H. apply Hblank. apply Ascii.eqb_eq in H. subst c. reflexivity. Qed.
  Lemma sk_map_cat f l : (forall x, sk (f x) = sk x) -> sk (cat (map f l)) = sk (cat l).
  Proof.
    intros Hf. induction l as [|x l IH]; [reflexivity|]. cbn [map]. rewrite !cat_cons, !without_app, Hf, IH. reflexivity.
  Qed.
  Lemma sk_find_words b s : sk (cat (find_words b s)) = sk s.
  Proof.
    unfold find_words, words_newline, words_space. destruct b; rewrite sk_map_cat.
    - rewrite cut_words_cat. reflexivity.
    - intros x. rewrite (sk_trim_end is_space _ space_drop). apply sk_trim_end. exact Hblank.
    - rewrite cut_words_cat. reflexivity.
    - intros x. apply sk_trim_end. exact space_drop.
  Qed.
  Lemma sk_nl : sk nl = "".
  Proof. unfold nl. cbn. rewrite (Hblank lf eq_refl). reflexivity. Qed.
  Lemma sk_sp : sk " " = "".
  Proof. cbn. rewrite (Hblank " "%char eq_refl). reflexivity. Qed.
  Lemma sk_unbroken w out input indent : sk indent = "" ->
    sk (snd (write_unbroken w out input indent)) = sk out ++ sk input.
  Proof.
    intros Hi. unfold write_unbroken. destruct (too_long w (String.length input)); [|destruct (w_left w)]; cbn [snd];
      rewrite !without_app, ?sk_nl, ?Hi, ?sk_sp; reflexivity.
  Qed.
  Lemma sk_ln w out indent : sk indent = "" -> sk (snd (write_ln w out indent)) = sk out.
  Proof. intros Hi. unfold write_ln. cbn [snd]. rewrite !without_app, sk_nl, Hi. apply str_app_nil_r. Qed.
  Lemma sk_word_fold indent l : sk indent = "" -> forall w out b,
    sk (snd (fst (fold_left (write_word indent) l (w, out, b)))) = sk out ++ sk (cat l).
  Proof.
    intros Hi. induction l as [|x l IH]; intros w out b; cbn [fold_left].
    - cbn. rewrite str_app_nil_r. reflexivity.
    - unfold write_word at 2. rewrite cat_cons, without_app.
      assert (T : forall q : bool, sk (if q then trim_start is_white x else x) = sk x) by (intros []; [apply sk_trim_start|reflexivity]).
      destruct (too_long w (String.length x)); [|destruct (w_left w || negb b)]; rewrite IH, !without_app, T, ?sk_nl, ?Hi, ?sk_sp; cbn; rewrite ?str_app_nil_r, ?str_app_assoc; reflexivity.
  Qed.
  Lemma sk_words w out input indent : sk indent = "" -> sk (snd (write_words w out input indent)) = sk out ++ sk input.
  Proof.
    intros Hi. unfold write_words. destruct (w_max w) as [m|]; [|cbn; apply without_app].
    pose proof (sk_word_fold indent (find_words (w_ignore w) input) Hi w out true) as H.
    destruct (fold_left (write_word indent) (find_words (w_ignore w) input) (w, out, true)) as [[w' out'] b']. cbn in H. cbn [snd].
    rewrite H, sk_find_words. reflexivity.
  Qed.
End Ink.
Lemma max_unbroken w out input indent : w_max (fst (write_unbroken w out input indent)) = w_max w.
Proof. unfold write_unbroken. destruct (too_long w (String.length input)); [|destruct (w_left w)]; reflexivity. Qed.
Lemma max_word_fold indent l : forall w out b, w_max (fst (fst (fold_left (write_word indent) l (w, out, b)))) = w_max w.
Proof.
  induction l as [|x l IH]; intros w out b; [reflexivity|]. cbn [fold_left]. unfold write_word at 2.
  destruct (too_long w (String.length x)); [|destruct (w_left w || negb b)]; rewrite IH; reflexivity.
Qed.
Lemma max_words w out input indent : w_max (fst (write_words w out input indent)) = w_max w.
Proof.
  unfold write_words. destruct (w_max w) as [m|] eqn:E; [|cbn; exact E].
  pose proof (max_word_fold indent (find_words (w_ignore w) input) w out true) as H.
  destruct (fold_left (write_word indent) (find_words (w_ignore w) input) (w, out, true)) as [[w' out'] b']. cbn in *. congruence.
Qed.

(* ---------- induction over documents ---------- *)
Section NodeInd.
  Variable P : node -> Prop.
  Hypothesis HRoot : forall l, Forall P l -> P (NRoot l).
  Hypothesis HText : forall s, P (NText s).
  Hypothesis HPar : forall l, Forall P l -> P (NParagraph l).
  Hypothesis HList : forall b l, Forall P l -> P (NList b l).
  Hypothesis HItem : forall l, Forall P l -> P (NItem l).
  Hypothesis HHtml : forall s, P (NHtml s).
  Hypothesis HInline : forall s, P (NInlineCode s).
  Hypothesis HCode : forall g s, P (NCode g s).
  Hypothesis HQuote : forall l, Forall P l -> P (NQuote l).
  Hypothesis HLink : forall u l, Forall P l -> P (NLink u l).
  Hypothesis HStrong : forall l, Forall P l -> P (NStrong l).
  Hypothesis HEm : forall l, Forall P l -> P (NEmphasis l).
  Hypothesis HDel : forall l, Forall P l -> P (NDelete l).
  Hypothesis HHead : forall d l, Forall P l -> P (NHeading d l).
  Hypothesis HOther : forall k l, P (NOther k l).
  Fixpoint node_ind2 (n : node) : P n :=
    let all := fix all (l : list node) : Forall P l :=
      match l with [] => Forall_nil P | x :: r => Forall_cons x (node_ind2 x) (all r) end in
    match n with
    | NRoot l => HRoot l (all l)
    | NText s => HText s
    | NParagraph l => HPar l (all l)
    | NList b l => HList b l (all l)
    | NItem l => HItem l (all l)
    | NHtml s => HHtml s
    | NInlineCode s => HInline s
    | NCode g s => HCode g s
    | NQuote l => HQuote l (all l)
    | NLink u l => HLink u l (all l)
    | NStrong l => HStrong l (all l)
    | NEmphasis l => HEm l (all l)
    | NDelete l => HDel l (all l)
    | NHeading d l => HHead d l (all l)
    | NOther k l => HOther k l
    end.
End NodeInd.

(* ---------- the loops of write_md by themselves ---------- *)
Section Loops.
  Variable o : md_options.
  Fixpoint each_md (c : ctx) (indent : string) (l : list node) {struct l} : ctx :=
    match l with [] => c | x :: r => each_md (write_md o c indent x) indent r end.
  Definition flat1 (c : ctx) (indent : string) (x : node) : ctx :=
    match x with NParagraph ps => each_md c indent ps | _ => write_md o c indent x end.
  Fixpoint flat_md (c : ctx) (indent : string) (l : list node) {struct l} : ctx :=
    match l with [] => c | x :: r => flat_md (flat1 c indent x) indent r end.
  Fixpoint items_md (c : ctx) (indent : string) (ordered : bool) (l : list node) {struct l} : ctx :=
    match l with
    | [] => c
    | x :: r =>
      let c := write_md o (begin_item c indent ordered) indent x in
      items_md (set_leftover c (S (cx_leftover c))) indent ordered r
    end.
  Lemma each_fix indent l : forall c,
    (fix each (c : ctx) (indent : string) (l : list node) {struct l} : ctx :=
      match l with [] => c | x :: r => each (write_md o c indent x) indent r end) c indent l = each_md c indent l.
  Proof. reflexivity. Qed.
  Lemma go_fix indent l : forall c,
    (fix go (c : ctx) (ps : list node) {struct ps} : ctx := match ps with [] => c | y :: q => go (write_md o c indent y) q end) c l = each_md c indent l.
  Proof. induction l as [|x l IH]; intros c; [reflexivity|]. cbn [each_md]. rewrite <- IH. reflexivity. Qed.
  Lemma flat_fix indent l : forall c,
    (fix flat (c : ctx) (l : list node) {struct l} : ctx :=
      match l with
      | [] => c
      | x :: r =>
        flat (match x with
              | NParagraph ps => (fix go (c : ctx) (ps : list node) {struct ps} : ctx :=
                  match ps with [] => c | y :: q => go (write_md o c indent y) q end) c ps
              | _ => write_md o c indent x
              end) r
      end) c l = flat_md c indent l.
  Proof.
    induction l as [|x l IH]; intros c; [reflexivity|]. cbn [flat_md]. rewrite <- IH. unfold flat1.
    destruct x; try reflexivity. rewrite <- go_fix. reflexivity.
  Qed.
  Lemma items_fix indent ordered l : forall c,
    (fix items (c : ctx) (l : list node) {struct l} : ctx :=
        match l with
        | [] => c
        | x :: r =>
          let c := write_md o (begin_item c indent ordered) indent x in
          items (set_leftover c (S (cx_leftover c))) r
        end) c l = items_md c indent ordered l.
  Proof. induction l as [|x l IH]; intros c; [reflexivity|]. cbn [items_md]. rewrite <- IH. reflexivity. Qed.
  Lemma write_md_eq c indent n : write_md o c indent n =
    let c := take_leftover c n in
    match n with
    | NRoot l => each_md c indent l
    | NText s => add_text c (text_out o s)
    | NParagraph l => add_blank_line (each_md (add_cond_blank_line c) indent l)
    | NList ordered l =>
      let c := set_list c (S (cx_level c)) (cx_number c) in
      let indent := list_indent o c indent ordered in
      let c := items_md (add_blank_line c) indent ordered l in
      let c := set_prefix (set_list c (pred (cx_level c)) 0) "" false in
      set_leftover c (S (cx_leftover c))
    | NItem l => flat_md c indent l
    | NHtml s => add_unbreakable c s
    | NInlineCode s => add_unbreakable c ("`" ++ s ++ "`")
    | NCode lang s =>
      add_blank_line (add_unbreakable c ("```" ++ opt_get (opt_or lang (mo_language o)) "" ++ nl ++ s ++ nl ++ "```"))
    | NQuote l =>
      let c := add_cond_blank_line c in
      let c := flat_md (set_prefix c "> " (cx_skip c)) indent l in
      add_blank_line (set_prefix c "" false)
    | NLink url l =>
      let c := start_block c "[" in
      let start := String.length (cx_md c) in
      let c := each_md c indent l in
      let label := match cx_buffer c with Some b => str_drop 1 b | None => str_drop start (cx_md c) end in
      let c := add_unbreakable c "]" in
      let c := if mo_shortcut o && negb (is_empty url) then add_link c label url
               else add_unbreakable c ("(" ++ url ++ ")") in
      end_block c ""
    | NStrong l => end_block (each_md (start_block c "**") indent l) "**"
    | NEmphasis l => end_block (each_md (start_block c "*") indent l) "*"
    | NDelete l => end_block (each_md (start_block c "~~") indent l) "~~"
    | NHeading depth l =>
      let c := add_cond_blank_line c in
      let c := each_md (start_block c (indent ++ repeat_str depth "#" ++ " ")) indent l in
      let c := add_blank_line (end_block c "") in
      set_leftover c (S (cx_leftover c))
    | NOther _ _ => c
    end.
  Proof.
    destruct n; try reflexivity; cbn [write_md].
    - cbv zeta. rewrite items_fix. reflexivity.
    - cbv zeta. rewrite flat_fix. reflexivity.
    - cbv zeta. rewrite flat_fix. reflexivity.
  Qed.
  (* what is written, with the number of the last item *)
  Definition marker (ordered : bool) (k : nat) : string := if ordered then show_nat k ++ "." else "-".
  Fixpoint emit (k : nat) (n : node) {struct n} : (string * list (string * string)) * nat :=
    let each := fix each (k : nat) (l : list node) {struct l} : (string * list (string * string)) * nat :=
      match l with
      | [] => (("", []), k)
      | x :: r =>
        let a := emit k x in let b := each (snd a) r in
        ((fst (fst a) ++ fst (fst b), List.app (snd (fst a)) (snd (fst b))), snd b)
      end in
    let around (open close : string) (l : list node) :=
      let a := each k l in ((open ++ fst (fst a) ++ close, snd (fst a)), snd a) in
    match n with
    | NRoot l | NParagraph l | NItem l | NQuote l => each k l
    | NText s => ((text_out o s, []), k)
    | NList ordered l =>
      let a := (fix items (k : nat) (l : list node) {struct l} : (string * list (string * string)) :=
        match l with
        | [] => ("", [])
        | x :: r =>
          let a := emit (S k) x in let b := items (snd a) r in
          (marker ordered (S k) ++ fst (fst a) ++ fst b, List.app (snd (fst a)) (snd b))
        end) k l in (a, 0)
    | NHtml s => ((s, []), k)
    | NInlineCode s => (("`" ++ s ++ "`", []), k)
    | NCode lang s => (("```" ++ opt_get (opt_or lang (mo_language o)) "" ++ s ++ "```", []), k)
    | NLink url l =>
      let a := each k l in
      if by_reference o url
      then (("[" ++ fst (fst a) ++ "]", List.app (snd (fst a)) [(fst (fst a), url)]), snd a)
      else (("[" ++ fst (fst a) ++ "](" ++ url ++ ")", snd (fst a)), snd a)
    | NStrong l => around "**" "**" l
    | NEmphasis l => around "*" "*" l
    | NDelete l => around "~~" "~~" l
    | NHeading d l => around (repeat_str d "#") "" l
    | NOther _ _ => (("", []), k)
    end.
  Fixpoint emits (k : nat) (l : list node) {struct l} : (string * list (string * string)) * nat :=
    match l with
    | [] => (("", []), k)
    | x :: r =>
      let a := emit k x in let b := emits (snd a) r in
      ((fst (fst a) ++ fst (fst b), List.app (snd (fst a)) (snd (fst b))), snd b)
    end.
  Fixpoint emit_items (ordered : bool) (k : nat) (l : list node) {struct l} : (string * list (string * string)) :=
    match l with
    | [] => ("", [])
    | x :: r =>
      let a := emit (S k) x in let b := emit_items ordered (snd a) r in
      (marker ordered (S k) ++ fst (fst a) ++ fst b, List.app (snd (fst a)) (snd b))
    end.
  Lemma emit_items_fix ordered l : forall k,
    (fix items (k : nat) (l : list node) {struct l} : (string * list (string * string)) :=
        match l with
        | [] => ("", [])
        | x :: r =>
          let a := emit (S k) x in let b := items (snd a) r in
          (marker ordered (S k) ++ fst (fst a) ++ fst b, List.app (snd (fst a)) (snd b))
        end) k l = emit_items ordered k l.
  Proof. induction l as [|x l IH]; intros k; [reflexivity|]. cbn [emit_items]. cbv zeta. rewrite <- IH. reflexivity. Qed.
  Definition around (k : nat) (open close : string) (l : list node) :=
    let a := emits k l in ((open ++ fst (fst a) ++ close, snd (fst a)), snd a).
  Lemma emit_eq k n : emit k n =
    match n with
    | NRoot l | NParagraph l | NItem l | NQuote l => emits k l
    | NText s => ((text_out o s, []), k)
    | NList ordered l => (emit_items ordered k l, 0)
    | NHtml s => ((s, []), k)
    | NInlineCode s => (("`" ++ s ++ "`", []), k)
    | NCode lang s => (("```" ++ opt_get (opt_or lang (mo_language o)) "" ++ s ++ "```", []), k)
    | NLink url l =>
      let a := emits k l in
      if by_reference o url
      then (("[" ++ fst (fst a) ++ "]", List.app (snd (fst a)) [(fst (fst a), url)]), snd a)
      else (("[" ++ fst (fst a) ++ "](" ++ url ++ ")", snd (fst a)), snd a)
    | NStrong l => around k "**" "**" l
    | NEmphasis l => around k "*" "*" l
    | NDelete l => around k "~~" "~~" l
    | NHeading d l => around k (repeat_str d "#") "" l
    | NOther _ _ => (("", []), k)
    end.
  Proof. destruct n; try reflexivity. cbn [emit]. cbv zeta. rewrite emit_items_fix. reflexivity. Qed.
End Loops.

Definition children (n : node) : list node :=
  match n with
  | NRoot l | NParagraph l | NList _ l | NItem l | NQuote l | NLink _ l | NStrong l | NEmphasis l | NDelete l | NHeading _ l => l
  | _ => []
  end.
Lemma throughout_inv P n : throughout P n -> P n /\ Forall (throughout P) (children n).
Proof.
  assert (A : forall l, (fix all (l : list node) : Prop := match l with [] => True | x :: r => throughout P x /\ all r end) l -> Forall (throughout P) l).
  { induction l as [|x l IH]; [constructor|]. intros [H1 H2]. constructor; [exact H1|exact (IH H2)]. }
  destruct n; cbn [throughout children]; intros [H1 H2]; (split; [exact H1|]); try (apply A; exact H2); constructor.
Qed.

Section Did.
  Variable o : md_options.
  Variable drop : ascii -> bool.
  Hypothesis Hblank : forall c, is_white c = true -> drop c = true.
  Notation sk := (without drop).
  Definition full (c : ctx) : string := cx_md c ++ match cx_buffer c with Some b => b | None => "" end.
  Definition inv (c : ctx) : Prop := sk (cx_prefix c) = "" /\ (w_max (cx_wrap c) = None -> cx_buffer c = None).
  Definition ref_eq (a b : string * string) : Prop := sk (fst a) = sk (fst b) /\ snd a = snd b.
  Definition did (c c' : ctx) (s : string) (ls : list (string * string)) (k : nat) : Prop :=
    inv c' /\ w_max (cx_wrap c') = w_max (cx_wrap c) /\ sk (full c') = sk (full c) ++ sk s /\ cx_number c' = k /\
    exists ls', cx_links c' = List.app (cx_links c) ls' /\ Forall2 ref_eq ls' ls.
  Lemma did_refl c : inv c -> did c c "" [] (cx_number c).
  Proof.
    intros I. split; [exact I|]. split; [reflexivity|]. split; [cbn; rewrite str_app_nil_r; reflexivity|]. split; [reflexivity|].
    exists []. split; [rewrite app_nil_r; reflexivity|constructor].
  Qed.
  Lemma did_trans c1 c2 c3 s1 s2 l1 l2 k1 k2 : did c1 c2 s1 l1 k1 -> did c2 c3 s2 l2 k2 -> did c1 c3 (s1 ++ s2) (List.app l1 l2) k2.
  Proof.
    intros (_ & M1 & S1 & _ & a1 & L1 & F1) (I & M2 & S2 & N2 & a2 & L2 & F2). split; [exact I|]. split; [congruence|].
    split; [rewrite S2, S1, without_app, str_app_assoc; reflexivity|]. split; [exact N2|].
    exists (List.app a1 a2). split; [rewrite L2, L1, app_assoc; reflexivity|]. apply Forall2_app; assumption.
  Qed.
  Lemma did_to c c' s s' ls k : did c c' s ls k -> sk s = sk s' -> did c c' s' ls k.
  Proof. intros (I & M & S1 & N & L) E. repeat split; try apply I; try assumption. rewrite <- E. exact S1. Qed.
  (* changes that write nothing *)
  Lemma did_quiet c c' : inv c' -> w_max (cx_wrap c') = w_max (cx_wrap c) -> cx_links c' = cx_links c -> sk (full c') = sk (full c) ->
    did c c' "" [] (cx_number c').
  Proof.
    intros I M L S1. split; [exact I|]. split; [exact M|]. split; [cbn; rewrite str_app_nil_r; exact S1|]. split; [reflexivity|].
    exists []. split; [rewrite app_nil_r; exact L|constructor].
  Qed.
  Lemma did_blank_line c : inv c -> did c (add_blank_line c) "" [] (cx_number c).
  Proof.
    intros [I1 I2]. apply (did_quiet c (add_blank_line c)); try reflexivity; [split; [exact I1|exact I2]|].
    unfold add_blank_line, full. cbn [set_out cx_md cx_buffer]. rewrite !without_app, (sk_ln drop Hblank); [reflexivity|exact I1].
  Qed.
  Lemma did_blank_lines n : forall c, inv c -> did c (add_blank_lines n c) "" [] (cx_number c).
  Proof.
    induction n as [|n IH]; intros c I; [exact (did_refl c I)|]. cbn [add_blank_lines].
    pose proof (did_blank_line c I) as D. pose proof (IH (add_blank_line c) (proj1 D)) as D'.
    exact (did_trans _ _ _ _ _ _ _ _ _ D D').
  Qed.
  Lemma did_cond_blank c : inv c -> did c (add_cond_blank_line c) "" [] (cx_number c).
  Proof. intros I. unfold add_cond_blank_line. destruct (_ && _); [apply did_blank_line; exact I|apply did_refl; exact I]. Qed.
  Lemma did_leftover c n : inv c -> did c (set_leftover c n) "" [] (cx_number c).
  Proof. intros I. apply (did_quiet c (set_leftover c n)); try reflexivity. exact I. Qed.
  Lemma did_take c n : inv c -> did c (take_leftover c n) "" [] (cx_number c).
  Proof.
    intros I. unfold take_leftover. pose proof (did_leftover c 0 I) as D. destruct (is_list n); [exact D|].
    pose proof (did_blank_lines (cx_leftover c) (set_leftover c 0) (proj1 D)) as D'. exact (did_trans _ _ _ _ _ _ _ _ _ D D').
  Qed.
  Lemma did_prefix c p b : inv c -> sk p = "" -> did c (set_prefix c p b) "" [] (cx_number c).
  Proof. intros [I1 I2] Hp. apply (did_quiet c (set_prefix c p b)); try reflexivity. split; [exact Hp|exact I2]. Qed.
  Lemma did_list c a b : inv c -> did c (set_list c a b) "" [] b.
  Proof. intros I. apply (did_quiet c (set_list c a b)); try reflexivity. exact I. Qed.
  Lemma did_unbreakable c t : inv c -> did c (add_unbreakable c t) t [] (cx_number c).
  Proof.
    intros [I1 I2]. unfold add_unbreakable. destruct (cx_buffer c) as [b|] eqn:B.
    - split; [split; [exact I1|intros X; specialize (I2 X); discriminate]|]. split; [reflexivity|].
      split; [unfold full; rewrite B; cbn [set_buffer cx_md cx_buffer]; rewrite !without_app, str_app_assoc; reflexivity|].
      split; [reflexivity|]. exists []. split; [rewrite app_nil_r; reflexivity|constructor].
    - split; [split; [exact I1|intros X; exact B]|]. split; [cbn; apply max_unbroken|].
      split; [unfold full; cbn [set_out cx_md cx_buffer]; rewrite B, !str_app_nil_r; apply (sk_unbroken drop Hblank); exact I1|].
      split; [reflexivity|]. exists []. split; [rewrite app_nil_r; reflexivity|constructor].
  Qed.
  Lemma did_start c t : inv c -> did c (start_block c t) t [] (cx_number c).
  Proof.
    intros [I1 I2]. unfold start_block.
    destruct (cx_buffer c) as [b|] eqn:B.
    - assert (E : w_max (cx_wrap (set_out c (write_unbroken (cx_wrap c) (cx_md c) b (cx_prefix c)))) = w_max (cx_wrap c)) by (cbn; apply max_unbroken).
      destruct (w_max (cx_wrap (set_out c (write_unbroken (cx_wrap c) (cx_md c) b (cx_prefix c))))) as [m|] eqn:M.
      + split; [split; [exact I1|intros X; cbn in X, M; congruence]|]. split; [cbn in *; congruence|].
        split; [unfold full; rewrite B; cbn [set_out set_buffer cx_md cx_buffer]; rewrite !without_app, (sk_unbroken drop Hblank) by exact I1; reflexivity|].
        split; [reflexivity|]. exists []. split; [rewrite app_nil_r; reflexivity|constructor].
      + rewrite <- E in I2. specialize (I2 eq_refl). discriminate.
    - destruct (w_max (cx_wrap c)) as [m|] eqn:M.
      + split; [split; [exact I1|intros X; cbn in X; congruence]|]. split; [reflexivity|].
        split; [unfold full; rewrite B; cbn [set_out set_buffer cx_md cx_buffer]; rewrite !without_app, str_app_nil_r; reflexivity|].
        split; [reflexivity|]. exists []. split; [rewrite app_nil_r; reflexivity|constructor].
      + split; [split; [exact I1|intros X; exact B]|]. split; [reflexivity|].
        split; [unfold full; cbn [set_out set_buffer cx_md cx_buffer snd]; rewrite B, !str_app_nil_r; apply without_app|].
        split; [reflexivity|]. exists []. split; [rewrite app_nil_r; reflexivity|constructor].
  Qed.
  Lemma did_end c t : inv c -> did c (end_block c t) t [] (cx_number c).
  Proof.
    intros [I1 I2]. unfold end_block.
    assert (I' : inv (set_buffer c None)) by (split; [exact I1|reflexivity]).
    destruct (did_unbreakable (set_buffer c None) (match cx_buffer c with Some b => b ++ t | None => t end) I') as (J & M & S1 & N & L).
    split; [exact J|]. split; [exact M|]. split; [|split; [exact N|exact L]]. rewrite S1. unfold full. cbn [set_buffer cx_md cx_buffer].
    rewrite str_app_nil_r, !without_app. destruct (cx_buffer c); [rewrite without_app, str_app_assoc; reflexivity|cbn; rewrite str_app_nil_r; reflexivity].
  Qed.
  Lemma sk_split s : sk (cat (split_char lf s)) = sk s.
  Proof.
    induction s as [|c s IH]; [reflexivity|]. cbn [split_char]. destruct (Ascii.eqb c lf) eqn:E.
    - rewrite cat_cons. cbn. rewrite IH. apply Ascii.eqb_eq in E. subst c. rewrite (Hblank lf eq_refl). reflexivity.
    - destruct (split_char lf s) as [|h t] eqn:F; [exfalso; exact (split_char_ne lf s F)|]. rewrite cat_cons in *. cbn. rewrite IH. reflexivity.
  Qed.
  Lemma did_line c l : inv c -> cx_buffer c = None -> did c (write_line_words c l) l [] (cx_number c) /\ cx_buffer (write_line_words c l) = None.
  Proof.
    intros [I1 I2] B. split; [|exact B]. unfold write_line_words. split; [split; [exact I1|intros _; exact B]|].
    split; [cbn; apply max_words|]. split; [|split; [reflexivity|exists []; split; [rewrite app_nil_r; reflexivity|constructor]]].
    unfold full. cbn [set_out cx_md cx_buffer]. rewrite B, !str_app_nil_r. apply (sk_words drop Hblank). exact I1.
  Qed.
  Lemma did_push c p l : inv c -> cx_buffer c = None -> did c (push_line c p l) l [] (cx_number c) /\ cx_buffer (push_line c p l) = None.
  Proof.
    intros [I1 I2] B. split; [|exact B]. split; [split; [exact I1|intros _; exact B]|].
    split; [reflexivity|]. split; [|split; [reflexivity|exists []; split; [rewrite app_nil_r; reflexivity|constructor]]].
    unfold full, push_line. cbn [set_out cx_md cx_buffer snd]. rewrite B, !str_app_nil_r, !without_app.
    destruct (_ && _); [rewrite I1|]; reflexivity.
  Qed.
  Lemma did_text c t : inv c -> did c (add_text c t) t [] (cx_number c).
  Proof.
    intros I. unfold add_text. destruct (cx_buffer c) as [b|] eqn:B.
    - pose proof (did_unbreakable c t I) as D. unfold add_unbreakable in D. rewrite B in D. exact D.
    - destruct (w_max (cx_wrap c)) as [m|] eqn:M.
      + assert (P : exists c1, c1 = (if negb (is_empty (cx_prefix c)) && negb (cx_skip c) then add_unbreakable c (cx_prefix c) else c) /\
                    did c c1 "" [] (cx_number c) /\ cx_buffer c1 = None).
        { eexists. split; [reflexivity|]. destruct (negb (is_empty (cx_prefix c)) && negb (cx_skip c)); [|split; [apply did_refl; exact I|exact B]].
          split; [|unfold add_unbreakable; rewrite B; exact B]. apply (did_to _ _ (cx_prefix c)); [apply did_unbreakable; exact I|exact (proj1 I)]. }
        destruct P as (c1 & E1 & D1 & B1). rewrite <- E1. clear E1. cbv zeta.
        assert (Nm : cx_number c1 = cx_number c) by apply D1.
        destruct (w_ignore (cx_wrap c1)).
        * destruct (did_line c1 t (proj1 D1) B1) as [D2 _]. rewrite Nm in D2. exact (did_trans _ _ _ _ _ _ _ _ _ D1 D2).
        * destruct (split_char lf t) as [|l0 r] eqn:Sp; [exfalso; exact (split_char_ne lf t Sp)|].
          apply (did_to _ _ (cat (l0 :: r))); [|rewrite <- Sp; apply sk_split]. rewrite cat_cons.
          destruct (did_line c1 l0 (proj1 D1) B1) as [D2 B2]. rewrite Nm in D2. pose proof (did_trans _ _ _ _ _ _ _ _ _ D1 D2) as D3.
          change ("" ++ l0) with l0 in D3. clear D1 D2 Sp M. set (cc := write_line_words c1 l0) in *. clearbody cc. clear c1 B1 Nm B.
          assert (G : forall r cc, inv cc -> cx_buffer cc = None ->
             did cc (fold_left (fun c l => write_line_words (add_blank_line c) l) r cc) (cat r) [] (cx_number cc)).
          { clear - Hblank. induction r as [|x r IH]; intros cc I B; [apply did_refl; exact I|]. cbn [fold_left]. rewrite cat_cons.
            pose proof (did_blank_line cc I) as D1. destruct (did_line (add_blank_line cc) x (proj1 D1) B) as [D2 B2].
            assert (D3 := did_trans _ _ _ _ _ _ _ _ _ D1 D2). change ("" ++ x) with x in D3.
            pose proof (IH _ (proj1 D3) B2) as D4. exact (did_trans _ _ _ _ _ _ _ _ _ D3 D4). }
          assert (D4 := G r cc (proj1 D3) B2). assert (cx_number cc = cx_number c) as Nc by apply D3. rewrite Nc in D4.
          exact (did_trans _ _ _ _ _ _ _ _ _ D3 D4).
      + destruct (split_char lf t) as [|l0 r] eqn:Sp; [exfalso; exact (split_char_ne lf t Sp)|].
        apply (did_to _ _ (cat (l0 :: r))); [|rewrite <- Sp; apply sk_split]. rewrite cat_cons.
        destruct (did_push c (negb (cx_skip c)) l0 I B) as [D3 B2]. set (cc := push_line c (negb (cx_skip c)) l0) in *.
        assert (G : forall r cc, inv cc -> cx_buffer cc = None ->
             did cc (fold_left (fun c l => push_line (set_out c (cx_wrap c, cx_md c ++ nl)) true l) r cc) (cat r) [] (cx_number cc)).
        { clear - Hblank. induction r as [|x r IH]; intros cc I B; [apply did_refl; exact I|]. cbn [fold_left]. rewrite cat_cons.
          assert (D1 : did cc (set_out cc (cx_wrap cc, cx_md cc ++ nl)) "" [] (cx_number cc)).
          { apply (did_quiet cc (set_out cc (cx_wrap cc, cx_md cc ++ nl))); try reflexivity; [exact I|]. unfold full. cbn [set_out cx_md cx_buffer snd].
            rewrite !without_app, (sk_nl drop Hblank), str_app_nil_r. reflexivity. }
          destruct (did_push (set_out cc (cx_wrap cc, cx_md cc ++ nl)) true x (proj1 D1) B) as [D2 B2].
          assert (D3 := did_trans _ _ _ _ _ _ _ _ _ D1 D2). change ("" ++ x) with x in D3.
          pose proof (IH _ (proj1 D3) B2) as D4. exact (did_trans _ _ _ _ _ _ _ _ _ D3 D4). }
        assert (D4 := G r cc (proj1 D3) B2). assert (cx_number cc = cx_number c) as Nc by apply D3. rewrite Nc in D4.
        exact (did_trans _ _ _ _ _ _ _ _ _ D3 D4).
  Qed.
  Definition ok (n : node) : Prop := (drop ">"%char = true \/ no_quote n) /\ (mo_shortcut o = true -> plain_links n).
  Lemma ok_inv n : ok n -> Forall ok (children n).
  Proof.
    intros [Q L].
    assert (A : Forall (fun x => drop ">"%char = true \/ no_quote x) (children n)).
    { destruct Q as [Q|Q]; [apply Forall_forall; intros x _; left; exact Q|]. apply throughout_inv in Q. destruct Q as [_ Q].
      eapply Forall_impl; [|exact Q]. intros x H. right. exact H. }
    assert (B : Forall (fun x => mo_shortcut o = true -> plain_links x) (children n)).
    { destruct (mo_shortcut o); [|apply Forall_forall; discriminate]. specialize (L eq_refl). apply throughout_inv in L. destruct L as [_ L].
      eapply Forall_impl; [|exact L]. intros x H _. exact H. }
    apply Forall_forall. intros x Hx. split; [exact (proj1 (Forall_forall _ _) A x Hx)|exact (proj1 (Forall_forall _ _) B x Hx)].
  Qed.
  Definition emitted (f : ctx -> string -> ctx) (e : nat -> (string * list (string * string)) * nat) : Prop :=
    forall c indent, inv c -> sk indent = "" ->
    did c (f c indent) (fst (fst (e (cx_number c)))) (snd (fst (e (cx_number c)))) (snd (e (cx_number c))).
  Definition stmt (n : node) : Prop := emitted (fun c i => write_md o c i n) (fun k => emit o k n).
  Lemma did_each l : Forall stmt l -> emitted (fun c i => each_md o c i l) (fun k => emits o k l).
  Proof.
    induction 1 as [|x l Hx _ IH]; intros c indent I Hi; cbn [each_md emits]; [exact (did_refl c I)|].
    pose proof (Hx c indent I Hi) as D1. cbv beta in D1. set (c1 := write_md o c indent x) in *.
    pose proof (IH c1 indent (proj1 D1) Hi) as D2. cbv beta in D2. assert (N : cx_number c1 = snd (emit o (cx_number c) x)) by apply D1. rewrite N in D2.
    cbv zeta. cbn [fst snd]. exact (did_trans _ _ _ _ _ _ _ _ _ D1 D2).
  Qed.
  Definition stmt2 (n : node) : Prop := stmt n /\ match n with NParagraph l => Forall stmt l | _ => True end.
  Lemma did_flat l : Forall stmt2 l -> emitted (fun c i => flat_md o c i l) (fun k => emits o k l).
  Proof.
    induction 1 as [|x l Hx _ IH]; intros c indent I Hi; cbn [flat_md emits]; [exact (did_refl c I)|].
    assert (D1 : did c (flat1 o c indent x) (fst (fst (emit o (cx_number c) x))) (snd (fst (emit o (cx_number c) x))) (snd (emit o (cx_number c) x))).
    { destruct Hx as [H1 H2]. destruct x; try exact (H1 c indent I Hi). cbn [flat1]. rewrite emit_eq. exact (did_each _ H2 c indent I Hi). }
    set (c1 := flat1 o c indent x) in *.
    pose proof (IH c1 indent (proj1 D1) Hi) as D2. cbv beta in D2. assert (N : cx_number c1 = snd (emit o (cx_number c) x)) by apply D1. rewrite N in D2.
    cbv zeta. cbn [fst snd]. exact (did_trans _ _ _ _ _ _ _ _ _ D1 D2).
  Qed.
  Lemma sk_spaces n : sk (repeat_str n " ") = "".
  Proof. induction n as [|n IH]; [reflexivity|]. cbn [repeat_str]. rewrite without_app, (sk_sp drop Hblank), IH. reflexivity. Qed.
  Lemma did_begin c indent ordered : inv c -> sk indent = "" ->
    did c (begin_item c indent ordered) (marker ordered (S (cx_number c))) [] (S (cx_number c)).
  Proof.
    intros I Hi. unfold begin_item. cbv zeta.
    assert (P : exists c1, c1 = (match cx_leftover c with 0 => set_leftover c 0 | _ => add_blank_lines (cx_leftover c) (set_prefix (set_leftover c 0) "" (cx_skip (set_leftover c 0))) end) /\
      did c c1 "" [] (cx_number c)).
    { eexists. split; [reflexivity|]. pose proof (did_leftover c 0 I) as D1. destruct (cx_leftover c) as [|m]; [exact D1|].
      pose proof (did_prefix (set_leftover c 0) "" (cx_skip (set_leftover c 0)) (proj1 D1) eq_refl) as D2.
      pose proof (did_blank_lines (S m) _ (proj1 D2)) as D3.
      exact (did_trans _ _ _ _ _ _ _ _ _ D1 (did_trans _ _ _ _ _ _ _ _ _ D2 D3)). }
    destruct P as (c1 & E & D1).
    match goal with |- did c (add_unbreakable (set_prefix (set_list ?X _ _) _ _) _) _ _ _ =>
      assert (EX : X = c1) by (rewrite E; destruct (cx_leftover c); reflexivity); rewrite EX; clear EX end.
    assert (N : cx_number c1 = cx_number c) by apply D1. cbn [set_list cx_level cx_number]. rewrite N.
    pose proof (did_list c1 (cx_level c1) (S (cx_number c)) (proj1 D1)) as D2.
    match goal with |- did c (add_unbreakable (set_prefix ?Y ?p true) ?lp) _ _ _ =>
      pose proof (did_prefix Y p true (proj1 D2) (sk_spaces _)) as D3; pose proof (did_unbreakable (set_prefix Y p true) lp (proj1 D3)) as D4 end.
    pose proof (did_trans _ _ _ _ _ _ _ _ _ D1 (did_trans _ _ _ _ _ _ _ _ _ D2 (did_trans _ _ _ _ _ _ _ _ _ D3 D4))) as D5.
    refine (did_to _ _ _ _ _ _ D5 _). unfold marker. destruct ordered; cbn [String.append]; rewrite ?without_app, Hi.
    - cbn [String.append]. f_equal. cbn. rewrite (Hblank " "%char eq_refl). reflexivity.
    - cbn. rewrite (Hblank " "%char eq_refl). reflexivity.
  Qed.
  Lemma did_items ordered l : Forall stmt l -> forall c indent, inv c -> sk indent = "" ->
    exists k, did c (items_md o c indent ordered l) (fst (emit_items o ordered (cx_number c) l)) (snd (emit_items o ordered (cx_number c) l)) k.
  Proof.
    induction 1 as [|x l Hx _ IH]; intros c indent I Hi; cbn [items_md emit_items]; [eexists; exact (did_refl c I)|].
    cbv zeta. pose proof (did_begin c indent ordered I Hi) as D1.
    pose proof (Hx _ indent (proj1 D1) Hi) as D2. cbv beta in D2. set (c1 := begin_item c indent ordered) in *.
    assert (N1 : cx_number c1 = S (cx_number c)) by apply D1. rewrite N1 in D2. set (c2 := write_md o c1 indent x) in *.
    pose proof (did_leftover c2 (S (cx_leftover c2)) (proj1 D2)) as D3.
    assert (N2 : cx_number c2 = snd (emit o (S (cx_number c)) x)) by apply D2. rewrite N2 in D3.
    destruct (IH (set_leftover c2 (S (cx_leftover c2))) indent (proj1 D3) Hi) as (k & D4).
    change (cx_number (set_leftover c2 (S (cx_leftover c2)))) with (cx_number c2) in D4. rewrite N2 in D4.
    exists k. cbn [fst snd].
    pose proof (did_trans _ _ _ _ _ _ _ _ _ D1 (did_trans _ _ _ _ _ _ _ _ _ D2 (did_trans _ _ _ _ _ _ _ _ _ D3 D4))) as D5.
    exact D5.
  Qed.
  Lemma str_app_cancel a b c : a ++ b = a ++ c -> b = c.
  Proof. induction a as [|x a IH]; cbn; [auto|]. intros H. injection H as H. auto. Qed.
  (* what leaves add to an open block *)
  Lemma take_keeps c n : cx_buffer (take_leftover c n) = cx_buffer c.
  Proof.
    unfold take_leftover. assert (G : forall m c, cx_buffer (add_blank_lines m c) = cx_buffer c).
    { induction m as [|m IHm]; intros c'; [reflexivity|]. cbn [add_blank_lines]. rewrite IHm. reflexivity. }
    destruct (is_list n); [reflexivity|]. rewrite G. reflexivity.
  Qed.
  Lemma leaf_buffer l : Forall leaf l -> forall c indent b k, cx_buffer c = Some b ->
    cx_buffer (each_md o c indent l) = Some (b ++ fst (fst (emits o k l))).
  Proof.
    induction 1 as [|x l Hx _ IH]; intros c indent b k B; cbn [each_md emits].
    - cbn. rewrite str_app_nil_r. exact B.
    - assert (E : cx_buffer (write_md o c indent x) = Some (b ++ fst (fst (emit o k x)))).
      { rewrite write_md_eq, emit_eq. cbv zeta. destruct x; try contradiction Hx;
          match goal with |- context [take_leftover c ?n] => pose proof (take_keeps c n) as T end; rewrite B in T.
        - unfold add_text. rewrite T. reflexivity.
        - unfold add_unbreakable. rewrite T. reflexivity.
        - unfold add_unbreakable. rewrite T. reflexivity.
        - rewrite T. cbn. rewrite str_app_nil_r. reflexivity. }
      cbv zeta. cbn [fst snd]. rewrite (IH _ indent _ (snd (emit o k x)) E), str_app_assoc. reflexivity.
  Qed.
  Definition grew (c c' : ctx) : Prop := (exists y, cx_md c' = cx_md c ++ y) /\ cx_buffer c' = cx_buffer c.
  Lemma grew_trans a b c : grew a b -> grew b c -> grew a c.
  Proof. intros [[x X] X2] [[y Y] Y2]. split; [exists (x ++ y); rewrite Y, X, str_app_assoc; reflexivity|congruence]. Qed.
  Lemma grew_refl c : grew c c.
  Proof. split; [exists ""; rewrite str_app_nil_r; reflexivity|reflexivity]. Qed.
  Lemma grew_unbroken w out t i : exists y, snd (write_unbroken w out t i) = out ++ y.
  Proof. unfold write_unbroken. destruct (too_long w (String.length t)); [|destruct (w_left w)]; eexists; reflexivity. Qed.
  Lemma grew_take c n : grew c (take_leftover c n).
  Proof.
    split; [|apply take_keeps]. unfold take_leftover. assert (G : forall m c, exists y, cx_md (add_blank_lines m c) = cx_md c ++ y).
    { induction m as [|m IHm]; intros c'; [exists ""; rewrite str_app_nil_r; reflexivity|]. cbn [add_blank_lines]. destruct (IHm (add_blank_line c')) as [y Y].
      exists (nl ++ cx_prefix c' ++ y). rewrite Y. unfold add_blank_line, write_ln. cbn [set_out cx_md snd]. rewrite !str_app_assoc. reflexivity. }
    destruct (is_list n); [exists ""; rewrite str_app_nil_r; reflexivity|]. destruct (G (cx_leftover c) (set_leftover c 0)) as [y Y]. exists y. exact Y.
  Qed.
  Lemma leaf_grew l : Forall leaf l -> forall c indent, inv c -> w_max (cx_wrap c) = None -> sk indent = "" -> Forall stmt l -> grew c (each_md o c indent l).
  Proof.
    induction 1 as [|x l Hx _ IH]; intros c indent I W Hi St; cbn [each_md]; [apply grew_refl|]. inversion St as [|x' l' Sx Sl]; subst.
    assert (B := proj2 I W). pose proof (Sx c indent I Hi) as D. cbv beta in D.
    apply (grew_trans _ (write_md o c indent x)).
    - rewrite write_md_eq. cbv zeta. destruct x; try contradiction Hx;
        match goal with |- context [take_leftover c ?n] => pose proof (grew_take c n) as T; pose proof (did_take c n I) as DT; set (c1 := take_leftover c n) in * end;
        (apply (grew_trans _ c1); [exact T|]); clear D; assert (B1 : cx_buffer c1 = None) by (rewrite (proj2 T); exact B);
        assert (W1 : w_max (cx_wrap c1) = None) by (rewrite (proj1 (proj2 DT)); exact W).
      + unfold add_text. rewrite B1, W1. destruct (split_char lf (text_out o s)) as [|l0 r]; [apply grew_refl|].
        assert (Pu : forall c p l, grew c (push_line c p l)) by (intros c0 p l1; split; [eexists; reflexivity|reflexivity]).
        apply (grew_trans _ (push_line c1 (negb (cx_skip c1)) l0)); [apply Pu|]. generalize (push_line c1 (negb (cx_skip c1)) l0). induction r as [|z r IHr]; intros cc; [apply grew_refl|].
        cbn [fold_left]. eapply grew_trans; [|apply IHr]. eapply grew_trans; [|apply Pu]. split; [eexists; reflexivity|reflexivity].
      + unfold add_unbreakable. rewrite B1. split; [apply grew_unbroken|reflexivity].
      + unfold add_unbreakable. rewrite B1. split; [apply grew_unbroken|reflexivity].
      + apply grew_refl.
    - apply IH; [exact (proj1 D)|rewrite (proj1 (proj2 D)); exact W|exact Hi|exact Sl].
  Qed.
  Lemma is_empty_eqb u : is_empty u = String.eqb u "".
  Proof. destruct u; reflexivity. Qed.
  Lemma did_link_label c l indent : inv c -> sk indent = "" -> Forall stmt l -> Forall leaf l ->
    (w_max (cx_wrap c) = None \/ cx_buffer c = Some "[") ->
    sk (match cx_buffer (each_md o c indent l) with Some b => str_drop 1 b | None => str_drop (String.length (cx_md c)) (cx_md (each_md o c indent l)) end)
    = sk (fst (fst (emits o (cx_number c) l))).
  Proof.
    intros I Hi St Lf [W|B].
    - destruct (leaf_grew l Lf c indent I W Hi St) as [[y Y] B]. rewrite B, (proj2 I W), Y, str_drop_app.
      destruct (did_each l St c indent I Hi) as (_ & _ & S1 & _). cbv beta in S1. unfold full in S1. rewrite B, (proj2 I W), !str_app_nil_r, Y, without_app in S1.
      exact (str_app_cancel _ _ _ S1).
    - rewrite (leaf_buffer l Lf c indent "[" (cx_number c) B). reflexivity.
  Qed.
  Lemma did_start_state c t : inv c -> w_max (cx_wrap (start_block c t)) = None \/ cx_buffer (start_block c t) = Some t.
  Proof.
    intros I. unfold start_block. cbv zeta.
    match goal with |- context [set_buffer ?X (Some t)] => set (c1 := X) end. destruct (w_max (cx_wrap c1)) eqn:E; [right; reflexivity|left; exact E].
  Qed.
  Lemma did_add_link c label label' url : inv c -> sk label = sk label' -> did c (add_link c label url) "" [(label', url)] (cx_number c).
  Proof.
    intros I E. split; [exact I|]. split; [reflexivity|]. split; [cbn; rewrite str_app_nil_r; reflexivity|]. split; [reflexivity|].
    exists [(label, url)]. split; [reflexivity|]. constructor; [split; [exact E|reflexivity]|constructor].
  Qed.
  Lemma sk_hashes n : sk (repeat_str n "#" ++ " ") = sk (repeat_str n "#").
  Proof. rewrite without_app, (sk_sp drop Hblank), str_app_nil_r. reflexivity. Qed.
  Theorem did_node : forall n, ok n -> stmt2 n.
  Proof.
    assert (Fs : forall l, Forall (fun n => ok n -> stmt2 n) l -> Forall ok l -> Forall stmt l /\ Forall stmt2 l).
    { intros l H. induction H as [|x l Hx _ IH]; intros O; [split; constructor|]. inversion O as [|x' l' O1 O2]; subst.
      destruct (IH O2) as [A B]. specialize (Hx O1). split; constructor; try assumption. exact (proj1 Hx). }
    assert (Ar : forall l c indent (open close emo emc : string), Forall stmt l -> inv c -> sk indent = "" -> sk open = sk emo -> sk close = sk emc ->
      did c (end_block (each_md o (start_block c open) indent l) close) (fst (fst (around o (cx_number c) emo emc l))) (snd (fst (around o (cx_number c) emo emc l))) (snd (around o (cx_number c) emo emc l))).
    { intros l c indent open close emo emc St I Hi Eo Ec. pose proof (did_start c open I) as D1.
      pose proof (did_each l St _ indent (proj1 D1) Hi) as D2. cbv beta in D2. assert (N1 : cx_number (start_block c open) = cx_number c) by apply D1. rewrite N1 in D2.
      set (c2 := each_md o (start_block c open) indent l) in *. pose proof (did_end c2 close (proj1 D2)) as D3. assert (N2 : cx_number c2 = snd (emits o (cx_number c) l)) by apply D2.
      rewrite N2 in D3. pose proof (did_trans _ _ _ _ _ _ _ _ _ D1 (did_trans _ _ _ _ _ _ _ _ _ D2 D3)) as D4. rewrite app_nil_r in D4. cbn [List.app] in D4.
      refine (did_to _ _ _ _ _ _ D4 _). unfold around. cbv zeta. cbn [fst snd]. rewrite !without_app, Eo, Ec. reflexivity. }
    apply (node_ind2 (fun n => ok n -> stmt2 n)).
    - intros l H O. destruct (Fs l H (ok_inv _ O)) as [St _]. split; [|exact Logic.I]. intros c indent I Hi. cbv beta. rewrite write_md_eq, emit_eq. cbv zeta.
      pose proof (did_take c (NRoot l) I) as D0. pose proof (did_each l St _ indent (proj1 D0) Hi) as D1. cbv beta in D1.
      assert (N0 : cx_number (take_leftover c (NRoot l)) = cx_number c) by apply D0. rewrite N0 in D1. exact (did_trans _ _ _ _ _ _ _ _ _ D0 D1).
    - intros s _. split; [|exact Logic.I]. intros c indent I Hi. cbv beta. rewrite write_md_eq, emit_eq. cbv zeta.
      pose proof (did_take c (NText s) I) as D0. pose proof (did_text _ (text_out o s) (proj1 D0)) as D1.
      assert (N0 : cx_number (take_leftover c (NText s)) = cx_number c) by apply D0. rewrite N0 in D1. exact (did_trans _ _ _ _ _ _ _ _ _ D0 D1).
    - intros l H O. destruct (Fs l H (ok_inv _ O)) as [St _]. split; [|exact St]. intros c indent I Hi. cbv beta. rewrite write_md_eq, emit_eq. cbv zeta.
      pose proof (did_take c (NParagraph l) I) as D0. assert (N0 : cx_number (take_leftover c (NParagraph l)) = cx_number c) by apply D0.
      set (c0 := take_leftover c (NParagraph l)) in *. pose proof (did_cond_blank c0 (proj1 D0)) as D1. rewrite N0 in D1.
      assert (N1 : cx_number (add_cond_blank_line c0) = cx_number c) by apply D1. set (c1 := add_cond_blank_line c0) in *.
      pose proof (did_each l St c1 indent (proj1 D1) Hi) as D2. cbv beta in D2. rewrite N1 in D2. set (c2 := each_md o c1 indent l) in *.
      pose proof (did_blank_line c2 (proj1 D2)) as D3. assert (N2 : cx_number c2 = snd (emits o (cx_number c) l)) by apply D2. rewrite N2 in D3.
      pose proof (did_trans _ _ _ _ _ _ _ _ _ D0 (did_trans _ _ _ _ _ _ _ _ _ D1 (did_trans _ _ _ _ _ _ _ _ _ D2 D3))) as D4. rewrite app_nil_r in D4. cbn [List.app String.append] in D4.
      rewrite str_app_nil_r in D4. exact D4.
    - intros b l H O. destruct (Fs l H (ok_inv _ O)) as [St _]. split; [|exact Logic.I]. intros c indent I Hi. cbv beta. rewrite write_md_eq, emit_eq. cbv zeta.
      pose proof (did_take c (NList b l) I) as D0. assert (N0 : cx_number (take_leftover c (NList b l)) = cx_number c) by apply D0.
      set (c0 := take_leftover c (NList b l)) in *. pose proof (did_list c0 (S (cx_level c0)) (cx_number c0) (proj1 D0)) as D1. rewrite N0 in D1. rewrite N0.
      set (c1 := set_list c0 (S (cx_level c0)) (cx_number c)) in *.
      assert (Hi' : sk (list_indent o c1 indent b) = "").
      { unfold list_indent. destruct (_ && _); [exact Hi|]. destruct (_ && _); rewrite without_app, Hi; cbn; rewrite (Hblank " "%char eq_refl); reflexivity. }
      pose proof (did_blank_line c1 (proj1 D1)) as D2. change (cx_number c1) with (cx_number c) in D2.
      destruct (did_items b l St (add_blank_line c1) (list_indent o c1 indent b) (proj1 D2) Hi') as (k & D3).
      change (cx_number (add_blank_line c1)) with (cx_number c) in D3. set (c2 := items_md o (add_blank_line c1) (list_indent o c1 indent b) b l) in *.
      pose proof (did_list c2 (pred (cx_level c2)) 0 (proj1 D3)) as D4. set (c3 := set_list c2 (pred (cx_level c2)) 0) in *.
      pose proof (did_prefix c3 "" false (proj1 D4) eq_refl) as D5. set (c4 := set_prefix c3 "" false) in *.
      pose proof (did_leftover c4 (S (cx_leftover c4)) (proj1 D5)) as D6. change (cx_number c4) with 0 in D6.
      pose proof (did_trans _ _ _ _ _ _ _ _ _ D0 (did_trans _ _ _ _ _ _ _ _ _ D1 (did_trans _ _ _ _ _ _ _ _ _ D2 (did_trans _ _ _ _ _ _ _ _ _ D3
        (did_trans _ _ _ _ _ _ _ _ _ D4 (did_trans _ _ _ _ _ _ _ _ _ D5 D6)))))) as D7. cbn [List.app String.append] in D7. rewrite app_nil_r, str_app_nil_r in D7. exact D7.
    - intros l H O. destruct (Fs l H (ok_inv _ O)) as [_ St]. split; [|exact Logic.I]. intros c indent I Hi. cbv beta. rewrite write_md_eq, emit_eq. cbv zeta.
      pose proof (did_take c (NItem l) I) as D0. pose proof (did_flat l St _ indent (proj1 D0) Hi) as D1. cbv beta in D1.
      assert (N0 : cx_number (take_leftover c (NItem l)) = cx_number c) by apply D0. rewrite N0 in D1. exact (did_trans _ _ _ _ _ _ _ _ _ D0 D1).
    - intros s _. split; [|exact Logic.I]. intros c indent I Hi. cbv beta. rewrite write_md_eq, emit_eq. cbv zeta.
      pose proof (did_take c (NHtml s) I) as D0. pose proof (did_unbreakable _ s (proj1 D0)) as D1.
      assert (N0 : cx_number (take_leftover c (NHtml s)) = cx_number c) by apply D0. rewrite N0 in D1. exact (did_trans _ _ _ _ _ _ _ _ _ D0 D1).
    - intros s _. split; [|exact Logic.I]. intros c indent I Hi. cbv beta. rewrite write_md_eq, emit_eq. cbv zeta.
      pose proof (did_take c (NInlineCode s) I) as D0. pose proof (did_unbreakable _ ("`" ++ s ++ "`") (proj1 D0)) as D1.
      assert (N0 : cx_number (take_leftover c (NInlineCode s)) = cx_number c) by apply D0. rewrite N0 in D1. exact (did_trans _ _ _ _ _ _ _ _ _ D0 D1).
    - intros g s _. split; [|exact Logic.I]. intros c indent I Hi. cbv beta. rewrite write_md_eq, emit_eq. cbv zeta.
      pose proof (did_take c (NCode g s) I) as D0. set (t := "```" ++ opt_get (opt_or g (mo_language o)) "" ++ nl ++ s ++ nl ++ "```").
      pose proof (did_unbreakable _ t (proj1 D0)) as D1.
      assert (N0 : cx_number (take_leftover c (NCode g s)) = cx_number c) by apply D0. rewrite N0 in D1. set (c1 := add_unbreakable _ t) in *.
      pose proof (did_blank_line c1 (proj1 D1)) as D2. assert (N1 : cx_number c1 = cx_number c) by apply D1. rewrite N1 in D2.
      pose proof (did_trans _ _ _ _ _ _ _ _ _ D0 (did_trans _ _ _ _ _ _ _ _ _ D1 D2)) as D3. refine (did_to _ _ _ _ _ _ D3 _). unfold t.
      cbn [fst snd]. rewrite !without_app, !(sk_nl drop Hblank). cbn [String.append without]. rewrite !str_app_nil_r. reflexivity.
    - intros l H O. destruct (Fs l H (ok_inv _ O)) as [_ St]. split; [|exact Logic.I]. intros c indent I Hi. cbv beta. rewrite write_md_eq, emit_eq. cbv zeta.
      assert (Hq : sk "> " = "").
      { destruct (proj1 O) as [Q|Q]; [cbn; rewrite Q, (Hblank " "%char eq_refl); reflexivity|]. apply throughout_inv in Q. destruct Q as [[] _]. }
      pose proof (did_take c (NQuote l) I) as D0. assert (N0 : cx_number (take_leftover c (NQuote l)) = cx_number c) by apply D0.
      set (c0 := take_leftover c (NQuote l)) in *. pose proof (did_cond_blank c0 (proj1 D0)) as D1. rewrite N0 in D1.
      assert (N1 : cx_number (add_cond_blank_line c0) = cx_number c) by apply D1. set (c1 := add_cond_blank_line c0) in *.
      pose proof (did_prefix c1 "> " (cx_skip c1) (proj1 D1) Hq) as D2. rewrite N1 in D2. set (c2 := set_prefix c1 "> " (cx_skip c1)) in *.
      pose proof (did_flat l St c2 indent (proj1 D2) Hi) as D3. cbv beta in D3. assert (N2 : cx_number c2 = cx_number c) by apply D2. rewrite N2 in D3.
      set (c3 := flat_md o c2 indent l) in *. assert (N3 : cx_number c3 = snd (emits o (cx_number c) l)) by apply D3.
      pose proof (did_prefix c3 "" false (proj1 D3) eq_refl) as D4. rewrite N3 in D4. set (c4 := set_prefix c3 "" false) in *.
      pose proof (did_blank_line c4 (proj1 D4)) as D5. change (cx_number c4) with (cx_number c3) in D5. rewrite N3 in D5.
      pose proof (did_trans _ _ _ _ _ _ _ _ _ D0 (did_trans _ _ _ _ _ _ _ _ _ D1 (did_trans _ _ _ _ _ _ _ _ _ D2 (did_trans _ _ _ _ _ _ _ _ _ D3
        (did_trans _ _ _ _ _ _ _ _ _ D4 D5))))) as D7. cbn [List.app String.append] in D7. rewrite app_nil_r, str_app_nil_r in D7. exact D7.
    - intros u l H O. destruct (Fs l H (ok_inv _ O)) as [St _]. split; [|exact Logic.I]. intros c indent I Hi. cbv beta. rewrite write_md_eq, emit_eq. cbv zeta.
      pose proof (did_take c (NLink u l) I) as D0. assert (N0 : cx_number (take_leftover c (NLink u l)) = cx_number c) by apply D0.
      set (c0 := take_leftover c (NLink u l)) in *. pose proof (did_start c0 "[" (proj1 D0)) as D1. rewrite N0 in D1.
      pose proof (did_start_state c0 "[" (proj1 D0)) as Sst.
      assert (N1 : cx_number (start_block c0 "[") = cx_number c) by apply D1. set (c1 := start_block c0 "[") in *.
      pose proof (did_each l St c1 indent (proj1 D1) Hi) as D2. cbv beta in D2. rewrite N1 in D2.
      match goal with |- context [add_link _ ?lb u] => set (label := lb) end.
      assert (Lb : mo_shortcut o = true -> sk label = sk (fst (fst (emits o (cx_number c) l)))).
      { intros Hs. rewrite <- N1. unfold label. apply (did_link_label c1 l indent (proj1 D1) Hi St); [|exact Sst].
        destruct (throughout_inv _ _ (proj2 O Hs)) as [Pl _]. exact Pl. }
      clearbody label. set (c2 := each_md o c1 indent l) in *. assert (N2 : cx_number c2 = snd (emits o (cx_number c) l)) by apply D2.
      pose proof (did_unbreakable c2 "]" (proj1 D2)) as D3. rewrite N2 in D3. set (c3 := add_unbreakable c2 "]") in *. assert (N3 : cx_number c3 = snd (emits o (cx_number c) l)) by apply D3.
      pose proof (did_trans _ _ _ _ _ _ _ _ _ D0 (did_trans _ _ _ _ _ _ _ _ _ D1 (did_trans _ _ _ _ _ _ _ _ _ D2 D3))) as D4. cbn [List.app String.append] in D4. rewrite app_nil_r in D4.
      unfold by_reference. rewrite is_empty_eqb. destruct (mo_shortcut o && negb (String.eqb u "")) eqn:Bq.
      + apply andb_prop in Bq. destruct Bq as [Bq _]. specialize (Lb Bq).
        pose proof (did_add_link c3 label (fst (fst (emits o (cx_number c) l))) u (proj1 D3) Lb) as D5. rewrite N3 in D5. set (c4 := add_link c3 label u) in *.
        pose proof (did_end c4 "" (proj1 D5)) as D6. change (cx_number c4) with (cx_number c3) in D6. rewrite N3 in D6.
        pose proof (did_trans _ _ _ _ _ _ _ _ _ D4 (did_trans _ _ _ _ _ _ _ _ _ D5 D6)) as D7. cbn [List.app] in D7. cbn [fst snd].
        refine (did_to _ _ _ _ _ _ D7 _). cbn [String.append]. rewrite str_app_nil_r. reflexivity.
      + pose proof (did_unbreakable c3 ("(" ++ u ++ ")") (proj1 D3)) as D5. rewrite N3 in D5. set (c4 := add_unbreakable c3 ("(" ++ u ++ ")")) in *.
        assert (N4 : cx_number c4 = snd (emits o (cx_number c) l)) by apply D5.
        pose proof (did_end c4 "" (proj1 D5)) as D6. rewrite N4 in D6.
        pose proof (did_trans _ _ _ _ _ _ _ _ _ D4 (did_trans _ _ _ _ _ _ _ _ _ D5 D6)) as D7. cbn [List.app] in D7. rewrite app_nil_r in D7. cbn [fst snd].
        refine (did_to _ _ _ _ _ _ D7 _). cbn [String.append]. rewrite str_app_nil_r. f_equal. f_equal. rewrite str_app_assoc. reflexivity.
    - intros l H O. destruct (Fs l H (ok_inv _ O)) as [St _]. split; [|exact Logic.I]. intros c indent I Hi. cbv beta. rewrite write_md_eq, emit_eq. cbv zeta.
      pose proof (did_take c (NStrong l) I) as D0. assert (N0 : cx_number (take_leftover c (NStrong l)) = cx_number c) by apply D0.
      pose proof (Ar l _ indent "**" "**" "**" "**" St (proj1 D0) Hi eq_refl eq_refl) as D1. rewrite N0 in D1. exact (did_trans _ _ _ _ _ _ _ _ _ D0 D1).
    - intros l H O. destruct (Fs l H (ok_inv _ O)) as [St _]. split; [|exact Logic.I]. intros c indent I Hi. cbv beta. rewrite write_md_eq, emit_eq. cbv zeta.
      pose proof (did_take c (NEmphasis l) I) as D0. assert (N0 : cx_number (take_leftover c (NEmphasis l)) = cx_number c) by apply D0.
      pose proof (Ar l _ indent "*" "*" "*" "*" St (proj1 D0) Hi eq_refl eq_refl) as D1. rewrite N0 in D1. exact (did_trans _ _ _ _ _ _ _ _ _ D0 D1).
    - intros l H O. destruct (Fs l H (ok_inv _ O)) as [St _]. split; [|exact Logic.I]. intros c indent I Hi. cbv beta. rewrite write_md_eq, emit_eq. cbv zeta.
      pose proof (did_take c (NDelete l) I) as D0. assert (N0 : cx_number (take_leftover c (NDelete l)) = cx_number c) by apply D0.
      pose proof (Ar l _ indent "~~" "~~" "~~" "~~" St (proj1 D0) Hi eq_refl eq_refl) as D1. rewrite N0 in D1. exact (did_trans _ _ _ _ _ _ _ _ _ D0 D1).
    - intros d l H O. destruct (Fs l H (ok_inv _ O)) as [St _]. split; [|exact Logic.I]. intros c indent I Hi. cbv beta. rewrite write_md_eq, emit_eq. cbv zeta.
      pose proof (did_take c (NHeading d l) I) as D0. assert (N0 : cx_number (take_leftover c (NHeading d l)) = cx_number c) by apply D0.
      set (c0 := take_leftover c (NHeading d l)) in *. pose proof (did_cond_blank c0 (proj1 D0)) as D1. rewrite N0 in D1.
      assert (N1 : cx_number (add_cond_blank_line c0) = cx_number c) by apply D1. set (c1 := add_cond_blank_line c0) in *.
      assert (Eo : sk (indent ++ repeat_str d "#" ++ " ") = sk (repeat_str d "#")) by (rewrite without_app, Hi; apply sk_hashes).
      pose proof (Ar l c1 indent _ "" _ "" St (proj1 D1) Hi Eo eq_refl) as D2. rewrite N1 in D2. set (c2 := end_block _ "") in *.
      assert (N2 : cx_number c2 = snd (around o (cx_number c) (repeat_str d "#") "" l)) by apply D2.
      pose proof (did_blank_line c2 (proj1 D2)) as D3. rewrite N2 in D3. set (c3 := add_blank_line c2) in *.
      pose proof (did_leftover c3 (S (cx_leftover c3)) (proj1 D3)) as D4. change (cx_number c3) with (cx_number c2) in D4. rewrite N2 in D4.
      pose proof (did_trans _ _ _ _ _ _ _ _ _ D0 (did_trans _ _ _ _ _ _ _ _ _ D1 (did_trans _ _ _ _ _ _ _ _ _ D2 (did_trans _ _ _ _ _ _ _ _ _ D3 D4)))) as D7.
      cbn [List.app String.append] in D7. rewrite app_nil_r, str_app_nil_r in D7. exact D7.
    - intros k l O. split; [|exact Logic.I]. intros c indent I Hi. cbv beta. rewrite write_md_eq, emit_eq. cbv zeta. exact (did_take c (NOther k l) I).
  Qed.
  (* every block that is opened is closed *)
  Lemma none_unbreakable c t : cx_buffer c = None -> cx_buffer (add_unbreakable c t) = None.
  Proof. intros B. unfold add_unbreakable. rewrite B. exact B. Qed.
  Lemma none_end c t : cx_buffer (end_block c t) = None.
  Proof. unfold end_block. apply none_unbreakable. reflexivity. Qed.
  Lemma none_cond c : cx_buffer (add_cond_blank_line c) = cx_buffer c.
  Proof. unfold add_cond_blank_line. destruct (_ && _); reflexivity. Qed.
  Lemma none_text c t : cx_buffer c = None -> cx_buffer (add_text c t) = None.
  Proof.
    intros B. unfold add_text. rewrite B. destruct (w_max (cx_wrap c)).
    - set (c1 := if _ && _ then _ else _). assert (B1 : cx_buffer c1 = None) by (unfold c1; destruct (_ && _); [apply none_unbreakable; exact B|exact B]). clearbody c1.
      destruct (w_ignore (cx_wrap c1)); [exact B1|]. destruct (split_char lf t) as [|l0 r]; [exact B1|].
      assert (B2 : cx_buffer (write_line_words c1 l0) = None) by exact B1. revert B2. generalize (write_line_words c1 l0). induction r as [|x r IH]; intros cc B2; [exact B2|]. cbn [fold_left]. apply IH. exact B2.
    - destruct (split_char lf t) as [|l0 r]; [exact B|]. assert (B2 : cx_buffer (push_line c (negb (cx_skip c)) l0) = None) by exact B. revert B2. generalize (push_line c (negb (cx_skip c)) l0).
      induction r as [|x r IH]; intros cc B2; [exact B2|]. cbn [fold_left]. apply IH. exact B2.
  Qed.
  Lemma none_begin c indent ordered : cx_buffer c = None -> cx_buffer (begin_item c indent ordered) = None.
  Proof.
    intros B. unfold begin_item. apply none_unbreakable. cbn [set_prefix set_list cx_buffer].
    assert (G : forall m c, cx_buffer (add_blank_lines m c) = cx_buffer c).
    { induction m as [|m IHm]; intros c'; [reflexivity|]. cbn [add_blank_lines]. rewrite IHm. reflexivity. }
    destruct (cx_leftover c); [exact B|]. rewrite G. exact B.
  Qed.
  Definition closed (n : node) : Prop := forall c indent, cx_buffer c = None -> cx_buffer (write_md o c indent n) = None.
  Definition closed2 (n : node) : Prop := closed n /\ match n with NParagraph l => Forall closed l | _ => True end.
  Lemma closed_each l : Forall closed l -> forall c indent, cx_buffer c = None -> cx_buffer (each_md o c indent l) = None.
  Proof. induction 1 as [|x l Hx _ IH]; intros c indent B; [exact B|]. cbn [each_md]. apply IH, Hx, B. Qed.
  Lemma closed_flat l : Forall closed2 l -> forall c indent, cx_buffer c = None -> cx_buffer (flat_md o c indent l) = None.
  Proof.
    induction 1 as [|x l Hx _ IH]; intros c indent B; [exact B|]. cbn [flat_md]. apply IH. destruct Hx as [H1 H2].
    destruct x; try exact (H1 c indent B). exact (closed_each _ H2 c indent B).
  Qed.
  Lemma closed_items ordered l : Forall closed l -> forall c indent, cx_buffer c = None -> cx_buffer (items_md o c indent ordered l) = None.
  Proof. induction 1 as [|x l Hx _ IH]; intros c indent B; [exact B|]. cbn [items_md]. apply IH. cbn [set_leftover cx_buffer]. apply Hx, none_begin, B. Qed.
  Lemma closed_node : forall n, closed2 n.
  Proof.
    assert (Fs : forall l, Forall closed2 l -> Forall closed l) by (intros l H; eapply Forall_impl; [|exact H]; intros x [Hx _]; exact Hx).
    apply (node_ind2 closed2); intros; (split; [|try exact Logic.I; try (apply Fs; assumption)]); intros c indent B; rewrite write_md_eq; cbv zeta;
      match goal with |- context [take_leftover c ?n] => pose proof (take_keeps c n) as T; rewrite B in T; set (c0 := take_leftover c n) in *; clearbody c0 end.
    - apply closed_each; [apply Fs; assumption|exact T].
    - apply none_text, T.
    - apply closed_each; [apply Fs; assumption|]. rewrite none_cond. exact T.
    - apply closed_items; [apply Fs; assumption|exact T].
    - apply closed_flat; assumption.
    - apply none_unbreakable, T.
    - apply none_unbreakable, T.
    - apply (none_unbreakable c0 _ T).
    - apply (closed_flat l H (set_prefix (add_cond_blank_line c0) "> " (cx_skip (add_cond_blank_line c0))) indent). cbn [set_prefix cx_buffer]. rewrite none_cond. exact T.
    - apply none_end.
    - apply none_end.
    - apply none_end.
    - apply none_end.
    - match goal with |- context [end_block ?X ""] => exact (none_end X "") end.
    - exact T.
  Qed.
  (* the whole output *)
  Definition lines_of_refs (ls : list (string * string)) : string := cat (map definition_line ls).
  Lemma sk_repeat_nl n : sk (repeat_str n nl) = "".
  Proof. induction n as [|n IH]; [reflexivity|]. cbn [repeat_str]. rewrite without_app, (sk_nl drop Hblank), IH. reflexivity. Qed.
  Lemma sk_refs ls ls' : Forall2 ref_eq ls ls' -> forall out,
    sk (fold_left (fun out l => out ++ nl ++ "[" ++ fst l ++ "]: " ++ snd l) ls out) = sk out ++ sk (lines_of_refs ls').
  Proof.
    induction 1 as [|[a u] [b v] ls ls' [E1 E2] _ IH]; intros out; cbn [fold_left].
    - cbn. rewrite str_app_nil_r. reflexivity.
    - rewrite IH. unfold lines_of_refs. cbn [map]. rewrite cat_cons. cbn [fst snd] in *. subst v. unfold definition_line. cbn [fst snd].
      rewrite !without_app, (sk_nl drop Hblank), E1, !str_app_assoc. reflexivity.
  Qed.
  Lemma sk_rendered cfg n : ok n ->
    sk (render_md_tree o cfg n) = sk (fst (fst (emit o 0 n)) ++ lines_of_refs (snd (fst (emit o 0 n)))).
  Proof.
    intros O. unfold render_md_tree. set (c0 := new_ctx cfg). assert (I : inv c0) by (split; reflexivity).
    destruct (proj1 (did_node n O) c0 "" I eq_refl) as (I' & _ & S1 & _ & ls & L & F). cbv beta in *.
    change (cx_number c0) with 0 in *. set (c := write_md o c0 "" n) in *. change (cx_links c0) with (@nil (string * string)) in L. cbn [List.app] in L.
    assert (B : cx_buffer c = None) by (apply (proj1 (closed_node n)); reflexivity).
    unfold full in S1. rewrite B in S1. cbn [c0 new_ctx cx_md cx_buffer] in S1. rewrite str_app_nil_r in S1. cbn [String.append without] in S1.
    rewrite without_app. destruct (cx_links c) as [|r rs] eqn:E.
    - subst ls. inversion F. rewrite <- S1. cbn. rewrite str_app_nil_r. reflexivity.
    - rewrite L in *. rewrite (sk_refs _ _ F), without_app, sk_repeat_nl, str_app_nil_r, S1. reflexivity.
  Qed.
End Did.

(* ---------- what is written is what the document shows ---------- *)
Section Shows.
  Variable o : md_options.
  Notation shown := (shown o (text_out o)).
  Notation refs := (references o (text_out o)).
  Lemma all_forall (P : node -> Prop) l :
    (fix all (l : list node) : Prop := match l with [] => True | x :: r => P x /\ all r end) l -> Forall P l.
  Proof. induction l as [|x l IH]; [constructor|]. intros [H1 H2]. constructor; [exact H1|exact (IH H2)]. Qed.
  Definition same (e : (string * list (string * string)) * nat) (s : string) (ls : list (string * string)) (k : nat) : Prop := e = ((s, ls), k).
  Lemma emits_same l (k : nat) : Forall (fun x => emit o k x = ((shown x, refs x), k)) l ->
    emits o k l = ((cat (map shown l), flat_map refs l), k).
  Proof.
    induction 1 as [|x l Hx _ IH]; [reflexivity|]. cbn [emits map flat_map]. rewrite Hx. cbn [fst snd]. rewrite IH. cbn [fst snd]. rewrite cat_cons. reflexivity.
  Qed.
  Lemma hashes d : cat (repeat "#" d) = repeat_str d "#".
  Proof. induction d as [|d IH]; [reflexivity|]. cbn [repeat repeat_str]. rewrite cat_cons, IH. reflexivity. Qed.
  (* the parts of a document that are no list, given their children *)
  Definition plain_kind (n : node) : Prop := match n with NList _ _ => False | _ => True end.
  Lemma emit_plain k n : plain_kind n -> emits o k (children n) = ((cat (map shown (children n)), flat_map refs (children n)), k) ->
    emit o k n = ((shown n, refs n), k).
  Proof.
    intros Hp H. rewrite emit_eq. destruct n; try contradiction Hp; cbn [children] in H; cbn [FormatSpec.shown references]; unfold around; rewrite ?H; try reflexivity.
    - destruct lang; [reflexivity|]. cbn. destruct (mo_language o); reflexivity.
    - cbv zeta. cbn [fst snd]. destruct (by_reference o url); [rewrite str_app_nil_r; reflexivity|]. rewrite app_nil_r. reflexivity.
    - cbn [fst snd]. rewrite hashes, str_app_nil_r. reflexivity.
  Qed.
  Lemma emit_no_list : forall n, no_list n -> forall k, emit o k n = ((shown n, refs n), k).
  Proof.
    assert (G : forall n, Forall (fun x => no_list x -> forall k, emit o k x = ((shown x, refs x), k)) (children n) -> no_list n -> forall k, emit o k n = ((shown n, refs n), k)).
    { intros n H N k. destruct (throughout_inv _ _ N) as [Hn Hc]. apply emit_plain; [destruct n; try exact Logic.I; exact Hn|].
      apply emits_same. apply Forall_forall. intros x Hx. exact (proj1 (Forall_forall _ _) H x Hx (proj1 (Forall_forall _ _) Hc x Hx) k). }
    apply (node_ind2 (fun n => no_list n -> forall k, emit o k n = ((shown n, refs n), k))); intros; apply G; try assumption; constructor.
  Qed.
  Lemma tidy_inv b n : tidy b n -> plain_kind n -> Forall (tidy b) (children n).
  Proof. destruct n; cbn [tidy children plain_kind]; intros H P; try contradiction P; try (apply all_forall in H; exact H); constructor. Qed.
  Lemma emit_bullets l : Forall (fun x => tidy true x -> forall k, exists k', emit o k x = ((shown x, refs x), k')) l -> Forall (tidy true) l -> forall k,
    emit_items o false k l = (cat (map (fun i => "-" ++ shown i) l), flat_map refs l).
  Proof.
    induction 1 as [|x l Hx _ IH]; intros T k; [reflexivity|]. inversion T as [|x' l' T1 T2]; subst. cbn [emit_items map flat_map].
    destruct (Hx T1 (S k)) as (k' & E). rewrite E. cbn [fst snd]. rewrite (IH T2 k'). cbn [fst snd]. rewrite cat_cons. unfold marker. rewrite str_app_assoc. reflexivity.
  Qed.
  Lemma emit_numbers l : Forall no_list l -> forall k,
    emit_items o true k l = ((fix number (k : nat) (l : list node) : string :=
        match l with [] => "" | i :: r => decimal k ++ "." ++ shown i ++ number (S k) r end) (S k) l, flat_map refs l).
  Proof.
    induction 1 as [|x l Hx _ IH]; intros k; [reflexivity|]. cbn [emit_items flat_map]. rewrite (emit_no_list x Hx). cbn [fst snd]. rewrite IH. cbn [fst snd].
    unfold marker. rewrite str_app_assoc. reflexivity.
  Qed.
  Lemma emit_tidy : forall n, (tidy true n -> forall k, exists k', emit o k n = ((shown n, refs n), k')) /\ (tidy false n -> emit o 0 n = ((shown n, refs n), 0)).
  Proof.
    assert (G : forall n, plain_kind n -> Forall (fun x => (tidy true x -> forall k, exists k', emit o k x = ((shown x, refs x), k')) /\ (tidy false x -> emit o 0 x = ((shown x, refs x), 0))) (children n) ->
      (tidy true n -> forall k, exists k', emit o k n = ((shown n, refs n), k')) /\ (tidy false n -> emit o 0 n = ((shown n, refs n), 0))).
    { intros n Hp H. split.
      - intros T k. pose proof (tidy_inv _ _ T Hp) as Tc.
        assert (E : exists k', emits o k (children n) = ((cat (map shown (children n)), flat_map refs (children n)), k')).
        { clear T. revert k. induction H as [|x l [Hx _] _ IH]; intros k; [eexists; reflexivity|]. inversion Tc as [|x' l' T1 T2]; subst.
          destruct (Hx T1 k) as (k1 & E1). destruct (IH T2 k1) as (k2 & E2). exists k2. cbn [emits map flat_map]. rewrite E1. cbn [fst snd]. rewrite E2. cbn [fst snd]. rewrite cat_cons. reflexivity. }
        destruct E as (k' & E). rewrite emit_eq. destruct n; try contradiction Hp; cbn [children] in E; cbn [FormatSpec.shown references]; unfold around; rewrite ?E; try (eexists; reflexivity).
        + destruct lang; [eexists; reflexivity|]. cbn. destruct (mo_language o); eexists; reflexivity.
        + cbv zeta. cbn [fst snd]. destruct (by_reference o url); [rewrite str_app_nil_r; eexists; reflexivity|]. rewrite app_nil_r. eexists. reflexivity.
        + cbn [fst snd]. rewrite hashes, str_app_nil_r. eexists. reflexivity.
      - intros T. pose proof (tidy_inv _ _ T Hp) as Tc. apply emit_plain; [exact Hp|]. apply emits_same. apply Forall_forall. intros x Hx.
        exact (proj2 (proj1 (Forall_forall _ _) H x Hx) (proj1 (Forall_forall _ _) Tc x Hx)). }
    assert (Ls : forall b l, Forall (fun x => (tidy true x -> forall k, exists k', emit o k x = ((shown x, refs x), k')) /\ (tidy false x -> emit o 0 x = ((shown x, refs x), 0))) l ->
      (tidy true (NList b l) -> forall k, exists k', emit o k (NList b l) = ((shown (NList b l), refs (NList b l)), k')) /\
      (tidy false (NList b l) -> emit o 0 (NList b l) = ((shown (NList b l), refs (NList b l)), 0))).
    { intros b l H. assert (H' : Forall (fun x => tidy true x -> forall k, exists k', emit o k x = ((shown x, refs x), k')) l) by (eapply Forall_impl; [|exact H]; intros x Hx; exact (proj1 Hx)).
      destruct b; split; cbn [tidy].
      - intros [X _]. discriminate X.
      - intros [_ T]. apply all_forall in T. rewrite emit_eq, (emit_numbers l T). reflexivity.
      - intros T k. apply all_forall in T. rewrite emit_eq, (emit_bullets l H' T). eexists. reflexivity.
      - intros T. apply all_forall in T. rewrite emit_eq, (emit_bullets l H' T). reflexivity. }
    apply (node_ind2 (fun n => (tidy true n -> forall k, exists k', emit o k n = ((shown n, refs n), k')) /\ (tidy false n -> emit o 0 n = ((shown n, refs n), 0))));
      intros; try (apply G; [exact Logic.I|]; try assumption; constructor). apply Ls. assumption.
  Qed.
End Shows.

(* ---------- escapes ---------- *)
Lemma backslashes_app n s : backslashes n ++ String backslash s = backslashes (S n) ++ s.
Proof. induction n as [|n IH]; [reflexivity|]. cbn [backslashes String.append]. rewrite IH. reflexivity. Qed.
Definition unslashed (a : string) : Prop := a = "" \/ exists b d, a = b ++ String d "" /\ d <> backslash.
Lemma escape_brackets : forall s p n, unslashed p -> forall a c b, bracket c -> escape_unescaped is_bracket (Nat.odd n) s = a ++ String c b ->
  exists q j, p ++ backslashes n ++ a = q ++ backslashes j /\ Nat.odd j = true /\ unslashed q.
Proof.
  assert (Br : forall c, bracket c -> is_bracket c = true) by (intros c [->| ->]; reflexivity).
  assert (Bs : forall c, bracket c -> c <> "\"%char) by (intros c [->| ->]; discriminate).
  assert (Us : forall p c, c <> "\"%char -> unslashed (p ++ String c "")) by (intros p c Hc; right; exists p, c; split; [reflexivity|exact Hc]).
  induction s as [|d s IH]; intros p n Up a c b Hc H; cbn [escape_unescaped] in H; [destruct a; discriminate H|].
  destruct (Ascii.eqb d "\") eqn:Ed.
  - apply Ascii.eqb_eq in Ed. subst d. destruct a as [|x a]; injection H as Hx H.
    + exfalso. exact (Bs c Hc (eq_sym Hx)).
    + subst x. rewrite Nat.negb_odd, <- Nat.odd_succ in H.
      destruct (IH p (S n) Up a c b Hc H) as (q & j & E & Oj & Uq). exists q, j. split; [|split; assumption]. rewrite <- E. f_equal. apply backslashes_app.
  - apply Ascii.eqb_neq in Ed. destruct (is_bracket d && negb (Nat.odd n)) eqn:Eb.
    + apply andb_prop in Eb. destruct Eb as [_ En]. destruct a as [|x a]; injection H as Hx H; [exfalso; exact (Bs c Hc (eq_sym Hx))|]. subst x.
      destruct a as [|y a]; injection H as Hy H.
      * exists p, (S n). split; [rewrite backslashes_app, str_app_nil_r; reflexivity|]. split; [rewrite Nat.odd_succ, <- Nat.negb_odd; exact En|exact Up].
      * subst y. change false with (Nat.odd 0) in H.
        destruct (IH (p ++ backslashes n ++ String "\" (String d "")) 0) with (a := a) (c := c) (b := b) as (q & j & E & Oj & Uq); [|exact Hc|exact H|].
        { change (String "\" (String d "")) with ("\" ++ String d ""). rewrite <- !str_app_assoc. apply Us. exact Ed. }
        exists q, j. split; [|split; assumption]. rewrite <- E. rewrite !str_app_assoc. reflexivity.
    + destruct a as [|x a]; injection H as Hx H.
      * subst d. rewrite (Br c Hc) in Eb. cbn in Eb. apply negb_false_iff in Eb. exists p, n. split; [rewrite str_app_nil_r; reflexivity|]. split; [exact Eb|exact Up].
      * subst x. change false with (Nat.odd 0) in H.
        destruct (IH (p ++ backslashes n ++ String d "") 0) with (a := a) (c := c) (b := b) as (q & j & E & Oj & Uq); [|exact Hc|exact H|].
        { rewrite <- str_app_assoc. apply Us. exact Ed. }
        exists q, j. split; [|split; assumption]. rewrite <- E. rewrite !str_app_assoc. reflexivity.
Qed.
Lemma escape_reads : forall s, reads_as_text (escape_unescaped is_bracket false (double_backslashes s)) s.
Proof.
  induction s as [|c s IH]; [constructor|]. cbn [double_backslashes]. destruct (Ascii.eqb c "\") eqn:E.
  - apply Ascii.eqb_eq in E. subst c. cbn. apply rt_escaped; [left; reflexivity|exact IH].
  - cbn [escape_unescaped]. rewrite E. apply Ascii.eqb_neq in E. destruct (is_bracket c) eqn:B; cbn [andb negb].
    + apply rt_escaped; [|exact IH]. right. unfold is_bracket in B. apply orb_prop in B. destruct B as [B|B]; apply Ascii.eqb_eq in B; [left|right]; exact B.
    + apply rt_plain; [exact E| |exact IH]. intros [->| ->]; discriminate B.
Qed.

(* ---------- words ---------- *)
Local Arguments blankb : simpl never.
Fixpoint tok (acc s : string) : list string :=
  match s with
  | EmptyString => if is_empty acc then [] else [acc]
  | String c r => if blankb c then (if is_empty acc then tok "" r else acc :: tok "" r) else tok (acc ++ String c "") r
  end.
Definition tk (s : string) : list string := tok "" s.
Lemma tok_words s : forall acc, all_chars (fun c => negb (blankb c)) acc = true -> words (acc ++ s) (tok acc s).
Proof.
  induction s as [|c s IH]; intros acc A; cbn [tok].
  - rewrite str_app_nil_r. destruct acc; [constructor|]. cbn [is_empty]. apply wd_last; [discriminate|exact A].
  - destruct (blankb c) eqn:B.
    + destruct acc as [|d acc]; cbn [is_empty].
      * apply wd_blank; [exact B|]. exact (IH "" eq_refl).
      * apply wd_word; [discriminate|exact A|exact B|exact (IH "" eq_refl)].
    + change (String c s) with (String c "" ++ s). rewrite <- str_app_assoc. apply IH. rewrite all_chars_app, A. cbn. rewrite B. reflexivity.
Qed.
Lemma tok_skip w s : forall acc, all_chars (fun c => negb (blankb c)) w = true -> tok acc (w ++ s) = tok (acc ++ w) s.
Proof.
  induction w as [|c w IH]; intros acc A; cbn; [rewrite str_app_nil_r; reflexivity|]. cbn in A. apply andb_prop in A. destruct A as [A1 A2].
  apply negb_true_iff in A1. rewrite A1, (IH _ A2), str_app_assoc. reflexivity.
Qed.
Lemma words_tk s l : words s l -> l = tk s.
Proof.
  unfold tk. induction 1 as [|c s l B _ IH|w N A|w c s l N A B _ IH]; [reflexivity| | |].
  - cbn. rewrite B. exact IH.
  - rewrite <- (str_app_nil_r w) at 2. rewrite (tok_skip w "" "" A). cbn. destruct w; [congruence|reflexivity].
  - rewrite (tok_skip w _ "" A). cbn [tok String.append]. rewrite B. destruct w; [congruence|]. cbn [is_empty]. rewrite <- IH. reflexivity.
Qed.
Lemma tok_blank a c b : forall acc, blankb c = true -> tok acc (a ++ String c b) = List.app (tok acc a) (tok "" b).
Proof.
  induction a as [|d a IH]; intros acc B; cbn [tok String.append].
  - rewrite B. destruct (is_empty acc); reflexivity.
  - destruct (blankb d).
    + rewrite (IH "" B). destruct (is_empty acc); reflexivity.
    + apply IH. exact B.
Qed.
(* a place where a word may start *)
Definition opened (a : string) : Prop := a = "" \/ exists b c, a = b ++ String c "" /\ blankb c = true.
Lemma tk_opened a b : opened a -> tk (a ++ b) = List.app (tk a) (tk b).
Proof.
  intros [->|(x & c & -> & B)]; [reflexivity|]. unfold tk. rewrite str_app_assoc. cbn [String.append]. rewrite !(tok_blank x c _ "" B). cbn. rewrite app_nil_r. reflexivity.
Qed.
Lemma tk_sep a c b : blankb c = true -> tk (a ++ String c b) = List.app (tk a) (tk b).
Proof. apply tok_blank. Qed.
Lemma tk_blanks a : all_chars blankb a = true -> tk a = [].
Proof. unfold tk. induction a as [|c a IH]; [reflexivity|]. cbn. intros H. apply andb_prop in H. destruct H as [-> H]. exact (IH H). Qed.
Lemma tk_end a b : all_chars blankb b = true -> tk (a ++ b) = tk a.
Proof.
  intros H. destruct b as [|c b]; [rewrite str_app_nil_r; reflexivity|]. cbn in H. apply andb_prop in H. destruct H as [H1 H2].
  rewrite (tk_sep a c b H1), (tk_blanks b H2), app_nil_r. reflexivity.
Qed.
Lemma tk_trim_end p s : (forall c, p c = true -> blankb c = true) -> tk (trim_end p s) = tk s.
Proof.
  intros Hp. destruct (trim_end_spec p s) as (t & E & A & _). rewrite E at 2. rewrite tk_end; [reflexivity|]. exact (all_chars_imp p blankb t Hp A).
Qed.
Lemma tk_trim_start s : tk (trim_start is_white s) = tk s.
Proof. induction s as [|c s IH]; [reflexivity|]. cbn [trim_start]. rewrite white_blank. destruct (blankb c) eqn:B; [|reflexivity]. rewrite IH. unfold tk. cbn. rewrite B. reflexivity. Qed.
Lemma tk_cut sp : (forall c, sp c = true -> blankb c = true) -> forall s b acc, (b = true -> opened acc) -> concat (map tk (cut_words sp b acc s)) = tk (acc ++ s).
Proof.
  intros Hs. induction s as [|c s IH]; intros b acc Hb; cbn [cut_words].
  - destruct acc; [reflexivity|]. cbn [is_empty map concat]. rewrite app_nil_r, str_app_nil_r. reflexivity.
  - assert (Hn : forall x, sp c = true -> opened (x ++ String c "")) by (intros x E; right; exists x, c; split; [reflexivity|apply Hs, E]).
    destruct (b && negb (sp c)) eqn:E.
    + apply andb_prop in E. destruct E as [-> E]. cbn [map concat]. rewrite IH; [|apply (Hn "")]. change (String c "" ++ s) with (String c s). symmetry. apply tk_opened, Hb. reflexivity.
    + rewrite IH; [|apply Hn]. rewrite str_app_assoc. reflexivity.
Qed.
Lemma concat_map_tk f l : (forall x, tk (f x) = tk x) -> concat (map tk (map f l)) = concat (map tk l).
Proof. intros H. induction l as [|x l IH]; [reflexivity|]. cbn. rewrite H, IH. reflexivity. Qed.
Lemma space_blank c : is_space c = true -> blankb c = true.
Proof. intros H. apply Ascii.eqb_eq in H. subst c. reflexivity. Qed.
Lemma space_newline_blank c : is_space_or_newline c = true -> blankb c = true.
Proof. intros H. unfold is_space_or_newline in H. apply orb_prop in H. destruct H as [H|H]; [apply orb_prop in H; destruct H as [H|H]|]; apply Ascii.eqb_eq in H; subst c; reflexivity. Qed.
Lemma white_is_blank c : is_white c = true -> blankb c = true.
Proof. rewrite white_blank. auto. Qed.
Lemma tk_find_words b s : concat (map tk (find_words b s)) = tk s.
Proof.
  unfold find_words, words_newline, words_space. destruct b; rewrite concat_map_tk.
  - rewrite (tk_cut _ space_newline_blank); [reflexivity|discriminate].
  - intros x. rewrite (tk_trim_end is_space _ space_blank). apply (tk_trim_end is_white _ white_is_blank).
  - rewrite (tk_cut _ space_blank); [reflexivity|discriminate].
  - intros x. apply (tk_trim_end is_space _ space_blank).
Qed.
Lemma tk_word_fold l : forall w out b, (b = true -> opened out) ->
  tk (snd (fst (fold_left (write_word "") l (w, out, b)))) = List.app (tk out) (concat (map tk l)).
Proof.
  induction l as [|x l IH]; intros w out b Hb; cbn [fold_left map concat]; [rewrite app_nil_r; reflexivity|].
  unfold write_word at 2.
  assert (T : forall q : bool, tk (if q then trim_start is_white x else x) = tk x) by (intros []; [apply tk_trim_start|reflexivity]).
  destruct (too_long w (String.length x)); [|destruct (w_left w || negb b) eqn:E]; rewrite IH by discriminate.
  - unfold nl. rewrite str_app_assoc. cbn [String.append]. rewrite (tk_sep out lf _ eq_refl), T, <- app_assoc. reflexivity.
  - rewrite str_app_assoc. cbn [String.append]. rewrite (tk_sep out " " _ eq_refl), T, <- app_assoc. reflexivity.
  - rewrite tk_opened, T, <- app_assoc; [reflexivity|]. apply orb_false_iff in E. apply Hb. destruct b; [reflexivity|]. destruct E as [_ E]. discriminate E.
Qed.
Lemma tk_write_words w out input : opened out -> tk (snd (write_words w out input "")) = List.app (tk out) (tk input).
Proof.
  intros Ho. unfold write_words. destruct (w_max w) as [m|]; [|cbn; apply tk_opened; exact Ho].
  pose proof (tk_word_fold (find_words (w_ignore w) input) w out true (fun _ => Ho)) as H.
  destruct (fold_left (write_word "") (find_words (w_ignore w) input) (w, out, true)) as [[w' out'] b']. cbn [fst snd] in H. cbn [snd]. rewrite H, tk_find_words. reflexivity.
Qed.

(* ---------- paragraphs of text ---------- *)
Definition keeps (c c' : ctx) : Prop :=
  cx_prefix c' = cx_prefix c /\ cx_buffer c' = cx_buffer c /\ cx_leftover c' = cx_leftover c /\ cx_links c' = cx_links c /\ w_max (cx_wrap c') = w_max (cx_wrap c).
Lemma keeps_refl c : keeps c c.
Proof. repeat split. Qed.
Lemma keeps_trans a b c : keeps a b -> keeps b c -> keeps a c.
Proof. intros (A1 & A2 & A3 & A4 & A5) (B1 & B2 & B3 & B4 & B5). repeat split; congruence. Qed.
Lemma keeps_line c l : keeps c (write_line_words c l).
Proof. repeat split. cbn. apply max_words. Qed.
Lemma keeps_blank c : keeps c (add_blank_line c).
Proof. repeat split. Qed.
Lemma keeps_cond c : keeps c (add_cond_blank_line c).
Proof. unfold add_cond_blank_line. destruct (_ && _); [apply keeps_blank|apply keeps_refl]. Qed.
Lemma keeps_push c b l : keeps c (push_line c b l).
Proof. repeat split. Qed.
Lemma keeps_fold (f : ctx -> string -> ctx) : (forall c l, keeps c (f c l)) -> forall l c, keeps c (fold_left f l c).
Proof. intros H. induction l as [|x l IH]; intros c; [apply keeps_refl|]. cbn [fold_left]. exact (keeps_trans _ _ _ (H c x) (IH _)). Qed.
Lemma take_none c n : cx_leftover c = 0 -> keeps c (take_leftover c n) /\ cx_md (take_leftover c n) = cx_md c /\ cx_wrap (take_leftover c n) = cx_wrap c.
Proof. intros L. unfold take_leftover. rewrite L. destruct (is_list n); repeat split; cbn; rewrite ?L; reflexivity. Qed.
Lemma keeps_text c t : cx_prefix c = "" -> cx_buffer c = None -> keeps c (add_text c t).
Proof.
  intros Hp Hb. unfold add_text. rewrite Hb, Hp. cbn [is_empty negb andb]. destruct (w_max (cx_wrap c)).
  - destruct (w_ignore (cx_wrap c)); [apply keeps_line|]. destruct (split_char lf t) as [|l0 r]; [apply keeps_refl|].
    apply (keeps_trans _ (write_line_words c l0)); [apply keeps_line|]. apply keeps_fold. intros a l. exact (keeps_trans _ _ _ (keeps_blank a) (keeps_line _ l)).
  - destruct (split_char lf t) as [|l0 r]; [apply keeps_refl|].
    apply (keeps_trans _ (push_line c (negb (cx_skip c)) l0)); [apply keeps_push|]. apply keeps_fold. intros a l. repeat split.
Qed.
Lemma opened_nl a : opened (a ++ nl).
Proof. right. exists a, lf. split; reflexivity. Qed.
Lemma tk_join r : forall l0, tk (join nl (l0 :: r)) = List.app (tk l0) (concat (map tk r)).
Proof.
  induction r as [|x r IH]; intros l0; [cbn [join map concat]; rewrite app_nil_r; reflexivity|].
  change (join nl (l0 :: x :: r)) with (l0 ++ nl ++ join nl (x :: r)). unfold nl at 1. cbn [String.append]. rewrite (tk_sep _ lf _ eq_refl), IH. reflexivity.
Qed.
Lemma push_exact r : forall c, cx_prefix c = "" ->
  cx_md (fold_left (fun c l => push_line (set_out c (cx_wrap c, cx_md c ++ nl)) true l) r c) = cx_md c ++ cat (map (fun l => nl ++ l) r).
Proof.
  induction r as [|x r IH]; intros c Hp; [cbn; rewrite str_app_nil_r; reflexivity|]. cbn [fold_left map]. rewrite (IH (push_line (set_out c (cx_wrap c, cx_md c ++ nl)) true x) Hp), cat_cons.
  unfold push_line. cbn [set_out cx_md cx_prefix snd]. rewrite Hp. cbn [is_empty negb andb]. rewrite !str_app_assoc. reflexivity.
Qed.
Lemma join_cat r : forall l0, join nl (l0 :: r) = l0 ++ cat (map (fun l => nl ++ l) r).
Proof.
  induction r as [|x r IH]; intros l0; [cbn; rewrite str_app_nil_r; reflexivity|].
  change (join nl (l0 :: x :: r)) with (l0 ++ nl ++ join nl (x :: r)). rewrite IH. cbn [map]. rewrite cat_cons, !str_app_assoc. reflexivity.
Qed.
Lemma text_unwrapped c t : cx_prefix c = "" -> cx_buffer c = None -> w_max (cx_wrap c) = None -> cx_md (add_text c t) = cx_md c ++ t.
Proof.
  intros Hp Hb Hm. unfold add_text. rewrite Hb, Hm. destruct (split_char lf t) as [|l0 r] eqn:E; [exfalso; exact (split_char_ne lf t E)|].
  rewrite push_exact by exact Hp. unfold push_line. cbn [set_out cx_md snd]. rewrite Hp. cbn [is_empty negb andb String.append].
  rewrite str_app_assoc, <- join_cat, <- E. f_equal. apply split_char_join.
Qed.
Lemma text_tk c t : cx_prefix c = "" -> cx_buffer c = None -> opened (cx_md c) -> tk (cx_md (add_text c t)) = List.app (tk (cx_md c)) (tk t).
Proof.
  intros Hp Hb Ho. destruct (w_max (cx_wrap c)) as [m|] eqn:M; [|rewrite text_unwrapped by assumption; apply tk_opened; exact Ho].
  unfold add_text. rewrite Hb, M, Hp. cbn [is_empty negb andb]. destruct (w_ignore (cx_wrap c)).
  - unfold write_line_words. cbn [set_out cx_md]. rewrite Hp. apply tk_write_words. exact Ho.
  - destruct (split_char lf t) as [|l0 r] eqn:E; [exfalso; exact (split_char_ne lf t E)|].
    assert (G : forall r c, cx_prefix c = "" -> tk (cx_md (fold_left (fun c l => write_line_words (add_blank_line c) l) r c)) = List.app (tk (cx_md c)) (concat (map tk r))).
    { clear. induction r as [|x r IH]; intros c Hp; [cbn [fold_left map concat]; rewrite app_nil_r; reflexivity|]. cbn [fold_left map concat].
      rewrite (IH (write_line_words (add_blank_line c) x) Hp). unfold write_line_words, add_blank_line. cbn [set_out cx_md cx_prefix cx_wrap fst snd write_ln].
      rewrite Hp, str_app_nil_r, tk_write_words by apply opened_nl. rewrite tk_end by reflexivity. rewrite app_assoc. reflexivity. }
    rewrite G by exact Hp. unfold write_line_words. cbn [set_out cx_md]. rewrite Hp, tk_write_words by exact Ho.
    rewrite <- app_assoc, <- tk_join, <- E. f_equal. f_equal. apply split_char_join.
Qed.
Lemma blank_md c : cx_prefix c = "" -> cx_md (add_blank_line c) = cx_md c ++ nl.
Proof. intros Hp. unfold add_blank_line. cbn [set_out cx_md snd write_ln]. rewrite Hp, str_app_nil_r. reflexivity. Qed.
Definition ready (c : ctx) : Prop := cx_prefix c = "" /\ cx_buffer c = None /\ cx_leftover c = 0 /\ cx_links c = [].
Lemma ready_keeps c c' : ready c -> keeps c c' -> ready c'.
Proof. intros (A & B & C & D) (A' & B' & C' & D' & _). repeat split; congruence. Qed.
Section Paragraphs.
  Variable o : md_options.
  Lemma paragraph_md c l : write_md o c "" (NParagraph l) =
    add_blank_line (fold_left (fun c n => write_md o c "" n) l (add_cond_blank_line (take_leftover c (NParagraph l)))).
  Proof.
    cbn [write_md]. f_equal. generalize (add_cond_blank_line (take_leftover c (NParagraph l))). clear c.
    induction l as [|x l IH]; intros c; [reflexivity|]. cbn [fold_left]. apply IH.
  Qed.
  Lemma root_md cfg l : cx_md (write_md o (new_ctx cfg) "" (NRoot l)) = cx_md (fold_left (fun c n => write_md o c "" n) l (new_ctx cfg)) /\
    cx_links (write_md o (new_ctx cfg) "" (NRoot l)) = cx_links (fold_left (fun c n => write_md o c "" n) l (new_ctx cfg)).
  Proof.
    cbn [write_md]. change (take_leftover (new_ctx cfg) (NRoot l)) with (new_ctx cfg). generalize (new_ctx cfg). clear cfg.
    induction l as [|x l IH]; intros c; [split; reflexivity|]. cbn [fold_left]. apply IH.
  Qed.
  Lemma render_root cfg l : ready (fold_left (fun c n => write_md o c "" n) l (new_ctx cfg)) ->
    render_md_tree o cfg (NRoot l) = cx_md (fold_left (fun c n => write_md o c "" n) l (new_ctx cfg)).
  Proof. intros (_ & _ & _ & Hl). unfold render_md_tree. destruct (root_md cfg l) as [E1 E2]. rewrite E2, Hl. exact E1. Qed.
  Lemma paragraph_start c l : ready c -> ready (add_cond_blank_line (take_leftover c (NParagraph l))) /\
    keeps c (add_cond_blank_line (take_leftover c (NParagraph l))).
  Proof.
    intros R. destruct (take_none c (NParagraph l) (proj1 (proj2 (proj2 R)))) as (K & _). pose proof (keeps_trans _ _ _ K (keeps_cond (take_leftover c (NParagraph l)))) as K2.
    split; [exact (ready_keeps _ _ R K2)|exact K2].
  Qed.
  Lemma start_md c l : ready c -> cx_md (add_cond_blank_line (take_leftover c (NParagraph l))) =
    cx_md c ++ (if negb (ends_with_blank (cx_md c)) && negb (is_empty (cx_md c)) then nl else "").
  Proof.
    intros R. destruct (take_none c (NParagraph l) (proj1 (proj2 (proj2 R)))) as (K & E & _). unfold add_cond_blank_line. rewrite E.
    destruct (_ && _); [|rewrite str_app_nil_r; exact E]. rewrite blank_md by (rewrite (proj1 K); apply R). rewrite E. reflexivity.
  Qed.
  Lemma text_md c t : ready c -> exists c', write_md o c "" (NText t) = add_text c' (text_out o t) /\ keeps c c' /\ cx_md c' = cx_md c /\ cx_wrap c' = cx_wrap c.
  Proof. intros R. exists (take_leftover c (NText t)). split; [reflexivity|]. apply take_none, R. Qed.
  Lemma paragraph_text c t : ready c -> exists c1, keeps c c1 /\
    cx_md c1 = cx_md c ++ (if negb (ends_with_blank (cx_md c)) && negb (is_empty (cx_md c)) then nl else "") /\
    write_md o c "" (NParagraph [NText t]) = add_blank_line (add_text c1 (text_out o t)) /\ ready c1.
  Proof.
    intros R. rewrite paragraph_md. cbn [fold_left]. destruct (paragraph_start c [NText t] R) as [R1 K1]. pose proof (start_md c [NText t] R) as M1.
    destruct (text_md _ t R1) as (c' & E & K & M & _). exists c'. split; [exact (keeps_trans _ _ _ K1 K)|]. split; [rewrite M; exact M1|]. split; [rewrite E; reflexivity|exact (ready_keeps _ _ R1 K)].
  Qed.
  Lemma paragraphs_tk texts : forall c, ready c -> opened (cx_md c) ->
    let c' := fold_left (fun c n => write_md o c "" n) (map (fun t => NParagraph [NText t]) texts) c in
    ready c' /\ tk (cx_md c') = List.app (tk (cx_md c)) (concat (map (fun t => tk (text_out o t)) texts)).
  Proof.
    induction texts as [|t texts IH]; intros c R O; [split; [exact R|cbn [map fold_left concat]; rewrite app_nil_r; reflexivity]|]. cbn [map fold_left concat].
    destruct (paragraph_text c t R) as (c1 & K & M & E & R1). rewrite E.
    assert (O1 : opened (cx_md c1)) by (rewrite M; destruct (_ && _); [apply opened_nl|rewrite str_app_nil_r; exact O]).
    assert (T1 : tk (cx_md c1) = tk (cx_md c)) by (rewrite M; apply tk_end; destruct (_ && _); reflexivity).
    pose proof (keeps_text c1 (text_out o t) (proj1 R1) (proj1 (proj2 R1))) as K2. pose proof (ready_keeps _ _ R1 K2) as R2.
    pose proof (blank_md _ (proj1 R2)) as M3. pose proof (ready_keeps _ _ R2 (keeps_blank _)) as R3.
    destruct (IH (add_blank_line (add_text c1 (text_out o t))) R3) as [R4 T4]; [rewrite M3; apply opened_nl|].
    split; [exact R4|]. rewrite T4, M3, tk_end by reflexivity. rewrite text_tk by (apply R1 || exact O1). rewrite T1, app_assoc. reflexivity.
  Qed.
  Lemma paragraphs_words cfg texts : tk (render_md_tree o cfg (paragraphs texts)) = concat (map (fun t => tk (text_out o t)) texts).
  Proof.
    destruct (paragraphs_tk texts (new_ctx cfg)) as [R T]; [repeat split|left; reflexivity|]. unfold paragraphs. rewrite render_root by exact R. exact T.
  Qed.
  Lemma ends_blank_app a b : ends_with_blank b = true -> ends_with_blank (a ++ b) = true.
  Proof. intros H. induction a as [|c a IH]; [exact H|]. cbn [String.append ends_with_blank]. rewrite IH. apply orb_true_r. Qed.
  Lemma ends_blank_inv a c : c <> lf -> ends_with_blank (a ++ String c nl) = false.
  Proof.
    intros Hc. induction a as [|d a IH].
    - cbn [String.append]. unfold nl. cbn -[lf Ascii.eqb]. destruct (Ascii.eqb c lf) eqn:E; [apply Ascii.eqb_eq in E; congruence|reflexivity].
    - cbn [String.append ends_with_blank]. rewrite IH, orb_false_r. unfold nl. cbn -[lf Ascii.eqb].
      destruct (Ascii.eqb d lf); [|reflexivity]. destruct a as [|x a]; cbn -[lf Ascii.eqb].
      + destruct (Ascii.eqb c lf) eqn:E; [apply Ascii.eqb_eq in E; congruence|reflexivity].
      + destruct (Ascii.eqb x lf); [|reflexivity]. destruct a; reflexivity.
  Qed.
  Lemma unwrapped_fold texts : forall c u, ready c -> w_max (cx_wrap c) = None ->
    (cx_md c = "" \/ exists a d, cx_md c = a ++ String d nl /\ d <> lf) ->
    Forall (fun t => exists a d, text_out o t = a ++ String d "" /\ d <> lf) texts -> u = map (text_out o) texts ->
    let c' := fold_left (fun c n => write_md o c "" n) (map (fun t => NParagraph [NText t]) texts) c in
    ready c' /\ cx_md c' = match u with [] => cx_md c | _ => (if is_empty (cx_md c) then "" else cx_md c ++ nl) ++ join nl (map (fun t => t ++ nl) u) end.
  Proof.
    induction texts as [|t texts IH]; intros c u R Hm Hc F ->; [split; [exact R|reflexivity]|]. cbn [map fold_left].
    inversion F as [|? ? (a & d & Et & Hd) F']; subst. destruct (paragraph_text c t R) as (c1 & K & M & E & R1). rewrite E.
    pose proof (keeps_text c1 (text_out o t) (proj1 R1) (proj1 (proj2 R1))) as K2. pose proof (ready_keeps _ _ R1 K2) as R2.
    pose proof (blank_md _ (proj1 R2)) as M3. pose proof (ready_keeps _ _ R2 (keeps_blank _)) as R3.
    assert (W1 : w_max (cx_wrap c1) = None) by (rewrite <- Hm; apply K).
    rewrite (text_unwrapped c1 _ (proj1 R1) (proj1 (proj2 R1)) W1) in M3.
    assert (M1 : cx_md c1 = if is_empty (cx_md c) then "" else cx_md c ++ nl).
    { rewrite M. destruct Hc as [->|(a' & d' & -> & Hd')]; [reflexivity|]. rewrite (ends_blank_inv a' d' Hd'). destruct a'; reflexivity. }
    destruct (IH (add_blank_line (add_text c1 (text_out o t))) (map (text_out o) texts) R3) as [R4 T4]; [| |exact F'|reflexivity|].
    { cbn. destruct K2 as (_ & _ & _ & _ & ->). exact W1. }
    { right. rewrite M3, Et. exists (cx_md c1 ++ a), d. split; [rewrite !str_app_assoc; reflexivity|exact Hd]. }
    split; [exact R4|]. rewrite T4, M3, M1. destruct texts as [|t2 texts]; cbn [map].
    - cbn [join]. rewrite !str_app_assoc. reflexivity.
    - assert (Ne : is_empty (((if is_empty (cx_md c) then "" else cx_md c ++ nl) ++ text_out o t) ++ nl) = false)
        by (generalize ((if is_empty (cx_md c) then "" else cx_md c ++ nl) ++ text_out o t); intros []; reflexivity).
      rewrite Ne.
      change (join nl ((text_out o t ++ nl) :: (text_out o t2 ++ nl) :: map (fun t => t ++ nl) (map (text_out o) texts)))
        with ((text_out o t ++ nl) ++ nl ++ join nl ((text_out o t2 ++ nl) :: map (fun t => t ++ nl) (map (text_out o) texts))).
      rewrite !str_app_assoc. reflexivity.
  Qed.
  Lemma unwrapped_exact ign texts : Forall (fun t => exists a d, text_out o t = a ++ String d "" /\ d <> lf) texts ->
    render_md_tree o {| wc_length := None; wc_ignore := ign |} (paragraphs texts) = join nl (map (fun t => t ++ nl) (map (text_out o) texts)).
  Proof.
    intros F. destruct (unwrapped_fold texts (new_ctx {| wc_length := None; wc_ignore := ign |}) _ ltac:(repeat split) eq_refl (or_introl eq_refl) F eq_refl) as [R M].
    unfold paragraphs. rewrite render_root by exact R. cbv zeta in M. rewrite M. destruct texts; reflexivity.
  Qed.
End Paragraphs.

(* ---------- the limit ---------- *)
Lemma split_sep x y : split_char lf (x ++ String lf y) = List.app (split_char lf x) (split_char lf y).
Proof.
  induction x as [|c x IH]; [reflexivity|]. cbn [String.append split_char]. destruct (Ascii.eqb c lf); [rewrite IH; reflexivity|].
  rewrite IH. pose proof (split_char_ne lf x) as N. destruct (split_char lf x); [congruence|reflexivity].
Qed.
Definition one_line (s : string) : Prop := any_char (Ascii.eqb lf) s = false.
Lemma one_line_cons c s : one_line (String c s) <-> Ascii.eqb c lf = false /\ one_line s.
Proof. unfold one_line. cbn [any_char]. rewrite orb_false_iff, Ascii.eqb_sym. reflexivity. Qed.
Lemma split_one s : one_line s -> split_char lf s = [s].
Proof. induction s as [|c s IH]; [reflexivity|]. intros H. apply one_line_cons in H. destruct H as [H1 H2]. cbn [split_char]. rewrite H1, (IH H2). reflexivity. Qed.
Lemma split_more x y : one_line y -> forall L z, split_char lf x = List.app L [z] -> split_char lf (x ++ y) = List.app L [z ++ y].
Proof.
  intros Hy. induction x as [|c x IH]; intros L z H.
  - cbn in H. destruct L as [|a [|b L]]; try discriminate H. injection H as <-. cbn. apply split_one. exact Hy.
  - cbn [String.append split_char] in *. destruct (Ascii.eqb c lf).
    + destruct L as [|a L]; cbn in H; [injection H as H1 H2; exfalso; exact (split_char_ne lf x H2)|]. injection H as <- H. rewrite (IH L z H). reflexivity.
    + destruct (split_char lf x) as [|h t] eqn:E; [exfalso; exact (split_char_ne lf x E)|]. destruct L as [|a L]; cbn in H.
      * injection H as <- ->. rewrite (IH [] h eq_refl). reflexivity.
      * injection H as <- ->. rewrite (IH (h :: L) z eq_refl). reflexivity.
Qed.
Lemma line_in_split l s : line_in l s -> In l (split_char lf s).
Proof.
  intros (H & a & b & -> & Ha & Hb). fold lf in *. change (Ascii.eqb line_feed) with (Ascii.eqb lf) in H.
  assert (G : In l (split_char lf (l ++ b))).
  { destruct Hb as [->|(b' & ->)]; [rewrite str_app_nil_r, split_one by exact H; left; reflexivity|].
    change line_feed with lf. rewrite split_sep, split_one by exact H. left. reflexivity. }
  destruct Ha as [->|(a' & ->)]; [exact G|]. change line_feed with lf. rewrite str_app_assoc. cbn [String.append]. rewrite split_sep. apply in_or_app. right. exact G.
Qed.
Lemma len_app a b : String.length (a ++ b) = String.length a + String.length b.
Proof. induction a as [|c a IH]; [reflexivity|]. cbn. rewrite IH. reflexivity. Qed.
Definition no_space (s : string) : Prop := any_char is_space s = false.
Section Limit.
  Variable m : nat.
  Variable sp : list string.
  Definition good (l : string) : Prop := String.length l <= S m \/ no_space l \/ In l sp.
  Definition fits (out : string) (cur : nat) : Prop :=
    exists L z, split_char lf out = List.app L [z] /\ Forall good L /\ good z /\ String.length z <= cur.
  Lemma fits_nl out cur : fits out cur -> fits (out ++ nl) 0.
  Proof.
    intros (L & z & E & F & G & _). exists (List.app L [z]), "". split; [unfold nl; rewrite split_sep, E; reflexivity|].
    split; [apply Forall_app; split; [exact F|constructor; [exact G|constructor]]|]. split; [left; cbn; lia|apply le_n].
  Qed.
  Lemma fits_more out cur y cur' : one_line y -> fits out cur -> (cur + String.length y <= S m \/ (cur = 0 /\ good y)) -> cur + String.length y <= cur' ->
    fits (out ++ y) cur'.
  Proof.
    intros Hy (L & z & E & F & G & B) H H'. exists L, (z ++ y). split; [exact (split_more out y Hy L z E)|]. split; [exact F|]. rewrite len_app.
    split; [|lia]. destruct H as [H|[-> Gy]]; [left; rewrite len_app; lia|]. destruct z; [exact Gy|cbn in B; lia].
  Qed.
  Lemma fits_unbroken w out input : w_max w = Some m -> one_line input -> good input -> fits out (w_cur w) ->
    let r := write_unbroken w out input "" in fits (snd r) (w_cur (fst r)).
  Proof.
    intros Hm Hi Hg Hf. unfold write_unbroken, too_long. rewrite Hm. destruct (Nat.ltb m _) eqn:E; [|apply Nat.ltb_ge in E; destruct (w_left w)]; cbn [fst snd w_cur set_wrap].
    - change (String.length "" + String.length input) with (String.length input). cbn [String.append]. change (out ++ nl ++ input) with (out ++ (nl ++ input)). rewrite <- str_app_assoc.
      apply (fits_more _ 0); [exact Hi|exact (fits_nl _ _ Hf)|right; split; [reflexivity|exact Hg]|apply le_n].
    - apply (fits_more _ (w_cur w)); [|exact Hf|left; cbn; lia|cbn; lia]. unfold one_line in *. cbn. exact Hi.
    - apply (fits_more _ (w_cur w)); [exact Hi|exact Hf|left; lia|apply le_n].
  Qed.
  Definition plain_word (x : string) : Prop := one_line x /\ no_space x.
  Lemma plain_trim x : plain_word x -> plain_word (trim_start is_white x).
  Proof.
    induction x as [|c x IH]; [auto|]. intros [A B]. cbn [trim_start]. destruct (is_white c); [|split; assumption].
    apply IH. apply one_line_cons in A. unfold no_space in B. cbn in B. apply orb_false_iff in B. split; [apply A|apply B].
  Qed.
  Lemma fits_word_fold l : Forall plain_word l -> forall w out b, w_max w = Some m -> fits out (w_cur w) ->
    let r := fst (fold_left (write_word "") l (w, out, b)) in fits (snd r) (w_cur (fst r)).
  Proof.
    induction 1 as [|x l Hx _ IH]; intros w out b Hm Hf; [exact Hf|]. cbn [fold_left]. remember (write_word "" (w, out, b) x) as st eqn:Es. unfold write_word, too_long in Es. rewrite Hm in Es.
    destruct (Nat.ltb m (w_cur w + String.length x)) eqn:E; [|apply Nat.ltb_ge in E; destruct (w_left w || negb b)].
    - assert (P : plain_word (if b && true then trim_start is_white x else x)) by (destruct b; [apply plain_trim|]; exact Hx).
      destruct P as [P1 P2]. rewrite Es. apply IH; [exact Hm|]. cbn [w_cur set_wrap]. cbn [String.append String.length Nat.add]. rewrite str_app_nil_r.
      apply (fits_more _ 0); [exact P1|exact (fits_nl _ _ Hf)|right; split; [reflexivity|right; left; exact P2]|apply le_n].
    - rewrite andb_false_r in Es. destruct Hx as [P1 P2]. rewrite Es. apply IH; [exact Hm|]. cbn [w_cur set_wrap]. rewrite str_app_assoc.
      apply (fits_more _ (w_cur w)); [unfold one_line in *; cbn; exact P1|exact Hf|left; cbn; lia|cbn; lia].
    - rewrite andb_false_r in Es. destruct Hx as [P1 P2]. rewrite Es. apply IH; [exact Hm|]. cbn [w_cur set_wrap].
      apply (fits_more _ (w_cur w)); [exact P1|exact Hf|left; lia|apply le_n].
  Qed.
  Lemma fits_words w out input : w_max w = Some m -> Forall plain_word (find_words (w_ignore w) input) -> fits out (w_cur w) ->
    let r := write_words w out input "" in fits (snd r) (w_cur (fst r)).
  Proof.
    intros Hm Hp Hf. unfold write_words. rewrite Hm. pose proof (fits_word_fold _ Hp w out true Hm Hf) as H.
    destruct (fold_left (write_word "") (find_words (w_ignore w) input) (w, out, true)) as [[w' out'] b']. exact H.
  Qed.
End Limit.
Definition free (p : ascii -> bool) (s : string) : Prop := any_char p s = false.
Lemma free_app p a b : free p (a ++ b) <-> free p a /\ free p b.
Proof. unfold free. induction a as [|c a IH]; cbn; [tauto|]. rewrite !orb_false_iff, IH. tauto. Qed.
Lemma cut_shape sp : forall s b u v, free sp u -> all_chars sp v = true -> (b = true <-> v <> "") ->
  Forall (fun x => exists u v, x = u ++ v /\ free sp u /\ all_chars sp v = true) (cut_words sp b (u ++ v) s).
Proof.
  induction s as [|c s IH]; intros b u v Hu Hv Hb; cbn [cut_words].
  - destruct (is_empty (u ++ v)); repeat constructor. exists u, v. auto.
  - destruct (b && negb (sp c)) eqn:E.
    + apply andb_prop in E. destruct E as [-> E]. apply negb_true_iff in E. constructor; [exists u, v; auto|]. rewrite E.
      change (String c "") with (String c "" ++ ""). apply IH; [unfold free; cbn; rewrite E; reflexivity|reflexivity|split; [discriminate|congruence]].
    + destruct (sp c) eqn:F.
      * rewrite str_app_assoc. apply IH; [exact Hu| |split; [intros _; destruct v; discriminate|reflexivity]]. rewrite all_chars_app, Hv. cbn. rewrite F. reflexivity.
      * destruct b; [discriminate E|]. assert (v = "") as -> by (destruct v; [reflexivity|]; exfalso; assert (false = true) by (apply Hb; discriminate); discriminate).
        rewrite str_app_nil_r. rewrite <- (str_app_nil_r (u ++ String c "")). apply IH; [|reflexivity|split; [discriminate|congruence]].
        apply free_app. split; [exact Hu|]. unfold free. cbn. rewrite F. reflexivity.
Qed.
Lemma trim_end_app p u v : all_chars p v = true -> trim_end p (u ++ v) = trim_end p u.
Proof.
  intros Hv. induction u as [|c u IH]; cbn [String.append].
  - induction v as [|c v IHv]; [reflexivity|]. cbn in Hv. apply andb_prop in Hv. destruct Hv as [H1 H2]. cbn [trim_end]. rewrite (IHv H2). cbn. rewrite H1. reflexivity.
  - cbn [trim_end]. rewrite IH. reflexivity.
Qed.
Lemma free_trim p q u : free p u -> free p (trim_end q u).
Proof. intros H. destruct (trim_end_spec q u) as (t & E & _). rewrite E in H. apply free_app in H. apply H. Qed.
Lemma free_imp (p q : ascii -> bool) u : (forall c, q c = true -> p c = true) -> free p u -> free q u.
Proof.
  intros H. unfold free. induction u as [|c u IH]; [auto|]. cbn. rewrite !orb_false_iff. intros [A B]. split; [|exact (IH B)].
  destruct (q c) eqn:E; [rewrite (H c E) in A; discriminate A|reflexivity].
Qed.
Lemma words_plain ign t : (ign = false -> one_line t) -> Forall plain_word (find_words ign t).
Proof.
  intros H. unfold find_words. destruct ign.
  - unfold words_newline. apply Forall_map. pose proof (cut_shape is_space_or_newline t false "" "" eq_refl eq_refl ltac:(split; [discriminate|congruence])) as C.
    cbn [String.append] in C. eapply Forall_impl; [|exact C]. intros x (u & v & -> & Hu & Hv).
    rewrite (trim_end_app is_white u v) by (apply (all_chars_imp _ _ _) with (2 := Hv); intros c Hc; rewrite white_blank; exact (space_newline_blank c Hc)).
    assert (G : free is_space_or_newline (trim_end is_space (trim_end is_white u))) by (apply free_trim, free_trim; exact Hu).
    split; (eapply free_imp; [|exact G]); intros c Hc; unfold is_space_or_newline.
    + rewrite Ascii.eqb_sym in Hc. rewrite Hc. apply orb_true_r.
    + unfold is_space in Hc. rewrite Hc. reflexivity.
  - unfold words_space. apply Forall_map. specialize (H eq_refl).
    pose proof (cut_shape is_space t false "" "" eq_refl eq_refl ltac:(split; [discriminate|congruence])) as C. pose proof (cut_words_cat is_space t false "") as Cat.
    cbn [String.append] in C, Cat.
    assert (Lf : Forall one_line (cut_words is_space false "" t)).
    { rewrite <- Cat in H. clear - H. induction (cut_words is_space false "" t) as [|x l IH]; [constructor|]. rewrite cat_cons in H.
      apply free_app in H. destruct H as [H1 H2]. constructor; [exact H1|exact (IH H2)]. }
    revert C Lf. generalize (cut_words is_space false "" t). clear. induction l as [|x l IH]; intros C Lf; [constructor|].
    inversion C as [|? ? (u & v & -> & Hu & Hv) C']; subst. inversion Lf as [|? ? L1 Lf']; subst. constructor; [|exact (IH C' Lf')].
    rewrite (trim_end_app is_space u v Hv). apply free_app in L1. split; [apply free_trim, L1|apply free_trim, Hu].
Qed.
Section LimitDoc.
  Variable o : md_options.
  Variable m : nat.
  Variable sp : list string.
  Hypothesis sp_lines : forall s, In s sp -> one_line s.
  Definition within (c : ctx) : Prop := ready c /\ w_max (cx_wrap c) = Some m /\ fits m sp (cx_md c) (w_cur (cx_wrap c)).
  Lemma within_line c l : within c -> (w_ignore (cx_wrap c) = false -> one_line l) -> within (write_line_words c l).
  Proof.
    intros (R & M & F) H. split; [exact (ready_keeps _ _ R (keeps_line c l))|]. split; [cbn; rewrite max_words; exact M|].
    unfold write_line_words. cbn [set_out cx_md cx_wrap]. rewrite (proj1 R). apply fits_words; [exact M|apply words_plain; exact H|exact F].
  Qed.
  Lemma within_blank c : within c -> within (add_blank_line c).
  Proof.
    intros (R & M & F). split; [exact (ready_keeps _ _ R (keeps_blank c))|]. split; [exact M|].
    unfold add_blank_line. cbn [set_out cx_md cx_wrap fst snd write_ln set_wrap w_cur]. rewrite (proj1 R), str_app_nil_r. exact (fits_nl _ _ _ _ F).
  Qed.
  Lemma within_take c n : within c -> within (take_leftover c n).
  Proof.
    intros (R & M & F). destruct (take_none c n (proj1 (proj2 (proj2 R)))) as (K & E1 & E2). split; [exact (ready_keeps _ _ R K)|]. rewrite E1, E2. split; assumption.
  Qed.
  Lemma within_cond c : within c -> within (add_cond_blank_line c).
  Proof. intros H. unfold add_cond_blank_line. destruct (_ && _); [apply within_blank|]; exact H. Qed.
  Lemma within_text c t : within c -> within (add_text c t).
  Proof.
    intros H. pose proof H as (R & M & F). unfold add_text. rewrite (proj1 (proj2 R)), M, (proj1 R). cbn [is_empty negb andb].
    destruct (w_ignore (cx_wrap c)) eqn:E; [apply within_line; [exact H|congruence]|].
    assert (P : Forall one_line (split_char lf t)).
    { apply Forall_forall. intros x Hx. pose proof (split_char_pieces lf t x Hx) as Q. unfold one_line. rewrite <- Q. clear. induction x as [|c x IH]; [reflexivity|]. cbn. rewrite Ascii.eqb_sym, IH. reflexivity. }
    destruct (split_char lf t) as [|l0 r]; [exact H|]. inversion P as [|? ? P0 Pr]; subst.
    pose proof (within_line c l0 H (fun _ => P0)) as H0. revert H0. generalize (write_line_words c l0). clear - Pr sp_lines. intros c H0. revert c H0.
    induction Pr as [|x r Hx _ IH]; intros c H0; [exact H0|]. cbn [fold_left]. apply IH. apply within_line; [apply within_blank; exact H0|intros _; exact Hx].
  Qed.
  Lemma within_unbroken c t : within c -> In t sp -> within (add_unbreakable c t).
  Proof.
    intros (R & M & F) Ht. unfold add_unbreakable. rewrite (proj1 (proj2 R)). split; [repeat split; apply R|].
    cbn [set_out cx_md cx_wrap]. split; [rewrite max_unbroken; exact M|]. rewrite (proj1 R). apply fits_unbroken; [exact M|apply sp_lines; exact Ht|right; right; exact Ht|exact F].
  Qed.
  Lemma within_piece c p : within c -> match p with Span s => In ("`" ++ s ++ "`") sp | Words _ => True end -> within (write_md o c "" (piece_node p)).
  Proof.
    intros H Hp. destruct p as [t|s]; cbn [piece_node write_md].
    - apply within_text, within_take, H.
    - apply within_unbroken; [apply within_take, H|exact Hp].
  Qed.
  Lemma within_paragraph c ps : within c -> Forall (fun p => match p with Span s => In ("`" ++ s ++ "`") sp | Words _ => True end) ps ->
    within (write_md o c "" (NParagraph (map piece_node ps))).
  Proof.
    intros H F. rewrite paragraph_md. apply within_blank. pose proof (within_cond _ (within_take c (NParagraph (map piece_node ps)) H)) as H1. revert H1.
    generalize (add_cond_blank_line (take_leftover c (NParagraph (map piece_node ps)))). clear H c. induction F as [|p ps Hp _ IH]; intros c H; [exact H|].
    cbn [map fold_left]. apply IH. apply within_piece; assumption.
  Qed.
  Lemma within_prose cfg pss : wc_length cfg = Some m ->
    Forall (Forall (fun p => match p with Span s => In ("`" ++ s ++ "`") sp | Words _ => True end)) pss ->
    Forall (good m sp) (split_char lf (render_md_tree o cfg (prose pss))).
  Proof.
    intros Hm F. assert (W : within (fold_left (fun c n => write_md o c "" n) (map (fun p => NParagraph (map piece_node p)) pss) (new_ctx cfg))).
    { assert (W0 : within (new_ctx cfg)).
      { split; [repeat split|]. split; [exact Hm|]. exists [], "". split; [reflexivity|]. split; [constructor|]. split; [left; cbn; lia|apply le_n]. }
      revert W0. generalize (new_ctx cfg). induction F as [|ps pss Hp _ IH]; intros c H; [exact H|]. cbn [map fold_left]. apply IH. apply within_paragraph; assumption. }
    unfold prose. rewrite render_root by apply W. destruct W as (_ & _ & (L & z & E & FL & G & _)). rewrite E. apply Forall_app. split; [exact FL|constructor; [exact G|constructor]].
  Qed.
End LimitDoc.
Lemma prose_limit o cfg m pss l : wc_length cfg = Some m -> one_line_spans pss -> line_in l (render_md_tree o cfg (prose pss)) ->
  String.length l <= S m \/ any_char is_space l = false \/ In l (spans pss).
Proof.
  intros Hm H Hl. pose proof (within_prose o m (spans pss) H cfg pss Hm) as W. apply line_in_split in Hl.
  assert (F : Forall (Forall (fun p => match p with Span s => In ("`" ++ s ++ "`") (spans pss) | Words _ => True end)) pss).
  { apply Forall_forall. intros ps Hps. apply Forall_forall. intros p Hp. destruct p as [t|s]; [exact I|]. unfold spans. apply in_flat_map. exists (Span s).
    split; [apply in_concat; exists ps; split; assumption|left; reflexivity]. }
  specialize (W F). rewrite Forall_forall in W. exact (W l Hl).
Qed.

(* ---------- HTML ---------- *)
Section HtmlLoops.
  Variable o : html_options.
  Variable inline_code block_code : string -> res string.
  Notation wh := (write_html o inline_code block_code).
  Fixpoint each_h (c : hctx) (indent : string) (l : list node) {struct l} : res hctx :=
    match l with
    | [] => Ok c
    | x :: r => match wh c indent x with Ok c => each_h c indent r | Err e => Err e end
    end.
  Definition flat1_h (c : hctx) (indent : string) (x : node) : res hctx :=
    match x with NParagraph ps => each_h c indent ps | _ => wh c indent x end.
  Fixpoint flat_h (c : hctx) (indent : string) (l : list node) {struct l} : res hctx :=
    match l with
    | [] => Ok c
    | x :: r => match flat1_h c indent x with Ok c => flat_h c indent r | Err e => Err e end
    end.
  Fixpoint items_h (c : hctx) (indent : string) (l : list node) {struct l} : res hctx :=
    match l with
    | [] => Ok c
    | x :: r =>
      match wh (push_unbroken (push_ln c (indent ++ "  ")) "<li>" (indent ++ "  ")) (indent ++ "  ") x with
      | Err e => Err e
      | Ok c => items_h (if ho_omit_li o then c else push_unbroken c "</li>" indent) indent r
      end
    end.
  Definition wrapped_h (c : hctx) (indent open close : string) (l : list node) : res hctx :=
    match each_h (push_unbroken c open indent) indent l with
    | Ok c => Ok (push_unbroken c close indent)
    | Err e => Err e
    end.
  Lemma write_html_eq c0 indent n : wh c0 indent n =
    let c := before_node c0 indent n in
    match n with
    | NRoot l => each_h c indent l
    | NText s => Ok (push_words c s indent)
    | NParagraph l =>
      match each_h (if ho_old_paragraph o then c else push_unbroken c "<p>" indent) indent l with
      | Err e => Err e
      | Ok c => Ok (h_newline (if ho_old_paragraph o then h_old c true else push_unbroken c "</p>" indent) true)
      end
    | NList ordered l =>
      let tag := if ordered then "ol" else "ul" in
      match items_h (push_unbroken c ("<" ++ tag ++ ">") indent) indent l with
      | Err e => Err e
      | Ok c =>
        let c := h_newline (push_unbroken (push_ln c indent) ("</" ++ tag ++ ">") indent) true in
        Ok (if ho_old_paragraph o then h_old c true else c)
      end
    | NItem l => flat_h c indent l
    | NHtml s => Ok (h_out c (hx_wrap c, hx_html c ++ s))
    | NInlineCode s => match inline_code s with Ok t => Ok (push_unbroken c t indent) | Err e => Err e end
    | NCode _ s => match block_code s with Ok t => Ok (push_unbroken c t indent) | Err e => Err e end
    | NQuote l =>
      match each_h (push_unbroken_ln c "<blockquote>" indent) indent l with
      | Err e => Err e
      | Ok c => Ok (h_newline (push_unbroken c "</blockquote>" indent) true)
      end
    | NLink url l => wrapped_h c indent ("<a href=""" ++ url ++ """>") "</a>" l
    | NStrong l => wrapped_h c indent "<strong>" "</strong>" l
    | NEmphasis l => wrapped_h c indent "<em>" "</em>" l
    | NDelete l => wrapped_h c indent "<s>" "</s>" l
    | NHeading depth l => wrapped_h c indent ("<h" ++ show_nat depth ++ ">") ("</h" ++ show_nat depth ++ ">" ++ nl) l
    | NOther _ _ => Ok c
    end.
  Proof.
    destruct n as [l|s|l|b l|l|s|s|g s|l|u l|l|l|l|d l|k l]; try reflexivity; cbn [write_html]; cbv zeta.
    - match goal with |- match ?f ?c l with _ => _ end = _ => assert (E : forall ll cc, f cc ll = items_h cc indent ll) end.
      { clear. induction ll as [|x ll IH]; intros cc; [reflexivity|]. cbn [items_h]. destruct (wh _ _ x); [rewrite IH|]; reflexivity. }
      rewrite E. reflexivity.
    - generalize (before_node c0 indent (NItem l)). clear c0. induction l as [|x l IH]; intros c; [reflexivity|]. cbn [flat_h].
      assert (G : forall ps c, (fix go (c : hctx) (ps : list node) {struct ps} : res hctx :=
                     match ps with [] => Ok c | y :: q => match wh c indent y with Ok c => go c q | Err e => Err e end end) c ps = each_h c indent ps).
      { clear. induction ps as [|y ps IH]; intros c; [reflexivity|]. cbn [each_h]. destruct (wh c indent y); [rewrite IH|]; reflexivity. }
      unfold flat1_h. destruct x; try (match goal with |- context [wh c indent ?X] => destruct (wh c indent X); [apply IH|reflexivity] end).
      rewrite G. destruct (each_h c indent children0); [apply IH|reflexivity].
  Qed.
End HtmlLoops.
Section HtmlInk.
  Let drop := blankb.
  Let Hblank : forall c, is_white c = true -> drop c = true := white_is_blank.
  Notation sk := (without drop).
  Lemma hk_unbroken c t i : sk i = "" -> sk (hx_html (push_unbroken c t i)) = sk (hx_html c) ++ sk t.
  Proof. intros H. unfold push_unbroken. cbn [h_out hx_html]. exact (sk_unbroken drop Hblank _ _ _ _ H). Qed.
  Lemma hk_ln c i : sk i = "" -> sk (hx_html (push_ln c i)) = sk (hx_html c).
  Proof. intros H. unfold push_ln. cbn [h_out hx_html]. exact (sk_ln drop Hblank _ _ _ H). Qed.
  Lemma hk_unbroken_ln c t i : sk i = "" -> sk (hx_html (push_unbroken_ln c t i)) = sk (hx_html c) ++ sk t.
  Proof.
    intros H. unfold push_unbroken_ln, write_unbroken_ln. cbn [h_out hx_html]. pose proof (sk_unbroken drop Hblank (hx_wrap c) (hx_html c) t i H) as U.
    destruct (write_unbroken (hx_wrap c) (hx_html c) t i) as [w out]. cbn [snd] in U. rewrite (sk_ln drop Hblank _ _ _ H). exact U.
  Qed.
  Lemma hk_words c t i : sk i = "" -> sk (hx_html (push_words c t i)) = sk (hx_html c) ++ sk t.
  Proof. intros H. unfold push_words. cbn [h_out hx_html]. exact (sk_words drop Hblank _ _ _ _ H). Qed.
  (* two runs that differ in white space only *)
  Definition alike (c d : hctx) : Prop := sk (hx_html c) = sk (hx_html d) /\ hx_old c = hx_old d.
  Definition alike_res (a b : res hctx) : Prop :=
    match a, b with Ok c, Ok d => alike c d | Err e, Err e' => e = e' | _, _ => False end.
  Lemma alike_unbroken c d t i j : sk i = "" -> sk j = "" -> alike c d -> alike (push_unbroken c t i) (push_unbroken d t j).
  Proof. intros Hi Hj [A B]. split; [rewrite !hk_unbroken, A by assumption; reflexivity|exact B]. Qed.
  Lemma alike_unbroken_ln c d t i j : sk i = "" -> sk j = "" -> alike c d -> alike (push_unbroken_ln c t i) (push_unbroken_ln d t j).
  Proof. intros Hi Hj [A B]. split; [rewrite !hk_unbroken_ln, A by assumption; reflexivity|exact B]. Qed.
  Lemma alike_ln c d i j : sk i = "" -> sk j = "" -> alike c d -> alike (push_ln c i) (push_ln d j).
  Proof. intros Hi Hj [A B]. split; [rewrite !hk_ln by assumption; exact A|exact B]. Qed.
  Lemma alike_words c d t i j : sk i = "" -> sk j = "" -> alike c d -> alike (push_words c t i) (push_words d t j).
  Proof. intros Hi Hj [A B]. split; [rewrite !hk_words, A by assumption; reflexivity|exact B]. Qed.
  Lemma alike_newline c d a b : alike c d -> alike (h_newline c a) (h_newline d b).
  Proof. auto. Qed.
  Lemma alike_old c d b : alike c d -> alike (h_old c b) (h_old d b).
  Proof. intros [A _]. split; [exact A|reflexivity]. Qed.
  Lemma alike_before c d i j n : sk i = "" -> sk j = "" -> alike c d -> alike (before_node c i n) (before_node d j n).
  Proof.
    intros Hi Hj A. unfold before_node.
    assert (A1 : alike (if hx_newline c then h_newline (push_ln c i) false else c) (if hx_newline d then h_newline (push_ln d j) false else d)).
    { destruct A as [A B]. split; [|destruct (hx_newline c), (hx_newline d); exact B]. destruct (hx_newline c), (hx_newline d); cbn [h_newline hx_html]; rewrite ?hk_ln by assumption; exact A. }
    revert A1. generalize (if hx_newline c then h_newline (push_ln c i) false else c), (if hx_newline d then h_newline (push_ln d j) false else d).
    intros c1 d1 A1. rewrite <- (proj2 A1). destruct (hx_old c1); [|exact A1]. apply alike_old. destruct (is_paragraph n); [apply alike_unbroken_ln; assumption|exact A1].
  Qed.
  Lemma two_spaces i : sk i = "" -> sk (i ++ "  ") = "".
  Proof. intros H. rewrite without_app, H. reflexivity. Qed.
  Section Runs.
    Variable o : html_options.
    Variable inline_code block_code : string -> res string.
    Notation wh := (write_html o inline_code block_code).
    Definition runs_alike (f : hctx -> string -> res hctx) : Prop := forall c d i j, sk i = "" -> sk j = "" -> alike c d -> alike_res (f c i) (f d j).
    Lemma alike_each l : Forall (fun n => runs_alike (fun c i => wh c i n)) l -> runs_alike (fun c i => each_h o inline_code block_code c i l).
    Proof.
      induction 1 as [|x l Hx _ IH]; intros c d i j Hi Hj A; [exact A|]. cbn [each_h]. specialize (Hx c d i j Hi Hj A).
      unfold alike_res in Hx. destruct (wh c i x), (wh d j x); try contradiction; [apply IH; assumption|exact Hx].
    Qed.
    Definition alike2 (n : node) : Prop := runs_alike (fun c i => wh c i n) /\ match n with NParagraph l => Forall (fun n => runs_alike (fun c i => wh c i n)) l | _ => True end.
    Lemma alike_flat l : Forall alike2 l -> runs_alike (fun c i => flat_h o inline_code block_code c i l).
    Proof.
      induction 1 as [|x l [Hx Hp] _ IH]; intros c d i j Hi Hj A; [exact A|]. cbn [flat_h].
      assert (H : alike_res (flat1_h o inline_code block_code c i x) (flat1_h o inline_code block_code d j x))
        by (unfold flat1_h; destruct x; try exact (Hx c d i j Hi Hj A); exact (alike_each _ Hp c d i j Hi Hj A)).
      unfold alike_res in H. destruct (flat1_h o inline_code block_code c i x), (flat1_h o inline_code block_code d j x); try contradiction; [apply IH; assumption|exact H].
    Qed.
    Lemma alike_items l : Forall (fun n => runs_alike (fun c i => wh c i n)) l -> runs_alike (fun c i => items_h o inline_code block_code c i l).
    Proof.
      induction 1 as [|x l Hx _ IH]; intros c d i j Hi Hj A; [exact A|]. cbn [items_h].
      specialize (Hx _ _ _ _ (two_spaces i Hi) (two_spaces j Hj) (alike_unbroken _ _ "<li>" _ _ (two_spaces i Hi) (two_spaces j Hj) (alike_ln _ _ _ _ (two_spaces i Hi) (two_spaces j Hj) A))).
      unfold alike_res in Hx. destruct (wh _ _ x), (wh _ _ x); try contradiction; [|exact Hx].
      apply IH; [exact Hi|exact Hj|]. destruct (ho_omit_li o); [exact Hx|apply alike_unbroken; assumption].
    Qed.
    Lemma alike_wrapped l open close : Forall (fun n => runs_alike (fun c i => wh c i n)) l -> runs_alike (fun c i => wrapped_h o inline_code block_code c i open close l).
    Proof.
      intros F c d i j Hi Hj A. unfold wrapped_h. pose proof (alike_each l F _ _ i j Hi Hj (alike_unbroken c d open i j Hi Hj A)) as E.
      unfold alike_res in E. destruct (each_h _ _ _ _ i l), (each_h _ _ _ _ j l); try contradiction; [apply alike_unbroken; assumption|exact E].
    Qed.
    Lemma alike_node : forall n, alike2 n.
    Proof.
      assert (Fst : forall l, Forall alike2 l -> Forall (fun n => runs_alike (fun c i => wh c i n)) l) by (intros l; apply Forall_impl; intros n [H _]; exact H).
      induction n as [l Hl|s|l Hl|b l Hl|l Hl|s|s|g s|l Hl|u l Hl|l Hl|l Hl|l Hl|d l Hl|k l] using node_ind2;
        (split; [|try exact I; try exact (Fst l Hl)]); intros c1 c2 i j Hi Hj A; rewrite !write_html_eq; cbv zeta;
        match goal with |- context [before_node c1 i ?N] => pose proof (alike_before c1 c2 i j N Hi Hj A) as B; revert B; generalize (before_node c1 i N), (before_node c2 j N) end;
        intros d1 d2 B.
      - exact (alike_each l (Fst l Hl) d1 d2 i j Hi Hj B).
      - apply alike_words; assumption.
      - assert (B' : alike (if ho_old_paragraph o then d1 else push_unbroken d1 "<p>" i) (if ho_old_paragraph o then d2 else push_unbroken d2 "<p>" j))
          by (destruct (ho_old_paragraph o); [exact B|apply alike_unbroken; assumption]).
        pose proof (alike_each l (Fst l Hl) _ _ i j Hi Hj B') as E. unfold alike_res in E.
        destruct (each_h _ _ _ _ i l), (each_h _ _ _ _ j l); try contradiction; [|exact E]. cbn [alike_res]. apply alike_newline.
        destruct (ho_old_paragraph o); [apply alike_old; exact E|apply alike_unbroken; assumption].
      - pose proof (alike_items l (Fst l Hl) _ _ i j Hi Hj (alike_unbroken _ _ ("<" ++ (if b then "ol" else "ul") ++ ">") i j Hi Hj B)) as E. unfold alike_res in E.
        destruct (items_h _ _ _ _ i l), (items_h _ _ _ _ j l); try contradiction; [|exact E].
        assert (F : alike (h_newline (push_unbroken (push_ln a i) ("</" ++ (if b then "ol" else "ul") ++ ">") i) true) (h_newline (push_unbroken (push_ln a0 j) ("</" ++ (if b then "ol" else "ul") ++ ">") j) true))
          by (apply alike_newline, alike_unbroken; [exact Hi|exact Hj|apply alike_ln; assumption]).
        cbn [alike_res]. destruct (ho_old_paragraph o); [apply alike_old|]; exact F.
      - exact (alike_flat l Hl d1 d2 i j Hi Hj B).
      - destruct B as [B1 B2]. split; [|exact B2]. cbn [h_out hx_html snd]. rewrite !without_app, B1. reflexivity.
      - destruct (inline_code s); [apply alike_unbroken; assumption|reflexivity].
      - destruct (block_code s); [apply alike_unbroken; assumption|reflexivity].
      - pose proof (alike_each l (Fst l Hl) _ _ i j Hi Hj (alike_unbroken_ln _ _ "<blockquote>" i j Hi Hj B)) as E. unfold alike_res in E.
        destruct (each_h _ _ _ _ i l), (each_h _ _ _ _ j l); try contradiction; [|exact E]. apply alike_newline, alike_unbroken; assumption.
      - exact (alike_wrapped l _ _ (Fst l Hl) d1 d2 i j Hi Hj B).
      - exact (alike_wrapped l _ _ (Fst l Hl) d1 d2 i j Hi Hj B).
      - exact (alike_wrapped l _ _ (Fst l Hl) d1 d2 i j Hi Hj B).
      - exact (alike_wrapped l _ _ (Fst l Hl) d1 d2 i j Hi Hj B).
      - exact (alike_wrapped l _ _ (Fst l Hl) d1 d2 i j Hi Hj B).
      - exact B.
    Qed.
    Lemma html_wraps cfg cfg' n : match render_html_tree o inline_code block_code cfg n, render_html_tree o inline_code block_code cfg' n with
      | Ok a, Ok b => sk a = sk b | Err e, Err e' => e = e' | _, _ => False end.
    Proof.
      unfold render_html_tree. pose proof (proj1 (alike_node n) (new_hctx cfg) (new_hctx cfg') "" "" eq_refl eq_refl (conj eq_refl eq_refl)) as H. unfold alike_res in H.
      destruct (wh (new_hctx cfg) "" n), (wh (new_hctx cfg') "" n); try contradiction; [apply H|exact H].
    Qed.
    (* failure *)
    Definition code_ok (n : node) : Prop :=
      match n with NInlineCode s => exists t, inline_code s = Ok t | NCode _ s => exists t, block_code s = Ok t | _ => True end.
    Definition fails_as (n : node) (f : hctx -> string -> res hctx) : Prop := forall c i, (exists c', f c i = Ok c') <-> throughout code_ok n.
    Lemma fails_each l : Forall (fun n => fails_as n (fun c i => wh c i n)) l -> forall c i,
      (exists c', each_h o inline_code block_code c i l = Ok c') <-> Forall (throughout code_ok) l.
    Proof.
      induction 1 as [|x l Hx _ IH]; intros c i; cbn [each_h]; [split; [constructor|intros _; exists c; reflexivity]|].
      specialize (Hx c i). split.
      - intros (c' & E). destruct (wh c i x) as [d|] eqn:F; [|discriminate E]. constructor; [apply Hx; exists d; reflexivity|]. apply (IH d i). exists c'. exact E.
      - intros F. inversion F as [|? ? F1 F2]; subst. apply Hx in F1. destruct F1 as [d ->]. apply IH. exact F2.
    Qed.
    Definition fails2 (n : node) : Prop := fails_as n (fun c i => wh c i n) /\ match n with NParagraph l => Forall (fun n => fails_as n (fun c i => wh c i n)) l | _ => True end.
    Lemma throughout_par l : Forall (throughout code_ok) l <-> throughout code_ok (NParagraph l).
    Proof.
      split; [|intros H; apply throughout_inv in H; apply H]. intros H. cbn. split; [exact I|]. induction H as [|x l Hx _ IH]; [exact I|split; assumption].
    Qed.
    Lemma fails_flat l : Forall fails2 l -> forall c i,
      (exists c', flat_h o inline_code block_code c i l = Ok c') <-> Forall (throughout code_ok) l.
    Proof.
      induction 1 as [|x l [Hx Hp] _ IH]; intros c i; cbn [flat_h]; [split; [constructor|intros _; exists c; reflexivity]|].
      assert (G : (exists c', flat1_h o inline_code block_code c i x = Ok c') <-> throughout code_ok x).
      { unfold flat1_h. destruct x; try exact (Hx c i). rewrite <- throughout_par. apply fails_each. exact Hp. }
      split.
      - intros (c' & E). destruct (flat1_h o inline_code block_code c i x) as [d|] eqn:F; [|discriminate E]. constructor; [apply G; exists d; reflexivity|]. apply (IH d i). exists c'. exact E.
      - intros F. inversion F as [|? ? F1 F2]; subst. apply G in F1. destruct F1 as [d ->]. apply IH. exact F2.
    Qed.
    Lemma fails_items l : Forall (fun n => fails_as n (fun c i => wh c i n)) l -> forall c i,
      (exists c', items_h o inline_code block_code c i l = Ok c') <-> Forall (throughout code_ok) l.
    Proof.
      induction 1 as [|x l Hx _ IH]; intros c i; cbn [items_h]; [split; [constructor|intros _; exists c; reflexivity]|].
      match goal with |- context [wh ?A ?B x] => specialize (Hx A B); destruct (wh A B x) as [d|e] end; split.
      - intros E. constructor; [apply Hx; eexists; reflexivity|]. apply IH in E. exact E.
      - intros F. inversion F as [|? ? F1 F2]; subst. apply IH. exact F2.
      - intros (c' & E). discriminate E.
      - intros F. inversion F as [|? ? F1 F2]; subst. apply Hx in F1. destruct F1 as [d E]. discriminate E.
    Qed.
    Lemma fails_then (a : res hctx) (f : hctx -> hctx) (P : Prop) : ((exists c', a = Ok c') <-> P) ->
      (exists c', match a with Ok c => Ok (f c) | Err e => Err e end = Ok c') <-> P.
    Proof.
      intros H. rewrite <- H. destruct a as [d|e]; split; intros (c' & E); try discriminate E; [exists d; reflexivity|exists (f d); reflexivity].
    Qed.
    Lemma throughout_list n : match n with NInlineCode _ | NCode _ _ => False | _ => True end -> throughout code_ok n <-> Forall (throughout code_ok) (children n).
    Proof.
      intros Hn. split; [intros H; apply (throughout_inv _ _ H)|]. intros F. destruct n; try contradiction; cbn in *; (split; [exact I|]); try exact I;
        (induction F as [|x l Hx _ IH]; [exact I|split; assumption]).
    Qed.
    Lemma fails_node : forall n, fails2 n.
    Proof.
      assert (Fst : forall l, Forall fails2 l -> Forall (fun n => fails_as n (fun c i => wh c i n)) l) by (intros l; apply Forall_impl; intros n [H _]; exact H).
      induction n as [l Hl|s|l Hl|b l Hl|l Hl|s|s|g s|l Hl|u l Hl|l Hl|l Hl|l Hl|d l Hl|k l] using node_ind2;
        (split; [|try exact I; try exact (Fst l Hl)]); intros c1 i; rewrite write_html_eq; cbv zeta.
      - rewrite throughout_list by exact I. exact (fails_each l (Fst l Hl) _ i).
      - rewrite throughout_list by exact I. split; [constructor|intros _; eexists; reflexivity].
      - rewrite throughout_list by exact I. exact (fails_then _ (fun c => h_newline (if ho_old_paragraph o then h_old c true else push_unbroken c "</p>" i) true) _ (fails_each l (Fst l Hl) _ i)).
      - rewrite throughout_list by exact I.
        exact (fails_then _ (fun c => let c := h_newline (push_unbroken (push_ln c i) ("</" ++ (if b then "ol" else "ul") ++ ">") i) true in if ho_old_paragraph o then h_old c true else c) _ (fails_items l (Fst l Hl) _ i)).
      - rewrite throughout_list by exact I. exact (fails_flat l Hl _ i).
      - rewrite throughout_list by exact I. split; [constructor|intros _; eexists; reflexivity].
      - cbn. destruct (inline_code s) as [t|e]; split; [intros _; split; [exists t; reflexivity|exact I]|intros _; eexists; reflexivity|intros (c' & E); discriminate E|intros [(t & E) _]; discriminate E].
      - cbn. destruct (block_code s) as [t|e]; split; [intros _; split; [exists t; reflexivity|exact I]|intros _; eexists; reflexivity|intros (c' & E); discriminate E|intros [(t & E) _]; discriminate E].
      - rewrite throughout_list by exact I. exact (fails_then _ (fun c => h_newline (push_unbroken c "</blockquote>" i) true) _ (fails_each l (Fst l Hl) _ i)).
      - rewrite throughout_list by exact I. exact (fails_then _ (fun c => push_unbroken c _ i) _ (fails_each l (Fst l Hl) _ i)).
      - rewrite throughout_list by exact I. exact (fails_then _ (fun c => push_unbroken c _ i) _ (fails_each l (Fst l Hl) _ i)).
      - rewrite throughout_list by exact I. exact (fails_then _ (fun c => push_unbroken c _ i) _ (fails_each l (Fst l Hl) _ i)).
      - rewrite throughout_list by exact I. exact (fails_then _ (fun c => push_unbroken c _ i) _ (fails_each l (Fst l Hl) _ i)).
      - rewrite throughout_list by exact I. exact (fails_then _ (fun c => push_unbroken c _ i) _ (fails_each l (Fst l Hl) _ i)).
      - rewrite throughout_list by exact I. split; [constructor|intros _; eexists; reflexivity].
    Qed.
    Lemma html_fails cfg n : (exists out, render_html_tree o inline_code block_code cfg n = Ok out) <-> throughout code_ok n.
    Proof.
      rewrite <- (proj1 (fails_node n) (new_hctx cfg) ""). unfold render_html_tree. destruct (wh (new_hctx cfg) "" n) as [c|e]; split; intros (x & E); try discriminate E; eexists; reflexivity.
    Qed.
  End Runs.
  Section Default.
    Variable f g : string -> string.
    Let o := {| ho_old_paragraph := false; ho_omit_li := false |}.
    Let ic := fun s => Ok (f s). Let bc := fun s => Ok (g s).
    Notation wh := (write_html o ic bc).
    Notation ah := (as_html f g).
    Definition wrote (c : hctx) (r : res hctx) (s : string) : Prop := exists c', r = Ok c' /\ hx_old c' = false /\ sk (hx_html c') = sk (hx_html c) ++ sk s.
    Definition writes (h : hctx -> string -> res hctx) (s : string) : Prop := forall c i, hx_old c = false -> sk i = "" -> wrote c (h c i) s.
    Lemma writes_each l : Forall (fun n => writes (fun c i => wh c i n) (ah n)) l -> writes (fun c i => each_h o ic bc c i l) (cat (map ah l)).
    Proof.
      induction 1 as [|x l Hx _ IH]; intros c i Ho Hi; [exists c; repeat split; [exact Ho|cbn; rewrite str_app_nil_r; reflexivity]|]. cbn [each_h map].
      destruct (Hx c i Ho Hi) as (d & -> & Ho' & S1). destruct (IH d i Ho' Hi) as (e & -> & Ho2 & S2). exists e. split; [reflexivity|]. split; [exact Ho2|].
      rewrite S2, S1, cat_cons, without_app, str_app_assoc. reflexivity.
    Qed.
    Definition item_html (x : node) : string := match x with NParagraph ps => cat (map ah ps) | _ => ah x end.
    Definition writes2 (n : node) : Prop := writes (fun c i => wh c i n) (ah n) /\ match n with NParagraph l => Forall (fun n => writes (fun c i => wh c i n) (ah n)) l | _ => True end.
    Lemma writes_flat l : Forall writes2 l -> writes (fun c i => flat_h o ic bc c i l) (cat (map item_html l)).
    Proof.
      induction 1 as [|x l [Hx Hp] _ IH]; intros c i Ho Hi; [exists c; repeat split; [exact Ho|cbn; rewrite str_app_nil_r; reflexivity]|]. cbn [flat_h map].
      assert (W : wrote c (flat1_h o ic bc c i x) (item_html x)) by (unfold flat1_h, item_html; destruct x; try exact (Hx c i Ho Hi); exact (writes_each _ Hp c i Ho Hi)).
      destruct W as (d & -> & Ho' & S1). destruct (IH d i Ho' Hi) as (e & -> & Ho2 & S2). exists e. split; [reflexivity|]. split; [exact Ho2|].
      rewrite S2, S1, cat_cons, without_app, str_app_assoc. reflexivity.
    Qed.
    Lemma writes_items l : Forall (fun n => writes (fun c i => wh c i n) (ah n)) l -> writes (fun c i => items_h o ic bc c i l) (cat (map (fun i => tagged "li" (ah i)) l)).
    Proof.
      induction 1 as [|x l Hx _ IH]; intros c i Ho Hi; [exists c; repeat split; [exact Ho|cbn; rewrite str_app_nil_r; reflexivity]|]. cbn [items_h map].
      destruct (Hx (push_unbroken (push_ln c (i ++ "  ")) "<li>" (i ++ "  ")) (i ++ "  ") Ho (two_spaces i Hi)) as (d & -> & Ho' & S1).
      destruct (IH (push_unbroken d "</li>" i) i Ho' Hi) as (e & E & Ho2 & S2). exists e. split; [exact E|]. split; [exact Ho2|].
      rewrite S2, hk_unbroken, S1, hk_unbroken, hk_ln, cat_cons by (exact Hi || exact (two_spaces i Hi)). unfold tagged. rewrite !without_app, !str_app_assoc. reflexivity.
    Qed.
    Lemma writes_wrapped l open close : Forall (fun n => writes (fun c i => wh c i n) (ah n)) l -> writes (fun c i => wrapped_h o ic bc c i open close l) (open ++ cat (map ah l) ++ close).
    Proof.
      intros F c i Ho Hi. unfold wrapped_h. destruct (writes_each l F (push_unbroken c open i) i Ho Hi) as (d & -> & Ho' & S1). eexists. split; [reflexivity|]. split; [exact Ho'|].
      rewrite hk_unbroken, S1, hk_unbroken by exact Hi. rewrite !without_app, !str_app_assoc. reflexivity.
    Qed.
    Lemma before_default c i n : hx_old c = false -> sk i = "" -> hx_old (before_node c i n) = false /\ sk (hx_html (before_node c i n)) = sk (hx_html c).
    Proof.
      intros Ho Hi. unfold before_node. destruct (hx_newline c); cbn [h_newline hx_old]; [change (hx_old (push_ln c i)) with (hx_old c)|]; rewrite Ho; (split; [exact Ho|]); [|reflexivity].
      cbn [h_newline hx_html]. apply hk_ln. exact Hi.
    Qed.
    Lemma writes_node : forall n, writes2 n.
    Proof.
      assert (Fst : forall l, Forall writes2 l -> Forall (fun n => writes (fun c i => wh c i n) (ah n)) l) by (intros l; apply Forall_impl; intros n [H _]; exact H).
      induction n as [l Hl|s|l Hl|b l Hl|l Hl|s|s|lg s|l Hl|u l Hl|l Hl|l Hl|l Hl|d l Hl|k l] using node_ind2;
        (split; [|try exact I; try exact (Fst l Hl)]); intros c1 i Ho1 Hi; rewrite write_html_eq; cbv zeta;
        match goal with |- context [before_node c1 i ?N] => destruct (before_default c1 i N Ho1 Hi) as [Ho E]; revert Ho E; generalize (before_node c1 i N) end;
        intros c Ho E; unfold wrote; rewrite <- E; clear E Ho1 c1; cbn [as_html ho_old_paragraph o].
      - exact (writes_each l (Fst l Hl) c i Ho Hi).
      - eexists. split; [reflexivity|]. split; [exact Ho|apply hk_words; exact Hi].
      - destruct (writes_each l (Fst l Hl) (push_unbroken c "<p>" i) i Ho Hi) as (d & -> & Ho' & S1). eexists. split; [reflexivity|]. split; [exact Ho'|].
        cbn [h_newline hx_html]. rewrite hk_unbroken, S1, hk_unbroken by exact Hi. unfold tagged. rewrite !without_app, !str_app_assoc. reflexivity.
      - destruct (writes_items l (Fst l Hl) (push_unbroken c ("<" ++ (if b then "ol" else "ul") ++ ">") i) i Ho Hi) as (d & -> & Ho' & S1). eexists. split; [reflexivity|]. split; [exact Ho'|].
        cbn [h_newline hx_html]. rewrite hk_unbroken, hk_ln, S1, hk_unbroken by exact Hi. unfold tagged. rewrite !without_app, !str_app_assoc. reflexivity.
      - exact (writes_flat l Hl c i Ho Hi).
      - eexists. split; [reflexivity|]. split; [exact Ho|]. cbn [h_out hx_html snd]. apply without_app.
      - eexists. split; [reflexivity|]. split; [exact Ho|apply hk_unbroken; exact Hi].
      - eexists. split; [reflexivity|]. split; [exact Ho|apply hk_unbroken; exact Hi].
      - destruct (writes_each l (Fst l Hl) (push_unbroken_ln c "<blockquote>" i) i Ho Hi) as (d & -> & Ho' & S1). eexists. split; [reflexivity|]. split; [exact Ho'|].
        cbn [h_newline hx_html]. rewrite hk_unbroken, S1, hk_unbroken_ln by exact Hi. unfold tagged. rewrite !without_app, !str_app_assoc. reflexivity.
      - destruct (writes_wrapped l ("<a href=""" ++ u ++ """>") "</a>" (Fst l Hl) c i Ho Hi) as (d & -> & Ho' & S1). exists d. split; [reflexivity|]. split; [exact Ho'|].
        rewrite S1, !str_app_assoc. reflexivity.
      - exact (writes_wrapped l "<strong>" "</strong>" (Fst l Hl) c i Ho Hi).
      - exact (writes_wrapped l "<em>" "</em>" (Fst l Hl) c i Ho Hi).
      - exact (writes_wrapped l "<s>" "</s>" (Fst l Hl) c i Ho Hi).
      - destruct (writes_wrapped l ("<h" ++ show_nat d ++ ">") ("</h" ++ show_nat d ++ ">" ++ nl) (Fst l Hl) c i Ho Hi) as (e & -> & Ho' & S1). exists e. split; [reflexivity|]. split; [exact Ho'|].
        rewrite S1. unfold tagged. change (decimal d) with (show_nat d). rewrite !without_app, (sk_nl drop Hblank). change (sk "<h") with "<h". change (sk "</h") with "</h". change (sk "<") with "<". change (sk "</") with "</". change (sk "h") with "h".
        rewrite ?str_app_assoc, ?str_app_nil_r. reflexivity.
      - exists c. split; [reflexivity|]. split; [exact Ho|]. cbn. rewrite str_app_nil_r. reflexivity.
    Qed.
    Lemma html_default cfg n : exists out, render_html_tree o ic bc cfg n = Ok out /\ sk out = sk (ah n).
    Proof.
      destruct (proj1 (writes_node n) (new_hctx cfg) "" eq_refl eq_refl) as (c & E & _ & S1). exists (hx_html c). unfold render_html_tree. rewrite E. split; [reflexivity|exact S1].
    Qed.
  End Default.
End HtmlInk.
