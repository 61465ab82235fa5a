(* Correctness of the directive parsers. *)
From Coq Require Import String Ascii Bool Arith Lia List.
Import ListNotations.
From Verif Require Import Base BaseProofs BaseProofs2 SemTypes Str StrProofs CodeModel CodeSpec CodeProofs MdModel MdSpec.
Local Open Scope string_scope.

Lemma all_chars_iff (P : ascii -> Prop) p s : (forall c, P c <-> p c = true) ->
  ((forall a c b, s = a ++ String c b -> P c) <-> all_chars p s = true).
Proof.
  intros H. induction s as [|d s IH]; cbn.
  - split; [reflexivity|]. intros _ a c b E. destruct a; discriminate E.
  - rewrite andb_true_iff, <- IH, <- H. split.
    + intros K. split; [apply (K "" d s); reflexivity|]. intros a c b ->. apply (K (String d a) c b). reflexivity.
    + intros [K1 K2] [|e a] c b E; cbn in E; injection E as <- E; [exact K1|]. apply (K2 a c b E).
Qed.

Lemma multispace_iff c : In (nat_of_ascii c) [32; 9; 13; 10] <-> is_multispace c = true.
Proof.
  unfold is_multispace. cbv zeta. rewrite !orb_true_iff, !Nat.eqb_eq. cbn. intuition.
Qed.

Lemma gap_iff g : gap g <-> all_chars is_multispace g = true.
Proof. apply all_chars_iff. intros c. apply multispace_iff. Qed.

Lemma letter_iff c : letter c <-> is_alpha c = true.
Proof.
  unfold letter, is_alpha, is_lower, is_upper. cbv zeta. rewrite orb_true_iff, !andb_true_iff, !Nat.leb_le. tauto.
Qed.
Lemma alnum_iff c : letter c \/ digit c <-> is_ascii_alnum c = true.
Proof.
  unfold digit, is_ascii_alnum. rewrite !orb_true_iff, letter_iff. unfold is_alpha. rewrite orb_true_iff.
  unfold is_digit. cbv zeta. rewrite andb_true_iff, !Nat.leb_le. tauto.
Qed.
Lemma one_iff d c : c = d <-> is_one d c = true.
Proof. unfold is_one. symmetry. apply Ascii.eqb_eq. Qed.

Lemma id_char_iff c : letter c \/ digit c \/ In c ["."%char; "_"%char; "-"%char] <-> id_char c = true.
Proof.
  unfold id_char. rewrite !orb_true_iff, <- alnum_iff, <- !one_iff. cbn. intuition.
Qed.
Lemma partial_char_iff c : letter c \/ digit c \/ In c ["_"%char; "-"%char] <-> partial_char c = true.
Proof.
  unfold partial_char. rewrite !orb_true_iff, <- alnum_iff, <- !one_iff. cbn. intuition.
Qed.

(* span *)
Lemma span_spec p s a b : span p s = (a, b) ->
  s = a ++ b /\ all_chars p a = true /\ (forall c r, b = String c r -> p c = false).
Proof.
  revert a b. induction s as [|d s IH]; intros a b H; cbn in H.
  - injection H as <- <-. repeat split; discriminate.
  - destruct (p d) eqn:E.
    + destruct (span p s) as [a' b'] eqn:E2. injection H as <- <-. destruct (IH _ _ eq_refl) as (-> & H2 & H3).
      cbn. rewrite E, H2. auto.
    + injection H as <- <-. repeat split. intros c r H. injection H as <- _. exact E.
Qed.

Lemma span_app p a b : all_chars p a = true -> (forall c r, b = String c r -> p c = false) -> span p (a ++ b) = (a, b).
Proof.
  intros Ha Hb. induction a as [|c a IH]; cbn.
  - destruct b as [|d b]; [reflexivity|]. cbn. rewrite (Hb d b eq_refl). reflexivity.
  - cbn in Ha. apply andb_true_iff in Ha as [-> Ha]. rewrite (IH Ha). reflexivity.
Qed.

Lemma span_all p a : all_chars p a = true -> span p a = (a, "").
Proof. intros H. rewrite <- (str_app_nil_r a) at 1. apply span_app; [exact H|discriminate]. Qed.

Lemma multispace_gap g s : gap g -> (forall c r, s = String c r -> is_multispace c = false) -> multispace0 (g ++ s) = s.
Proof. intros Hg Hs. unfold multispace0. rewrite span_app; [reflexivity|apply gap_iff, Hg|exact Hs]. Qed.

Lemma multispace_split s : exists g, gap g /\ s = g ++ multispace0 s /\ (forall c r, multispace0 s = String c r -> is_multispace c = false).
Proof.
  unfold multispace0. destruct (span is_multispace s) as [a b] eqn:E. apply span_spec in E as (-> & H1 & H2).
  exists a. split; [apply gap_iff, H1|]. auto.
Qed.

Lemma multispace_empty s : multispace0 s = "" <-> gap s.
Proof.
  split.
  - intros H. destruct (multispace_split s) as (g & Hg & E & _). rewrite H, str_app_nil_r in E. rewrite E. exact Hg.
  - intros H. rewrite <- (str_app_nil_r s). apply multispace_gap; [exact H|discriminate].
Qed.

Lemma is_empty_iff s : is_empty s = true <-> s = "".
Proof. destruct s; split; try reflexivity; discriminate. Qed.

Lemma all_white_iff s : all_white s = true <-> blank s.
Proof.
  unfold all_white. rewrite is_empty_iff. split.
  - intros H. destruct (trim_ws_trimmed s) as (u & v & E & Hu & Hv & _). rewrite H in E. cbn in E. subst s.
    apply blank_iff. rewrite all_chars_app. apply blank_iff in Hu, Hv. rewrite Hu, Hv. reflexivity.
  - intros H. apply (trimmed_det s); [apply trim_ws_trimmed|]. exists s, "". cbn. rewrite str_app_nil_r.
    split; [reflexivity|]. split; [exact H|]. split; [constructor|].
    split; [intros (c & r & E & _); discriminate E|intros (r & c & E & _); destruct r; discriminate E].
Qed.

(* identifiers *)
Lemma span_chain p q s a r b r' : (forall c, p c = true -> q c = true) ->
  span p s = (a, r) -> span q r = (b, r') -> span q s = (a ++ b, r').
Proof.
  intros H E1 E2. apply span_spec in E1 as (-> & H1 & _). apply span_spec in E2 as (-> & H2 & H3).
  rewrite <- str_app_assoc. apply span_app; [|exact H3]. rewrite all_chars_app, H2, (all_chars_imp p q a H H1). reflexivity.
Qed.

Lemma ident_then_eq more s : (forall c, is_alpha c = true -> more c = true) ->
  ident_then more s =
  match s with
  | String c _ => if is_alpha c then let '(i, r) := span more s in Some (r, i) else None
  | EmptyString => None
  end.
Proof.
  intros H. unfold ident_then. destruct s as [|c s]; [reflexivity|].
  destruct (span is_alpha (String c s)) as [a r] eqn:E. destruct (span more r) as [b r'] eqn:E2.
  rewrite (span_chain _ _ _ _ _ _ _ H E E2). cbn in E. destruct (is_alpha c) eqn:Ec.
  - destruct (span is_alpha s) as [a' b']. injection E as <- _. reflexivity.
  - injection E as <- _. reflexivity.
Qed.

Definition ident (more : ascii -> bool) (s : string) : Prop :=
  exists c r, s = String c r /\ is_alpha c = true /\ all_chars more r = true.

Lemma ident_then_iff more s rest i : (forall c, is_alpha c = true -> more c = true) ->
  (ident_then more s = Some (rest, i) <->
   s = i ++ rest /\ ident more i /\ forall c r, rest = String c r -> more c = false).
Proof.
  intros H. rewrite ident_then_eq by exact H. split.
  - destruct s as [|c s]; [discriminate|]. destruct (is_alpha c) eqn:Ec; [|discriminate].
    destruct (span more (String c s)) as [a b] eqn:E. intros K. injection K as <- <-.
    pose proof (span_spec _ _ _ _ E) as (E1 & E2 & E3). split; [exact E1|]. split; [|exact E3].
    destruct a as [|d a].
    + cbn in E. rewrite (H c Ec) in E. destruct (span more s). discriminate E.
    + cbn in E1. injection E1 as <- _. exists c, a. cbn in E2. apply andb_true_iff in E2 as [_ E2]. auto.
  - intros (-> & (c & r & -> & Hc & Hr) & K). cbn [append]. rewrite Hc.
    change (String c (r ++ rest)) with (String c r ++ rest). rewrite span_app; [reflexivity| |exact K].
    cbn. rewrite (H c Hc), Hr. reflexivity.
Qed.

Lemma alpha_id c : is_alpha c = true -> id_char c = true.
Proof. intros H. apply id_char_iff. left. apply letter_iff, H. Qed.
Lemma alpha_partial c : is_alpha c = true -> partial_char c = true.
Proof. intros H. apply partial_char_iff. left. apply letter_iff, H. Qed.

Lemma id_text_iff s : id_text s <-> ident id_char s.
Proof.
  unfold id_text, identifier, ident. split; intros (c & r & -> & H1 & H2); exists c, r.
  - split; [reflexivity|]. split; [apply letter_iff, H1|]. apply (proj1 (all_chars_iff _ _ _ id_char_iff)). exact H2.
  - split; [reflexivity|]. split; [apply letter_iff, H1|]. apply (proj2 (all_chars_iff _ _ r id_char_iff)). exact H2.
Qed.
Lemma partial_text_iff s : identifier ["_"%char; "-"%char] s <-> ident partial_char s.
Proof.
  unfold identifier, ident. split; intros (c & r & -> & H1 & H2); exists c, r.
  - split; [reflexivity|]. split; [apply letter_iff, H1|]. apply (proj1 (all_chars_iff _ _ _ partial_char_iff)). exact H2.
  - split; [reflexivity|]. split; [apply letter_iff, H1|]. apply (proj2 (all_chars_iff _ _ r partial_char_iff)). exact H2.
Qed.

Lemma parse_id_iff s rest i : parse_id s = Some (rest, i) <->
  s = i ++ rest /\ id_text i /\ forall c r, rest = String c r -> id_char c = false.
Proof. rewrite id_text_iff. apply ident_then_iff, alpha_id. Qed.

Lemma parse_partial_iff s rest i : parse_partial_id s = Some (rest, i) <->
  s = i ++ rest /\ identifier ["_"%char; "-"%char] i /\ forall c r, rest = String c r -> partial_char c = false.
Proof. rewrite partial_text_iff. apply ident_then_iff, alpha_partial. Qed.

Lemma tag_iff t s r : tag t s = Some r <-> s = t ++ r.
Proof. apply strip_prefix_spec. Qed.

Lemma parse_value_iff s rest v : parse_value s = Some (rest, v) <->
  s = v ++ rest /\ tag_text v /\ forall c r, rest = String c r -> partial_char c = false.
Proof.
  unfold parse_value, tag_text. destruct (ident_then partial_char s) as [[r i]|] eqn:E.
  - pose proof (proj1 (ident_then_iff _ _ _ _ alpha_partial) E) as (E1 & E2 & E3). split.
    + intros H. injection H as <- <-. split; [exact E1|]. split; [left; apply partial_text_iff, E2|exact E3].
    + intros (H1 & [H2|(u & -> & H2)] & H3).
      * assert (X : ident_then partial_char s = Some (rest, v)) by (apply ident_then_iff; [exact alpha_partial|]; rewrite <- partial_text_iff; auto).
        congruence.
      * exfalso. destruct E2 as (c & q & -> & Hc & _). rewrite E1 in H1. cbn in H1. injection H1 as -> _. discriminate Hc.
  - destruct (tag "_" s) as [r|] eqn:Et.
    + apply tag_iff in Et. subst s. destruct (span partial_char r) as [b r'] eqn:Es. pose proof (span_spec _ _ _ _ Es) as (S1 & S2 & S3).
      split.
      * intros H. injection H as <- <-. split; [rewrite S1; reflexivity|]. split; [|exact S3]. right. exists b. split; [reflexivity|].
        apply (proj2 (all_chars_iff _ _ b partial_char_iff)). exact S2.
      * intros (H1 & [H2|(u & -> & H2)] & H3).
        -- exfalso. apply partial_text_iff in H2 as (c & q & -> & Hc & _). cbn in H1. injection H1 as <- _. discriminate Hc.
        -- assert (H2' : all_chars partial_char u = true) by (apply (proj1 (all_chars_iff _ _ u partial_char_iff)); exact H2).
           cbn in H1. injection H1 as H1. rewrite H1 in Es. rewrite (span_app _ _ _ H2' H3) in Es. injection Es as -> ->. reflexivity.
    + split; [discriminate|]. intros (H1 & [H2|(u & -> & H2)] & H3); exfalso.
      * assert (X : ident_then partial_char s = Some (rest, v)) by (apply ident_then_iff; [exact alpha_partial|]; rewrite <- partial_text_iff; auto).
        congruence.
      * assert (X : tag "_" s = Some (u ++ rest)) by (apply tag_iff; exact H1). congruence.
Qed.

(* parameters: what follows a parameter is a comma or a parenthesis *)
Definition stop (s : string) : Prop := forall c r, s = String c r -> partial_char c = false.

Lemma parse_param_sound s r p : parse_param s = Some (r, p) -> exists t, written p t /\ s = t ++ r.
Proof.
  unfold parse_param. destruct (tag "full" s) as [x|] eqn:E1.
  { intros H. injection H as <- <-. apply tag_iff in E1. eexists. split; [constructor|exact E1]. }
  destruct (tag "metric_table" s) as [x|] eqn:E2.
  { intros H. injection H as <- <-. apply tag_iff in E2. eexists. split; [constructor|exact E2]. }
  destruct (tag "omit_requirement_level" s) as [x|] eqn:E3.
  { intros H. injection H as <- <-. apply tag_iff in E3. eexists. split; [constructor|exact E3]. }
  destruct (tag "tag=" s) as [x|] eqn:E4; [|discriminate]. destruct (parse_value x) as [[r' v]|] eqn:E5; [|discriminate].
  intros H. injection H as <- <-. apply tag_iff in E4. apply parse_value_iff in E5 as (-> & E5 & _).
  exists ("tag=" ++ v). split; [constructor; exact E5|exact E4].
Qed.

Lemma parse_param_complete p t r : written p t -> stop r -> parse_param (t ++ r) = Some (r, p).
Proof.
  intros H Hs. destruct H; try reflexivity. unfold parse_param.
  change (tag "full" (("tag=" ++ v) ++ r)) with (@None string).
  change (tag "metric_table" (("tag=" ++ v) ++ r)) with (@None string).
  change (tag "omit_requirement_level" (("tag=" ++ v) ++ r)) with (@None string).
  assert (E : tag "tag=" (("tag=" ++ v) ++ r) = Some (v ++ r)) by (apply tag_iff; rewrite str_app_assoc; reflexivity).
  rewrite E. assert (E2 : parse_value (v ++ r) = Some (r, v)) by (apply parse_value_iff; auto). rewrite E2. reflexivity.
Qed.

Lemma written_len p t : written p t -> 1 <= String.length t.
Proof. intros H. destruct H; cbn; lia. Qed.

Lemma params_more_sound n : forall s r ps, params_more n s = (r, ps) ->
  exists ts, Forall2 written ps ts /\ s = String.concat "" (map (fun t => "," ++ t) ts) ++ r.
Proof.
  induction n as [|n IH]; intros s r ps H; cbn [params_more] in H.
  - injection H as <- <-. exists []. split; [constructor|reflexivity].
  - destruct (tag "," s) as [x|] eqn:E; [|injection H as <- <-; exists []; split; [constructor|reflexivity]].
    destruct (parse_param x) as [[r' p]|] eqn:E2; [|injection H as <- <-; exists []; split; [constructor|reflexivity]].
    destruct (params_more n r') as [r'' qs] eqn:E3. injection H as <- <-.
    destruct (IH _ _ _ E3) as (ts & F & ->). apply parse_param_sound in E2 as (t & Ht & ->). apply tag_iff in E. subst s.
    exists (t :: ts). split; [constructor; assumption|]. cbn [map].
    assert (C : forall a l, String.concat "" (a :: l) = a ++ String.concat "" l)
      by (intros a [|b l]; cbn; [rewrite str_app_nil_r; reflexivity|reflexivity]).
    rewrite C, !str_app_assoc. reflexivity.
Qed.

Lemma concat_cons a l : String.concat "" (a :: l) = a ++ String.concat "" l.
Proof. destruct l; cbn; [rewrite str_app_nil_r|]; reflexivity. Qed.

Lemma stop_more ts r : stop r -> stop (String.concat "" (map (fun t => "," ++ t) ts) ++ r).
Proof.
  intros H. destruct ts as [|t ts]; [exact H|]. cbn [map]. rewrite concat_cons. intros c x E. cbn in E.
  injection E as <- _. reflexivity.
Qed.

Lemma params_more_complete ps : forall n ts r, Forall2 written ps ts -> stop r -> tag "," r = None -> length ps <= n ->
  params_more n (String.concat "" (map (fun t => "," ++ t) ts) ++ r) = (r, ps).
Proof.
  induction ps as [|p ps IH]; intros n ts r F Hs Hr Hn; inversion F as [|p' t' ps' ts' F1 F2]; subst.
  - cbn [map String.concat append]. destruct n; cbn [params_more]; [reflexivity|]. rewrite Hr. reflexivity.
  - destruct n as [|n]; [cbn in Hn; lia|]. cbn [map]. rewrite concat_cons, !str_app_assoc. cbn [params_more].
    assert (E : tag "," ("," ++ t' ++ String.concat "" (map (fun t => "," ++ t) ts') ++ r)
                = Some (t' ++ String.concat "" (map (fun t => "," ++ t) ts') ++ r)) by (apply tag_iff; reflexivity).
    rewrite E. rewrite (parse_param_complete _ _ _ F1 (stop_more ts' r Hs)).
    rewrite (IH n ts' r F2 Hs Hr); [reflexivity|]. cbn in Hn. lia.
Qed.

Lemma join_concat t ts : join "," (t :: ts) = t ++ String.concat "" (map (fun t => "," ++ t) ts).
Proof.
  revert t. induction ts as [|u ts IH]; intros t; [cbn; rewrite str_app_nil_r; reflexivity|].
  change (join "," (t :: u :: ts)) with (t ++ "," ++ join "," (u :: ts)). rewrite IH. cbn [map]. rewrite concat_cons.
  rewrite !str_app_assoc. reflexivity.
Qed.

Lemma more_len ps : forall ts, Forall2 written ps ts -> length ps <= String.length (String.concat "" (map (fun t => "," ++ t) ts)).
Proof.
  induction ps as [|p ps IH]; intros ts F; inversion F as [|p' t' ps' ts' F1 F2]; subst; [cbn; lia|].
  cbn [map]. rewrite concat_cons, str_length_app, str_length_app. specialize (IH _ F2). change (String.length ",") with 1. cbn [length]. lia.
Qed.

Lemma parse_params_iff s rest ps : parse_params s = Some (rest, ps) <->
  exists ts, Forall2 written ps ts /\ s = "(" ++ join "," ts ++ ")" ++ rest.
Proof.
  unfold parse_params. split.
  - destruct (tag "(" s) as [r|] eqn:E; [|discriminate]. apply tag_iff in E. subst s.
    destruct (params_list r) as [r' qs] eqn:E2. destruct (tag ")" r') as [r''|] eqn:E3; [|discriminate].
    intros H. injection H as <- <-. apply tag_iff in E3. subst r'. unfold params_list in E2.
    destruct (parse_param r) as [[r1 p]|] eqn:E4.
    + destruct (params_more (String.length r) r1) as [r2 ps2] eqn:E5. injection E2 as -> <-.
      apply params_more_sound in E5 as (ts & F & ->). apply parse_param_sound in E4 as (t & Ht & ->).
      exists (t :: ts). split; [constructor; assumption|]. rewrite join_concat, !str_app_assoc. reflexivity.
    + injection E2 as -> <-. exists []. split; [constructor|reflexivity].
  - intros (ts & F & ->). assert (E : tag "(" ("(" ++ join "," ts ++ ")" ++ rest) = Some (join "," ts ++ ")" ++ rest)) by (apply tag_iff; reflexivity).
    rewrite E. assert (L : params_list (join "," ts ++ ")" ++ rest) = (")" ++ rest, ps)).
    { unfold params_list. inversion F as [|p t ps' ts' F1 F2]; subst; [reflexivity|].
      rewrite join_concat, !str_app_assoc.
      assert (St : stop (")" ++ rest)) by (intros c x K; cbn in K; injection K as <- _; reflexivity).
      rewrite (parse_param_complete _ _ _ F1 (stop_more ts' _ St)).
      rewrite (params_more_complete ps' _ ts' _ F2 St eq_refl); [reflexivity|].
      rewrite !str_length_app. pose proof (more_len _ _ F2). lia. }
    rewrite L. assert (E3 : tag ")" (")" ++ rest) = Some rest) by (apply tag_iff; reflexivity). rewrite E3. reflexivity.
Qed.

(* comments *)
Lemma find_str_min n : n <> "" -> forall s i, find_str n s = Some i -> forall x y, s = x ++ n ++ y -> i <= String.length x.
Proof.
  intros Hn s. induction s as [|c s IH]; intros i H x y E; cbn in H.
  - destruct x; [|discriminate E]. cbn in E. destruct n; [congruence|discriminate E].
  - destruct (starts_with n (String c s)) eqn:Es; [injection H as <-; lia|].
    destruct (find_str n s) as [j|] eqn:Ej; [|discriminate H]. cbn in H. injection H as <-.
    destruct x as [|d x].
    + cbn in E. rewrite E in Es. rewrite starts_with_app in Es. discriminate Es.
    + cbn in E. injection E as <- E. specialize (IH j eq_refl x y E). cbn. lia.
Qed.

Lemma find_str_exists n x y : exists i, find_str n (x ++ n ++ y) = Some i.
Proof.
  assert (F : forall s, find_str n s = if starts_with n s then Some 0
     else match s with EmptyString => None | String _ s' => option_map S (find_str n s') end) by (intros []; reflexivity).
  induction x as [|c x IH]; rewrite F.
  - exists 0. cbn [append]. rewrite starts_with_app. reflexivity.
  - cbn [append]. destruct (starts_with n (String c (x ++ n ++ y))); [eauto|]. destruct IH as (i & ->). cbn. eauto.
Qed.

Lemma str_split_len (a b c d : string) : a ++ b = c ++ d -> String.length a = String.length c -> a = c /\ b = d.
Proof.
  revert c. induction a as [|x a IH]; intros [|y c] E L; cbn in *; try discriminate L; [auto|].
  injection E as -> E. injection L as L. destruct (IH c E L) as [-> ->]. auto.
Qed.

Lemma html_comment_iff s rest inner : parse_html_comment s = Some (rest, inner) <->
  s = "<!--" ++ inner ++ "-->" ++ rest /\
  forall x y, inner ++ "-->" ++ rest = x ++ "-->" ++ y -> String.length inner <= String.length x.
Proof.
  unfold parse_html_comment. split.
  - destruct (tag "<!--" s) as [r|] eqn:E; [|discriminate]. apply tag_iff in E. subst s.
    destruct (find_str "-->" r) as [i|] eqn:Ef; [|discriminate].
    destruct (find_str_spec _ _ _ Ef) as (a & b & -> & La). rewrite <- La, str_drop_app, str_take_app.
    assert (Et : tag "-->" ("-->" ++ b) = Some b) by (apply tag_iff; reflexivity). rewrite Et.
    intros H. injection H as <- <-. split; [reflexivity|]. intros x y E. rewrite La.
    exact (find_str_min "-->" ltac:(discriminate) _ _ Ef x y E).
  - intros [-> M].
    assert (Et : tag "<!--" ("<!--" ++ inner ++ "-->" ++ rest) = Some (inner ++ "-->" ++ rest)) by (apply tag_iff; reflexivity).
    rewrite Et. destruct (find_str_exists "-->" inner rest) as (i & Ef). rewrite Ef.
    pose proof (find_str_min "-->" ltac:(discriminate) _ _ Ef inner rest eq_refl) as L1.
    destruct (find_str_spec _ _ _ Ef) as (a & b & E & La). pose proof (M a b E) as L2.
    assert (L : String.length inner = i) by lia. rewrite <- L, str_drop_app, str_take_app.
    assert (Et2 : tag "-->" ("-->" ++ rest) = Some rest) by (apply tag_iff; reflexivity). rewrite Et2. reflexivity.
Qed.

(* text without '>' has no arrow in it *)
Definition not_gt (c : ascii) : bool := negb (Ascii.eqb c ">"%char).
Lemma no_gt_min inner rest : all_chars not_gt inner = true ->
  forall x y, inner ++ "-->" ++ rest = x ++ "-->" ++ y -> String.length inner <= String.length x.
Proof.
  intros H. induction inner as [|c inner IH]; intros x y E; [cbn; lia|].
  cbn in H. apply andb_true_iff in H as [Hc H]. destruct x as [|d x].
  - exfalso. cbn in E. injection E as -> E. destruct inner as [|c2 inner].
    + cbn in E. injection E as E. discriminate E.
    + cbn in E. injection E as -> E. destruct inner as [|c3 inner]; cbn in E; [discriminate E|].
      injection E as -> E. cbn in H. discriminate H.
  - cbn in E. injection E as _ E. cbn. specialize (IH H x y E). lia.
Qed.

Lemma gap_no_gt g : gap g -> all_chars not_gt g = true.
Proof.
  intros H. apply gap_iff in H. refine (all_chars_imp _ _ _ _ H).
  intros c Hc. unfold not_gt. destruct (Ascii.eqb_spec c ">"%char) as [->|]; [discriminate Hc|reflexivity].
Qed.
Lemma id_no_gt i : id_text i -> all_chars not_gt i = true.
Proof.
  intros H. apply id_text_iff in H as (c & r & -> & Hc & Hr). cbn. apply andb_true_iff. split.
  - unfold not_gt. destruct (Ascii.eqb_spec c ">"%char) as [->|]; [discriminate Hc|reflexivity].
  - refine (all_chars_imp _ _ _ _ Hr). intros d Hd. unfold not_gt. destruct (Ascii.eqb_spec d ">"%char) as [->|]; [discriminate Hd|reflexivity].
Qed.
Lemma partial_no_gt r : all_chars partial_char r = true -> all_chars not_gt r = true.
Proof.
  intros Hr. refine (all_chars_imp _ _ _ _ Hr). intros d Hd. unfold not_gt. destruct (Ascii.eqb_spec d ">"%char) as [->|]; [discriminate Hd|reflexivity].
Qed.
Lemma written_no_gt p t : written p t -> all_chars not_gt t = true.
Proof.
  intros H. destruct H; try reflexivity. rewrite all_chars_app. cbn [all_chars]. destruct H as [H|(r & -> & H)].
  - apply partial_text_iff in H as (c & r & -> & Hc & Hr). cbn. rewrite (partial_no_gt r Hr).
    unfold not_gt. destruct (Ascii.eqb_spec c ">"%char) as [->|]; [discriminate Hc|reflexivity].
  - assert (H' : all_chars partial_char r = true) by (apply (proj1 (all_chars_iff _ _ r partial_char_iff)); exact H).
    cbn. apply partial_no_gt, H'.
Qed.
Lemma written_all_no_gt ps t : written_all ps t -> all_chars not_gt t = true.
Proof.
  intros H. destruct H as [|ps ts F]; [reflexivity|]. rewrite !all_chars_app. cbn.
  assert (X : all_chars not_gt (join "," ts) = true); [|rewrite X; reflexivity].
  induction F as [|p t ps ts F1 F IH]; [reflexivity|]. rewrite join_concat, all_chars_app, (written_no_gt _ _ F1). cbn.
  clear -F. induction F as [|p t ps ts F1 F IH]; [reflexivity|]. cbn [map]. rewrite concat_cons, all_chars_app, IH.
  cbn [append all_chars]. rewrite (written_no_gt _ _ F1). reflexivity.
Qed.

(* the trailers *)
Lemma is_trailer_iff word line : (exists c r, word = String c r /\ is_multispace c = false) -> all_chars not_gt word = true ->
  (is_trailer word line = true <-> trailer word line).
Proof.
  intros (c0 & r0 & Hw & Hc0) Hg. unfold is_trailer, trailer. split.
  - destruct (parse_html_comment line) as [[rest inner]|] eqn:E; [|discriminate]. apply html_comment_iff in E as [-> _].
    destruct (multispace_split inner) as (g1 & Hg1 & Ei & _). destruct (tag word (multispace0 inner)) as [r|] eqn:Et; [|discriminate].
    apply tag_iff in Et. intros H. apply andb_true_iff in H as [H1 H2]. apply is_empty_iff in H1. apply multispace_empty in H1.
    apply all_white_iff in H2. exists g1, r, rest. split; [|auto]. rewrite Ei, Et, !str_app_assoc. reflexivity.
  - intros (g1 & g2 & g3 & -> & H1 & H2 & H3).
    assert (E : parse_html_comment ("<!--" ++ g1 ++ word ++ g2 ++ "-->" ++ g3) = Some (g3, g1 ++ word ++ g2)).
    { apply html_comment_iff. split; [rewrite !str_app_assoc; reflexivity|]. apply no_gt_min.
      rewrite !all_chars_app, (gap_no_gt g1 H1), (gap_no_gt g2 H2), Hg. reflexivity. }
    rewrite E. rewrite multispace_gap; [|exact H1|intros c r K; rewrite Hw in K; cbn in K; injection K as <- _; exact Hc0].
    assert (Et : tag word (word ++ g2) = Some g2) by (apply tag_iff; reflexivity). rewrite Et.
    rewrite (proj2 (multispace_empty g2) H2). cbn. apply all_white_iff, H3.
Qed.

Lemma semconv_trailer_iff line : is_semconv_trailer line = true <-> trailer "endsemconv" line.
Proof. apply is_trailer_iff; [eexists _, _; split; reflexivity|reflexivity]. Qed.
Lemma weaver_trailer_iff line : is_weaver_trailer line = true <-> trailer "endweaver" line.
Proof. apply is_trailer_iff; [eexists _, _; split; reflexivity|reflexivity]. Qed.

(* the semconv directive *)
Lemma written_all_start ps t : written_all ps t -> t = "" \/ exists r, t = String "("%char r.
Proof. intros H. destruct H; [left; reflexivity|right; cbn; eauto]. Qed.

Lemma gap_start g : gap g -> forall c r, g = String c r -> is_multispace c = true.
Proof. intros H c r ->. apply gap_iff in H. cbn in H. apply andb_true_iff in H as [H _]. exact H. Qed.

Lemma multispace_not_id c : is_multispace c = true -> id_char c = false.
Proof.
  intros H. destruct (id_char c) eqn:E; [|reflexivity]. exfalso. apply multispace_iff in H. apply id_char_iff in E.
  unfold letter, digit in E. cbn in H. destruct E as [E|[E|E]]; [lia|lia|].
  cbn in E. destruct E as [<-|[<-|[<-|[]]]]; cbn in H; lia.
Qed.

Lemma semconv_args_iff inner a : 
  (exists r, parse_semconv_args inner = Some (r, a) /\ r = "") <->
  exists g1 g2 ptext g3, inner = g1 ++ "semconv" ++ g2 ++ sa_id a ++ ptext ++ g3 /\
    gap g1 /\ gap g2 /\ gap g3 /\ id_text (sa_id a) /\ written_all (sa_args a) ptext.
Proof.
  unfold parse_semconv_args. split.
  - intros (r & H & ->). destruct (multispace_split inner) as (g1 & Hg1 & Ei & _).
    destruct (tag "semconv" (multispace0 inner)) as [r1|] eqn:Et; [|discriminate H]. apply tag_iff in Et.
    destruct (multispace_split r1) as (g2 & Hg2 & E2 & _).
    destruct (parse_id (multispace0 r1)) as [[r2 id]|] eqn:Ep; [|discriminate H].
    apply parse_id_iff in Ep as (Ep & Hid & _).
    destruct (parse_params r2) as [[r3 ps]|] eqn:Eq.
    + injection H as H <-. apply multispace_empty in H. apply parse_params_iff in Eq as (ts & F & ->).
      exists g1, g2, ("(" ++ join "," ts ++ ")"), r3. cbn [sa_id sa_args]. split.
      { rewrite Ei, Et, E2, Ep, !str_app_assoc. reflexivity. }
      repeat (split; [assumption|]). constructor. exact F.
    + injection H as H <-. apply multispace_empty in H. exists g1, g2, "", r2. cbn [sa_id sa_args]. split.
      { rewrite Ei, Et, E2, Ep. cbn [append]. reflexivity. }
      repeat (split; [assumption|]). constructor.
  - intros (g1 & g2 & ptext & g3 & -> & H1 & H2 & H3 & Hid & Hp). exists "". split; [|reflexivity].
    rewrite multispace_gap; [|exact H1|intros c r E; cbn in E; injection E as <- _; reflexivity].
    set (body := sa_id a ++ ptext ++ g3).
    assert (Et : tag "semconv" ("semconv" ++ g2 ++ body) = Some (g2 ++ body)) by (apply tag_iff; reflexivity). rewrite Et.
    assert (Hs : forall c r, ptext ++ g3 = String c r -> id_char c = false).
    { intros c r E. destruct (written_all_start _ _ Hp) as [->|(x & ->)]; cbn in E.
      - apply multispace_not_id. apply (gap_start _ H3 _ _ E).
      - injection E as <- _. reflexivity. }
    rewrite multispace_gap; [|exact H2|].
    2: { intros c r E. unfold body in E. apply id_text_iff in Hid as (d & q & Hd & Ha & _). rewrite Hd in E. cbn in E. injection E as <- _.
         destruct (is_multispace d) eqn:M; [|reflexivity]. apply multispace_not_id in M. rewrite (alpha_id d Ha) in M. discriminate M. }
    assert (Ep : parse_id body = Some (ptext ++ g3, sa_id a)) by (apply parse_id_iff; auto). rewrite Ep.
    destruct a as [id ps]. cbn [sa_id sa_args] in *. destruct Hp as [|ps ts F].
    + cbn [append]. assert (Eq : parse_params g3 = None).
      { unfold parse_params. destruct (tag "(" g3) as [x|] eqn:E; [|reflexivity]. apply tag_iff in E.
        exfalso. pose proof (gap_start _ H3 _ _ E) as K. discriminate K. }
      rewrite Eq. rewrite (proj2 (multispace_empty g3) H3). reflexivity.
    + assert (Eq : parse_params (("(" ++ join "," ts ++ ")") ++ g3) = Some (g3, ps)).
      { apply parse_params_iff. exists ts. split; [exact F|]. rewrite !str_app_assoc. reflexivity. }
      rewrite Eq. rewrite (proj2 (multispace_empty g3) H3). reflexivity.
Qed.

Lemma semconv_directive_iff line a : semconv_directive line = Some a <-> semconv_header line a.
Proof.
  unfold semconv_directive, semconv_header. split.
  - destruct (parse_html_comment line) as [[rest inner]|] eqn:E; [|discriminate]. apply html_comment_iff in E as [-> _].
    destruct (parse_semconv_args inner) as [[r a']|] eqn:Ea; [|discriminate]. destruct (is_empty r && all_white rest) eqn:Ec; [|discriminate].
    intros H. injection H as <-. apply andb_true_iff in Ec as [E1 E2]. apply is_empty_iff in E1. apply all_white_iff in E2.
    destruct (proj1 (semconv_args_iff inner a')) as (g1 & g2 & pt & g3 & -> & H1 & H2 & H3 & H4 & H5); [eauto|].
    exists g1, g2, pt, g3, rest. split; [rewrite !str_app_assoc; reflexivity|]. repeat (split; [assumption|]). assumption.
  - intros (g1 & g2 & pt & g3 & g4 & -> & H1 & H2 & H3 & H4 & H5 & H6).
    assert (E : parse_html_comment ("<!--" ++ g1 ++ "semconv" ++ g2 ++ sa_id a ++ pt ++ g3 ++ "-->" ++ g4)
                = Some (g4, g1 ++ "semconv" ++ g2 ++ sa_id a ++ pt ++ g3)).
    { apply html_comment_iff. split; [rewrite !str_app_assoc; reflexivity|]. apply no_gt_min.
      rewrite !all_chars_app, (gap_no_gt g1 H1), (gap_no_gt g2 H2), (gap_no_gt g3 H3), (id_no_gt _ H5), (written_all_no_gt _ _ H6). reflexivity. }
    rewrite E. destruct (proj2 (semconv_args_iff (g1 ++ "semconv" ++ g2 ++ sa_id a ++ pt ++ g3) a)) as (r & -> & ->).
    { exists g1, g2, pt, g3. auto 10. }
    cbn. rewrite (proj2 (all_white_iff g4) H4). reflexivity.
Qed.

(* the weaver directive *)
Lemma trimmed_multispace s q : trimmed (multispace0 s) q <-> trimmed s q.
Proof.
  destruct (multispace_split s) as (g & Hg & E & _).
  assert (Bg : blank g).
  { apply blank_iff. apply gap_iff in Hg. refine (all_chars_imp _ _ _ _ Hg). intros c Hc. apply multispace_iff in Hc. apply white_iff.
    unfold white. cbn in *. intuition. }
  assert (F : forall q, trimmed (multispace0 s) q -> trimmed s q).
  { intros q' (u & v & Eu & Hu & Hv & H1 & H2). exists (g ++ u), v. split; [rewrite E, Eu, str_app_assoc; reflexivity|].
    split; [|auto]. apply blank_iff. rewrite all_chars_app. apply blank_iff in Bg, Hu. rewrite Bg, Hu. reflexivity. }
  split; [apply F|]. intros H. rewrite (trimmed_det _ _ _ H (F _ (trim_ws_trimmed (multispace0 s)))). apply trim_ws_trimmed.
Qed.

Lemma trim_ws_iff s q : trim_ws (multispace0 s) = q <-> trimmed s q.
Proof.
  rewrite <- trimmed_multispace. split; [intros <-; apply trim_ws_trimmed|]. intros H.
  apply (trimmed_det (multispace0 s)); [apply trim_ws_trimmed|exact H].
Qed.

Lemma weaver_args_iff inner a : parse_weaver_args inner = Some a <->
  exists g1 body, inner = g1 ++ "weaver" ++ body /\ gap g1 /\
    exists g2 rest, body = g2 ++ rest /\ gap g2 /\
      (forall c r, rest = String c r -> ~ In (nat_of_ascii c) [32; 9; 13; 10]) /\
      match wa_template a with
      | Some t => exists q, rest = "template:" ++ t ++ q /\ id_text t /\
          (forall c r, q = String c r -> ~ (letter c \/ digit c \/ In c ["."%char; "_"%char; "-"%char])) /\
          trimmed q (wa_query a)
      | None => (forall t q, id_text t -> rest <> "template:" ++ t ++ q) /\ trimmed rest (wa_query a)
      end.
Proof.
  assert (NM : forall rest, (forall c r, rest = String c r -> is_multispace c = false) <->
                            (forall c r, rest = String c r -> ~ In (nat_of_ascii c) [32; 9; 13; 10])).
  { intros rest. split; intros H c r E; specialize (H c r E).
    - intros K. apply multispace_iff in K. congruence.
    - destruct (is_multispace c) eqn:M; [|reflexivity]. apply multispace_iff in M. contradiction. }
  assert (NI : forall q, (forall c r, q = String c r -> id_char c = false) <->
                         (forall c r, q = String c r -> ~ (letter c \/ digit c \/ In c ["."%char; "_"%char; "-"%char]))).
  { intros q. split; intros H c r E; specialize (H c r E).
    - intros K. apply id_char_iff in K. congruence.
    - destruct (id_char c) eqn:M; [|reflexivity]. apply id_char_iff in M. contradiction. }
  unfold parse_weaver_args. split.
  - destruct (multispace_split inner) as (g1 & Hg1 & Ei & _). destruct (tag "weaver" (multispace0 inner)) as [r|] eqn:Et; [|discriminate].
    apply tag_iff in Et. destruct (multispace_split r) as (g2 & Hg2 & E2 & Hn). intros H.
    exists g1, r. split; [rewrite Ei, Et; reflexivity|]. split; [exact Hg1|]. exists g2, (multispace0 r).
    split; [exact E2|]. split; [exact Hg2|]. split; [apply NM, Hn|].
    destruct (parse_template (multispace0 r)) as [[q t]|] eqn:Ep; injection H as <-; cbn [wa_template wa_query].
    + unfold parse_template in Ep. destruct (tag "template:" (multispace0 r)) as [x|] eqn:Ex; [|discriminate Ep].
      apply tag_iff in Ex. apply parse_id_iff in Ep as (-> & Hid & Hq). exists q. split; [exact Ex|]. split; [exact Hid|].
      split; [apply NI, Hq|]. apply trim_ws_iff. reflexivity.
    + split; [|apply trim_ws_iff; reflexivity]. intros t q Ht E. unfold parse_template in Ep.
      assert (Ex : tag "template:" (multispace0 r) = Some (t ++ q)) by (apply tag_iff; exact E). rewrite Ex in Ep.
      unfold parse_id in Ep. rewrite (ident_then_eq _ _ alpha_id) in Ep. apply id_text_iff in Ht as (c & y & -> & Hc & _).
      cbn [append] in Ep. rewrite Hc in Ep. destruct (span id_char (String c (y ++ q))). discriminate Ep.
  - intros (g1 & body & -> & Hg1 & g2 & rest & -> & Hg2 & Hn & Ht).
    rewrite multispace_gap; [|exact Hg1|intros c r E; cbn in E; injection E as <- _; reflexivity].
    assert (Et : tag "weaver" ("weaver" ++ g2 ++ rest) = Some (g2 ++ rest)) by (apply tag_iff; reflexivity). rewrite Et.
    rewrite multispace_gap; [|exact Hg2|apply NM, Hn]. destruct a as [query [t|]]; cbn [wa_template wa_query] in Ht.
    + destruct Ht as (q & -> & Hid & Hq & Htr). unfold parse_template.
      assert (Ex : tag "template:" ("template:" ++ t ++ q) = Some (t ++ q)) by (apply tag_iff; reflexivity). rewrite Ex.
      assert (Ep : parse_id (t ++ q) = Some (q, t)) by (apply parse_id_iff; split; [reflexivity|]; split; [exact Hid|]; apply NI, Hq).
      rewrite Ep. apply trim_ws_iff in Htr. rewrite Htr. reflexivity.
    + destruct Ht as [Hno Htr].
      assert (Ep : parse_template rest = None).
      { unfold parse_template. destruct (tag "template:" rest) as [x|] eqn:Ex; [|reflexivity]. apply tag_iff in Ex.
        destruct (parse_id x) as [[q t]|] eqn:Ey; [|reflexivity]. apply parse_id_iff in Ey as (-> & Hid & _). exfalso. apply (Hno t q Hid Ex). }
      rewrite Ep. apply trim_ws_iff in Htr. rewrite Htr. reflexivity.
Qed.

Lemma weaver_directive_iff line a : weaver_directive line = Some a <-> weaver_header line a.
Proof.
  unfold weaver_directive, weaver_header. split.
  - destruct (parse_html_comment line) as [[rest inner]|] eqn:E; [|discriminate]. apply html_comment_iff in E as [-> M].
    destruct (parse_weaver_args inner) as [a'|] eqn:Ea; [|discriminate]. destruct (all_white rest) eqn:Ec; [|discriminate].
    intros H. injection H as <-. apply all_white_iff in Ec. apply weaver_args_iff in Ea as (g1 & body & -> & Hg1 & Hr).
    exists g1, body, rest. split; [rewrite !str_app_assoc; reflexivity|]. split; [exact Hg1|]. split; [exact Ec|]. split; [|exact Hr].
    intros x y E. apply (M x y). rewrite !str_app_assoc. exact E.
  - intros (g1 & body & g4 & -> & H1 & H4 & M & Hr).
    assert (E : parse_html_comment ("<!--" ++ g1 ++ "weaver" ++ body ++ "-->" ++ g4) = Some (g4, g1 ++ "weaver" ++ body)).
    { apply html_comment_iff. split; [rewrite !str_app_assoc; reflexivity|]. intros x y E. apply (M x y). rewrite <- E, !str_app_assoc. reflexivity. }
    rewrite E. assert (Ea : parse_weaver_args (g1 ++ "weaver" ++ body) = Some a) by (apply weaver_args_iff; eauto).
    rewrite Ea, (proj2 (all_white_iff g4) H4). reflexivity.
Qed.
