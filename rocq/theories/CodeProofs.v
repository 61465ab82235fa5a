(* Proofs about the comment filters. *)
From Coq Require Import String Ascii Bool Arith NArith Lia List.
Import ListNotations.
From Verif Require Import Base BaseProofs SemTypes Str StrProofs CodeModel CodeSpec.
Local Open Scope string_scope.

Lemma has_newline_any s : has_newline s <-> any_char (fun d => Ascii.eqb d lf) s = true.
Proof.
  rewrite any_char_spec. split.
  - intros (a & b & ->). exists a, newline, b. split; reflexivity.
  - intros (a & c & b & -> & H). apply Ascii.eqb_eq in H. subst c. exists a, b. reflexivity.
Qed.

Lemma no_newline_any s : ~ has_newline s <-> any_char (fun d => Ascii.eqb d lf) s = false.
Proof. rewrite has_newline_any. destruct (any_char _ s); split; congruence. Qed.

Lemma no_newline_app a b : ~ has_newline a -> ~ has_newline b -> ~ has_newline (a ++ b).
Proof. rewrite !no_newline_any, any_char_app. intros -> ->. reflexivity. Qed.

Lemma no_newline_app_inv a b : ~ has_newline (a ++ b) -> ~ has_newline a /\ ~ has_newline b.
Proof. rewrite !no_newline_any, any_char_app. apply orb_false_elim. Qed.

Lemma white_iff c : white c <-> is_white c = true.
Proof.
  unfold white, is_white. cbn [In]. rewrite orb_true_iff, andb_true_iff, Nat.eqb_eq, !Nat.leb_le. lia.
Qed.

Lemma blank_iff s : blank s <-> all_chars is_white s = true.
Proof.
  induction s as [|c s IH]; cbn [all_chars]; split.
  - reflexivity.
  - intros _. constructor.
  - intros H. inversion H as [|c' s' H1 H2]; subst. apply white_iff in H1. apply IH in H2. rewrite H1, H2. reflexivity.
  - intros H. apply andb_true_iff in H as [H1 H2]. constructor; [apply white_iff, H1|apply IH, H2].
Qed.

Lemma not_blank_app_l a b : ~ blank a -> ~ blank (a ++ b).
Proof. rewrite !blank_iff, all_chars_app. destruct (all_chars is_white a); cbn; [congruence|discriminate]. Qed.
Lemma not_blank_app_r a b : ~ blank b -> ~ blank (a ++ b).
Proof. rewrite !blank_iff, all_chars_app. destruct (all_chars is_white a); cbn; [tauto|discriminate]. Qed.
Lemma not_blank_ne a : ~ blank a -> is_empty a = false.
Proof. destruct a; [intros H; exfalso; apply H; constructor|reflexivity]. Qed.

(* lines *)
Lemma split_no x : ~ has_newline x -> split_char lf x = [x].
Proof.
  rewrite no_newline_any. induction x as [|c x IH]; cbn; [reflexivity|].
  destruct (Ascii.eqb c lf); [discriminate|]. cbn. intros H. rewrite IH by exact H. reflexivity.
Qed.

Lemma split_cons x s : ~ has_newline x -> split_char lf (x ++ String lf s) = x :: split_char lf s.
Proof.
  rewrite no_newline_any. induction x as [|c x IH]; cbn; [reflexivity|].
  destruct (Ascii.eqb c lf); [discriminate|]. cbn. intros H. rewrite IH by exact H. reflexivity.
Qed.

Lemma strip_cr_app x : strip_cr (x ++ String cr "") = x.
Proof.
  induction x as [|c x IH]; [reflexivity|].
  cbn [append]. destruct x as [|d x]; [reflexivity|].
  cbn [append]. cbn [append] in IH. cbn [strip_cr]. cbn [strip_cr] in IH. rewrite IH. reflexivity.
Qed.

Lemma strip_cr_cases x : (strip_cr x = x /\ (forall a, x <> a ++ String cr "")) \/ x = strip_cr x ++ String cr "".
Proof.
  destruct (str_last x) as [->|(a & c & ->)].
  - left. split; [reflexivity|]. intros a H. destruct a; discriminate.
  - destruct (Ascii.eqb_spec c cr) as [->|Hne].
    + right. rewrite strip_cr_app. reflexivity.
    + left. split.
      * induction a as [|d a IH]; cbn.
        -- apply Ascii.eqb_neq in Hne. rewrite Hne. reflexivity.
        -- rewrite IH. destruct (a ++ String c "") eqn:E; [destruct a; discriminate|reflexivity].
      * intros b H. apply Hne.
        revert b H. induction a as [|d a IH]; intros b H.
        -- destruct b as [|e b]; [injection H; auto|]. destruct b; discriminate.
        -- destruct b as [|e b]; [destruct a; discriminate|]. injection H as _ H. exact (IH _ H).
Qed.

Lemma lines_cons x s : ~ has_newline x -> lines (x ++ String lf s) = strip_cr x :: lines s.
Proof.
  intros H. unfold lines. rewrite split_cons by exact H.
  destruct (split_char lf s) eqn:E; [destruct (split_char_ne _ _ E)|reflexivity].
Qed.

Lemma reads_as_lines s ls : reads_as s ls -> ls = lines s.
Proof.
  induction 1 as [|x Hx Hn|x s ls Hn Hc H IH|x s ls Hn H IH].
  - reflexivity.
  - unfold lines. rewrite split_no by exact Hn. destruct x; [congruence|reflexivity].
  - change newline with lf. rewrite lines_cons by exact Hn.
    destruct (strip_cr_cases x) as [[-> _]|E]; [congruence|]. destruct (Hc _ E).
  - change newline with lf.
    replace (x ++ String return_ (String lf s)) with ((x ++ String cr "") ++ String lf s)
      by (rewrite str_app_assoc; reflexivity).
    rewrite lines_cons, strip_cr_app; [congruence|].
    apply no_newline_app; [exact Hn|]. rewrite no_newline_any. reflexivity.
Qed.

Lemma reads_as_join ps : ps <> [] -> Forall (fun p => ~ has_newline p) ps -> reads_as (join nl ps) (lines_of ps).
Proof.
  induction ps as [|p ps IH]; [congruence|]. intros _ H. inversion H as [|p' ps' Hp Hps]; subst.
  destruct ps as [|q ps].
  - cbn. destruct p; [constructor|]. constructor; [discriminate|exact Hp].
  - change (join nl (p :: q :: ps)) with (p ++ String newline (join nl (q :: ps))).
    change (lines_of (p :: q :: ps)) with (strip_cr p :: lines_of (q :: ps)).
    assert (R : reads_as (join nl (q :: ps)) (lines_of (q :: ps))) by (apply IH; [discriminate|exact Hps]).
    destruct (strip_cr_cases p) as [[E Hc]|E].
    + rewrite E. constructor; assumption.
    + rewrite E at 1. rewrite str_app_assoc. cbn. apply reads_crlf; [|exact R].
      rewrite E in Hp. apply no_newline_app_inv in Hp as [Hp _]. exact Hp.
Qed.

Lemma lines_read s : reads_as s (lines s).
Proof.
  rewrite <- (split_char_join lf s) at 1. unfold lines. apply reads_as_join; [apply split_char_ne|].
  apply Forall_forall. intros x Hx. apply no_newline_any. apply split_char_pieces with (s := s). exact Hx.
Qed.

Lemma reads_no_newline s ls : reads_as s ls -> Forall (fun p => ~ has_newline p) ls.
Proof. induction 1; constructor; auto. Qed.

(* text_of *)
Lemma text_of_join ls : ls <> [] -> Forall (fun p => ~ has_newline p) ls -> text_of ls (join nl ls).
Proof.
  induction ls as [|p ps IH]; [congruence|]. intros _ H. inversion H as [|p' ps' Hp Hps]; subst.
  destruct ps as [|q ps]; [constructor; exact Hp|].
  change (join nl (p :: q :: ps)) with (p ++ String newline (join nl (q :: ps))).
  constructor; [exact Hp|]. apply IH; [discriminate|exact Hps].
Qed.

Lemma text_of_inv ls s : text_of ls s -> ls <> [] /\ s = join nl ls /\ Forall (fun p => ~ has_newline p) ls.
Proof.
  induction 1 as [x Hx|x ls s Hx H (Hne & -> & Hf)].
  - repeat split; [discriminate|]. constructor; auto.
  - repeat split; [discriminate| |constructor; auto]. destruct ls; [congruence|reflexivity].
Qed.

Lemma join_app a b : a <> [] -> b <> [] -> join nl (a ++ b)%list = join nl a ++ nl ++ join nl b.
Proof.
  intros Ha Hb. induction a as [|x a IH]; [congruence|].
  destruct a as [|y a].
  - cbn. destruct b; [congruence|reflexivity].
  - change (join nl ((x :: y :: a) ++ b)%list) with (x ++ nl ++ join nl ((y :: a) ++ b)%list).
    rewrite IH by discriminate. change (join nl (x :: y :: a)) with (x ++ nl ++ join nl (y :: a)).
    rewrite !str_app_assoc. reflexivity.
Qed.

Lemma join_cons x l : l <> [] -> join nl (x :: l) = x ++ nl ++ join nl l.
Proof. destruct l; [congruence|reflexivity]. Qed.

(* trimming *)
Lemma trim_end_nonblank a b : ~ blank b -> trim_end_ws (a ++ b) = a ++ trim_end_ws b.
Proof.
  intros H. unfold trim_end_ws. induction a as [|c a IH]; [reflexivity|].
  cbn [append trim_end]. rewrite IH.
  destruct (a ++ trim_end is_white b) eqn:E; [|reflexivity].
  destruct a; [|discriminate]. cbn in E.
  destruct (trim_end_spec is_white b) as (t & Hb & Ht & _). rewrite E in Hb.
  exfalso. apply H. apply blank_iff. rewrite Hb. exact Ht.
Qed.

Lemma trim_nonblank b : ~ blank b -> ~ blank (trim_end_ws b).
Proof.
  intros H K. apply H. apply blank_iff. apply blank_iff in K.
  destruct (trim_end_spec is_white b) as (t & Hb & Ht & _). rewrite Hb, all_chars_app.
  fold (trim_end_ws b). rewrite K, Ht. reflexivity.
Qed.

Lemma trim_no_newline b : ~ has_newline b -> ~ has_newline (trim_end_ws b).
Proof.
  destruct (trim_end_spec is_white b) as (t & Hb & _ & _). rewrite Hb at 1. intros H.
  apply no_newline_app_inv in H as [H _]. exact H.
Qed.

Lemma same_refl a : same_but_end a a.
Proof. exists a, "", "". rewrite str_app_nil_r. repeat split; constructor. Qed.

Lemma same_trim a : same_but_end (trim_end_ws a) a.
Proof.
  destruct (trim_end_spec is_white a) as (t & Ha & Ht & _).
  exists (trim_end_ws a), "", t. rewrite str_app_nil_r. repeat split; [exact Ha|constructor|apply blank_iff, Ht].
Qed.

Lemma same_trim2 a b : same_but_end a b -> same_but_end (trim_end_ws a) b.
Proof.
  intros (c & u & v & -> & -> & Hu & Hv).
  apply blank_iff in Hu. apply blank_iff in Hv.
  unfold trim_end_ws. rewrite trim_end_app by exact Hu.
  destruct (trim_end_spec is_white c) as (t & Hc & Ht & _).
  exists (trim_end is_white c), "", (t ++ v). rewrite str_app_nil_r, <- str_app_assoc, <- Hc.
  repeat split; [constructor|]. apply blank_iff. rewrite all_chars_app, Ht, Hv. reflexivity.
Qed.

(* trimming the end of a joined text trims its last line *)
Fixpoint trim_last (l : list string) : list string :=
  match l with
  | [] => []
  | [x] => [trim_end_ws x]
  | x :: r => x :: trim_last r
  end.

Lemma trim_last_ne l : l <> [] -> trim_last l <> [].
Proof. destruct l as [|x [|y l]]; [congruence|discriminate|discriminate]. Qed.

Lemma trim_last_app a x : trim_last (a ++ [x])%list = (a ++ [trim_end_ws x])%list.
Proof.
  induction a as [|y a IH]; [reflexivity|]. cbn [List.app].
  destruct (a ++ [x])%list eqn:E; [destruct a; discriminate|].
  change (trim_last (y :: s :: l)) with (y :: trim_last (s :: l)). rewrite IH. reflexivity.
Qed.

Lemma last_case {A} (l : list A) : l <> [] -> exists a x, l = (a ++ [x])%list.
Proof. intros H. destruct (exists_last H) as (a & x & E). exists a, x. exact E. Qed.

Lemma join_snoc a x : join nl (a ++ [x])%list = match a with [] => x | _ => join nl a ++ nl ++ x end.
Proof. destruct a as [|y a]; [reflexivity|]. rewrite join_app by discriminate. reflexivity. Qed.

Lemma trim_join l : l <> [] -> ~ blank (List.last l "") -> trim_end_ws (join nl l) = join nl (trim_last l).
Proof.
  intros H. destruct (last_case l H) as (a & x & ->). rewrite last_last. intros Hx.
  rewrite trim_last_app, !join_snoc. destruct a as [|y a]; [reflexivity|].
  rewrite <- !str_app_assoc. apply trim_end_nonblank. exact Hx.
Qed.

Lemma trim_last_same l m : Forall2 same_but_end l m -> Forall2 same_but_end (trim_last l) m.
Proof.
  induction 1 as [|x y l m Hxy H IH]; [constructor|].
  destruct l as [|z l]; cbn.
  - inversion H; subst. constructor; [apply same_trim2, Hxy|constructor].
  - constructor; [exact Hxy|exact IH].
Qed.

Lemma trim_last_no_newline l : Forall (fun p => ~ has_newline p) l -> Forall (fun p => ~ has_newline p) (trim_last l).
Proof.
  induction l as [|x l IH]; intros H; [constructor|]. inversion H as [|x' l' Hx Hl]; subst.
  destruct l as [|y l]; constructor; auto. apply trim_no_newline, Hx.
Qed.

(* expansion of the lines *)
Definition opt_trim (trim : bool) (s : string) := if trim then trim_end_ws s else s.

Lemma opt_trim_same t s : same_but_end (opt_trim t s) s.
Proof. destruct t; [apply same_trim|apply same_refl]. Qed.
Lemma opt_trim_nb t s : ~ blank s -> ~ blank (opt_trim t s).
Proof. destruct t; [apply trim_nonblank|auto]. Qed.
Lemma opt_trim_nn t s : ~ has_newline s -> ~ has_newline (opt_trim t s).
Proof. destruct t; [apply trim_no_newline|auto]. Qed.

Definition body (trim : bool) (header indent prefix : string) (ls : list string) : list string :=
  match header, ls with
  | EmptyString, x :: r => opt_trim trim (prefix ++ x) :: map (fun l => opt_trim trim (indent ++ prefix ++ l)) r
  | _, _ => map (fun l => opt_trim trim (indent ++ prefix ++ l)) ls
  end.

Lemma is_empty_app a b : is_empty a = false -> is_empty (a ++ b) = false.
Proof. destruct a; [discriminate|reflexivity]. Qed.

Lemma expand_acc (trim : bool) header indent prefix ls : forall acc, is_empty acc = false ->
  fold_left (fun new_comment line =>
    let new_comment1 := if is_empty new_comment then new_comment else new_comment ++ nl in
    if is_empty header && is_empty new_comment1 then
      new_comment1 ++ (if trim then trim_end_ws (prefix ++ line) else prefix ++ line)
    else
      new_comment1 ++ (if trim then trim_end_ws (indent ++ prefix ++ line)
                       else indent ++ prefix ++ line)) ls acc =
  join nl (acc :: map (fun l => opt_trim trim (indent ++ prefix ++ l)) ls).
Proof.
  induction ls as [|x ls IH]; intros acc H; [reflexivity|].
  cbn [fold_left]. rewrite H. cbv zeta. rewrite (is_empty_app acc nl H), andb_false_r.
  rewrite IH by (rewrite str_app_assoc; apply is_empty_app, H).
  cbn [map]. fold (opt_trim trim (indent ++ prefix ++ x)).
  destruct (map (fun l => opt_trim trim (indent ++ prefix ++ l)) ls) as [|y r].
  - cbn [join]. rewrite str_app_assoc. reflexivity.
  - cbn [join]. rewrite !str_app_assoc. reflexivity.
Qed.

Lemma expand_body trim header indent prefix ls : ~ blank prefix -> ls <> [] ->
  comment_expand trim header indent prefix ls = join nl (body trim header indent prefix ls).
Proof.
  intros Hp Hl. destruct ls as [|x ls]; [congruence|]. unfold comment_expand. cbn [fold_left].
  cbn [is_empty]. rewrite andb_true_r. cbv zeta.
  rewrite expand_acc; [destruct header; reflexivity|].
  destruct header; apply not_blank_ne; apply (opt_trim_nb trim).
  - apply not_blank_app_l, Hp.
  - apply not_blank_app_r, not_blank_app_l, Hp.
Qed.

Lemma forall_map_nb trim indent prefix (ls : list string) : ~ blank prefix ->
  Forall (fun p => ~ blank p) (map (fun l => opt_trim trim (indent ++ prefix ++ l)) ls).
Proof.
  intros Hp. apply Forall_forall. intros y Hy. apply in_map_iff in Hy as (l & <- & _).
  apply opt_trim_nb, not_blank_app_r, not_blank_app_l, Hp.
Qed.

Lemma body_nb trim header indent prefix ls : ~ blank prefix ->
  Forall (fun p => ~ blank p) (body trim header indent prefix ls).
Proof.
  intros Hp. unfold body. destruct header; [destruct ls as [|x ls]|]; try apply forall_map_nb; try assumption.
  constructor; [apply opt_trim_nb, not_blank_app_l, Hp|apply forall_map_nb, Hp].
Qed.

Lemma forall_map_nn trim indent prefix (ls : list string) : ~ has_newline indent -> ~ has_newline prefix ->
  Forall (fun p => ~ has_newline p) ls ->
  Forall (fun p => ~ has_newline p) (map (fun l => opt_trim trim (indent ++ prefix ++ l)) ls).
Proof.
  intros Hi Hp Hl. apply Forall_forall. intros y Hy. apply in_map_iff in Hy as (l & <- & Hin).
  apply opt_trim_nn. repeat apply no_newline_app; auto. rewrite Forall_forall in Hl. apply Hl, Hin.
Qed.

Lemma body_nn trim header indent prefix ls : ~ has_newline indent -> ~ has_newline prefix ->
  Forall (fun p => ~ has_newline p) ls ->
  Forall (fun p => ~ has_newline p) (body trim header indent prefix ls).
Proof.
  intros Hi Hp Hl. unfold body. destruct header; [destruct ls as [|x ls]|]; try (apply forall_map_nn; assumption).
  inversion Hl; subst. constructor; [apply opt_trim_nn, no_newline_app; auto|apply forall_map_nn; assumption].
Qed.

Lemma body_ne trim header indent prefix ls : ls <> [] -> body trim header indent prefix ls <> [].
Proof. destruct ls; [congruence|]. destruct header; discriminate. Qed.

Definition plain_body (header indent prefix : string) (ls : list string) : list string :=
  match header, ls with
  | EmptyString, x :: r => (prefix ++ x) :: map (fun l => indent ++ prefix ++ l) r
  | _, _ => map (fun l => indent ++ prefix ++ l) ls
  end.

Lemma body_same trim header indent prefix ls :
  Forall2 same_but_end (body trim header indent prefix ls) (plain_body header indent prefix ls).
Proof.
  assert (M : forall ls : list string, Forall2 same_but_end (map (fun l => opt_trim trim (indent ++ prefix ++ l)) ls)
                           (map (fun l => indent ++ prefix ++ l) ls)).
  { intros l0. induction l0; constructor; auto. apply opt_trim_same. }
  unfold body, plain_body. destruct header; [destruct ls as [|x ls]|]; auto.
  constructor; [apply opt_trim_same|apply M].
Qed.

(* repeated indentation *)
Lemma repeat_is c n : is_repeat c n (repeat_str n (String c "")).
Proof. induction n; cbn; constructor; assumption. Qed.

Lemma is_repeat_det c n s : is_repeat c n s -> s = repeat_str n (String c "").
Proof. induction 1; cbn; congruence. Qed.

Lemma repeat_nn n c : Ascii.eqb c lf = false -> ~ has_newline (repeat_str n (String c "")).
Proof.
  intros H. apply no_newline_any. induction n as [|n IH]; cbn; [reflexivity|]. rewrite H. exact IH.
Qed.

(* normalisation of the text *)
Lemma trim_start_spec p s : exists u, s = u ++ trim_start p s /\ all_chars p u = true /\
  (forall c a, trim_start p s = String c a -> p c = false).
Proof.
  induction s as [|d s (u & Hs & Hu & Hf)]; cbn.
  - exists "". repeat split; discriminate.
  - destruct (p d) eqn:E.
    + exists (String d u). cbn. rewrite <- Hs, E, Hu. repeat split; exact Hf.
    + exists "". repeat split. intros c a H. injection H as <- _. exact E.
Qed.

Lemma trim_ws_trimmed s : trimmed s (trim_ws s).
Proof.
  unfold trim_ws, trimmed.
  destruct (trim_start_spec is_white s) as (u & Hs & Hu & Hf).
  destruct (trim_end_spec is_white (trim_start is_white s)) as (v & Hv & Hb & Hl).
  exists u, v. repeat split.
  - rewrite <- Hv. exact Hs.
  - apply blank_iff, Hu.
  - apply blank_iff, Hb.
  - intros (c & a & E & Hw). apply white_iff in Hw. rewrite E in Hv. cbn in Hv. rewrite (Hf _ _ Hv) in Hw. discriminate.
  - intros (a & c & E & Hw). apply white_iff in Hw. rewrite (Hl _ _ E) in Hw. discriminate.
Qed.

Lemma dots_repeat t : all_chars is_dot t = true -> is_repeat dot (String.length t) t.
Proof.
  induction t as [|c t IH]; cbn; [constructor|]. intros H. apply andb_true_iff in H as [H1 H2].
  apply Ascii.eqb_eq in H1. subst c. constructor. apply IH, H2.
Qed.

Lemma trim_dots_undotted s : undotted s (trim_end is_dot s).
Proof.
  destruct (trim_end_spec is_dot s) as (t & Hs & Ht & Hl).
  exists (String.length t), t. repeat split; [exact Hs|apply dots_repeat, Ht|].
  intros (a & c & E & <-). specialize (Hl _ _ E). discriminate.
Qed.

Lemma ends_with_char_app p a c : ends_with_char p (a ++ String c "") = p c.
Proof. induction a as [|d a IH]; [reflexivity|]. cbn. rewrite IH. destruct (a ++ String c "") eqn:E; [destruct a; discriminate|reflexivity]. Qed.

Lemma ends_dot s : ends_with_char is_dot s = true <-> ends_in (eq dot) s.
Proof.
  split.
  - destruct (str_last s) as [->|(a & c & ->)]; [discriminate|]. rewrite ends_with_char_app. intros H.
    apply Ascii.eqb_eq in H. exists a, c. auto.
  - intros (a & c & -> & <-). rewrite ends_with_char_app. reflexivity.
Qed.

Lemma enforce_dotted s :
  dotted s (if negb (is_empty s) && negb (ends_with_char is_dot s) then s ++ "." else s).
Proof.
  unfold dotted. destruct s as [|c s]; [left; auto|]. cbn [is_empty negb andb]. right.
  destruct (ends_with_char is_dot (String c s)) eqn:E; cbn [negb].
  - left. split; [apply ends_dot, E|reflexivity].
  - right. repeat split; [discriminate|]. intros H. apply ends_dot in H. congruence.
Qed.

Lemma trimmed_det s t t' : trimmed s t -> trimmed s t' -> t = t'.
Proof.
  assert (K : forall s t, trimmed s t -> t = trim_ws s).
  { clear. intros s t (u & v & -> & Hu & Hv & H1 & H2). unfold trim_ws.
    assert (E : trim_start is_white (u ++ t ++ v) = match t with EmptyString => trim_start is_white v | _ => t ++ v end).
    { apply blank_iff in Hu. induction u as [|c u IH]; cbn.
      - destruct t as [|c t]; [reflexivity|]. cbn.
        destruct (is_white c) eqn:E; [|reflexivity]. exfalso. apply H1. exists c, t. split; [reflexivity|apply white_iff, E].
      - cbn in Hu. apply andb_true_iff in Hu as [-> Hu]. apply IH, Hu. }
    rewrite E. destruct t as [|c t].
    - apply blank_iff in Hv. clear -Hv. induction v as [|c v IH]; [reflexivity|]. cbn in *.
      apply andb_true_iff in Hv as [-> Hv]. apply IH, Hv.
    - apply blank_iff in Hv. rewrite trim_end_app by exact Hv.
      destruct (str_last (String c t)) as [H|(a & d & H)]; [discriminate|]. rewrite H. symmetry. apply trim_end_id.
      destruct (is_white d) eqn:Ed; [|reflexivity]. exfalso. apply H2. exists a, d. split; [exact H|apply white_iff, Ed]. }
  intros H H'. rewrite (K _ _ H), (K _ _ H'). reflexivity.
Qed.

Lemma text_normalised cf input : cf_remove_dots cf && cf_enforce_dots cf = false ->
  normalised (cf_trim cf) (cf_remove_dots cf) (cf_enforce_dots cf)
    (match input with CUndefined => "" | CText s => s | CSeq l => join nl l end)
    (comment_dots cf (comment_text cf input)).
Proof.
  intros _. set (raw := match input with CUndefined => "" | CText s => s | CSeq l => join nl l end).
  unfold comment_text, comment_dots. cbv zeta. fold raw.
  exists (if cf_trim cf then trim_ws raw else raw).
  set (s1 := if cf_trim cf then trim_ws raw else raw).
  exists (if cf_remove_dots cf then trim_end is_dot s1 else s1).
  set (s2 := if cf_remove_dots cf then trim_end is_dot s1 else s1).
  split; [|split].
  - unfold s1. destruct (cf_trim cf); [apply trim_ws_trimmed|reflexivity].
  - unfold s2. destruct (cf_remove_dots cf); [apply trim_dots_undotted|reflexivity].
  - destruct (cf_enforce_dots cf); cbn [andb]; [apply enforce_dotted|reflexivity].
Qed.

(* comment_with_prefix *)
Lemma cwp_acc prefix ls : forall acc, is_empty acc = false ->
  fold_left (fun comment line =>
    let comment := if is_empty comment then comment else comment ++ nl in
    comment ++ prefix ++ line) ls acc = join nl (acc :: map (fun l => prefix ++ l) ls).
Proof.
  induction ls as [|x ls IH]; intros acc H; [reflexivity|].
  cbn [fold_left]. rewrite H. cbv zeta. rewrite IH by (rewrite str_app_assoc; apply is_empty_app, H).
  cbn [map]. destruct (map (fun l => prefix ++ l) ls) as [|y r]; cbn [join]; rewrite !str_app_assoc; reflexivity.
Qed.
