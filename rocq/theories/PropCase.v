(* C103: names in another case. *)
From Coq Require Import String Ascii Bool Arith Lia List.
Import ListNotations.
From Verif Require Import Base BaseProofs Str StrProofs CaseModel CaseSpec.
From Verif Require OtelModel PropServe.
Local Open Scope string_scope.

(* ---------- letters ---------- *)
Ltac chars c := destruct c as [[] [] [] [] [] [] [] []].
Lemma get_in s c : (exists i, String.get i s = Some c) <-> existsb (Ascii.eqb c) (list_ascii_of_string s) = true.
Proof.
  split.
  - intros (i & H). revert i H. induction s as [|d s IH]; intros [|i] H; cbn in *; try discriminate.
    + injection H as ->. rewrite Ascii.eqb_refl. reflexivity.
    + rewrite (IH _ H), orb_true_r. reflexivity.
  - induction s as [|d s IH]; cbn; [discriminate|]. rewrite orb_true_iff. intros [H|H].
    + apply Ascii.eqb_eq in H as ->. exists 0. reflexivity.
    + destruct (IH H) as (i & E). exists (S i). exact E.
Qed.
Lemma capital_iff c : is_capital c <-> is_upper c = true.
Proof. unfold is_capital. rewrite get_in. chars c; vm_compute; split; intros H; try reflexivity; discriminate H. Qed.
Lemma small_iff c : is_small c <-> is_lower c = true.
Proof. unfold is_small. rewrite get_in. chars c; vm_compute; split; intros H; try reflexivity; discriminate H. Qed.
Lemma number_iff c : is_number c <-> is_digit c = true.
Proof. unfold is_number. rewrite get_in. chars c; vm_compute; split; intros H; try reflexivity; discriminate H. Qed.
Lemma lower_get c : is_upper c = true -> String.get (nat_of_ascii c - 65) capitals = Some c /\ String.get (nat_of_ascii c - 65) smalls = Some (OtelModel.lower_char c).
Proof. chars c; vm_compute; intros H; try discriminate H; split; reflexivity. Qed.
Lemma upper_get c : is_lower c = true -> String.get (nat_of_ascii c - 97) smalls = Some c /\ String.get (nat_of_ascii c - 97) capitals = Some (upper_char c).
Proof. chars c; vm_compute; intros H; try discriminate H; split; reflexivity. Qed.
Lemma small_same i a b : String.get i capitals = Some a -> String.get i smalls = Some b -> b = OtelModel.lower_char a /\ a = upper_char b.
Proof.
  intros A B. do 26 (destruct i as [|i]; [vm_compute in A, B; injection A as <-; injection B as <-; split; reflexivity|]). destruct i; discriminate.
Qed.
Lemma to_small_iff a b : to_small a b <-> b = OtelModel.lower_char a.
Proof.
  unfold to_small. rewrite capital_iff. split.
  - intros [(i & A & B)|(N & ->)]; [apply (small_same i); assumption|]. unfold OtelModel.lower_char. destruct (is_upper a); congruence.
  - intros ->. destruct (is_upper a) eqn:E; [left; eexists; apply lower_get, E|right; split; [discriminate|]]. unfold OtelModel.lower_char. rewrite E. reflexivity.
Qed.
Lemma to_capital_iff a b : to_capital a b <-> b = upper_char a.
Proof.
  unfold to_capital. rewrite small_iff. split.
  - intros [(i & A & B)|(N & ->)]; [apply (small_same i); assumption|]. unfold upper_char. destruct (is_lower a); congruence.
  - intros ->. destruct (is_lower a) eqn:E; [left; eexists; apply upper_get, E|right; split; [discriminate|]]. unfold upper_char. rewrite E. reflexivity.
Qed.
Lemma each_small s t : each to_small s t <-> t = lower s.
Proof.
  split.
  - induction 1 as [|a b s t H _ IH]; [reflexivity|]. apply to_small_iff in H as ->. rewrite IH. reflexivity.
  - intros ->. induction s as [|c s IH]; cbn; constructor; [apply to_small_iff; reflexivity|exact IH].
Qed.
Lemma each_capital s t : each to_capital s t <-> t = upper s.
Proof.
  split.
  - induction 1 as [|a b s t H _ IH]; [reflexivity|]. apply to_capital_iff in H as ->. rewrite IH. reflexivity.
  - intros ->. induction s as [|c s IH]; cbn; constructor; [apply to_capital_iff; reflexivity|exact IH].
Qed.
Lemma capitalised_iff s t : capitalised s t <-> s <> "" /\ t = capital s.
Proof.
  split.
  - intros H. inversion H as [a b s' t' A B]; subst. split; [discriminate|]. apply to_capital_iff in A as ->. apply each_small in B as ->. reflexivity.
  - intros (N & ->). destruct s as [|c s]; [congruence|]. constructor; [apply to_capital_iff; reflexivity|apply each_small; reflexivity].
Qed.

(* ---------- words ---------- *)
Definition is_sep (c : ascii) : bool := Ascii.eqb c "." || is_delimiter c.
Lemma sep_iff c : separates c <-> is_sep c = true.
Proof.
  unfold separates, is_sep, is_delimiter. rewrite !orb_true_iff, !Ascii.eqb_eq. cbn. split; intros H; repeat destruct H as [H|H]; subst; auto; try tauto.
Qed.
Lemma turns_iff a b r : turns a b r <-> boundary a (String b r) = true.
Proof.
  unfold turns, boundary. rewrite orb_true_iff, !andb_true_iff, !small_iff, !capital_iff.
  assert (H : (exists c r0, r = String c r0 /\ is_small c) <-> match r with String e _ => is_lower e | EmptyString => false end = true).
  { destruct r as [|c r]; split; try discriminate; [intros (c & x & H & _); discriminate|intros (d & x & H & S); injection H as <- <-; apply small_iff, S|intros S; exists c, r; split; [reflexivity|apply small_iff, S]]. }
  rewrite H. tauto.
Qed.
(* the same loop with dots among the separators *)
Fixpoint cut' (word s : string) : list string :=
  match s with
  | EmptyString => [word]
  | String c r =>
    if is_sep c then word :: cut' "" r
    else if boundary c r then (word ++ String c "") :: cut' "" r
    else cut' (word ++ String c "") r
  end.
Local Notation undot := (replace_char "." "_").
Lemma undot_cons c r : undot (String c r) = String (if Ascii.eqb c "." then "_"%char else c) (undot r).
Proof. cbn. destruct (Ascii.eqb c "."); reflexivity. Qed.
Lemma boundary_undot c r : boundary c (undot r) = boundary c r.
Proof.
  destruct r as [|d r]; [reflexivity|]. rewrite undot_cons. destruct (Ascii.eqb_spec d ".") as [->|N]; [unfold boundary; cbn [is_upper]; rewrite !andb_false_r; reflexivity|].
  unfold boundary. do 3 f_equal. destruct r as [|e r]; [reflexivity|]. rewrite undot_cons. destruct (Ascii.eqb_spec e ".") as [->|M]; reflexivity.
Qed.
Lemma cut_undot s : forall w, cut w (undot s) = cut' w s.
Proof.
  induction s as [|c s IH]; intros w; [reflexivity|]. rewrite undot_cons. cbn [cut cut']. unfold is_sep. destruct (Ascii.eqb_spec c ".") as [->|N].
  - cbn [is_delimiter Ascii.eqb Bool.eqb orb]. rewrite IH. reflexivity.
  - cbn [orb]. rewrite boundary_undot, !IH. reflexivity.
Qed.
Local Notation keep := (filter (fun w => negb (String.eqb w ""))).
Definition split' (s : string) : list string := keep (cut' "" s).
Lemma split_undot s : split_words (undot s) = split' s.
Proof. unfold split_words, split'. rewrite cut_undot. reflexivity. Qed.

Lemma app_snoc_inv (w x : string) a c y : w ++ String c "" = x ++ String a y ->
  (exists y', y = y' ++ String c "" /\ w = x ++ String a y') \/ (y = "" /\ a = c /\ x = w).
Proof.
  revert x. induction w as [|d w IH]; intros x H.
  - destruct x as [|e x]; cbn in H; injection H; [intros <- <-; right; auto|]. intros E _. destruct x; discriminate.
  - destruct x as [|e x]; cbn in H.
    + injection H as <- <-. left. exists w. split; reflexivity.
    + injection H as <- H. destruct (IH _ H) as [(y' & -> & ->)|(-> & -> & ->)]; [left; exists y'; auto|right; auto].
Qed.
(* a word still being read *)
Definition reading (w s : string) : Prop :=
  holds (fun c => is_sep c = false) w /\ forall x a y, w = x ++ String a y -> boundary a (y ++ s) = false.
Lemma reading_nil s : reading "" s.
Proof. split; [intros [|d x] c y H; discriminate|intros [|d x] e y H; discriminate]. Qed.
Lemma reading_more w c s : reading w (String c s) -> is_sep c = false -> boundary c s = false -> reading (w ++ String c "") s.
Proof.
  intros (A & B) S N. split.
  - intros x d y H. apply app_snoc_inv in H as [(y' & -> & E)|(-> & -> & ->)]; [eapply A, E|exact S].
  - intros x a y H. apply app_snoc_inv in H as [(y' & -> & E)|(-> & -> & ->)]; [|exact N]. specialize (B _ _ _ E). rewrite str_app_assoc. exact B.
Qed.
Lemma reading_solid w c s : reading w (String c s) -> is_sep c = false -> solid (w ++ String c "") s.
Proof.
  intros (A & B) S. split.
  - intros x d y H X. apply sep_iff in X. apply app_snoc_inv in H as [(y' & -> & E)|(-> & -> & ->)]; [rewrite (A _ _ _ E) in X; discriminate|congruence].
  - intros x a b y H T. apply turns_iff in T. apply app_snoc_inv in H as [(y' & E' & E)|(E' & _ & _)]; [|discriminate].
    specialize (B _ _ _ E). change (String b (y ++ s)) with (String b y ++ s) in T. rewrite E', str_app_assoc in T. cbn in T. congruence.
Qed.
Lemma solid_reading w s : reading w s -> solid w s.
Proof.
  intros (A & B). split.
  - intros x d y H X. apply sep_iff in X. rewrite (A _ _ _ H) in X. discriminate.
  - intros x a b y H T. apply turns_iff in T. specialize (B _ _ _ H). cbn in B. cbn in T. congruence.
Qed.
Lemma keep_cons w l : w <> "" -> keep (w :: l) = w :: keep l.
Proof. intros N. cbn [filter]. apply String.eqb_neq in N. rewrite N. reflexivity. Qed.
Lemma snoc_ne w c : w ++ String c "" <> "".
Proof. destruct w; discriminate. Qed.
Lemma cut_words s : forall w, reading w s -> words (w ++ s) (keep (cut' w s)).
Proof.
  induction s as [|c s IH]; intros w R; cbn [cut'].
  - destruct w as [|d w]; [constructor|]. rewrite keep_cons by discriminate. apply wo_word; [discriminate|apply solid_reading, R|left; reflexivity|constructor].
  - destruct (is_sep c) eqn:S.
    + pose proof (IH "" (reading_nil s)) as H. assert (X : words (String c s) (keep (cut' "" s))) by (apply wo_sep; [apply sep_iff, S|exact H]).
      destruct w as [|d w]; [exact X|]. rewrite keep_cons by discriminate. apply wo_word; [discriminate|apply solid_reading, R| |exact X].
      right. left. exists c, s. split; [reflexivity|apply sep_iff, S].
    + destruct (boundary c s) eqn:B.
      * rewrite keep_cons by apply snoc_ne. replace (w ++ String c s) with ((w ++ String c "") ++ s) by (rewrite str_app_assoc; reflexivity).
        apply wo_word; [apply snoc_ne|apply reading_solid; assumption| |apply (IH "" (reading_nil s))].
        right. right. destruct s as [|b s]; [discriminate|]. exists w, c, b, s. split; [reflexivity|]. split; [reflexivity|apply turns_iff, B].
      * replace (w ++ String c s) with ((w ++ String c "") ++ s) by (rewrite str_app_assoc; reflexivity). apply IH, reading_more; assumption.
Qed.
Lemma words_exist s : words s (split' s).
Proof. apply (cut_words s ""), reading_nil. Qed.
Lemma ends_cut w s : ends w s -> forall x a, w = x ++ String a "" -> s = "" \/ (exists c r, s = String c r /\ is_sep c = true) \/ boundary a s = true.
Proof.
  intros [->|[(c & r & -> & S)|(x' & a' & b & r & E & -> & T)]] x a H; [left; reflexivity|right; left; exists c, r; split; [reflexivity|apply sep_iff, S]|].
  right. right. rewrite H in E. apply app_snoc_inv in E as [(y & E1 & _)|(_ & -> & _)]; [destruct y; discriminate|]. apply turns_iff, T.
Qed.
Lemma cut_word w1 w2 s : w2 <> "" -> solid (w1 ++ w2) s -> ends (w1 ++ w2) s -> keep (cut' w1 (w2 ++ s)) = (w1 ++ w2) :: split' s.
Proof.
  revert w1. induction w2 as [|c w2 IH]; intros w1 Ne So En; [congruence|]. cbn [append cut'].
  assert (Sc : is_sep c = false). { destruct (is_sep c) eqn:E; [|reflexivity]. destruct (proj1 So w1 c w2 eq_refl). apply sep_iff, E. }
  rewrite Sc. destruct w2 as [|d w2].
  - cbn [append]. destruct (ends_cut _ _ En w1 c eq_refl) as [->|[(e & r & -> & Se)|B]].
    + cbn [boundary cut']. rewrite keep_cons by apply snoc_ne. reflexivity.
    + assert (Bf : boundary c (String e r) = false).
      { unfold boundary. assert (U : is_upper e = false) by (revert Se; chars e; vm_compute; congruence). rewrite U, !andb_false_r. reflexivity. }
      rewrite Bf. unfold split'. cbn [cut']. rewrite Se, keep_cons by apply snoc_ne. reflexivity.
    + rewrite B, keep_cons by apply snoc_ne. reflexivity.
  - assert (Bf : boundary c (String d w2 ++ s) = false).
    { destruct (boundary c (String d w2 ++ s)) eqn:E; [|reflexivity]. destruct (proj2 So w1 c d w2 eq_refl). apply turns_iff, E. }
    rewrite Bf, IH; [rewrite str_app_assoc; reflexivity|discriminate| |]; rewrite str_app_assoc; assumption.
Qed.
Lemma words_split s l : words s l -> split' s = l.
Proof.
  induction 1 as [|c s l S _ IH|w s l Ne So En _ IH].
  - reflexivity.
  - apply sep_iff in S. unfold split' in *. cbn [cut']. rewrite S. exact IH.
  - unfold split'. rewrite (cut_word "" w s Ne So En), IH. reflexivity.
Qed.
Lemma words_nonempty s l : words s l -> Forall (fun w => w <> "") l.
Proof. induction 1; auto. Qed.

(* what a conversion gives: the words of the text, each in the case, with the delimiter between them *)
Theorem C103_words k s l : words s l -> exists ws, styled k l ws /\ convert k s = join (delimiter k) ws.
Proof.
  intros W. pose proof (words_nonempty _ _ W) as Ne. apply words_split in W. unfold convert. cbv zeta. rewrite split_undot, W.
  assert (L : Forall2 (each to_small) l (map lower l)) by (clear; induction l; cbn; constructor; [apply each_small; reflexivity|assumption]).
  assert (U : Forall2 (each to_capital) l (map upper l)) by (clear; induction l; cbn; constructor; [apply each_capital; reflexivity|assumption]).
  assert (C : forall m, Forall (fun w => w <> "") m -> Forall2 capitalised m (map capital m)).
  { induction 1; cbn; constructor; [apply capitalised_iff; split; [assumption|reflexivity]|assumption]. }
  destruct k; eexists; (split; [|reflexivity]); cbn [styled]; try assumption; try (apply C, Ne).
  destruct l as [|w l]; cbn; [exact I|]. inversion Ne; subst. split; [apply each_small; reflexivity|apply C; assumption].
Qed.
(* every text has words, and only one way to have them *)
Theorem C103_words_of s : exists l, words s l /\ forall l', words s l' -> l' = l.
Proof. exists (split' s). split; [apply words_exist|]. intros l' W. symmetry. apply words_split, W. Qed.
(* ---------- names ---------- *)
Lemma name_char c : is_small c \/ is_number c -> is_sep c = false /\ is_upper c = false /\ OtelModel.lower_char c = c /\ OtelModel.lower_char (upper_char c) = c.
Proof. rewrite small_iff, number_iff. chars c; vm_compute; intros [H|H]; try discriminate H; auto. Qed.
Lemma name_word_solid w s : name_word w -> solid w s.
Proof.
  intros (_ & H). split.
  - intros x c y E S. apply sep_iff in S. destruct (name_char c (H _ _ _ E)). congruence.
  - intros x a b y E T. assert (B : is_upper b = false). { apply name_char, (H (x ++ String a "") b y). rewrite str_app_assoc. exact E. }
    destruct T as [(_ & C)|(_ & C & _)]; apply capital_iff in C; congruence.
Qed.
Lemma name_words s l : name s l -> words s l /\ Forall name_word l.
Proof.
  induction 1 as [w W|w c s l W C _ (IH & F)].
  - split; [|constructor; [exact W|constructor]]. rewrite <- (str_app_nil_r w) at 1. apply wo_word; [apply W|apply name_word_solid, W|left; reflexivity|constructor].
  - assert (S : separates c) by (destruct C as [->| ->]; cbn; auto). split; [|constructor; assumption].
    apply wo_word; [apply W|apply name_word_solid, W| |apply wo_sep; assumption]. right. left. exists c, s. split; [reflexivity|exact S].
Qed.
Lemma lower_name w : name_word w -> lower w = w /\ lower (upper w) = w /\ lower (capital w) = w.
Proof.
  intros (Ne & H). assert (G : forall v, holds (fun c => is_small c \/ is_number c) v -> lower v = v /\ lower (upper v) = v).
  { induction v as [|c v IH]; intros K; [split; reflexivity|]. destruct (name_char c (K "" c v eq_refl)) as (_ & _ & A & B).
    destruct IH as (IH1 & IH2); [intros x d y E; apply (K (String c x) d y); rewrite E; reflexivity|].
    unfold lower in *. cbn [OtelModel.lower upper]. rewrite A, B, IH1, IH2. split; reflexivity. }
  split; [apply G, H|]. split; [apply G, H|]. destruct w as [|c w]; [congruence|]. unfold lower, capital in *.
  destruct (name_char c (H "" c w eq_refl)) as (_ & _ & _ & B). cbn [OtelModel.lower]. rewrite B.
  assert (K : lower w = w) by (apply G; intros x d y E; apply (H (String c x) d y); rewrite E; reflexivity). unfold lower in *. rewrite !K. reflexivity.
Qed.
Lemma map_lower_names l : Forall name_word l -> map lower l = l.
Proof. induction 1 as [|w l W _ IH]; [reflexivity|]. cbn. rewrite IH, (proj1 (lower_name _ W)). reflexivity. Qed.
(* a dotted name: its words are the parts between the dots and underscores *)
Theorem C103_name k s l : name s l -> exists ws, styled k l ws /\ convert k s = join (delimiter k) ws.
Proof. intros N. apply C103_words, name_words, N. Qed.
Theorem C103_snake s l : name s l -> convert SnakeCase s = join "_" l /\ convert KebabCase s = join "-" l /\ convert LowerCase s = join " " l.
Proof.
  intros N. apply name_words in N as (W & F). apply words_split in W. unfold convert. cbv zeta. rewrite split_undot, W, (map_lower_names _ F). auto.
Qed.

(* ---------- converting again ---------- *)
Lemma solid_sep w d x : separates d -> solid w "" -> solid w (String d x).
Proof.
  intros Sd (A & B). split; [exact A|]. intros u a b y E T. apply (B u a b y E). rewrite str_app_nil_r. destruct T as [T|(Ca & Cb & c & r & R & Sc)]; [left; exact T|].
  right. split; [exact Ca|]. split; [exact Cb|]. destruct y as [|e y]; cbn in R; injection R as R1 R2; subst; [|exists c, y; split; [reflexivity|exact Sc]].
  apply small_iff in Sc. apply sep_iff in Sd. revert Sc Sd. chars c; vm_compute; congruence.
Qed.
Lemma words_join d l : separates d -> Forall (fun w => w <> "" /\ solid w "") l -> words (join (String d "") l) l.
Proof.
  intros Sd F. induction F as [|w l (Ne & So) F IH]; [constructor|]. destruct l as [|v l].
  - cbn [join]. rewrite <- (str_app_nil_r w) at 1. apply wo_word; [exact Ne|exact So|left; reflexivity|constructor].
  - change (join (String d "") (w :: v :: l)) with (w ++ String d (join (String d "") (v :: l))).
    apply wo_word; [exact Ne|apply solid_sep; assumption| |apply wo_sep; assumption]. right. left. eexists d, _. split; [reflexivity|exact Sd].
Qed.
Lemma each_holds (R : ascii -> ascii -> Prop) (P Q : ascii -> Prop) s t : each R s t -> (forall a b, R a b -> P a -> Q b) -> holds P s -> holds Q t.
Proof.
  intros E H. induction E as [|a b s t r _ IH]; intros K; intros [|e x] d y Eq; try discriminate; cbn in Eq; injection Eq as <- ->.
  - apply (H a); [exact r|]. apply (K "" a s eq_refl).
  - apply (IH (fun x0 c y0 E0 => K (String a x0) c y0 (f_equal (String a) E0)) x d y eq_refl).
Qed.
Lemma lower_chars c : is_upper (OtelModel.lower_char c) = false /\ is_sep (OtelModel.lower_char c) = is_sep c /\ OtelModel.lower_char (OtelModel.lower_char c) = OtelModel.lower_char c.
Proof. chars c; vm_compute; auto. Qed.
Lemma upper_chars c : is_lower (upper_char c) = false /\ is_sep (upper_char c) = is_sep c /\ upper_char (upper_char c) = upper_char c /\ OtelModel.lower_char (upper_char c) = OtelModel.lower_char c.
Proof. chars c; vm_compute; auto. Qed.
Lemma word_holds w s : solid w s -> holds (fun c => is_sep c = false) w.
Proof. intros (A & _) x c y E. destruct (is_sep c) eqn:S; [|reflexivity]. destruct (A _ _ _ E). apply sep_iff, S. Qed.
Lemma holds_tail (P : ascii -> Prop) c s : holds P (String c s) -> P c /\ holds P s.
Proof. intros H. split; [apply (H "" c s eq_refl)|]. intros x d y E. apply (H (String c x) d y). rewrite E. reflexivity. Qed.
Lemma holds_cons (P : ascii -> Prop) c s : P c -> holds P s -> holds P (String c s).
Proof. intros A B [|d x] e y E; cbn in E; injection E as <- ->; [exact A|apply (B x e y eq_refl)]. Qed.
Lemma lower_holds w : holds (fun c => is_sep c = false) w -> holds (fun c => is_sep c = false /\ is_upper c = false) (lower w).
Proof.
  intros H. eapply each_holds; [apply each_small; reflexivity| |exact H]. intros a b R S. apply to_small_iff in R as ->. destruct (lower_chars a) as (A & B & _). split; [congruence|exact A].
Qed.
Lemma upper_holds w : holds (fun c => is_sep c = false) w -> holds (fun c => is_sep c = false /\ is_lower c = false) (upper w).
Proof.
  intros H. eapply each_holds; [apply each_capital; reflexivity| |exact H]. intros a b R S. apply to_capital_iff in R as ->. destruct (upper_chars a) as (A & B & _). split; [congruence|exact A].
Qed.
Lemma lower_solid w s : holds (fun c => is_sep c = false) w -> solid (lower w) s.
Proof.
  intros H. apply lower_holds in H. split.
  - intros x c y E S. apply sep_iff in S. destruct (H _ _ _ E). congruence.
  - intros x a b y E T. assert (B : is_upper b = false). { apply (H (x ++ String a "") b y). rewrite str_app_assoc. exact E. }
    destruct T as [(_ & C)|(_ & C & _)]; apply capital_iff in C; congruence.
Qed.
Lemma upper_solid w : holds (fun c => is_sep c = false) w -> solid (upper w) "".
Proof.
  intros H. apply upper_holds in H. split.
  - intros x c y E S. apply sep_iff in S. destruct (H _ _ _ E). congruence.
  - intros x a b y E T. destruct T as [(C & _)|(_ & _ & c & r & R & C)]; apply small_iff in C.
    + destruct (H _ _ _ E). congruence.
    + rewrite str_app_nil_r in R. subst y. destruct (H (x ++ String a (String b "")) c r) as (_ & L); [rewrite str_app_assoc; exact E|congruence].
Qed.
Lemma capital_solid w s : holds (fun c => is_sep c = false) w -> solid (capital w) s.
Proof.
  destruct w as [|c w]; intros H.
  - split; [intros [|d x] e y E; discriminate|intros [|d x] e f y E; discriminate].
  - apply holds_tail in H as (A & B). apply lower_holds in B. cbn [capital]. split.
    + intros [|d x] e y E S; cbn in E; injection E as E1 E2; apply sep_iff in S.
      * subst e. destruct (upper_chars c) as (_ & U & _). congruence.
      * destruct (B _ _ _ E2). congruence.
    + intros [|d x] a b y E T; cbn in E; injection E as E1 E2.
      * destruct (B "" b y E2) as (_ & U). destruct T as [(_ & C)|(_ & C & _)]; apply capital_iff in C; congruence.
      * destruct (B (x ++ String a "") b y) as (_ & U); [rewrite str_app_assoc; exact E2|]. destruct T as [(_ & C)|(_ & C & _)]; apply capital_iff in C; congruence.
Qed.
Lemma lower_twice w : lower (lower w) = lower w.
Proof. unfold lower. induction w as [|c w IH]; [reflexivity|]. cbn. rewrite IH, (proj2 (proj2 (lower_chars c))). reflexivity. Qed.
Lemma upper_twice w : upper (upper w) = upper w.
Proof. induction w as [|c w IH]; [reflexivity|]. cbn. rewrite IH, (proj1 (proj2 (proj2 (upper_chars c)))). reflexivity. Qed.
Lemma capital_twice w : capital (capital w) = capital w.
Proof. destruct w as [|c w]; [reflexivity|]. cbn [capital]. rewrite lower_twice, (proj1 (proj2 (proj2 (upper_chars c)))). reflexivity. Qed.
Lemma split_words_facts s : Forall (fun w => w <> "" /\ holds (fun c => is_sep c = false) w) (split' s).
Proof. pose proof (words_exist s) as W. induction W as [|c s l S _ IH|w s l Ne So En _ IH]; [constructor|exact IH|]. constructor; [split; [exact Ne|eapply word_holds, So]|exact IH]. Qed.
Lemma again (f : string -> string) d l : separates d -> (forall w, f (f w) = f w) -> (forall w, w <> "" -> f w <> "") ->
  (forall w, holds (fun c => is_sep c = false) w -> solid (f w) "") -> Forall (fun w => w <> "" /\ holds (fun c => is_sep c = false) w) l ->
  map f (split' (join (String d "") (map f l))) = map f l.
Proof.
  intros Sd Tw Ne So F. rewrite (words_split _ (map f l)).
  - rewrite map_map. apply map_ext. exact Tw.
  - apply words_join; [exact Sd|]. induction F as [|w l (A & B) _ IH]; constructor; [split; [apply Ne, A|apply So, B]|exact IH].
Qed.
(* converting a second time changes nothing, except in Pascal and camel case *)
Theorem C103_idempotent_partial k s : k <> PascalCase -> k <> CamelCase -> convert k (convert k s) = convert k s.
Proof.
  intros NP NC. pose proof (split_words_facts s) as F.
  assert (Sp : separates " ") by (cbn; auto). assert (Su : separates "_") by (cbn; auto). assert (Sh : separates "-") by (cbn; auto).
  assert (Nl : forall w, w <> "" -> lower w <> "") by (intros [|c w]; [congruence|discriminate]).
  assert (Nu : forall w, w <> "" -> upper w <> "") by (intros [|c w]; [congruence|discriminate]).
  assert (Nc : forall w, w <> "" -> capital w <> "") by (intros [|c w]; [congruence|discriminate]).
  destruct k; try congruence; unfold convert; cbv zeta; rewrite !split_undot; f_equal.
  - apply (again lower " "); auto using lower_twice, lower_solid.
  - apply (again upper " "); auto using upper_twice, upper_solid.
  - apply (again capital " "); auto using capital_twice, capital_solid.
  - apply (again lower "_"); auto using lower_twice, lower_solid.
  - apply (again upper "_"); auto using upper_twice, upper_solid.
  - apply (again lower "-"); auto using lower_twice, lower_solid.
  - apply (again upper "-"); auto using upper_twice, upper_solid.
Qed.
Theorem C103_pascal_refuted : name "a.b" ["a"; "b"] /\ convert PascalCase "a.b" = "AB" /\ convert PascalCase (convert PascalCase "a.b") = "Ab".
Proof.
  assert (W : forall c, is_small c -> name_word (String c "")). { intros c S. split; [discriminate|]. intros [|d [|e x]] f y E; try discriminate; cbn in E; injection E as <- <-. left. exact S. }
  split; [|split; reflexivity]. apply (na_more "a" "." "b" ["b"]); [apply W; exists 0; reflexivity|left; reflexivity|]. apply na_one, W. exists 1. reflexivity.
Qed.
Theorem C103_camel_refuted : convert CamelCase "a.b.c" = "aBC" /\ convert CamelCase (convert CamelCase "a.b.c") = "aBc".
Proof. split; reflexivity. Qed.

(* ---------- and back ---------- *)
Lemma sturdy_capital w : sturdy w -> exists x b, capital w = x ++ String b "" /\ is_small b /\ exists a r, capital w = String a r /\ is_capital a.
Proof.
  intros (N & a & m & b & -> & Sa & Sb). destruct (lower_name _ N) as (L & _ & _). cbn [capital]. unfold lower in *. cbn [OtelModel.lower] in L. injection L as _ L. rewrite L.
  exists (String (upper_char a) m), b. split; [reflexivity|]. split; [exact Sb|]. exists (upper_char a), (m ++ String b ""). split; [reflexivity|]. apply capital_iff. apply small_iff in Sa. revert Sa. chars a; vm_compute; congruence.
Qed.
Lemma name_holds w : name_word w -> holds (fun c => is_sep c = false) w.
Proof. intros (_ & H) x c y E. apply name_char, (H _ _ _ E). Qed.
Lemma pascal_words l : Forall sturdy l -> words (join "" (map capital l)) (map capital l).
Proof.
  induction 1 as [|w l S F IH]; [constructor|]. destruct (sturdy_capital _ S) as (x & b & E & Sb & a & r & E' & Ca). cbn [map].
  assert (Ne : capital w <> "") by (rewrite E'; discriminate). assert (So : forall s, solid (capital w) s) by (intros s; apply capital_solid, name_holds, S).
  destruct F as [|v l Sv F].
  - cbn [map join]. rewrite <- (str_app_nil_r (capital w)) at 1. apply wo_word; [exact Ne|apply So|left; reflexivity|constructor].
  - change (join "" (capital w :: map capital (v :: l))) with (capital w ++ join "" (map capital (v :: l))).
    apply wo_word; [exact Ne|apply So| |exact IH]. right. right. destruct (sturdy_capital _ Sv) as (_ & _ & _ & _ & a' & r' & Ev & Ca').
    assert (J : exists t, join "" (map capital (v :: l)) = String a' t). { cbn [map]. rewrite Ev. destruct (map capital l); eexists; cbn; reflexivity. }
    destruct J as (t & J). exists x, b, a', t. split; [exact E|]. split; [exact J|]. left. split; [exact Sb|exact Ca'].
Qed.
(* names whose words have letters at both ends come back from Pascal and camel case *)
Lemma camel_words w l : Forall sturdy (w :: l) -> words (join "" (w :: map capital l)) (w :: map capital l).
Proof.
  intros F. inversion F as [|? ? S F']; subst. destruct S as (N & a & m & b & E & Sa & Sb).
  destruct l as [|v l].
  - cbn [map join]. rewrite <- (str_app_nil_r w) at 1. apply wo_word; [apply N|apply name_word_solid, N|left; reflexivity|constructor].
  - change (join "" (w :: map capital (v :: l))) with (w ++ join "" (map capital (v :: l))).
    apply wo_word; [apply N|apply name_word_solid, N| |apply pascal_words, F']. right. right. inversion F' as [|? ? Sv _]; subst. destruct (sturdy_capital _ Sv) as (_ & _ & _ & _ & a' & r' & Ev & Ca').
    assert (J : exists t, join "" (map capital (v :: l)) = String a' t). { cbn [map]. rewrite Ev. destruct (map capital l); eexists; cbn; reflexivity. }
    destruct J as (t & J). exists (String a m), b, a', t. split; [reflexivity|]. split; [exact J|]. left. split; [exact Sb|exact Ca'].
Qed.
Lemma lower_capitals l : Forall sturdy l -> map lower (map capital l) = l.
Proof. induction 1 as [|w l (N & _) _ IH]; [reflexivity|]. cbn. rewrite IH, (proj2 (proj2 (lower_name _ N))). reflexivity. Qed.
Theorem C103_back s l : name s l -> Forall sturdy l ->
  convert SnakeCase (convert PascalCase s) = convert SnakeCase s /\ convert SnakeCase (convert CamelCase s) = convert SnakeCase s.
Proof.
  intros N F. rewrite (proj1 (C103_snake _ _ N)). apply name_words in N as (W & Fn). apply words_split in W.
  unfold convert. cbv zeta. rewrite !split_undot, W. split; f_equal.
  - rewrite (words_split _ _ (pascal_words _ F)). apply lower_capitals, F.
  - destruct l as [|w l]; [reflexivity|]. cbn [camel]. inversion Fn; subst. rewrite (proj1 (lower_name w ltac:(assumption))), (words_split _ _ (camel_words _ _ F)). cbn [map].
    inversion F; subst. rewrite (proj1 (lower_name w ltac:(assumption))), lower_capitals by assumption. reflexivity.
Qed.

(* ---------- the letters are kept ---------- *)
Fixpoint strip (s : string) : string :=
  match s with EmptyString => "" | String c r => if is_sep c then strip r else String (OtelModel.lower_char c) (strip r) end.
Lemma bare_iff s t : bare s t <-> t = strip s.
Proof.
  split.
  - induction 1 as [|c s t S _ IH|a b s t N R _ IH]; [reflexivity| |]; cbn [strip].
    + apply sep_iff in S. rewrite S. exact IH.
    + rewrite sep_iff in N. destruct (is_sep a); [congruence|]. apply to_small_iff in R as ->. rewrite IH. reflexivity.
  - intros ->. induction s as [|c s IH]; cbn [strip]; [constructor|]. destruct (is_sep c) eqn:S; [apply ba_sep; [apply sep_iff, S|exact IH]|].
    apply ba_char; [rewrite sep_iff; congruence|apply to_small_iff; reflexivity|exact IH].
Qed.
Lemma strip_app a b : strip (a ++ b) = strip a ++ strip b.
Proof. induction a as [|c a IH]; [reflexivity|]. cbn. destruct (is_sep c); rewrite IH; reflexivity. Qed.
Lemma strip_same w v : holds (fun c => is_sep c = false) w -> each (fun a b => is_sep b = is_sep a /\ OtelModel.lower_char b = OtelModel.lower_char a) w v -> strip v = lower w.
Proof.
  intros H E. revert H. induction E as [|a b w v (A & B) _ IH]; intros H; [reflexivity|]. apply holds_tail in H as (S & H). unfold lower in *. cbn. rewrite A, S, B, IH by exact H. reflexivity.
Qed.
Lemma each_map (R : ascii -> ascii -> Prop) f s : (forall c, R c (f c)) -> forall t, t = (fix go (s : string) := match s with EmptyString => "" | String c r => String (f c) (go r) end) s -> each R s t.
Proof. intros H. induction s as [|c s IH]; intros t ->; [constructor|]. constructor; [apply H|apply IH; reflexivity]. Qed.
Lemma each_refl (R : ascii -> ascii -> Prop) s : (forall c, R c c) -> each R s s.
Proof. intros H. induction s; constructor; auto. Qed.
Lemma strip_lower w : holds (fun c => is_sep c = false) w -> strip (lower w) = lower w.
Proof. intros H. apply strip_same; [exact H|]. apply (each_map _ OtelModel.lower_char); [|reflexivity]. intros c. destruct (lower_chars c) as (_ & A & B). auto. Qed.
Lemma strip_upper w : holds (fun c => is_sep c = false) w -> strip (upper w) = lower w.
Proof. intros H. apply strip_same; [exact H|]. apply (each_map _ upper_char); [|reflexivity]. intros c. destruct (upper_chars c) as (_ & A & _ & B). auto. Qed.
Lemma strip_capital w : holds (fun c => is_sep c = false) w -> strip (capital w) = lower w.
Proof.
  intros H. destruct w as [|c w]; [reflexivity|]. apply holds_tail in H as (S & H). cbn [capital strip]. destruct (upper_chars c) as (_ & A & _ & B). rewrite A, S, B, strip_lower by exact H. reflexivity.
Qed.
Definition glue (l : list string) : string := fold_right String.append "" l.
Lemma strip_words s l : words s l -> strip s = glue (map lower l).
Proof.
  induction 1 as [|c s l S _ IH|w s l Ne So En _ IH]; [reflexivity| |].
  - apply sep_iff in S. cbn [strip]. rewrite S. exact IH.
  - rewrite strip_app, IH. cbn. f_equal. apply strip_same; [eapply word_holds, So|]. apply each_refl. auto.
Qed.
Lemma strip_join d l : strip d = "" -> strip (join d l) = glue (map strip l).
Proof.
  intros D. induction l as [|w l IH]; [reflexivity|]. destruct l as [|v l]; [cbn; rewrite str_app_nil_r; reflexivity|].
  change (join d (w :: v :: l)) with (w ++ d ++ join d (v :: l)). rewrite !strip_app, D, IH. reflexivity.
Qed.
(* whatever the convention, the letters and digits of the text stay, in their order *)
Theorem C103_letters k s t : bare s t -> bare (convert k s) t.
Proof.
  rewrite !bare_iff. intros ->. rewrite (strip_words _ _ (words_exist s)). pose proof (split_words_facts s) as F. unfold convert. cbv zeta. rewrite split_undot.
  assert (M : forall f, (forall w, holds (fun c => is_sep c = false) w -> strip (f w) = lower w) -> forall l, Forall (fun w => w <> "" /\ holds (fun c => is_sep c = false) w) l -> map strip (map f l) = map lower l).
  { intros f H l. induction 1 as [|w l (_ & A) _ IH]; [reflexivity|]. cbn. rewrite IH, H by exact A. reflexivity. }
  destruct k; rewrite strip_join by reflexivity; try (rewrite M; [reflexivity| |exact F]; auto using strip_lower, strip_upper, strip_capital).
  destruct (split' s) as [|w l]; [reflexivity|]. inversion F as [|? ? (_ & A) F']; subst. cbn [camel map]. rewrite strip_lower by exact A. rewrite M; [reflexivity|apply strip_capital|exact F'].
Qed.

(* ---------- different names ---------- *)
Lemma names_inj (f : string -> string) d l m : is_sep d = true -> (forall w, name_word w -> lower (f w) = w /\ any_char (fun c => Ascii.eqb c d) (f w) = false) ->
  Forall name_word l -> Forall name_word m -> l <> [] -> m <> [] -> join (String d "") (map f l) = join (String d "") (map f m) -> l = m.
Proof.
  intros Sd H Fl Fm Nl Nm E.
  assert (P : forall n, Forall name_word n -> forall s, In s (map f n) -> any_char (fun c => Ascii.eqb c d) s = false).
  { intros n F s I. apply in_map_iff in I as (w & <- & I). rewrite Forall_forall in F. apply H, F, I. }
  assert (M : map f l = map f m).
  { rewrite <- (PropServe.split_unique d (map f l)), <- (PropServe.split_unique d (map f m)); [rewrite E; reflexivity| |apply P, Fm| |apply P, Fl]; [destruct m|destruct l]; (congruence || discriminate). }
  assert (B : forall n, Forall name_word n -> map lower (map f n) = n). { intros n. induction 1 as [|w n W _ IH]; [reflexivity|]. cbn. rewrite IH, (proj1 (H _ W)). reflexivity. }
  rewrite <- (B l Fl), <- (B m Fm), M. reflexivity.
Qed.
Lemma no_sep_char d s : is_sep d = true -> holds (fun c => is_sep c = false) s -> any_char (fun c => Ascii.eqb c d) s = false.
Proof.
  intros D. induction s as [|c s IH]; intros H; [reflexivity|]. apply holds_tail in H as (A & B). cbn. rewrite IH by exact B. destruct (Ascii.eqb_spec c d) as [->|]; [congruence|reflexivity].
Qed.
Lemma holds_imp (P Q : ascii -> Prop) s : (forall c, P c -> Q c) -> holds P s -> holds Q s.
Proof. intros H K x c y E. apply H, (K _ _ _ E). Qed.
Lemma lower_ok d w : is_sep d = true -> name_word w -> lower (lower w) = w /\ any_char (fun c => Ascii.eqb c d) (lower w) = false.
Proof. intros D W. rewrite lower_twice. split; [apply lower_name, W|]. apply no_sep_char; [exact D|]. eapply holds_imp; [|apply lower_holds, name_holds, W]. intros c (A & _). exact A. Qed.
Lemma upper_ok d w : is_sep d = true -> name_word w -> lower (upper w) = w /\ any_char (fun c => Ascii.eqb c d) (upper w) = false.
Proof. intros D W. split; [apply lower_name, W|]. apply no_sep_char; [exact D|]. eapply holds_imp; [|apply upper_holds, name_holds, W]. intros c (A & _). exact A. Qed.
Lemma capital_ok d w : is_sep d = true -> name_word w -> lower (capital w) = w /\ any_char (fun c => Ascii.eqb c d) (capital w) = false.
Proof. intros D W. split; [apply lower_name, W|]. apply no_sep_char; [exact D|]. exact (word_holds _ "" (capital_solid w "" (name_holds _ W))). Qed.
Lemma name_nonempty s l : name s l -> l <> [].
Proof. intros N. destruct N; discriminate. Qed.
(* with a delimiter, names with different words stay different *)
Theorem C103_distinct k a b l m : delimiter k <> "" -> name a l -> name b m -> convert k a = convert k b -> l = m.
Proof.
  intros D Na Nb. pose proof (name_nonempty _ _ Na) as El. pose proof (name_nonempty _ _ Nb) as Em. apply name_words in Na as (Wa & Fa), Nb as (Wb & Fb). apply words_split in Wa, Wb.
  unfold convert. cbv zeta. rewrite !split_undot, Wa, Wb. destruct k; cbn [delimiter] in D; try congruence; intros E;
  match type of E with
  | join (String ?d "") (map ?f l) = _ => apply (names_inj f d l m eq_refl); try assumption
  end; intros w W; auto using lower_ok, upper_ok, capital_ok.
Qed.
(* but names that differ in their separators do not *)
Lemma word1 c : is_small c \/ is_number c -> name_word (String c "").
Proof. intros S. split; [discriminate|]. intros [|d [|e x]] f y E; try discriminate; cbn in E; injection E as <- <-. exact S. Qed.
Lemma small_a : is_small "a" \/ is_number "a". Proof. left. exists 0. reflexivity. Qed.
Lemma small_b : is_small "b" \/ is_number "b". Proof. left. exists 1. reflexivity. Qed.
Lemma number_1 : is_small "1" \/ is_number "1". Proof. right. exists 1. reflexivity. Qed.
Lemma word_cons c w : is_small c \/ is_number c -> name_word w -> name_word (String c w).
Proof. intros S (_ & H). split; [discriminate|apply holds_cons; assumption]. Qed.
Theorem C103_separator_refuted : name "a.b" ["a"; "b"] /\ name "a_b" ["a"; "b"] /\ forall k, convert k "a.b" = convert k "a_b".
Proof.
  split; [apply (na_more "a" "." "b" ["b"]); [apply word1, small_a|left; reflexivity|apply na_one, word1, small_b]|].
  split; [apply (na_more "a" "_" "b" ["b"]); [apply word1, small_a|right; reflexivity|apply na_one, word1, small_b]|]. intros []; reflexivity.
Qed.
(* and without a delimiter words may run together *)
Theorem C103_run_together_refuted : name "a.1b" ["a"; "1b"] /\ name "a1b" ["a1b"] /\
  convert PascalCase "a.1b" = convert PascalCase "a1b" /\ convert CamelCase "a.1b" = convert CamelCase "a1b".
Proof.
  split; [apply (na_more "a" "." "1b" ["1b"]); [apply word1, small_a|left; reflexivity|apply na_one, word_cons, word1, small_b; apply number_1]|].
  split; [apply na_one, word_cons, word_cons, word1, small_b; [apply small_a|apply number_1]|]. split; reflexivity.
Qed.
Theorem C103_distinct_sturdy k a b l m : k = PascalCase \/ k = CamelCase -> name a l -> name b m -> Forall sturdy l -> Forall sturdy m -> convert k a = convert k b -> l = m.
Proof.
  intros K Na Nb Fa Fb E. apply (C103_distinct SnakeCase a b); [discriminate|assumption|assumption|].
  destruct (C103_back _ _ Na Fa) as (Pa & Ca), (C103_back _ _ Nb Fb) as (Pb & Cb). destruct K as [->| ->]; congruence.
Qed.

(* ---------- constants ---------- *)
Lemma without_iff c s t : without c s t <-> t = replace_char c "" s.
Proof.
  split.
  - induction 1 as [|s t _ IH|d s t N _ IH]; [reflexivity| |]; cbn.
    + rewrite Ascii.eqb_refl. exact IH.
    + apply Ascii.eqb_neq in N. rewrite N, IH. reflexivity.
  - intros ->. induction s as [|d s IH]; cbn; [constructor|]. destruct (Ascii.eqb_spec d c) as [->|N]; [apply wi_skip, IH|apply wi_keep; assumption].
Qed.
(* a constant is the name without its underscores, converted *)
Theorem C103_const k s t : without "_" s t -> convert_const k s = convert k t.
Proof. intros W. apply without_iff in W as ->. reflexivity. Qed.
Lemma replace_app c x a b : replace_char c x (a ++ b) = replace_char c x a ++ replace_char c x b.
Proof. induction a as [|d a IH]; [reflexivity|]. cbn. destruct (Ascii.eqb d c); rewrite IH; [rewrite str_app_assoc|]; reflexivity. Qed.
Lemma replace_word w : name_word w -> replace_char "_" "" w = w.
Proof.
  intros (_ & H). induction w as [|c w IH]; [reflexivity|]. apply holds_tail in H as (A & B). cbn. rewrite IH by exact B. destruct (Ascii.eqb_spec c "_") as [->|]; [|reflexivity].
  destruct (name_char _ A) as (X & _). discriminate.
Qed.
Lemma word_app a b : name_word a -> name_word b -> name_word (a ++ b).
Proof.
  intros (Ne & H) (_ & K). split; [destruct a; [congruence|discriminate]|]. clear Ne. induction a as [|c a IH]; [exact K|]. apply holds_tail in H as (A & B). cbn. apply holds_cons; auto.
Qed.
Lemma const_name s l : name s l -> exists w ws, Forall name_word (w :: ws) /\ replace_char "_" "" s = join "." (w :: ws) /\ name (join "." (w :: ws)) (w :: ws).
Proof.
  induction 1 as [w W|w c s l W C _ (v & vs & F & E & N)].
  - exists w, []. split; [auto|]. split; [apply replace_word, W|]. apply na_one, W.
  - rewrite replace_app, (replace_word _ W). inversion F as [|? ? Wv F']; subst. destruct C as [->| ->].
    + exists w, (v :: vs). split; [auto|]. change (join "." (w :: v :: vs)) with (w ++ String "." (join "." (v :: vs))). split; [cbn [replace_char Ascii.eqb Bool.eqb]; rewrite <- E; reflexivity|].
      apply na_more; auto.
    + exists (w ++ v), vs. split; [constructor; [apply word_app; assumption|exact F']|]. split.
      * change (replace_char "_" "" (String "_" s)) with (replace_char "_" "" s). rewrite E. destruct vs; cbn; [reflexivity|]. rewrite str_app_assoc. reflexivity.
      * destruct vs as [|v' vs]; [apply na_one, word_app; assumption|]. change (join "." ((w ++ v) :: v' :: vs)) with ((w ++ v) ++ String "." (join "." (v' :: vs))).
        apply na_more; [apply word_app; assumption|left; reflexivity|]. inversion N as [x X Y|x c' s' l' X Y Z Q]; subst.
        change (join "." (v :: v' :: vs)) with (v ++ String "." (join "." (v' :: vs))) in *.
        match goal with H : v ++ _ = v ++ _ |- _ => apply str_app_inj_l in H; injection H as _ H; subst end. assumption.
Qed.
(* two names have the same constant exactly if they are the same but for underscores *)
Theorem C103_const_distinct k a b l m : delimiter k <> "" -> name a l -> name b m ->
  (convert_const k a = convert_const k b <-> exists t, without "_" a t /\ without "_" b t).
Proof.
  intros D Na Nb. split.
  - intros E. destruct (const_name _ _ Na) as (w & ws & _ & Ea & Ma), (const_name _ _ Nb) as (v & vs & _ & Eb & Mb).
    unfold convert_const in E. rewrite Ea, Eb in E. pose proof (C103_distinct k _ _ _ _ D Ma Mb E) as X. exists (join "." (w :: ws)). rewrite !without_iff, Ea, Eb, X. split; reflexivity.
  - intros (t & A & B). rewrite (C103_const _ _ _ A), (C103_const _ _ _ B). reflexivity.
Qed.
(* the first character, and nothing else *)
Theorem C103_first c s : exists d, to_capital c d /\ capitalize_first (String c s) = String d s.
Proof. exists (upper_char c). split; [apply to_capital_iff; reflexivity|reflexivity]. Qed.

(* ---------- examples: those of the tests ---------- *)
Example C103_tests : convert SnakeCase "v8js.heap.space.name" = "v8js_heap_space_name" /\ convert SnakeCase "Hello World!" = "hello_world!" /\
  convert SnakeCase "host.cpu.cache.l2.size" = "host_cpu_cache_l2_size" /\ convert UpperCase "nodejs.eventloop.delay.p99" = "NODEJS EVENTLOOP DELAY P99" /\
  convert ScreamingKebabCase "http.request.resend_count" = "HTTP-REQUEST-RESEND-COUNT" /\ convert KebabCase "Hello World" = "hello-world".
Proof. repeat split. Qed.
Example C103_sturdy_ex : name "ab.ba" ["ab"; "ba"] /\ Forall sturdy ["ab"; "ba"] /\ convert PascalCase "ab.ba" = "AbBa" /\ convert SnakeCase "AbBa" = "ab_ba".
Proof.
  assert (A : name_word "ab") by (apply word_cons, word1, small_b; apply small_a). assert (B : name_word "ba") by (apply word_cons, word1, small_a; apply small_b).
  split; [apply (na_more "ab" "." "ba" ["ba"]); [exact A|left; reflexivity|apply na_one, B]|]. split; [|split; reflexivity].
  constructor; [split; [exact A|exists "a"%char, "", "b"%char; split; [reflexivity|split; [exists 0|exists 1]; reflexivity]]|].
  constructor; [split; [exact B|exists "b"%char, "", "a"%char; split; [reflexivity|split; [exists 1|exists 0]; reflexivity]]|constructor].
Qed.
Example C103_words_ex : words "XMLHttp.a b2C" ["XML"; "Http"; "a"; "b2C"].
Proof. exact (words_exist "XMLHttp.a b2C"). Qed.
Example C103_const_ex : convert_const SnakeCase "a.b_a" = "a_ba" /\ convert_const SnakeCase "a.ba" = "a_ba".
Proof. split; reflexivity. Qed.
Print Assumptions C103_words.
Print Assumptions C103_words_of.
Print Assumptions C103_name.
Print Assumptions C103_snake.
Print Assumptions C103_idempotent_partial.
Print Assumptions C103_pascal_refuted.
Print Assumptions C103_camel_refuted.
Print Assumptions C103_back.
Print Assumptions C103_letters.
Print Assumptions C103_distinct.
Print Assumptions C103_separator_refuted.
Print Assumptions C103_run_together_refuted.
Print Assumptions C103_distinct_sturdy.
Print Assumptions C103_const.
Print Assumptions C103_const_distinct.
Print Assumptions C103_first.
