(* Facts about the functions of Str.v. *)
From Coq Require Import String Ascii Bool Arith Lia List.
Import ListNotations.
From Verif Require Import Base BaseProofs Str.
Local Open Scope string_scope.

Lemma str_drop_app a b : str_drop (String.length a) (a ++ b) = b.
Proof. induction a as [|c a IH]; [reflexivity|exact IH]. Qed.

Lemma str_take_app a b : str_take (String.length a) (a ++ b) = a.
Proof. induction a as [|c a IH]; cbn; [destruct b; reflexivity|rewrite IH; reflexivity]. Qed.

Lemma str_take_all a : str_take (String.length a) a = a.
Proof. pose proof (str_take_app a "") as H. rewrite str_app_nil_r in H. exact H. Qed.

Lemma str_take_drop n s : str_take n s ++ str_drop n s = s.
Proof.
  revert s. induction n as [|n IH]; intros [|c s]; cbn; try reflexivity. rewrite IH. reflexivity.
Qed.

Lemma str_take_length n s : n <= String.length s -> String.length (str_take n s) = n.
Proof.
  revert s. induction n as [|n IH]; intros [|c s] H; cbn in *; try lia. rewrite IH; lia.
Qed.

Lemma str_drop_length n s : String.length (str_drop n s) = String.length s - n.
Proof. revert s. induction n as [|n IH]; intros [|c s]; cbn; auto. Qed.

Lemma slice_app a b c : slice (String.length a) (String.length a + String.length b) (a ++ b ++ c) = Some b.
Proof.
  unfold slice. rewrite !str_length_app.
  replace (Nat.leb (String.length a) (String.length a + String.length b)) with true
    by (symmetry; apply Nat.leb_le; lia).
  replace (Nat.leb (String.length a + String.length b)
             (String.length a + (String.length b + String.length c))) with true
    by (symmetry; apply Nat.leb_le; lia).
  cbn [andb]. rewrite str_drop_app.
  replace (String.length a + String.length b - String.length a) with (String.length b) by lia.
  rewrite str_take_app. reflexivity.
Qed.

Lemma slice_spec i j s t : slice i j s = Some t ->
  exists a c, s = a ++ t ++ c /\ String.length a = i /\ i + String.length t = j.
Proof.
  unfold slice. destruct (Nat.leb_spec i j) as [H1|H1]; [|discriminate].
  destruct (Nat.leb_spec j (String.length s)) as [H2|H2]; [|discriminate].
  cbn. intros H. injection H as <-.
  exists (str_take i s), (str_drop (j - i) (str_drop i s)).
  rewrite str_take_drop, str_take_drop. split; [reflexivity|].
  rewrite !str_take_length; [lia| |lia]. rewrite str_drop_length. lia.
Qed.

Lemma slice_from_app a b : slice_from (String.length a) (a ++ b) = Some b.
Proof.
  unfold slice_from. rewrite str_length_app.
  replace (Nat.leb _ _) with true by (symmetry; apply Nat.leb_le; lia).
  rewrite str_drop_app. reflexivity.
Qed.

Lemma slice_from_spec i s t : slice_from i s = Some t ->
  exists a, s = a ++ t /\ String.length a = i.
Proof.
  unfold slice_from. destruct (Nat.leb_spec i (String.length s)) as [H|H]; [|discriminate].
  intros E. injection E as <-. exists (str_take i s). rewrite str_take_drop.
  split; [reflexivity|]. apply str_take_length, H.
Qed.

Lemma all_chars_app p a b : all_chars p (a ++ b) = all_chars p a && all_chars p b.
Proof. induction a as [|c a IH]; cbn; [reflexivity|]. rewrite IH, andb_assoc. reflexivity. Qed.

Lemma any_char_app p a b : any_char p (a ++ b) = any_char p a || any_char p b.
Proof. induction a as [|c a IH]; cbn; [reflexivity|]. rewrite IH, orb_assoc. reflexivity. Qed.

Lemma any_all p s : any_char p s = negb (all_chars (fun c => negb (p c)) s).
Proof. induction s as [|c s IH]; cbn; [reflexivity|]. rewrite IH. destruct (p c); reflexivity. Qed.

Lemma any_char_spec p s : any_char p s = true <-> exists a c b, s = a ++ String c b /\ p c = true.
Proof.
  induction s as [|d s IH]; cbn.
  - split; [discriminate|]. intros (a & c & b & H & _). destruct a; discriminate.
  - rewrite orb_true_iff, IH. split.
    + intros [H|(a & c & b & -> & H)].
      * exists "", d, s. auto.
      * exists (String d a), c, b. auto.
    + intros (a & c & b & H & Hp). destruct a as [|e a]; cbn in H; injection H as -> H.
      * auto.
      * right. exists a, c, b. auto.
Qed.

Lemma all_chars_imp (p q : ascii -> bool) s :
  (forall c, p c = true -> q c = true) -> all_chars p s = true -> all_chars q s = true.
Proof.
  intros H. induction s as [|c s IH]; cbn; [reflexivity|].
  rewrite !andb_true_iff. intros [A B]. auto.
Qed.

(* first character satisfying p *)
Lemma find_char_spec p s i : find_char p s = Some i ->
  exists a c b, s = a ++ String c b /\ String.length a = i /\ p c = true /\
    all_chars (fun c => negb (p c)) a = true.
Proof.
  revert i. induction s as [|d s IH]; intros i; cbn; [discriminate|].
  destruct (p d) eqn:E.
  - intros H. injection H as <-. exists "", d, s. auto.
  - destruct (find_char p s) as [j|]; [|discriminate]. cbn. intros H. injection H as <-.
    destruct (IH j eq_refl) as (a & c & b & -> & Hl & Hc & Ha).
    exists (String d a), c, b. cbn. rewrite E, Ha. auto.
Qed.

Lemma find_char_app p a c b : all_chars (fun c => negb (p c)) a = true -> p c = true ->
  find_char p (a ++ String c b) = Some (String.length a).
Proof.
  induction a as [|d a IH]; cbn; intros Ha Hc; [rewrite Hc; reflexivity|].
  apply andb_true_iff in Ha. destruct Ha as [Hd Ha]. apply negb_true_iff in Hd.
  rewrite Hd, IH; auto.
Qed.

Lemma find_str_spec n s i : find_str n s = Some i -> exists a b, s = a ++ n ++ b /\ String.length a = i.
Proof.
  revert i. induction s as [|c s IH]; intros i H; cbn in H.
  - destruct n; [|discriminate]. injection H as <-. exists "", "". auto.
  - destruct (starts_with n (String c s)) eqn:E.
    + injection H as <-. apply starts_with_spec in E. destruct E as (t & ->). exists "", t. auto.
    + destruct (find_str n s) as [j|]; [|discriminate]. injection H as <-.
      destruct (IH j eq_refl) as (a & b & -> & Hl). exists (String c a), b. cbn. auto.
Qed.

(* a needle whose first character does not occur before is found at that place *)
Lemma find_str_first c n a b :
  all_chars (fun d => negb (Ascii.eqb d c)) a = true ->
  find_str (String c n) (a ++ String c n ++ b) = Some (String.length a).
Proof.
  induction a as [|d a IH]; intros H.
  - change ("" ++ String c n ++ b) with (String c n ++ b).
    destruct (String c n ++ b) as [|x y] eqn:E; [discriminate|].
    rewrite <- E. destruct (String c n ++ b) eqn:E'; [discriminate|].
    cbn [find_str]. rewrite <- E', starts_with_app. reflexivity.
  - cbn in H. apply andb_true_iff in H. destruct H as [Hd Ha].
    cbn [append find_str starts_with].
    destruct (Ascii.eqb_spec c d) as [->|Hne].
    + rewrite Ascii.eqb_refl in Hd. discriminate.
    + change (a ++ String c (n ++ b)) with (a ++ String c n ++ b). rewrite IH; auto.
Qed.

Lemma rfind_char_spec c s i : rfind_char c s = Some i ->
  exists a b, s = a ++ String c b /\ String.length a = i /\
    all_chars (fun d => negb (Ascii.eqb d c)) b = true.
Proof.
  assert (N : forall s, rfind_char c s = None -> all_chars (fun d => negb (Ascii.eqb d c)) s = true).
  { clear. induction s as [|d s IH]; cbn; [reflexivity|].
    destruct (rfind_char c s); [discriminate|]. rewrite IH by reflexivity.
    destruct (Ascii.eqb d c); [discriminate|reflexivity]. }
  revert i. induction s as [|d s IH]; intros i H; cbn in H; [discriminate|].
  destruct (rfind_char c s) as [j|] eqn:E.
  - injection H as <-. destruct (IH j eq_refl) as (a & b & -> & Hl & Hb).
    exists (String d a), b. cbn. auto.
  - destruct (Ascii.eqb_spec d c) as [->|]; [|discriminate]. injection H as <-.
    exists "", s. split; [reflexivity|]. split; [reflexivity|]. apply N, E.
Qed.

Lemma rfind_char_app c a b : all_chars (fun d => negb (Ascii.eqb d c)) b = true ->
  rfind_char c (a ++ String c b) = Some (String.length a).
Proof.
  assert (N : forall s, all_chars (fun d => negb (Ascii.eqb d c)) s = true -> rfind_char c s = None).
  { clear. induction s as [|d s IH]; cbn; [reflexivity|]. intros H.
    apply andb_true_iff in H. destruct H as [Hd Hs]. rewrite IH by assumption.
    apply negb_true_iff in Hd. rewrite Hd. reflexivity. }
  intros Hb. induction a as [|d a IH]; cbn.
  - rewrite (N _ Hb), Ascii.eqb_refl. reflexivity.
  - rewrite IH. reflexivity.
Qed.

(* the part trimmed off satisfies p everywhere, the rest does not end with p *)
Lemma trim_end_spec p s : exists t, s = trim_end p s ++ t /\ all_chars p t = true /\
  (forall a c, trim_end p s = a ++ String c "" -> p c = false).
Proof.
  induction s as [|d s (t & Hs & Ht & Hl)]; cbn.
  - exists "". split; [reflexivity|]. split; [reflexivity|]. intros a c H. destruct a; discriminate.
  - destruct (trim_end p s) as [|e r] eqn:E.
    + cbn in Hs. subst s. destruct (p d) eqn:Ed.
      * exists (String d t). cbn. rewrite Ed. split; [reflexivity|]. split; [assumption|].
        intros a c H. destruct a; discriminate.
      * exists t. split; [reflexivity|]. split; [assumption|].
        intros a c H. destruct a as [|x a]; cbn in H.
        -- injection H as <-. assumption.
        -- destruct a; discriminate.
    + exists t. split; [cbn in *; congruence|]. split; [assumption|].
      intros a c H. destruct a as [|x a]; [discriminate|]. injection H as _ H.
      exact (Hl a c H).
Qed.

Lemma trim_end_id p a c : p c = false -> trim_end p (a ++ String c "") = a ++ String c "".
Proof.
  intros H. induction a as [|d a IH]; cbn.
  - rewrite H. reflexivity.
  - rewrite IH. destruct a; reflexivity.
Qed.

Lemma trim_end_app p a t : all_chars p t = true -> trim_end p (a ++ t) = trim_end p a.
Proof.
  intros Ht. induction a as [|c a IH]; cbn.
  - induction t as [|d t IHt]; cbn; [reflexivity|]. cbn in Ht. apply andb_true_iff in Ht.
    destruct Ht as [Hd Ht]. rewrite IHt by assumption. rewrite Hd. reflexivity.
  - rewrite IH. reflexivity.
Qed.

Lemma trim_end_idem p s : trim_end p (trim_end p s) = trim_end p s.
Proof.
  destruct (trim_end_spec p s) as (t & Hs & Ht & _).
  rewrite Hs at 2. symmetry. rewrite (trim_end_app p _ t Ht). reflexivity.
Qed.

(* a non-empty string has a last character *)
Lemma str_last s : s = "" \/ exists a c, s = a ++ String c "".
Proof.
  induction s as [|d s [->|(a & c & ->)]]; [auto| |]; right.
  - exists "", d. reflexivity.
  - exists (String d a), c. reflexivity.
Qed.

Lemma split_char_ne c s : split_char c s <> [].
Proof.
  destruct s as [|d s]; cbn; [discriminate|].
  destruct (Ascii.eqb d c); [discriminate|]. destruct (split_char c s); discriminate.
Qed.

Lemma split_char_join c s : join (String c "") (split_char c s) = s.
Proof.
  induction s as [|d s IH]; cbn; [reflexivity|].
  destruct (Ascii.eqb_spec d c) as [->|Hne].
  - pose proof (split_char_ne c s). destruct (split_char c s) as [|h t]; [congruence|].
    change (join (String c "") ("" :: h :: t)) with ("" ++ String c "" ++ join (String c "") (h :: t)).
    rewrite IH. reflexivity.
  - pose proof (split_char_ne c s). destruct (split_char c s) as [|h t]; [congruence|].
    rewrite <- IH. destruct t; reflexivity.
Qed.

Lemma split_char_pieces c s x : In x (split_char c s) -> any_char (fun d => Ascii.eqb d c) x = false.
Proof.
  revert x. induction s as [|d s IH]; intros x H; cbn in H.
  - destruct H as [<-|[]]. reflexivity.
  - destruct (Ascii.eqb_spec d c) as [->|Hne].
    + destruct H as [<-|H]; auto.
    + destruct (split_char c s) as [|h t] eqn:E.
      * destruct H as [<-|[]]. cbn. destruct (Ascii.eqb_spec d c); [congruence|reflexivity].
      * destruct H as [<-|H].
        -- cbn. destruct (Ascii.eqb_spec d c); [congruence|]. apply IH. left. reflexivity.
        -- apply IH. right. exact H.
Qed.
