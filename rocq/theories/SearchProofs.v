(* Lemmas for searching: terms of a query, ratings, pages, namespaces. *)
From Coq Require Import String Ascii Bool Arith Lia Permutation Sorted List.
Import ListNotations.
From Verif Require Import Base BaseProofs BaseProofs2 Json SemTypes Str CodeSpec CodeProofs SearchModel SearchSpec.
Local Open Scope string_scope.

(* ---------- strings ---------- *)
Lemma cons_app c a b : String c (a ++ b) = String c a ++ b.
Proof. reflexivity. Qed.
Lemma says_iff t s : contains t s = true <-> says t s.
Proof. rewrite contains_spec. reflexivity. Qed.
Lemma has_char_iff c s : has_char c s = true <-> char_of c s.
Proof.
  induction s as [|d s IH]; cbn [has_char].
  - split; [discriminate|]. intros (a & b & H). destruct a; discriminate.
  - rewrite orb_true_iff, Ascii.eqb_eq, IH. split.
    + intros [->|(a & b & ->)]; [exists "", s; reflexivity|exists (String d a), b; reflexivity].
    + intros (a & b & H). destruct a as [|d' a]; injection H as -> ->; [left; reflexivity|right; exists a, b; reflexivity].
Qed.
Lemma char_cons c d s : char_of c (String d s) <-> c = d \/ char_of c s.
Proof. rewrite <- !has_char_iff. cbn [has_char]. rewrite orb_true_iff, Ascii.eqb_eq. reflexivity. Qed.
Lemma char_nil c : ~ char_of c "".
Proof. rewrite <- has_char_iff. discriminate. Qed.
Lemma query_break_iff sep c : query_break sep c = true <-> breaks sep c.
Proof. unfold query_break, breaks. rewrite !orb_true_iff, has_char_iff, Ascii.eqb_eq, <- white_iff. unfold underscore. tauto. Qed.

(* ---------- splitting ---------- *)
Definition clear_of (brk : ascii -> bool) (t : string) : Prop := forall c, char_of c t -> brk c = false.
Definition stops (brk : ascii -> bool) (b : string) : Prop := b = "" \/ exists c b', b = String c b' /\ brk c = true.
Lemma clear_cons brk c t : clear_of brk (String c t) <-> brk c = false /\ clear_of brk t.
Proof.
  unfold clear_of. split.
  - intros H. split; [apply H, char_cons; left; reflexivity|]. intros d Hd. apply H, char_cons. right. exact Hd.
  - intros [A B] d Hd. apply char_cons in Hd as [->|Hd]; auto.
Qed.
Lemma clear_nil brk : clear_of brk "".
Proof. intros c H. destruct (char_nil _ H). Qed.
Lemma split_lead brk s t : fst (split_at brk s) = t <-> clear_of brk t /\ exists b, s = t ++ b /\ stops brk b.
Proof.
  revert t. induction s as [|c s IH]; intros t; cbn [split_at].
  - split; [intros <-; split; [apply clear_nil|exists ""; split; [reflexivity|left; reflexivity]]|]. intros (_ & b & E & _). destruct t; [reflexivity|discriminate].
  - destruct (split_at brk s) as [p ps] eqn:Es. cbn [fst] in IH. destruct (brk c) eqn:Eb; cbn [fst].
    + split.
      * intros <-. split; [apply clear_nil|]. exists (String c s). split; [reflexivity|]. right. exists c, s. auto.
      * intros (C & b & E & _). destruct t as [|d t]; [reflexivity|]. cbn in E. injection E as -> _. apply clear_cons in C as [C _]. congruence.
    + split.
      * intros <-. destruct (proj1 (IH p) eq_refl) as (C & b & E & St). split; [apply clear_cons; auto|]. exists b. split; [cbn; congruence|exact St].
      * intros (C & b & E & St). destruct t as [|d t].
        -- destruct St as [->|(c' & b' & -> & X)]; cbn in E; [discriminate|injection E as -> _; congruence].
        -- cbn in E. injection E as -> E. apply clear_cons in C as [_ C]. f_equal. apply IH. split; [exact C|]. exists b. auto.
Qed.
Lemma split_rest brk s t : In t (snd (split_at brk s)) <->
  clear_of brk t /\ exists a c b, s = a ++ String c (t ++ b) /\ brk c = true /\ stops brk b.
Proof.
  induction s as [|c s IH]; cbn [split_at].
  - split; [intros []|]. intros (_ & a & c & b & E & _). destruct a; discriminate.
  - pose proof (split_lead brk s t) as Ld. destruct (split_at brk s) as [p ps]. cbn [fst snd] in *. destruct (brk c) eqn:Eb; cbn [snd In].
    + rewrite Ld, IH. split.
      * intros [(C & b & E & St)|(C & a & d & b & E & X & St)]; (split; [exact C|]).
        -- exists "", c, b. cbn. rewrite E. auto.
        -- exists (String c a), d, b. cbn. rewrite E. auto.
      * intros (C & a & d & b & E & X & St). destruct a as [|a0 a]; cbn in E; injection E as -> E; [left|right]; (split; [exact C|]).
        -- exists b. auto.
        -- exists a, d, b. auto.
    + rewrite IH. split; intros (C & a & d & b & E & X & St); (split; [exact C|]).
      * exists (String c a), d, b. cbn. rewrite E. auto.
      * destruct a as [|a0 a]; cbn in E; injection E as -> E; [congruence|]. exists a, d, b. auto.
Qed.
Lemma app_last_cases (a : string) : a = "" \/ exists b c, a = b ++ String c "".
Proof.
  induction a as [|c a IH]; [left; reflexivity|right]. destruct IH as [->|(b & d & ->)]; [exists "", c; reflexivity|].
  exists (String c b), d. reflexivity.
Qed.
Lemma term_iff sep q t : In t (filter (fun t => negb (String.eqb t "")) (split_by (query_break sep) q)) <-> term sep q t.
Proof.
  assert (B : forall b, stops (query_break sep) b <-> (b = "" \/ exists c b', b = String c b' /\ breaks sep c)).
  { intros b. unfold stops. split; (intros [H|(c & b' & H & X)]; [left; exact H|right; exists c, b'; split; [exact H|apply query_break_iff; exact X]]). }
  assert (C : clear_of (query_break sep) t <-> (forall c, char_of c t -> ~ breaks sep c)).
  { unfold clear_of. split; intros H c Hc.
    - intros X. apply query_break_iff in X. rewrite (H c Hc) in X. discriminate.
    - destruct (query_break sep c) eqn:X; [|reflexivity]. apply query_break_iff in X. destruct (H c Hc X). }
  rewrite filter_In. unfold split_by. pose proof (split_lead (query_break sep) q t) as L. pose proof (split_rest (query_break sep) q t) as R.
  destruct (split_at (query_break sep) q) as [p ps]. cbn [fst snd In] in *. rewrite L, R, C. rewrite negb_true_iff.
  assert (N : String.eqb t "" = false <-> t <> "") by apply String.eqb_neq. rewrite N. unfold term. split.
  - intros [[(X & b & E & St)|(X & a & c & b & E & Y & St)] Nt]; (split; [exact Nt|]; split; [exact X|]).
    + exists "", b. split; [exact E|]. split; [left; reflexivity|apply B, St].
    + exists (a ++ String c ""), b. split; [rewrite str_app_assoc; exact E|]. split; [|apply B, St]. right. exists a, c. split; [reflexivity|]. apply query_break_iff, Y.
  - intros (Nt & X & a & b & E & La & Lb). split; [|exact Nt]. destruct La as [->|(a' & c & -> & Y)].
    + left. split; [exact X|]. exists b. split; [exact E|apply B, Lb].
    + right. split; [exact X|]. exists a', c, b. rewrite str_app_assoc in E. split; [exact E|]. split; [apply query_break_iff, Y|apply B, Lb].
Qed.
(* a text without separators lies within one piece *)
Lemma says_refl t : says t t.
Proof. exists "", "". rewrite str_app_nil_r. reflexivity. Qed.
Lemma says_trans a b c : says a b -> says b c -> says a c.
Proof. intros (x & y & ->) (u & v & ->). exists (u ++ x), (y ++ v). rewrite !str_app_assoc. reflexivity. Qed.
Lemma says_cons t c s : says t s -> says t (String c s).
Proof. intros (a & b & ->). exists (String c a), b. reflexivity. Qed.
Lemma lead_starts brk t : forall b, clear_of brk t -> exists r, fst (split_at brk (t ++ b)) = t ++ r.
Proof.
  induction t as [|c t IH]; intros b C; cbn [append split_at].
  - eexists. reflexivity.
  - apply clear_cons in C as [Cc C]. destruct (IH b C) as (r & E). destruct (split_at brk (t ++ b)) as [p ps]. cbn [fst] in E. rewrite Cc. cbn [fst]. exists r. rewrite E. reflexivity.
Qed.
Lemma piece_says brk t s : clear_of brk t -> ((exists p, In p (split_by brk s) /\ says t p) <-> says t s).
Proof.
  intros C. split.
  - intros (p & Hp & H). eapply says_trans; [exact H|]. unfold split_by in Hp. pose proof (split_lead brk s p) as L. pose proof (split_rest brk s p) as R.
    destruct (split_at brk s) as [p0 ps]. cbn [fst snd] in *. destruct Hp as [Hp|Hp].
    + apply L in Hp as (_ & b & -> & _). exists "", b. reflexivity.
    + apply R in Hp as (_ & a & c & b & -> & _). exists (a ++ String c ""), b. rewrite str_app_assoc. reflexivity.
  - unfold split_by. induction s as [|c s IH]; intros (a & b & E).
    + exists "". cbn. split; [left; reflexivity|]. destruct a; [|discriminate]. destruct t; [|discriminate]. apply says_refl.
    + destruct a as [|a0 a].
      * cbn [append] in E. destruct (lead_starts brk t b C) as (r & Hr). rewrite <- E in Hr. destruct (split_at brk (String c s)) as [p ps]. cbn [fst] in Hr.
        exists p. split; [left; reflexivity|]. rewrite Hr. exists "", r. reflexivity.
      * cbn in E. injection E as _ E. destruct IH as (p & Hp & Hs); [exists a, b; exact E|]. cbn [split_at]. destruct (split_at brk s) as [p0 ps].
        destruct (brk c).
        -- exists p. split; [right; exact Hp|exact Hs].
        -- destruct Hp as [<-|Hp]; [exists (String c p0); split; [left; reflexivity|apply says_cons, Hs]|exists p; split; [right; exact Hp|exact Hs]].
Qed.

(* ---------- ratings ---------- *)
Lemma id_clear sep t : (forall c, char_of c t -> ~ breaks sep c) -> clear_of (id_break sep) t.
Proof.
  intros H c Hc. destruct (id_break sep c) eqn:E; [|reflexivity]. destruct (H c Hc). apply query_break_iff. unfold query_break, id_break in *. rewrite E. reflexivity.
Qed.
Section Rate.
  Variables (sep q id brief note : string).
  Let terms := filter (fun t => negb (String.eqb t "")) (split_by (query_break sep) q).
  Lemma terms_none : terms = [] <-> ~ exists t, term sep q t.
  Proof.
    split.
    - intros H (t & Ht). apply term_iff in Ht. fold terms in Ht. rewrite H in Ht. destruct Ht.
    - intros H. destruct terms as [|t l] eqn:E; [reflexivity|]. destruct H. exists t. apply term_iff. fold terms. rewrite E. left. reflexivity.
  Qed.
  Lemma terms_in s : terms <> [] -> (forallb (fun t => contains t s) terms = true <-> says_terms sep q s).
  Proof.
    intros N. rewrite forallb_forall. split.
    - intros H. split.
      + destruct terms as [|t l] eqn:E; [destruct (N eq_refl)|]. exists t. apply term_iff. fold terms. rewrite E. left. reflexivity.
      + intros t Ht. apply says_iff, H. apply term_iff. exact Ht.
    - intros [_ H] t Ht. apply says_iff, H. apply term_iff. exact Ht.
  Qed.
  Lemma terms_in_id : terms <> [] -> (forallb (fun t => existsb (fun it => contains t it) (split_by (id_break sep) id)) terms = true <-> says_terms sep q id).
  Proof.
    intros N. rewrite <- (terms_in id N). rewrite !forallb_forall.
    assert (G : forall t, In t terms -> (existsb (fun it => contains t it) (split_by (id_break sep) id) = true <-> contains t id = true)).
    { intros t Ht. apply term_iff in Ht. rewrite existsb_exists, says_iff. rewrite <- (piece_says (id_break sep) t id) by (apply id_clear, Ht).
      split; intros (p & Hp & H); exists p; (split; [exact Hp|apply says_iff, H]). }
    split; intros H t Ht; apply (G t Ht), H, Ht.
  Qed.
  Lemma bool_false (b : bool) (P : Prop) : (b = true <-> P) -> ~ P -> b = false.
  Proof. intros [A _] N. destruct b; [destruct (N (A eq_refl))|reflexivity]. Qed.
  Lemma prefix_iff : starts_with q id = true <-> exists r, id = q ++ r.
  Proof. apply starts_with_spec. Qed.
  Lemma prefix_says : (exists r, id = q ++ r) -> says q id.
  Proof. intros (r & ->). exists "", r. reflexivity. Qed.
  Lemma exact_prefix : id = q -> exists r, id = q ++ r.
  Proof. intros ->. exists "". rewrite str_app_nil_r. reflexivity. Qed.
  Lemma base_rating : rating sep q id brief note (base_score q id brief note sep).
  Proof.
    unfold base_score. cbv zeta. fold terms.
    destruct (String.eqb id q) eqn:E1; [apply ra_exact, String.eqb_eq, E1|]. apply String.eqb_neq in E1.
    destruct (starts_with q id) eqn:E2; [apply ra_prefix; [exact E1|apply prefix_iff, E2]|].
    assert (N2 : forall r, id <> q ++ r) by (intros r H; assert (X : starts_with q id = true) by (apply prefix_iff; exists r; exact H); congruence).
    destruct (contains q id) eqn:E3; [apply ra_inside; [exact N2|apply says_iff, E3]|].
    assert (N3 : ~ says q id) by (rewrite <- says_iff, E3; discriminate).
    destruct terms as [|t l] eqn:Et.
    - pose proof (proj1 terms_none Et) as Nt. assert (Ns : forall s, ~ says_terms sep q s) by (intros s [H _]; exact (Nt H)).
      destruct (contains q brief) eqn:E4; [apply ra_brief; auto; apply says_iff, E4|]. assert (N4 : ~ says q brief) by (rewrite <- says_iff, E4; discriminate).
      destruct (contains q note) eqn:E5; [apply ra_note; auto; apply says_iff, E5|]. assert (N5 : ~ says q note) by (rewrite <- says_iff, E5; discriminate).
      apply ra_none; auto.
    - rewrite <- Et. assert (Nt : terms <> []) by (rewrite Et; discriminate).
      destruct (forallb (fun qt => existsb (fun it => contains qt it) (split_by (id_break sep) id)) terms) eqn:E4; [apply ra_terms; [exact N3|apply terms_in_id; assumption]|].
      assert (N4 : ~ says_terms sep q id) by (rewrite <- terms_in_id by exact Nt; rewrite E4; discriminate).
      destruct (contains q brief) eqn:E5; [apply ra_brief; auto; apply says_iff, E5|]. assert (N5 : ~ says q brief) by (rewrite <- says_iff, E5; discriminate).
      destruct (contains q note) eqn:E6; [apply ra_note; auto; apply says_iff, E6|]. assert (N6 : ~ says q note) by (rewrite <- says_iff, E6; discriminate).
      destruct (forallb (fun qt => contains qt brief) terms) eqn:E7; [apply ra_brief_terms; auto; apply terms_in; assumption|].
      assert (N7 : ~ says_terms sep q brief) by (rewrite <- terms_in by exact Nt; rewrite E7; discriminate).
      destruct (forallb (fun qt => contains qt note) terms) eqn:E8; [apply ra_note_terms; auto; apply terms_in; assumption|].
      assert (N8 : ~ says_terms sep q note) by (rewrite <- terms_in by exact Nt; rewrite E8; discriminate).
      apply ra_none; auto.
  Qed.
  Lemma rating_fun n m : rating sep q id brief note n -> rating sep q id brief note m -> n = m.
  Proof.
    assert (A : id = q -> says q id) by (intros H; apply prefix_says, exact_prefix, H).
    assert (B : (forall r, id <> q ++ r) -> (exists r, id = q ++ r) -> False) by (intros H (r & X); exact (H r X)).
    assert (D : (forall r, id <> q ++ r) -> id = q -> False) by (intros H X; destruct (exact_prefix X) as (r & Y); exact (H r Y)).
    pose proof prefix_says as F. intros H1 H2. inversion H1; inversion H2; subst; try reflexivity; exfalso; tauto.
  Qed.
End Rate.

(* ---------- scores ---------- *)
Lemma demoted_score d n m : demoted d n m <-> m = (if d && Nat.ltb 0 n then let s := Nat.div n 10 in if Nat.eqb s 0 then 1 else s else n).
Proof.
  unfold demoted. destruct d; cbn [andb].
  - destruct (Nat.ltb_spec 0 n) as [L|L].
    + cbv zeta. destruct (Nat.eqb_spec (n / 10) 0) as [Z|Z]; split; intros H; try (right; right; split; [reflexivity|split; [exact L|lia]]);
        destruct H as [[H _]|[(_ & H & _)|(_ & _ & H)]]; try discriminate; lia.
    + split; intros H; [destruct H as [[H _]|[(_ & H & H')|(_ & H & _)]]; [discriminate|lia|lia]|]. right. left. split; [reflexivity|]. lia.
  - split; intros H; [destruct H as [[_ H]|[(H & _)|(H & _)]]; [exact H|discriminate|discriminate]|]. left. auto.
Qed.
Lemma scores_iff lower sep q i m : q <> "" -> (scores lower sep (Some q) i m <-> 0 < m /\ score_match lower q i sep = m).
Proof.
  intros Nq. unfold scores. destruct q as [|c q]; [destruct (Nq eq_refl)|]. unfold score_match, score_fields. set (n0 := base_score _ _ _ _ _). 
  split.
  - intros (P & n & R & D). split; [exact P|]. assert (E : n = n0) by (eapply rating_fun; [exact R|apply base_rating]). subst n. apply demoted_score in D. symmetry. exact D.
  - intros (P & E). split; [exact P|]. exists n0. split; [apply base_rating|]. apply demoted_score. symmetry. exact E.
Qed.

(* ---------- filters and picks ---------- *)
Lemma skind_eqb_iff a b : skind_eqb a b = true <-> a = b.
Proof. destruct a, b; split; intros H; try reflexivity; discriminate. Qed.
Lemma stability_eqb_iff a b : stability_eqb a b = true <-> a = b.
Proof. destruct a, b; split; intros H; try reflexivity; discriminate. Qed.
Definition filtered (kind : option skind) (stab : option stability) (hide : bool) (l : list item) : list item :=
  let items := filter (fun i => match kind with None => true | Some k => skind_eqb (fst i) k end) l in
  let items := match stab with None => items | Some s => filter (fun i => stability_eqb (en_stability (snd i)) s) items end in
  if hide then filter (fun i => negb (en_deprecated (snd i))) items else items.
Definition wantedb (kind : option skind) (stab : option stability) (hide : bool) (i : item) : bool :=
  match kind with None => true | Some k => skind_eqb (fst i) k end &&
  match stab with None => true | Some s => stability_eqb (en_stability (snd i)) s end &&
  (negb hide || negb (en_deprecated (snd i))).
Lemma wantedb_iff kind stab hide i : wantedb kind stab hide i = true <-> wanted kind stab hide i.
Proof.
  unfold wantedb, wanted. rewrite !andb_true_iff, orb_true_iff, !negb_true_iff. split.
  - intros [[A B] C]. split; [|split].
    + intros k ->. apply skind_eqb_iff, A.
    + intros s ->. apply stability_eqb_iff, B.
    + intros ->. destruct C; [discriminate|assumption].
  - intros (A & B & C). split; [split|].
    + destruct kind as [k|]; [apply skind_eqb_iff, A; reflexivity|reflexivity].
    + destruct stab as [s|]; [apply stability_eqb_iff, B; reflexivity|reflexivity].
    + destruct hide; [right; apply C; reflexivity|left; reflexivity].
Qed.
Lemma filter_filter {A} (f g : A -> bool) l : filter f (filter g l) = filter (fun x => g x && f x) l.
Proof. induction l as [|x l IH]; [reflexivity|]. cbn [filter]. destruct (g x); cbn [filter andb]; rewrite IH; reflexivity. Qed.
Lemma filtered_eq kind stab hide l : filtered kind stab hide l = filter (wantedb kind stab hide) l.
Proof.
  unfold filtered, wantedb. cbv zeta. destruct stab as [s|], hide; rewrite ?filter_filter; apply filter_ext; intros i; cbn [negb orb];
    rewrite ?andb_true_r, ?andb_assoc; reflexivity.
Qed.
Lemma picked_filter {A} (P : A -> nat -> Prop) (f : A -> option nat) : (forall x n, P x n <-> f x = Some n) ->
  forall l, picked P l (flat_map (fun x => match f x with Some n => [(n, x)] | None => [] end) l).
Proof.
  intros H l. induction l as [|x l IH]; cbn [flat_map]; [constructor|]. destruct (f x) as [n|] eqn:E; cbn [app].
  - apply pk_keep; [apply H, E|exact IH].
  - apply pk_drop; [|exact IH]. intros n X. apply H in X. congruence.
Qed.
Lemma picked_fun {A} (P : A -> nat -> Prop) : (forall x n m, P x n -> P x m -> n = m) -> forall l a b, picked P l a -> picked P l b -> a = b.
Proof.
  intros F l a b H. revert b. induction H as [|i n l m Hp _ IH|i l m Hn _ IH]; intros b Hb; inversion Hb as [|? n' ? m' Hp' Hm'|? ? m' Hn' Hm']; subst.
  - reflexivity.
  - rewrite (F _ _ _ Hp Hp'). f_equal. apply IH, Hm'.
  - destruct (Hn' n Hp).
  - destruct (Hn n' Hp').
  - apply IH, Hm'.
Qed.

(* ---------- ranks ---------- *)
Section Rank.
  Context {A : Type}.
  Notation leb := (fun a b : nat * A => Nat.leb (fst b) (fst a)).
  Lemma rank_insert x l n : filter (fun y => Nat.eqb (fst y) n) (sort_insert leb x l) = filter (fun y => Nat.eqb (fst y) n) (x :: l).
  Proof.
    induction l as [|y l IH]; [reflexivity|]. cbn [sort_insert]. destruct (Nat.leb (fst y) (fst x)) eqn:E; [reflexivity|]. cbn [filter] in *. rewrite IH.
    apply Nat.leb_gt in E. destruct (Nat.eqb_spec (fst x) n), (Nat.eqb_spec (fst y) n); try reflexivity. lia.
  Qed.
  Lemma sort_ranked (l : list (nat * A)) : ranked l (stable_sort leb l).
  Proof.
    split; [apply stable_sort_perm|]. split.
    - pose proof (stable_sort_sorted leb) as S0. assert (T : StronglySorted (le leb) (stable_sort leb l)).
      { apply S0.
        - intros x y. rewrite !Nat.leb_le. lia.
        - intros x y z. rewrite !Nat.leb_le. lia. }
      clear S0. induction T as [|x m _ IH F]; constructor; [exact IH|]. eapply Forall_impl; [|exact F]. intros y Hy. unfold le in Hy. apply Nat.leb_le, Hy.
    - intros n. induction l as [|x l IH]; [reflexivity|]. change (stable_sort leb (x :: l)) with (sort_insert leb x (stable_sort leb l)). rewrite rank_insert. cbn [filter]. rewrite IH. reflexivity.
  Qed.
  Lemma ranked_fun (l r r' : list (nat * A)) : ranked l r -> ranked l r' -> r = r'.
  Proof.
    intros (P & S0 & F) (P' & S0' & F').
    assert (Q : forall n, filter (fun x => Nat.eqb (fst x) n) r = filter (fun x => Nat.eqb (fst x) n) r') by (intros n; rewrite F, F'; reflexivity).
    clear l P P' F F'. revert r' S0' Q. induction S0 as [|x r S0 IH Hx]; intros r' S0' Q.
    - destruct r' as [|y r']; [reflexivity|]. specialize (Q (fst y)). cbn [filter] in Q. rewrite Nat.eqb_refl in Q. discriminate.
    - destruct r' as [|y r']; [specialize (Q (fst x)); cbn [filter] in Q; rewrite Nat.eqb_refl in Q; discriminate|].
      inversion S0' as [|? ? S1 Hy]; subst. rewrite Forall_forall in Hx, Hy.
      assert (Iy : In y (x :: r)).
      { assert (I : In y (filter (fun z => Nat.eqb (fst z) (fst y)) (y :: r'))) by (cbn [filter]; rewrite Nat.eqb_refl; left; reflexivity). rewrite <- Q in I. apply filter_In in I. apply I. }
      assert (Ix : In x (y :: r')).
      { assert (I : In x (filter (fun z => Nat.eqb (fst z) (fst x)) (x :: r))) by (cbn [filter]; rewrite Nat.eqb_refl; left; reflexivity). rewrite Q in I. apply filter_In in I. apply I. }
      assert (Ef : fst x = fst y).
      { destruct Iy as [->|Iy]; [reflexivity|]. destruct Ix as [->|Ix]; [reflexivity|]. specialize (Hx _ Iy). specialize (Hy _ Ix). lia. }
      assert (Exy : x = y). { pose proof (Q (fst x)) as Q0. cbn [filter] in Q0. rewrite <- Ef, !Nat.eqb_refl in Q0. injection Q0 as E _. exact E. }
      subst y. f_equal. apply IH; [exact S1|]. intros n. specialize (Q n). cbn [filter] in Q. destruct (Nat.eqb (fst x) n); [injection Q as Q|]; exact Q.
  Qed.
  Lemma all_equal_ranked (l r : list (nat * A)) : (forall x, In x l -> fst x = 0) -> ranked l r -> r = l.
  Proof.
    intros Z H. symmetry. eapply ranked_fun; [|exact H]. split; [reflexivity|]. split; [|reflexivity].
    clear H. induction l as [|x l IH]; constructor; [apply IH; intros y Hy; apply Z; right; exact Hy|]. apply Forall_forall. intros y Hy.
    rewrite (Z y), (Z x); [lia|left; reflexivity|right; exact Hy].
  Qed.
End Rank.

(* ---------- pages ---------- *)
Lemma skip_skip {A} (l : list A) : forall a b, skipn a (skipn b l) = skipn (b + a) l.
Proof. induction l as [|x l IH]; intros a [|b]; cbn [skipn Nat.add]; rewrite ?skipn_nil; try reflexivity; try apply IH. Qed.
Lemma walk_pages {A} (l : list A) lim : 0 < lim -> forall o ps, walk (fun o => page lim o l) o ps -> concat ps = skipn o l.
Proof.
  intros L o ps H. induction H as [o E|o ps N _ IH].
  - unfold page in E. destruct (skipn o l) as [|x m] eqn:Es; [reflexivity|]. destruct lim; [lia|]. discriminate.
  - cbn [concat]. rewrite IH. unfold page. rewrite <- skip_skip, firstn_length. set (m := skipn o l). destruct (Nat.le_gt_cases lim (length m)).
    + rewrite Nat.min_l by assumption. apply firstn_skipn.
    + rewrite Nat.min_r by lia. rewrite firstn_all2 by lia. rewrite skipn_all. apply app_nil_r.
Qed.
Lemma walk_exists {A} (l : list A) lim : 0 < lim -> forall n o, length l - o <= n -> exists ps, walk (fun o => page lim o l) o ps.
Proof.
  intros L n. induction n as [|n IH]; intros o Hn.
  - exists []. constructor. unfold page. rewrite skipn_all2 by lia. apply firstn_nil.
  - destruct (page lim o l) as [|x m] eqn:E; [exists []; constructor; exact E|].
    destruct (IH (o + length (page lim o l))) as (ps & W); [rewrite E; cbn [length]; lia|]. exists (page lim o l :: ps). constructor; [rewrite E; discriminate|exact W].
Qed.

(* ---------- cutting texts ---------- *)
Lemma app_split a : forall b c d : string, a ++ b = c ++ d -> String.length a <= String.length c -> exists m, c = a ++ m /\ b = m ++ d.
Proof.
  induction a as [|x a IH]; intros b c d E L; [exists c; split; [reflexivity|exact E]|].
  destruct c as [|y c]; [cbn in L; lia|]. cbn in E, L. injection E as -> E. destruct (IH _ _ _ E) as (m & -> & ->); [lia|]. exists m. split; reflexivity.
Qed.
Lemma app_cancel_r (s : string) : forall a b, a ++ s = b ++ s -> a = b.
Proof.
  intros a b E. assert (L : String.length a = String.length b). { apply (f_equal String.length) in E. rewrite !str_length_app in E. lia. }
  destruct (app_split _ _ _ _ E) as (m & -> & _); [lia|]. rewrite str_length_app in L. destruct m; [rewrite str_app_nil_r; reflexivity|cbn in L; lia].
Qed.
Definition leftmost (sep seg r : string) : Prop := forall a b, r = a ++ sep ++ b -> String.length seg <= String.length a.
Lemma cut_some sep s : forall a r, cut sep s = Some (a, r) <-> s = a ++ sep ++ r /\ leftmost sep a s.
Proof.
  induction s as [|c s IH]; intros a r.
  - cbn [cut]. destruct (strip_prefix sep "") as [t|] eqn:E.
    + apply strip_prefix_spec in E. split.
      * intros H. injection H as <- <-. split; [exact E|]. intros x y _. cbn. lia.
      * intros (H & _). destruct a; [|discriminate]. cbn in H. rewrite E in H. apply str_app_inj_l in H. congruence.
    + split; [discriminate|]. intros (H & _). destruct a; [|discriminate]. cbn in H. assert (X : strip_prefix sep "" = Some r) by (apply strip_prefix_spec; exact H). congruence.
  - cbn [cut]. destruct (strip_prefix sep (String c s)) as [t|] eqn:E.
    + apply strip_prefix_spec in E. split.
      * intros H. injection H as <- <-. split; [exact E|]. intros x y _. cbn. lia.
      * intros (H & L). specialize (L "" t E). destruct a; [|cbn in L; lia]. cbn in H. rewrite E in H. apply str_app_inj_l in H. congruence.
    + assert (N : forall t, String c s <> sep ++ t). { intros t H. apply strip_prefix_spec in H. congruence. }
      split.
      * intros H. destruct (cut sep s) as [[a' r']|]; [|discriminate]. cbn in H. injection H as <- <-. destruct (proj1 (IH a' r') eq_refl) as (Es & L).
        split; [cbn; congruence|]. intros x y Hx. destruct x as [|d x]; [destruct (N _ Hx)|]. cbn in Hx |- *. injection Hx as _ Hx. specialize (L _ _ Hx). lia.
      * intros (H & L). destruct a as [|d a]; [destruct (N _ H)|]. cbn in H. injection H as -> H.
        assert (X : cut sep s = Some (a, r)); [|rewrite X; reflexivity]. apply IH. split; [exact H|]. intros x y Hx.
        specialize (L (String d x) y). cbn in L. rewrite Hx in L. specialize (L eq_refl). lia.
Qed.
Lemma cut_none sep s : cut sep s = None <-> ~ says sep s.
Proof.
  induction s as [|c s IH]; cbn [cut].
  - destruct (strip_prefix sep "") as [t|] eqn:E.
    + split; [discriminate|]. intros H. destruct H. apply strip_prefix_spec in E. exists "", t. exact E.
    + split; [|reflexivity]. intros _ (a & b & H). destruct a; [|discriminate]. cbn in H. apply strip_prefix_spec in H. congruence.
  - destruct (strip_prefix sep (String c s)) as [t|] eqn:E.
    + split; [discriminate|]. intros H. destruct H. apply strip_prefix_spec in E. exists "", t. exact E.
    + split.
      * intros H. assert (X : cut sep s = None) by (destruct (cut sep s); [discriminate|reflexivity]). intros (a & b & Ea). destruct a as [|d a].
        -- cbn in Ea. apply strip_prefix_spec in Ea. congruence.
        -- cbn in Ea. injection Ea as _ Ea. apply IH in X. apply X. exists a, b. exact Ea.
      * intros H. assert (X : cut sep s = None); [|rewrite X; reflexivity]. apply IH. intros (a & b & ->). apply H. exists (String c a), b. reflexivity.
Qed.
Lemma first_cut sep r seg : first_segment sep r seg <-> exists rest, cut sep r = Some (seg, rest).
Proof. unfold first_segment. split; intros (rest & H); exists rest; apply cut_some; exact H. Qed.
Lemma count_segments sep : sep <> "" -> forall fuel r, String.length r <= fuel -> segments sep r (count_matches fuel sep r + 1).
Proof.
  intros Ns fuel. induction fuel as [|f IH]; intros r L; cbn [count_matches].
  - destruct r; [|cbn in L; lia]. apply sg_one. intros (a & b & E). destruct a; [|discriminate]. destruct sep; [congruence|discriminate].
  - destruct (cut sep r) as [[a t]|] eqn:E.
    + apply cut_some in E as (-> & Lm). cbn [Nat.add]. apply sg_more; [exact Lm|]. apply IH. rewrite !str_length_app in L. destruct sep; [congruence|]. cbn in L. lia.
    + apply sg_one, cut_none, E.
Qed.
Lemma segments_fun sep r n : segments sep r n -> forall m, segments sep r m -> n = m.
Proof.
  intros H. induction H as [r N|seg rest n Lm _ IH]; intros m Hm.
  - inversion Hm as [|seg rest m' ? ? E]; subst; [reflexivity|]. destruct N. exists seg, rest. reflexivity.
  - inversion Hm as [r' N E E'|seg' rest' m' Lm' H' E]; subst; [destruct N; exists seg, rest; reflexivity|]. f_equal. apply IH.
    assert (X : cut sep (seg ++ sep ++ rest) = Some (seg, rest)) by (apply cut_some; split; [reflexivity|exact Lm]).
    assert (Y : cut sep (seg' ++ sep ++ rest') = Some (seg', rest')) by (apply cut_some; split; [reflexivity|exact Lm']).
    rewrite E in Y. rewrite X in Y. injection Y as -> ->. exact H'.
Qed.
Lemma strip_suffix_spec suf s : forall t, strip_suffix suf s = Some t <-> s = t ++ suf.
Proof.
  induction s as [|c s IH]; intros t; cbn [strip_suffix].
  - destruct (String.eqb_spec "" suf) as [<-|N].
    + split; [intros H; injection H as <-; reflexivity|]. intros H. destruct t; [reflexivity|discriminate].
    + split; [discriminate|]. intros H. destruct t; [cbn in H; congruence|discriminate].
  - destruct (String.eqb_spec (String c s) suf) as [<-|N].
    + split; [intros H; injection H as <-; reflexivity|]. intros H. f_equal. apply (app_cancel_r (String c s)). cbn. exact H.
    + split.
      * intros H. destruct (strip_suffix suf s) as [u|]; [|discriminate]. injection H as <-. cbn. f_equal. apply IH. reflexivity.
      * intros H. destruct t as [|d t]; [cbn in H; congruence|]. cbn in H. injection H as -> H. apply IH in H. rewrite H. reflexivity.
Qed.
Lemma times_end n s : s ++ times n s = times n s ++ s.
Proof. induction n as [|n IH]; cbn [times]; [rewrite str_app_nil_r; reflexivity|]. rewrite IH at 1. rewrite !str_app_assoc. reflexivity. Qed.
Lemma trim_trimmed sep : sep <> "" -> forall fuel s, String.length s <= fuel -> trimmed sep s (trim_end_matches fuel sep s).
Proof.
  intros Ns fuel. induction fuel as [|f IH]; intros s L; cbn [trim_end_matches].
  - destruct s; [|cbn in L; lia]. split; [exists 0; reflexivity|]. intros a E. destruct a; [|discriminate]. cbn in E. congruence.
  - destruct (strip_suffix sep s) as [t|] eqn:E.
    + apply strip_suffix_spec in E as ->. destruct (IH t) as ((n & En) & F). { rewrite str_length_app in L. destruct sep; [congruence|]. cbn in L. lia. }
      split; [|exact F]. exists (S n). cbn [times]. rewrite times_end, <- str_app_assoc, <- En. reflexivity.
    + split; [exists 0; rewrite str_app_nil_r; reflexivity|]. intros a Ea. apply strip_suffix_spec in Ea. congruence.
Qed.
Lemma times_add sep n m : times (n + m) sep = times n sep ++ times m sep.
Proof. induction n as [|n IH]; cbn [times Nat.add]; [reflexivity|]. rewrite IH, str_app_assoc. reflexivity. Qed.
Lemma trimmed_fun sep s p p' : trimmed sep s p -> trimmed sep s p' -> p = p'.
Proof.
  assert (A : forall p p' n m, n <= m -> p ++ times n sep = p' ++ times m sep -> (forall a, p <> a ++ sep) -> p = p').
  { clear. intros p p' n m L E F. replace m with ((m - n) + n) in E by lia. rewrite times_add, <- str_app_assoc in E. apply app_cancel_r in E.
    destruct (m - n) as [|k]; [cbn in E; rewrite str_app_nil_r in E; exact E|]. cbn [times] in E. rewrite times_end, <- str_app_assoc in E. destruct (F _ E). }
  intros ((n & En) & F) ((m & Em) & F'). destruct (Nat.le_ge_cases n m) as [L|L].
  - apply (A _ _ n m L); congruence.
  - symmetry. apply (A _ _ m n L); congruence.
Qed.
Lemma remainder_iff prefix sep key r : remainder prefix sep key = Some r <-> remains prefix sep key r.
Proof.
  unfold remainder, remains. destruct (String.eqb_spec prefix "") as [->|N].
  - split; [intros H; injection H as ->; left; auto|]. intros [[_ ->]|[X _]]; [reflexivity|congruence].
  - destruct (strip_prefix prefix key) as [t|] eqn:E.
    + apply strip_prefix_spec in E as ->. rewrite strip_prefix_spec. split; [intros ->; right; auto|]. intros [[X _]|[_ H]]; [congruence|]. apply str_app_inj_l in H. exact H.
    + split; [discriminate|]. intros [[X _]|[_ H]]; [congruence|]. assert (Y : strip_prefix prefix key = Some (sep ++ r)) by (apply strip_prefix_spec; exact H). congruence.
Qed.
Lemma named_iff prefix sep seg ns : named prefix sep seg ns <-> ns = sub_namespace prefix sep seg.
Proof.
  unfold named, sub_namespace. destruct (String.eqb_spec prefix "") as [->|N]; split.
  - intros [[_ H]|[X _]]; [exact H|congruence].
  - intros ->. left. auto.
  - intros [[X _]|[_ H]]; [congruence|exact H].
  - intros ->. right. auto.
Qed.

(* ---------- the walk over the index ---------- *)
Lemma chosen_filter {A} (P : A -> Prop) (f : A -> bool) : (forall x, f x = true <-> P x) -> forall l, chosen P l (filter f l).
Proof.
  intros H l. induction l as [|x l IH]; cbn [filter]; [constructor|]. destruct (f x) eqn:E.
  - apply ch_keep; [apply H, E|exact IH].
  - apply ch_drop; [|exact IH]. intros X. apply H in X. congruence.
Qed.
Definition lies (prefix sep : string) (k : string) : bool := match remainder prefix sep k with Some _ => true | None => false end.
Definition direct (prefix sep : string) (k : string) : bool :=
  match remainder prefix sep k with Some r => match cut sep r with Some _ => false | None => true end | None => false end.
Lemma lies_iff prefix sep k : lies prefix sep k = true <-> exists r, remains prefix sep k r.
Proof.
  unfold lies. destruct (remainder prefix sep k) as [r|] eqn:E.
  - split; [intros _; exists r; apply remainder_iff, E|reflexivity].
  - split; [discriminate|]. intros (r & H). apply remainder_iff in H. congruence.
Qed.
Lemma direct_iff prefix sep k : direct prefix sep k = true <-> exists r, remains prefix sep k r /\ ~ says sep r.
Proof.
  unfold direct. destruct (remainder prefix sep k) as [r|] eqn:E.
  - destruct (cut sep r) eqn:C.
    + split; [discriminate|]. intros (r' & H & N). apply remainder_iff in H. rewrite E in H. injection H as <-. apply cut_none in N. congruence.
    + split; [intros _; exists r; split; [apply remainder_iff, E|apply cut_none, C]|reflexivity].
  - split; [discriminate|]. intros (r & H & _). apply remainder_iff in H. congruence.
Qed.
Lemma set_insert_in x l y : In y (set_insert x l) <-> y = x \/ In y l.
Proof. unfold set_insert. rewrite bt_insert_keys, map_map. cbn. rewrite map_id. reflexivity. Qed.
Lemma set_insert_sorted x l : StronglySorted str_lt l -> StronglySorted str_lt (set_insert x l).
Proof.
  intros H. unfold set_insert. change (bt_sorted (bt_insert x tt (map (fun y => (y, tt)) l))). apply bt_insert_sorted. unfold bt_sorted. rewrite map_map. cbn. rewrite map_id. exact H.
Qed.
Section Fold.
  Variables prefix sep : string.
  Hypothesis Hs : sep <> "".
  Lemma fold_prefix l n : ni_prefix (fold_left (browse_step prefix sep) l n) = ni_prefix n.
  Proof.
    revert n. induction l as [|kv l IH]; intros n; cbn [fold_left]; [reflexivity|]. rewrite IH. unfold browse_step.
    destruct (remainder prefix sep (fst kv)) as [r|]; [|reflexivity]. destruct (cut sep r) as [[a t]|]; reflexivity.
  Qed.
  Lemma fold_total l n : ni_total (fold_left (browse_step prefix sep) l n) = ni_total n + length (filter (fun kv => lies prefix sep (fst kv)) l).
  Proof.
    revert n. induction l as [|kv l IH]; intros n; cbn [fold_left filter length]; [cbn; lia|]. rewrite IH. unfold browse_step, lies.
    destruct (remainder prefix sep (fst kv)) as [r|]; [|reflexivity]. destruct (cut sep r) as [[a t]|]; cbn [ni_total length]; lia.
  Qed.
  Lemma fold_attrs l n : ni_attrs (fold_left (browse_step prefix sep) l n) = app (ni_attrs n) (filter (fun kv => direct prefix sep (fst kv)) l).
  Proof.
    revert n. induction l as [|kv l IH]; intros n; cbn [fold_left filter]; [rewrite app_nil_r; reflexivity|]. rewrite IH. unfold browse_step, direct.
    destruct (remainder prefix sep (fst kv)) as [r|]; [|reflexivity]. destruct (cut sep r) as [[a t]|]; cbn [ni_attrs]; [reflexivity|]. rewrite <- app_assoc. reflexivity.
  Qed.
  Lemma fold_sub l n ns : In ns (ni_sub (fold_left (browse_step prefix sep) l n)) <->
    In ns (ni_sub n) \/ exists kv r seg, In kv l /\ remains prefix sep (fst kv) r /\ first_segment sep r seg /\ named prefix sep seg ns.
  Proof.
    revert n. induction l as [|kv l IH]; intros n; cbn [fold_left].
    - split; [auto|]. intros [H|(kv & r & seg & [] & _)]. exact H.
    - rewrite IH. clear IH. unfold browse_step. destruct (remainder prefix sep (fst kv)) as [r|] eqn:E.
      + destruct (cut sep r) as [[a t]|] eqn:C; cbn [ni_sub].
        * rewrite set_insert_in. split.
          -- intros [[->|H]|(kv' & r' & seg & I & X)]; [right; exists kv, r, a|left; exact H|right; exists kv', r', seg; split; [right; exact I|exact X]].
             split; [left; reflexivity|]. split; [apply remainder_iff, E|]. split; [apply first_cut; exists t; exact C|apply named_iff; reflexivity].
          -- intros [H|(kv' & r' & seg & [<-|I] & X)]; [left; right; exact H| |right; exists kv', r', seg; split; [exact I|exact X]].
             left. left. destruct X as (R & F & N). apply remainder_iff in R. rewrite E in R. injection R as <-. apply first_cut in F as (rest & F). rewrite C in F. injection F as <- _. apply named_iff, N.
        * split.
          -- intros [H|(kv' & r' & seg & I & X)]; [left; exact H|right; exists kv', r', seg; split; [right; exact I|exact X]].
          -- intros [H|(kv' & r' & seg & [<-|I] & X)]; [left; exact H| |right; exists kv', r', seg; split; [exact I|exact X]].
             destruct X as (R & F & _). apply remainder_iff in R. rewrite E in R. injection R as <-. apply first_cut in F as (rest & F). congruence.
      + split.
        * intros [H|(kv' & r' & seg & I & X)]; [left; exact H|right; exists kv', r', seg; split; [right; exact I|exact X]].
        * intros [H|(kv' & r' & seg & [<-|I] & X)]; [left; exact H| |right; exists kv', r', seg; split; [exact I|exact X]].
          destruct X as (R & _). apply remainder_iff in R. congruence.
  Qed.
  Lemma fold_sorted l n : StronglySorted str_lt (ni_sub n) -> StronglySorted str_lt (ni_sub (fold_left (browse_step prefix sep) l n)).
  Proof.
    revert n. induction l as [|kv l IH]; intros n H; cbn [fold_left]; [exact H|]. apply IH. unfold browse_step.
    destruct (remainder prefix sep (fst kv)) as [r|]; [|exact H]. destruct (cut sep r) as [[a t]|]; cbn [ni_sub]; [apply set_insert_sorted, H|exact H].
  Qed.
  Lemma fold_depth l n d : ni_depth (fold_left (browse_step prefix sep) l n) = d ->
    ni_depth n <= d /\ (forall kv r m, In kv l -> remains prefix sep (fst kv) r -> segments sep r m -> m <= d) /\
    (d = ni_depth n \/ exists kv r, In kv l /\ remains prefix sep (fst kv) r /\ segments sep r d).
  Proof.
    revert n. induction l as [|kv l IH]; intros n; cbn [fold_left].
    - intros <-. split; [lia|]. split; [intros kv r m []|]. left. reflexivity.
    - intros H. destruct (IH _ H) as (A & B & C). clear IH H. unfold browse_step in A, C. destruct (remainder prefix sep (fst kv)) as [r|] eqn:E.
      + pose proof (count_segments sep Hs _ r (Nat.le_refl _)) as Sg. set (k := count_matches (String.length r) sep r + 1) in *.
        assert (X : (if Nat.ltb (ni_depth n) k then k else ni_depth n) = Nat.max (ni_depth n) k).
        { destruct (Nat.ltb_spec (ni_depth n) k); lia. }
        assert (A' : Nat.max (ni_depth n) k <= d) by (destruct (cut sep r) as [[a t]|]; cbn [ni_depth] in A; lia).
        assert (C' : d = Nat.max (ni_depth n) k \/ exists kv' r', In kv' l /\ remains prefix sep (fst kv') r' /\ segments sep r' d).
        { destruct C as [C|C]; [left|right; exact C]. destruct (cut sep r) as [[a t]|]; cbn [ni_depth] in C; lia. }
        apply remainder_iff in E. split; [lia|]. split.
        * intros kv' r' m [<-|I] R Sm; [|eapply B; eassumption]. assert (r' = r) by (apply remainder_iff in R; apply remainder_iff in E; congruence). subst r'.
          rewrite (segments_fun _ _ _ Sm _ Sg). lia.
        * destruct C' as [C'|(kv' & r' & I & X')]; [|right; exists kv', r'; split; [right; exact I|exact X']]. destruct (Nat.max_spec (ni_depth n) k) as [[_ M]|[_ M]].
          -- right. exists kv, r. split; [left; reflexivity|]. split; [exact E|]. rewrite C', M. exact Sg.
          -- left. lia.
      + split; [exact A|]. split.
        * intros kv' r' m [<-|I] R Sm; [|eapply B; eassumption]. apply remainder_iff in R. congruence.
        * destruct C as [C|(kv' & r' & I & X)]; [left; exact C|right; exists kv', r'; split; [right; exact I|exact X]].
  Qed.
End Fold.

(* ---------- the index ---------- *)
Lemma index_nodup l : NoDup (map fst (index l)).
Proof.
  unfold index. assert (G : forall acc, NoDup (map fst acc) -> NoDup (map fst (fold_left (fun m e => sinsert (en_key e) e m) l acc))).
  { induction l as [|e l IH]; intros acc H; cbn [fold_left]; [exact H|]. apply IH. apply (insert_nodup _ string_eqb_spec), H. }
  apply G. constructor.
Qed.
Lemma index_lookup l k : forall v, slookup k (index l) = Some v <-> en_key v = k /\ exists a b, l = app a (v :: b) /\ ~ In k (map en_key b).
Proof.
  unfold index. assert (G : forall acc v, slookup k (fold_left (fun m e => sinsert (en_key e) e m) l acc) = Some v <->
     (en_key v = k /\ exists a b, l = app a (v :: b) /\ ~ In k (map en_key b)) \/ (~ In k (map en_key l) /\ slookup k acc = Some v)).
  { induction l as [|e l IH]; intros acc v; cbn [fold_left].
    - split; [intros H; right; split; [intros []|exact H]|]. intros [(_ & a & b & E & _)|[_ H]]; [destruct a; discriminate|exact H].
    - rewrite IH. clear IH. cbn [map In]. unfold slookup, sinsert. destruct (String.eqb_spec (en_key e) k) as [Ek|Nk].
      + rewrite Ek, (lookup_insert_eq _ string_eqb_spec). split.
        * intros [(K & a & b & -> & N)|(N & H)]; left.
          -- split; [exact K|]. exists (e :: a), b. split; [reflexivity|exact N].
          -- injection H as <-. split; [exact Ek|]. exists [], l. split; [reflexivity|exact N].
        * intros [(K & a & b & E & N)|(N & _)]; [|destruct N; left; exact eq_refl || (left; exact Ek)]. destruct a as [|e' a]; cbn in E; injection E as E1 E2; subst.
          -- right. split; [exact N|reflexivity].
          -- left. split; [exact K || reflexivity|]. exists a, b. split; [reflexivity|exact N].
      + rewrite (lookup_insert_ne _ string_eqb_spec) by congruence. split.
        * intros [(K & a & b & -> & N)|(N & H)].
          -- left. split; [exact K|]. exists (e :: a), b. split; [reflexivity|exact N].
          -- right. split; [|exact H]. intros [X|X]; [congruence|destruct (N X)].
        * intros [(K & a & b & E & N)|(N & H)].
          -- destruct a as [|e' a]; cbn in E; injection E as E1 E2; subst; [congruence|]. left. split; [reflexivity|]. exists a, b. split; [reflexivity|exact N].
          -- right. split; [tauto|exact H]. }
  intros v. rewrite G. split; [|tauto]. intros [H|[_ H]]; [exact H|discriminate].
Qed.
Lemma index_in l kv : In kv (index l) -> fst kv = en_key (snd kv) /\ In (snd kv) l.
Proof.
  destruct kv as [k v]. intros H. apply (slookup_in _ _ _ (index_nodup l)) in H. apply index_lookup in H as (K & a & b & -> & _). cbn. split; [congruence|]. apply in_app_iff. right. left. reflexivity.
Qed.
Lemma index_all l e : In e l -> exists v, In (en_key e, v) (index l).
Proof.
  intros I. destruct (slookup (en_key e) (index l)) as [v|] eqn:E; [exists v; apply (slookup_in _ _ _ (index_nodup l)), E|].
  exfalso. assert (G : forall k, In k (map en_key l) -> slookup k (index l) <> None).
  { clear. intros k Hk. assert (X : exists v a b, l = app a (v :: b) /\ en_key v = k /\ ~ In k (map en_key b)).
    { induction l as [|x l IH]; [destruct Hk|]. destruct (in_dec string_dec k (map en_key l)) as [I|N].
      - destruct (IH I) as (v & a & b & -> & H). exists v, (x :: a), b. split; [reflexivity|exact H].
      - destruct Hk as [Hk|Hk]; [|contradiction]. exists x, [], l. auto. }
    destruct X as (v & a & b & E & K & N). assert (Y : slookup k (index l) = Some v) by (apply index_lookup; split; [exact K|]; exists a, b; auto). congruence. }
  apply (G (en_key e)); [apply in_map, I|exact E].
Qed.
Lemma index_unique l : NoDup (map en_key l) -> Permutation (index l) (map (fun e => (en_key e, e)) l).
Proof.
  intros N. apply NoDup_Permutation.
  - eapply NoDup_map_inv, index_nodup.
  - apply (NoDup_map_inv fst). rewrite map_map. exact N.
  - intros [k v]. split.
    + intros H. apply index_in in H as (K & I). cbn in *. subst k. apply (in_map (fun e => (en_key e, e))), I.
    + intros H. apply in_map_iff in H as (e & E & I). injection E as <- <-. destruct (index_all l e I) as (v & Hv). destruct (index_in _ _ Hv) as (K & Iv). cbn in *.
      assert (v = e); [|subst; exact Hv]. clear Hv. induction l as [|x l IH]; [destruct I|]. cbn in N. inversion N as [|? ? Nx Nl]; subst. destruct I as [->|I], Iv as [->|Iv].
      * reflexivity.
      * destruct Nx. rewrite K. apply in_map, Iv.
      * destruct Nx. rewrite <- K. apply in_map, I.
      * apply IH; assumption.
Qed.
