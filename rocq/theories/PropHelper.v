(* C104: the helper filters of the templates. *)
From Coq Require Import String Ascii Bool Arith NArith ZArith Lia Permutation Sorted List.
Import ListNotations.
From Verif Require Import Base BaseProofs Json SemTypes Str StrProofs HelperModel HelperSpec.
From Verif Require ServeModel ServeSpec PropServe.
Local Open Scope string_scope.
Ltac bits c := destruct c as [[] [] [] [] [] [] [] []].

(* ---------- concat_if, flatten, split_id ---------- *)
Lemma concat_from_none show args : forall r, concat_from show r args = None <-> In None args.
Proof.
  induction args as [|[v|] args IH]; intros r; cbn.
  - split; [discriminate|intros []].
  - rewrite IH. split; [auto|intros [H|H]; [discriminate|exact H]].
  - split; auto.
Qed.
Lemma concat_from_some show vs : forall r ts, Forall2 (printed show) vs ts -> concat_from show r (map Some vs) = Some (r ++ glue ts).
Proof.
  induction vs as [|v vs IH]; intros r ts F; inversion F as [|? t ? ts' P F']; subst; cbn.
  - rewrite str_app_nil_r. reflexivity.
  - rewrite (IH _ ts' F'). f_equal. rewrite str_app_assoc. f_equal. f_equal. destruct v; cbn in *; congruence.
Qed.
(* nothing if something is not defined, else everything *)
Theorem C104_concat show args : (concat_if show args = None <-> In None args) /\
  forall vs ts, args = map Some vs -> Forall2 (printed show) vs ts -> concat_if show args = Some (glue ts).
Proof. split; [apply concat_from_none|]. intros vs ts -> F. exact (concat_from_some show vs "" ts F). Qed.
Lemma letters_items s : items (JStr s) (letters s).
Proof.
  assert (E : exists l, letters s = map JStr l /\ s = glue l /\ Forall (fun c => String.length c = 1) l).
  { induction s as [|c s (l & A & B & F)]; [exists []; auto|]. exists (String c "" :: l). cbn [letters map glue fold_right]. fold (glue l). rewrite A, <- B. auto. }
  destruct E as (l & -> & B & F). apply it_text; assumption.
Qed.
Lemma letters_unique l : Forall (fun c => String.length c = 1) l -> letters (glue l) = map JStr l.
Proof.
  induction 1 as [|c l L _ IH]; [reflexivity|]. destruct c as [|a [|b c]]; try discriminate. cbn. fold (glue l). rewrite IH. reflexivity.
Qed.
Lemma iter_iff v l : try_iter v = Ok l <-> items v l.
Proof.
  split.
  - destruct v; cbn; intros H; try discriminate; injection H as <-; [constructor|apply letters_items|constructor|constructor].
  - intros H. inversion H; subst; cbn; try reflexivity. f_equal. apply letters_unique. assumption.
Qed.
Lemma iter_err v e : try_iter v = Err e -> forall l, ~ items v l.
Proof. intros E l H. apply iter_iff in H. congruence. Qed.
Lemma flatten_items_iff l : forall r out, flatten_items r l = Ok out <-> exists ls, Forall2 items l ls /\ out = app r (concat ls).
Proof.
  induction l as [|x l IH]; intros r out; cbn.
  - split; [intros H; injection H as <-; exists []; split; [constructor|cbn; rewrite app_nil_r; reflexivity]|].
    intros (ls & F & ->). inversion F. cbn. rewrite app_nil_r. reflexivity.
  - destruct (try_iter x) as [i|e] eqn:E.
    + rewrite IH. split.
      * intros (ls & F & ->). exists (i :: ls). split; [constructor; [apply iter_iff, E|exact F]|]. cbn. rewrite app_assoc. reflexivity.
      * intros (ls & F & ->). inversion F as [|? j ? ls' I F']; subst. apply iter_iff in I. rewrite E in I. injection I as ->. exists ls'. split; [exact F'|]. cbn. rewrite app_assoc. reflexivity.
    + split; [discriminate|]. intros (ls & F & _). inversion F as [|? j ? ls' I _]; subst. destruct (iter_err _ _ E _ I).
Qed.
(* the items of the items, in order; an error only if there are none to go over *)
Theorem C104_flatten v out : flatten v = Ok out <-> exists l ls, items v l /\ Forall2 items l ls /\ out = concat ls.
Proof.
  unfold flatten. destruct (try_iter v) as [l|e] eqn:E.
  - rewrite flatten_items_iff. split.
    + intros (ls & F & ->). exists l, ls. split; [apply iter_iff, E|]. auto.
    + intros (l' & ls & I & F & ->). apply iter_iff in I. rewrite E in I. injection I as ->. exists ls. auto.
  - split; [discriminate|]. intros (l & ls & I & _). destruct (iter_err _ _ E _ I).
Qed.
Theorem C104_split_id s : exists l, split_id (JStr s) = Ok l /\ join "." l = s /\ l <> [] /\ forall p, In p l -> free_of "." p.
Proof.
  exists (split_char "." s). split; [reflexivity|]. split; [exact (split_char_join "." s)|]. split; [apply split_char_ne|].
  intros p I a b E. pose proof (split_char_pieces "." s p I) as H. subst p. clear I. induction a as [|c a IH]; cbn in H; [discriminate|]. apply orb_false_iff in H. apply IH, H.
Qed.

(* ---------- numsort ---------- *)
Lemma in_range z : in_i64 z = true <-> (- 2 ^ 63 <= z < 2 ^ 63)%Z.
Proof. unfold in_i64. rewrite andb_true_iff, Z.leb_le, Z.ltb_lt. tauto. Qed.
Lemma digits_iff s n : ServeSpec.digits s n <-> s <> "" /\ ServeModel.read_digits 0 s = Some (N.of_nat n).
Proof.
  split; [intros H; apply PropServe.digits_read in H; tauto|]. intros (A & B). rewrite <- (Nat2N.id n). eapply PropServe.read_digits_iff; [apply Nat.le_refl|exact B|exact A].
Qed.
Lemma sign_not_digits c t n : c = "+"%char \/ c = "-"%char -> ~ ServeSpec.digits (String c t) n.
Proof. intros C H. apply digits_iff in H as (_ & H). destruct C as [->| ->]; discriminate. Qed.
Lemma read_part (neg : bool) d z : (if String.eqb d "" then None else match ServeModel.read_digits 0 d with
       | Some n => let z := if neg then (- Z.of_N n)%Z else Z.of_N n in if in_i64 z then Some z else None
       | None => None end) = Some z <-> (- 2 ^ 63 <= z < 2 ^ 63)%Z /\ exists n, ServeSpec.digits d n /\ z = if neg then (- Z.of_nat n)%Z else Z.of_nat n.
Proof.
  split.
  - destruct (String.eqb_spec d "") as [->|N]; [discriminate|]. destruct (ServeModel.read_digits 0 d) as [n|] eqn:E; [|discriminate]. cbv zeta.
    destruct (in_i64 _) eqn:I; [|discriminate]. intros H. injection H as <-. split; [apply in_range, I|]. exists (N.to_nat n). split.
    + apply digits_iff. rewrite N2Nat.id. auto.
    + rewrite N_nat_Z. reflexivity.
  - intros (R & n & D & E). apply digits_iff in D as (N & D). apply String.eqb_neq in N. rewrite N, D. cbv zeta. rewrite nat_N_Z, <- E. apply in_range in R. rewrite R. reflexivity.
Qed.
Lemma parse_iff s z : parse_i64 s = Some z <-> integer s z.
Proof.
  unfold parse_i64, integer. destruct s as [|c s].
  - cbn. split; [discriminate|]. intros (_ & [(n & D & _)|[(t & n & E & _)|(t & n & E & _)]]); try discriminate. apply digits_iff in D. tauto.
  - assert (K : c = "-"%char \/ c = "+"%char \/ (c <> "-"%char /\ c <> "+"%char)) by (destruct (Ascii.eqb_spec c "-"), (Ascii.eqb_spec c "+"); auto).
    destruct K as [->|[->|(Km & Kp)]].
    + etransitivity; [exact (read_part true s z)|]. split; intros (R & H); (split; [exact R|]).
      * destruct H as (n & D & ->). right. right. exists s, n. auto.
      * destruct H as [(n & D & _)|[(t & n & E & _)|(t & n & E & D & ->)]]; [destruct (sign_not_digits _ _ _ (or_intror eq_refl) D)|discriminate|]. injection E as ->. exists n. auto.
    + etransitivity; [exact (read_part false s z)|]. split; intros (R & H); (split; [exact R|]).
      * destruct H as (n & D & ->). right. left. exists s, n. auto.
      * destruct H as [(n & D & _)|[(t & n & E & D & ->)|(t & n & E & _)]]; [destruct (sign_not_digits _ _ _ (or_introl eq_refl) D)| |discriminate]. injection E as ->. exists n. auto.
    + assert (M : (match String c s with String "-" r => (true, r) | String "+" r => (false, r) | _ => (false, String c s) end) = (false, String c s)) by (bits c; try reflexivity; congruence).
      rewrite M. etransitivity; [exact (read_part false (String c s) z)|]. split; intros (R & H); (split; [exact R|]).
      * left. exact H.
      * destruct H as [H|[(t & n & E & _)|(t & n & E & _)]]; [exact H|injection E as -> _; congruence|injection E as -> _; congruence].
Qed.
Lemma num_iff k z : parse_num k = Some z <-> counts k z.
Proof.
  destruct k as [i|s]; cbn [parse_num counts]; [|apply parse_iff]. rewrite <- in_range. destruct (in_i64 i) eqn:E.
  - split; [intros H; injection H as <-; auto|intros (-> & _); reflexivity].
  - split; [discriminate|]. intros (-> & H). congruence.
Qed.
Lemma num_none k : parse_num k = None <-> forall z, ~ counts k z.
Proof.
  split; [intros E z C; apply num_iff in C; congruence|]. intros H. destruct (parse_num k) as [z|] eqn:E; [|reflexivity]. destruct (H z). apply num_iff, E.
Qed.
Lemma pair_leb_iff a b : pair_leb a b = true <-> before (fst a) (fst b).
Proof.
  unfold pair_leb, before. destruct (parse_num (fst a)) as [x|] eqn:Ea, (parse_num (fst b)) as [y|] eqn:Eb.
  - split.
    + intros L. left. exists x. split; [apply num_iff, Ea|]. intros z C. apply num_iff in C. rewrite Eb in C. injection C as <-. apply Z.leb_le, L.
    + intros [(z & C & H)|(N & _)]; [|destruct (N x); apply num_iff, Ea]. apply num_iff in C. rewrite Ea in C. injection C as <-. apply Z.leb_le, H, num_iff, Eb.
  - split; [|reflexivity]. intros _. left. exists x. split; [apply num_iff, Ea|]. intros z C. apply num_iff in C. congruence.
  - split; [discriminate|]. intros [(z & C & _)|(_ & N & _)]; [apply num_iff in C; congruence|]. destruct (N y). apply num_iff, Eb.
  - pose proof (proj1 (num_none _) Ea) as Na. pose proof (proj1 (num_none _) Eb) as Nb. split; [intros H; right; auto|]. intros [(z & C & _)|(_ & _ & H)]; [apply num_iff in C; congruence|exact H].
Qed.
Lemma pair_total a b : pair_leb a b = true \/ pair_leb b a = true.
Proof. unfold pair_leb. destruct (parse_num (fst a)), (parse_num (fst b)); auto; [|apply str_leb_total]. destruct (Z.le_ge_cases z z0); [left|right]; apply Z.leb_le; assumption. Qed.
Lemma pair_trans a b c : pair_leb a b = true -> pair_leb b c = true -> pair_leb a c = true.
Proof. unfold pair_leb. destruct (parse_num (fst a)), (parse_num (fst b)), (parse_num (fst c)); try discriminate; auto; [|apply str_leb_trans]. rewrite !Z.leb_le. lia. Qed.
(* the entries of the map: numbers first, by their value, then the others by their text; entries that are
   even keep their order *)
Theorem C104_numsort m : Permutation m (numsort m) /\ StronglySorted (fun a b => before (fst a) (fst b)) (numsort m) /\
  forall (p : mkey * json -> bool), (forall a b, p a = true -> p b = true -> same_place (fst a) (fst b)) -> filter p (numsort m) = filter p m.
Proof.
  unfold numsort. split; [apply stable_sort_perm|]. split.
  - pose proof (stable_sort_sorted pair_leb pair_total pair_trans m) as S. induction S as [|a l S IH F]; constructor; [exact IH|].
    eapply Forall_impl; [|exact F]. intros b H. apply pair_leb_iff, H.
  - intros p H. apply stable_sort_stable. intros x y X Y. apply pair_leb_iff, H; assumption.
Qed.
(* it does not depend on the order of the entries if no two are even *)
Theorem C104_numsort_unique m m' : Permutation m m' -> (forall a b, In a m -> In b m -> same_place (fst a) (fst b) -> a = b) -> numsort m = numsort m'.
Proof.
  intros P U. apply stable_sort_perm_invariant; [apply pair_total|apply pair_trans| |exact P].
  intros x y X Y A B. apply U; [exact X|exact Y|]. split; apply pair_leb_iff; assumption.
Qed.

(* ---------- toyaml ---------- *)
Lemma yaml_free s c : In c ["<"; ">"; "&"; "'"]%char -> free_of c (yaml_escape s).
Proof.
  intros C. assert (H : any_char (fun d => Ascii.eqb d c) (yaml_escape s) = false).
  { induction s as [|d s IH]; [reflexivity|]. cbn [yaml_escape].
    assert (A : forall a b, any_char (fun d => Ascii.eqb d c) (a ++ b) = any_char (fun d => Ascii.eqb d c) a || any_char (fun d => Ascii.eqb d c) b).
    { induction a as [|x a IHa]; intros b; [reflexivity|]. cbn. rewrite IHa, orb_assoc. reflexivity. }
    rewrite A, IH, orb_false_r. cbn in C. destruct C as [<-|[<-|[<-|[<-|[]]]]]; bits d; reflexivity. }
  intros a b E. rewrite E in H. clear E. induction a as [|x a IH]; cbn in H; [rewrite Ascii.eqb_refl in H; discriminate|]. apply orb_false_iff in H. apply IH, H.
Qed.
(* safe in HTML: none of the characters is left; and without them nothing changes *)
Theorem C104_yaml_safe s c : In c ["<"; ">"; "&"; "'"]%char -> free_of c (yaml_escape s).
Proof. apply yaml_free. Qed.
Theorem C104_yaml_same_partial s : (forall c, In c ["<"; ">"; "&"; "'"]%char -> free_of c s) -> yaml_escape s = s.
Proof.
  induction s as [|d s IH]; intros H; [reflexivity|]. cbn [yaml_escape]. rewrite IH by (intros c C a b E; apply (H c C (String d a) b); rewrite E; reflexivity).
  assert (N : forall c, In c ["<"; ">"; "&"; "'"]%char -> d <> c) by (intros c C ->; apply (H c C "" s eq_refl)).
  repeat match goal with |- context [Ascii.eqb d ?c] => destruct (Ascii.eqb_spec d c) as [E|_]; [destruct (N c); [cbn; auto 6|exact E]|] end. reflexivity.
Qed.
(* but it is not the same YAML: a quoted scalar becomes another, plain one *)
Theorem C104_yaml_refuted : exists s t u, yaml_quoted s t /\ yaml_plain (yaml_escape s) u /\ u <> t /\ s = "'true'" /\ t = "true".
Proof.
  assert (F : forall c s, any_char (fun d => Ascii.eqb d c) s = false -> free_of c s).
  { intros c s H a b ->. induction a as [|x a IH]; cbn in H; [rewrite Ascii.eqb_refl in H; discriminate|]. apply orb_false_iff in H. apply IH, H. }
  exists "'true'", "true", (yaml_escape "'true'"). split; [split; [reflexivity|apply F; reflexivity]|]. split; [|split; [discriminate|split; reflexivity]].
  split; [reflexivity|]. eexists. split; [reflexivity|]. repeat split; apply F; reflexivity.
Qed.

(* ---------- print_member_value ---------- *)
Lemma escape_unescaped c s t : unescaped s t -> unescaped (escape_byte c ++ s) (String c t).
Proof.
  intros U. remember (nat_of_ascii c) as n eqn:En. assert (Ec : c = ascii_of_nat n) by (rewrite En, ascii_nat_embedding; reflexivity).
  unfold escape_byte. rewrite <- En. cbv zeta.
  destruct (Nat.eqb_spec n 34) as [->|N1]; [rewrite Ec; exact (un_quote s t U)|]. destruct (Nat.eqb_spec n 92) as [->|N2]; [rewrite Ec; exact (un_back s t U)|].
  destruct (Nat.eqb_spec n 8) as [->|_]; [rewrite Ec; exact (un_b s t U)|]. destruct (Nat.eqb_spec n 9) as [->|_]; [rewrite Ec; exact (un_t s t U)|].
  destruct (Nat.eqb_spec n 10) as [->|_]; [rewrite Ec; exact (un_n s t U)|]. destruct (Nat.eqb_spec n 12) as [->|_]; [rewrite Ec; exact (un_f s t U)|].
  destruct (Nat.eqb_spec n 13) as [->|_]; [rewrite Ec; exact (un_r s t U)|]. destruct (Nat.ltb_spec n 32) as [L|L].
  - assert (H : forall k, k < 16 -> hex (hex_digit k) k). { intros k K. left. do 16 (destruct k as [|k]; [reflexivity|]). lia. }
    assert (Dm : n = 16 * (n / 16) + n mod 16) by (apply Nat.div_mod; discriminate). assert (M : n mod 16 < 16) by (apply Nat.mod_upper_bound; discriminate).
    assert (D : n / 16 < 16) by (apply Nat.div_lt_upper_bound; [discriminate|lia]). pose proof (un_u _ _ _ _ s t (H _ D) (H _ M) ltac:(lia) U) as R.
    rewrite <- Dm in R. rewrite Ec. exact R.
  - apply un_plain; [lia| | |exact U]; intros ->; [apply N1|apply N2]; rewrite En; reflexivity.
Qed.
Lemma escape_str_unescaped s : unescaped (escape_str s) s.
Proof. induction s as [|c s IH]; [constructor|]. cbn [escape_str]. apply escape_unescaped, IH. Qed.
(* a text is printed as a JSON string that stands for it *)
Theorem C104_member show s : json_string (print_member_value show (JStr s)) s.
Proof. exists (escape_str s). split; [reflexivity|apply escape_str_unescaped]. Qed.
(* and a JSON string stands for one text only *)
Lemma hex_unique c n m : hex c n -> hex c m -> n = m.
Proof.
  unfold hex. intros [A|A] [B|B]; (do 16 (destruct n as [|n]; [vm_compute in A; injection A as <-; do 16 (destruct m as [|m]; [vm_compute in B; try reflexivity; discriminate B|]); destruct m; discriminate B|]); destruct n; discriminate A).
Qed.
Theorem C104_string_unique s t u : json_string s t -> json_string s u -> t = u.
Proof.
  assert (L : forall a b, a ++ """" = b ++ """" -> a = b).
  { induction a as [|c a IH]; intros [|d b] H; cbn in H; [reflexivity|injection H; destruct b; discriminate|injection H; destruct a; discriminate|]. injection H as -> H. rewrite (IH _ H). reflexivity. }
  intros (x & -> & X) (y & E & Y). injection E as E. apply L in E as <-. revert u Y. induction X; intros u' Y; inversion Y; subst; try congruence; try (f_equal; auto; fail).
  f_equal; [|auto]. rewrite (hex_unique a x x0), (hex_unique b y y0) by assumption. reflexivity.
Qed.
(* so different members are printed differently *)
Theorem C104_member_distinct show s t : print_member_value show (JStr s) = print_member_value show (JStr t) -> s = t.
Proof. intros E. apply (C104_string_unique (print_member_value show (JStr s))); [apply C104_member|]. rewrite E. apply C104_member. Qed.
(* a number or a boolean is printed as in any template, any other value as nothing *)
Theorem C104_member_other show v : (forall s, v <> JStr s) ->
  ((exists b, v = JBool b) \/ (exists n, v = JNum n) -> print_member_value show v = show v) /\
  (v = JNull \/ (exists l, v = JArr l) \/ (exists m, v = JObj m) -> print_member_value show v = "").
Proof.
  intros N. split; [intros [(b & ->)|(n & ->)]; reflexivity|intros [->|[(l & ->)|(m & ->)]]; reflexivity].
Qed.

(* ---------- ansi ---------- *)
Lemma shows_app st a l s b m e : shows st a l s -> shows s b m e -> shows st (a ++ b) (app l m) e.
Proof.
  intros A B. induction A as [s|s c t l e0 N A IH|s d n s' t l e0 D S A IH]; cbn [append app].
  - exact B.
  - apply sh_char; [exact N|apply IH, B].
  - replace ("[" ++ d ++ "m" ++ t) with ("[" ++ d ++ "m" ++ t) by reflexivity. rewrite !str_app_assoc. eapply sh_sgr; [exact D|exact S|]. apply IH, B.
Qed.
Lemma shows_text st s : free_of (ascii_of_nat 27) s -> shows st s (map (fun c => (c, st)) (chars s)) st.
Proof.
  induction s as [|c s IH]; intros F; cbn [chars map]; [constructor|]. apply sh_char; [intros ->; apply (F "" s eq_refl)|]. apply IH. intros a b E. apply (F (String c a) b). rewrite E. reflexivity.
Qed.
Definition plain_codes : list nat := [0; 1; 3; 4; 9; 30; 31; 32; 33; 34; 35; 36; 37; 40; 41; 42; 43; 44; 45; 46; 47; 90; 91; 92; 93; 94; 95; 96; 97; 100; 101; 102; 103; 104; 105; 106; 107].
Lemma code_digits n : In n plain_codes -> ServeSpec.digits (show_int (Z.of_nat n)) n.
Proof.
  intros I. apply digits_iff. repeat (destruct I as [<-|I]; [split; [discriminate|reflexivity]|]). destruct I.
Qed.
Lemma shows_sgr st n st' : In n plain_codes -> selects n st st' -> shows st (sgr n) [] st'.
Proof.
  intros I S. unfold sgr, esc. rewrite <- (str_app_nil_r "m"). eapply sh_sgr; [apply code_digits, I|exact S|constructor].
Qed.
Lemma styles_code name f : styles name f -> exists n, slookup name ansi_filters = Some n /\ In n plain_codes /\ forall st, selects n st (f st).
Proof.
  intros S. destruct S as [n c E|n c E|n c E|n c E| | | |].
  1: exists (30 + n). 2: exists (90 + n). 3: exists (40 + n). 4: exists (100 + n). 5: exists 1. 6: exists 3. 7: exists 4. 8: exists 9.
  1-4: assert (L : n < 8) by (change 8 with (List.length colours); apply nth_error_Some; rewrite E; discriminate).
  1-4: split; [|split; [|intros st]]; [| |first [apply se_fg, L|apply se_bright, L|apply se_bg, L|apply se_bg_bright, L]].
  1-8: do 8 (destruct n as [|n]; [vm_compute in E; injection E as <-; first [reflexivity|cbn; tauto]|]); lia.
  all: split; [reflexivity|]; split; [cbn; tauto|intros st; constructor].
Qed.
(* the text is shown in the style of the filter, and the style ends with it *)
Theorem C104_ansi name f s : styles name f -> free_of (ascii_of_nat 27) s ->
  exists t, ansi name s = Some t /\ forall st, shows st t (map (fun c => (c, f st)) (chars s)) no_style.
Proof.
  intros S F. destruct (styles_code _ _ S) as (n & L & I & Se). unfold ansi. rewrite L. eexists. split; [reflexivity|]. intros st.
  rewrite <- (app_nil_l (map _ _)). eapply shows_app; [apply shows_sgr; [exact I|apply Se]|]. rewrite <- (app_nil_r (map _ _)).
  eapply shows_app; [apply shows_text, F|]. apply shows_sgr; [left; reflexivity|constructor].
Qed.
(* two filters on the whole text are both seen *)
Theorem C104_ansi_both a b f g s : styles a f -> styles b g -> free_of (ascii_of_nat 27) s ->
  exists t u, ansi a s = Some t /\ ansi b t = Some u /\ forall st, shows st u (map (fun c => (c, f (g st))) (chars s)) no_style.
Proof.
  intros A B F. destruct (C104_ansi _ _ _ A F) as (t & T & Sh). destruct (styles_code _ _ B) as (n & L & I & Se). exists t. unfold ansi at 2. rewrite L.
  eexists. split; [exact T|]. split; [reflexivity|]. intros st.
  rewrite <- (app_nil_l (map _ _)). eapply shows_app; [apply shows_sgr; [exact I|apply Se]|]. rewrite <- (app_nil_r (map _ _)).
  eapply shows_app; [apply Sh|]. apply shows_sgr; [left; reflexivity|constructor].
Qed.
(* but what follows a styled part is not in the style of the whole *)
Theorem C104_ansi_refuted : exists t u, ansi "ansi_red" "a" = Some t /\ ansi "ansi_bold" (t ++ "b") = Some u /\
  shows no_style u [("a"%char, with_fg 1 (with_bold no_style)); ("b"%char, no_style)] no_style.
Proof.
  eexists _, _. split; [reflexivity|]. split; [reflexivity|].
  change (shows no_style (sgr 1 ++ ((sgr 31 ++ "a" ++ sgr 0) ++ "b") ++ sgr 0) (app [] (app (app (app [] (app [("a"%char, with_fg 1 (with_bold no_style))] [])) [("b"%char, no_style)]) [])) no_style).
  assert (T : forall st c, c <> ascii_of_nat 27 -> shows st (String c "") [(c, st)] st) by (intros st c N; apply sh_char; [exact N|constructor]).
  eapply shows_app; [apply shows_sgr; [cbn; tauto|apply se_bold]|]. eapply shows_app; [eapply shows_app; [eapply shows_app; [apply shows_sgr; [cbn; tauto|apply (se_fg 1); lia]|eapply shows_app; [apply T; discriminate|apply shows_sgr; [left; reflexivity|apply se_reset]]]|apply T; discriminate]|].
  apply shows_sgr; [left; reflexivity|constructor].
Qed.

(* ---------- examples ---------- *)
Example C104_numsort_ex : numsort [(KText "b", JNull); (KText "10", JNull); (KText "9", JNull); (KInt (-1), JNull); (KText "a", JNull); (KText "+9", JNull)] =
  [(KInt (-1), JNull); (KText "9", JNull); (KText "+9", JNull); (KText "10", JNull); (KText "a", JNull); (KText "b", JNull)].
Proof. reflexivity. Qed.
Example C104_flatten_ex : flatten (JArr [JArr [JBool true]; JNull; JStr "ab"; JArr []]) = Ok [JBool true; JStr "a"; JStr "b"] /\ flatten (JArr [JBool true]) = Err "is not iterable".
Proof. split; reflexivity. Qed.
Example C104_concat_ex show : concat_if show [Some (JStr "a"); Some (JStr "b")] = Some "ab" /\ concat_if show [Some (JStr "a"); None] = None.
Proof. split; reflexivity. Qed.
Example C104_member_ex show : print_member_value show (JStr (String (ascii_of_nat 1) ("a""" ++ String (ascii_of_nat 10) ""))) = """\u0001a\""\n""".
Proof. reflexivity. Qed.
Example C104_ansi_ex : styles "ansi_bg_bright_cyan" (with_bg 14) /\ free_of (ascii_of_nat 27) "hi".
Proof. split; [exact (st_bg_bright 6 "cyan" eq_refl)|]. intros [|x [|y [|z a]]] b; discriminate. Qed.
Print Assumptions C104_concat.
Print Assumptions C104_flatten.
Print Assumptions C104_split_id.
Print Assumptions C104_numsort.
Print Assumptions C104_numsort_unique.
Print Assumptions C104_yaml_safe.
Print Assumptions C104_yaml_same_partial.
Print Assumptions C104_yaml_refuted.
Print Assumptions C104_member.
Print Assumptions C104_string_unique.
Print Assumptions C104_member_distinct.
Print Assumptions C104_ansi.
Print Assumptions C104_ansi_both.
Print Assumptions C104_ansi_refuted.
Print Assumptions C104_member_other.
